(** Text replacement and quoting, independently of the code. *)
From Coq Require Import List NArith Bool.
From Verif Require Import Model.Base.
Import ListNotations.
Open Scope N_scope.

(** [replaced pat new s r]: [r] is [s] with every occurrence of [pat], leftmost first,
    replaced by [new]. *)
Inductive replaced (pat new : rstr) : rstr -> rstr -> Prop :=
| rep_nil : replaced pat new [] []
| rep_hit s r : replaced pat new s r -> replaced pat new (pat ++ s) (new ++ r)
| rep_miss c s r : (forall t, c :: s <> pat ++ t) -> replaced pat new s r -> replaced pat new (c :: s) (c :: r).

(** [contains part whole]. *)
Definition contains (part whole : rstr) : Prop := exists a b, whole = a ++ part ++ b.

(** Characters with no meaning of their own between double quotes in bash, zsh and
    fish: everything but the double quote, dollar, backquote, backslash and '!'. *)
Definition plain_in_quotes (c : N) : Prop := c <> 34 /\ c <> 36 /\ c <> 96 /\ c <> 92 /\ c <> 33.

(** A script, line by line: each line is given with its indentation. *)
Definition script (lines : list (nat * rstr)) : rstr :=
  flat_map (fun l => [10] ++ repeat 32 (fst l) ++ snd l) lines.

(** What is typed into each kind of shell to put [p] before the prompt. *)
Definition bash_setup (p : rstr) : rstr := script [
  (12, lit "if [[ -z ""${PROMPT_COMMAND+x}"" ]]; then");
  (15,    lit "PS1=""" ++ p ++ lit "${PS1}""");
  (12, lit "else");
  (15,    lit "SHPOOL__OLD_PROMPT_COMMAND=(""${PROMPT_COMMAND[@]}"")");
  (15,    lit "SHPOOL__OLD_PS1=""${PS1}""");
  (15,    lit "function __shpool__prompt_command() {");
  (18,       lit "PS1=""${SHPOOL__OLD_PS1}""");
  (18,       lit "for prompt_hook in ""${SHPOOL__OLD_PROMPT_COMMAND[@]}""");
  (18,       lit "do");
  (20,         lit "eval ""${prompt_hook}""");
  (18,       lit "done");
  (18,       lit "PS1=""" ++ p ++ lit "${PS1}""");
  (15,    lit "}");
  (15,    lit "PROMPT_COMMAND=__shpool__prompt_command");
  (12, lit "fi");
  (8, [])]%nat.

Definition zsh_setup (p : rstr) : rstr := script [
  (12, lit "typeset -a precmd_functions");
  (12, lit "SHPOOL__OLD_PROMPT=""${PROMPT}""");
  (12, lit "function __shpool__reset_rprompt() {");
  (16,    lit "PROMPT=""${SHPOOL__OLD_PROMPT}""");
  (12, lit "}");
  (12, lit "precmd_functions[1,0]=(__shpool__reset_rprompt)");
  (12, lit "function __shpool__prompt_command() {");
  (15,    lit "PROMPT=""" ++ p ++ lit "${PROMPT}""");
  (12, lit "}");
  (12, lit "precmd_functions+=(__shpool__prompt_command)");
  (8, [])]%nat.

Definition fish_setup (p : rstr) : rstr := script [
  (12, lit "functions --copy fish_prompt shpool__old_prompt");
  (12, lit "function fish_prompt; echo -n """ ++ p ++ lit """; shpool__old_prompt; end");
  (8, [])]%nat.
