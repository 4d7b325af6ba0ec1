(** The thread that ends sessions whose time to live is over:
    libshpool/src/daemon/ttl_reaper.rs 38-154, with the heap it uses
    (library/alloc/src/collections/binary_heap of std: push, pop, peek, sift_up,
    sift_down_to_bottom).  What happens to a session that is to be ended is in Server.v. *)
From Coq Require Import List NArith Bool Arith.
From Verif Require Import Model.Base.
Import ListNotations.
Open Scope nat_scope.

(** ttl_reaper.rs 130-135; an instant is a number. *)
Record reapable := mkReapable { name : rstr; gen : N; reap_at : N }.

(** ttl_reaper.rs 150-154 (and 138-148): the ordering is flipped; whether [a <= b]. *)
Definition le (a b : reapable) : bool := (reap_at b <=? reap_at a)%N.

(** The vector of the heap.  Simplification: std moves the elements around a hole, which is
    put back in the end; here they are exchanged at every step. Bookkeeping: what is read
    outside of the vector. *)
Definition no_one : reapable := mkReapable [] 0 0.
(** Bookkeeping: the vector of the heap. *)
Definition get (l : list reapable) (i : nat) : reapable := nth i l no_one.
(** Bookkeeping: the vector of the heap. *)
Fixpoint put (l : list reapable) (i : nat) (x : reapable) : list reapable :=
  match l, i with
  | [], _ => []
  | _ :: l, O => x :: l
  | y :: l, S i => y :: put l i x
  end.
(** Bookkeeping: the vector of the heap. *)
Definition swap (l : list reapable) (i j : nat) : list reapable := put (put l i (get l j)) j (get l i).

(** sift_up, with start 0. *)
Fixpoint sift_up (fuel : nat) (l : list reapable) (pos : nat) : list reapable :=
  match fuel with
  | O => l
  | S f => if 0 <? pos then
             let parent := (pos - 1) / 2 in
             if le (get l pos) (get l parent) then l else sift_up f (swap l pos parent) parent
           else l
  end.
(** sift_down_to_bottom. *)
Fixpoint sift_down (fuel : nat) (l : list reapable) (pos : nat) : list reapable :=
  match fuel with
  | O => l
  | S f =>
      let child := 2 * pos + 1 in
      if child <=? length l - 2 then
        let child := child + (if le (get l child) (get l (child + 1)) then 1 else 0) in
        sift_down f (swap l pos child) child
      else if child =? length l - 1 then sift_up (length l) (swap l pos child) child
      else sift_up (length l) l pos
  end.

(** BinaryHeap::push, pop and peek, as ttl_reaper.rs 48-125 uses them. *)
Definition push (l : list reapable) (x : reapable) : list reapable := sift_up (length (l ++ [x])) (l ++ [x]) (length l).
(** ttl_reaper.rs 48-125. *)
Definition pop (l : list reapable) : option (reapable * list reapable) :=
  match rev l with
  | [] => None
  | last :: r =>
      match rev r with
      | [] => Some (last, [])
      | top :: rest => Some (top, sift_down (length (last :: rest)) (last :: rest) 0)
      end
  end.
(** ttl_reaper.rs 48-125. *)
Definition peek (l : list reapable) : option reapable := nth_error l 0.

(** What the thread has done: taken note of a deadline, or set about ending a session.
    ttl_reaper.rs 48-125. *)
Inductive deed := Scheduled (n : rstr) (at_ : N) | Reaped (n : rstr) (at_ now : N).
(** The locals of ttl_reaper.rs 45-46. *)
Record reaper := mkReaper { heap : list reapable; gen_ids : list (rstr * N); ended : bool; log : list deed }.
(** The locals before the loop. *)
Definition reaper_new : reaper := mkReaper [] [] false [].

(** A message, all senders gone, or the timer of the heap's top. ttl_reaper.rs 51, 77, 96. *)
Inductive event := Message (n : rstr) (at_ : N) | Disconnected | Timer (now : N).

(** ttl_reaper.rs 48-125. *)
Definition step (r : reaper) (e : event) : reaper :=
  if ended r then r
  else match e with
  | Message n t =>
      (* 54-61, 79-88 *)
      let g := (match lookup n (gen_ids r) with Some g => g | None => 0%N end + 1)%N in
      mkReaper (push (heap r) (mkReapable n g t)) (insert n g (gen_ids r)) false (log r ++ [Scheduled n t])
  | Disconnected => mkReaper (heap r) (gen_ids r) true (log r)      (* 62-65, 89-92 *)
  | Timer now =>
      (* 70-75: with an empty heap there is no timer; 95-122 *)
      match peek (heap r) with
      | None => r
      | Some top =>
          if (now <? reap_at top)%N then r
          else match pop (heap r) with
          | None => r
          | Some (x, rest) =>
              let current := match lookup (name x) (gen_ids r) with Some g => g | None => 0%N end in
              if (current =? gen x)%N then mkReaper rest (gen_ids r) false (log r ++ [Reaped (name x) (reap_at x) now])
              else mkReaper rest (gen_ids r) false (log r)
          end
      end
  end.
(** Any number of steps, one after the other. *)
Definition run (r : reaper) (l : list event) : reaper := fold_left step l r.
