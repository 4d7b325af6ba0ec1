(** Interruptible sleep: libshpool/src/common.rs. *)
From Coq Require Import List NArith Bool.
From Verif Require Import Model.Base.
Import ListNotations.
Open Scope N_scope.

(** common.rs 21-30 (PollStrategy).  Durations are nanoseconds.  The factor is
    an f32; the model keeps what the code uses of it: whether it is above 1.0
    ([grows]) and the function [Duration::mul_f32] of it ([scale]), which stays
    an arbitrary function (its overflow panic is not modelled). *)
Inductive poll_strategy :=
| Uniform (interval : N)
| Backoff (initial_interval : N) (grows : bool) (scale : N -> N) (max_interval : N).

(** What a call did: its answer, the clock reading at its end, and one entry per
    sleep: the clock reading just before it and the duration asked for. common.rs 36-74. *)
Record slept := { answer : bool; polls : nat; ended : N; sleeps : list (N * N) }.

Section World.
  (** The i-th evaluation of the stop condition. *)
  Variable stop : nat -> bool.
  (** How long everything but the requested sleep takes: the i-th clock reading
      of the loop is [delay i] later than the end of the preceding sleep. *)
  Variable delay : nat -> N.

  (** common.rs 55-73 (the loop).  [fuel] bounds the iterations; [None] is "still
      looping".  [t] is the clock, [i] counts iterations. *)
  Fixpoint sleep_loop (fuel : nat) (i : nat) (t deadline next_interval : N) (strategy : poll_strategy)
    (done : list (N * N)) : option slept :=
    match fuel with
    | O => None
    | S fuel' =>
        let now := t + delay i in
        if stop i then Some {| answer := true; polls := S i; ended := now; sleeps := done |}
        else if deadline <=? now then Some {| answer := false; polls := S i; ended := now; sleeps := done |}
        else
          let d := N.min (deadline - now) next_interval in
          let next_interval' :=
            match strategy with
            | Backoff _ grows scale max_interval =>
                if grows then N.min (scale next_interval) max_interval else next_interval
            | Uniform _ => next_interval
            end in
          sleep_loop fuel' (S i) (now + d) deadline next_interval' strategy (done ++ [(now, d)])
    end.

  (** common.rs 36-54: the deadline and the first interval.  [t0] is the clock
      when the deadline is computed. *)
  Definition sleep_unless (fuel : nat) (t0 total_sleep : N) (strategy : poll_strategy) : option slept :=
    let deadline := t0 + total_sleep in
    let next_interval :=
      match strategy with
      | Uniform interval => interval
      | Backoff initial_interval _ _ _ => initial_interval
      end in
    let next_interval := if next_interval =? 0 then 1000000 else next_interval in
    sleep_loop fuel 0 t0 deadline next_interval strategy [].
End World.
