(** Vocabulary for C106: the distance of a time from a shifted time, and choices that are not close calls. Independent of the model. *)
From Coq Require Import Reals List Arith.
Local Open Scope R_scope.

(** time [x] minus (time [q] plus the lag) *)
Definition gap (ts : list R) (kk : R) (q x : nat) : R := nth x ts 0 - (nth q ts 0 + kk).

(** every time but the last, when shifted, misses the last time by more than [e], and for every shifted time that is
    not past the last one, one time is nearer to it than every other by more than [2 e] *)
Definition clear_choice (ts : list R) (kk e : R) : Prop :=
  (forall q, (S q < length ts)%nat -> e < Rabs (gap ts kk q (length ts - 1))) /\
  (forall q, (q < length ts)%nat -> 0 <= gap ts kk q (length ts - 1) ->
     exists s, (s < length ts)%nat /\ forall x, (x < length ts)%nat -> x <> s -> Rabs (gap ts kk q s) + 2 * e < Rabs (gap ts kk q x)).

(** two lists of times with a lag each: all distances agree to within [e] *)
Definition close_times (ts ts' : list R) (kk kk' e : R) : Prop :=
  length ts' = length ts /\
  (forall q x, (q < length ts)%nat -> (x < length ts)%nat -> Rabs (gap ts kk q x - gap ts' kk' q x) <= e) /\
  (kk = kk' \/ e < Rabs kk).
