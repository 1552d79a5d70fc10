(** Vocabulary for C116: one value far from all others. Independent of the model. *)
From Coq Require Import Reals List Arith.
From Verif Require Import SpecR.
Local Open Scope R_scope.

(** the value at [u] is [b + h], every other one lies within [e] of [b] *)
Definition outlier (rs : list R) (u : nat) (b h e : R) : Prop :=
  (u < length rs)%nat /\ nth u rs 0 = b + h /\ forall q, (q < length rs)%nat -> q <> u -> Rabs (nth q rs 0 - b) <= e.

(** deviation from the mean of point [q] in [M] values that are 1 at [u] and 0 elsewhere *)
Definition mark (u M q : nat) : R := (if (q =? u)%nat then 1 else 0) - / INR M.
