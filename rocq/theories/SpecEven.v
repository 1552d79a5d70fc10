(** Vocabulary for C118: times close to an even grid. Independent of the model. *)
From Coq Require Import Reals List.
Local Open Scope R_scope.

(** every time is within [h] of its place on the grid [t0 + q dd] *)
Definition nearly_even (ts : list R) (t0 dd h : R) : Prop := forall q, (q < length ts)%nat -> Rabs (nth q ts 0 - (t0 + INR q * dd)) <= h.
