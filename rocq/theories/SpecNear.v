(** Vocabulary for C111 and C112: the partner of a time, and time stamps that agree in all short distances. Independent of the model. *)
From Coq Require Import Reals List Arith.
From Verif Require Import SpecTime.
Local Open Scope R_scope.

(** [z] is nearest to time [q] plus the lag *)
Definition nearest_to (ts : list R) (kk : R) (q z : nat) : Prop :=
  (z < length ts)%nat /\ forall y, (y < length ts)%nat -> Rabs (gap ts kk q z) <= Rabs (gap ts kk q y).

(** the rule among several nearest ones: not before the shifted time rather than before it; of those not before it the first in the
    list, of those before it the last *)
Definition preferred (ts : list R) (kk : R) (q z y : nat) : Prop :=
  (0 <= gap ts kk q z /\ (gap ts kk q y < 0 \/ (z < y)%nat)) \/
  (gap ts kk q z < 0 /\ gap ts kk q y < 0 /\ (y < z)%nat).

Definition partner (ts : list R) (kk : R) (q z : nat) : Prop :=
  nearest_to ts kk q z /\ forall y, nearest_to ts kk q y -> y <> z -> preferred ts kk q z y.

(** any two times are as far apart in one list as in the other, or farther than [w] apart in both *)
Definition same_near (ts ts' : list R) (w : R) : Prop :=
  length ts' = length ts /\
  forall x y, (x <= y)%nat -> (y < length ts)%nat ->
    nth y ts' 0 - nth x ts' 0 = nth y ts 0 - nth x ts 0 \/ (w < nth y ts 0 - nth x ts 0 /\ w < nth y ts' 0 - nth x ts' 0).
