(** Vocabulary for C113 and C115: positions chosen by the fast selection. Independent of the model. *)
From Coq Require Import Reals List Arith.
From Verif Require Import SpecTime.
Local Open Scope R_scope.

(** how many of the numbers are below [x] *)
Definition below (ts : list R) (x : R) : nat := length (filter (fun t => if Rlt_dec t x then true else false) ts).

(** the number of places by which the first time is moved: how many times are below the first one plus the lag *)
Definition places (ts : list R) (kk : R) : nat := below ts (nth 0 ts 0 + kk).

(** how many times, moved by the lag, stay below the last one *)
Definition kept (ts : list R) (kk : R) : nat := below ts (nth (length ts - 1) ts 0 - kk).

(** the partner of position [q]: the same number of places further on, if that one is kept too; otherwise the first *)
Definition fast_partner (ts : list R) (kk : R) (q : nat) : nat :=
  if places ts kk + q <? kept ts kk then places ts kk + q else 0.

(** no comparison of the fast selection is a close call: every time but the last, when moved, misses the last one by more than [e],
    and the first one, when moved, misses every other by more than [e] *)
Definition clear_fast (ts : list R) (kk e : R) : Prop :=
  (forall q, (S q < length ts)%nat -> e < Rabs (gap ts kk q (length ts - 1))) /\
  (forall z, (0 < z < length ts)%nat -> e < Rabs (gap ts kk 0 z)).
