(** Further vocabulary of the statements. *)
From Coq Require Import ZArith List.
From Verif Require Import Num Sacf.
Import ListNotations.

Section SpecExt.
Context {A : Num}.

(** equal to an integer of size up to [n] *)
Definition whole (n : Z) (x : num) : Prop := exists k, (Z.abs k <= n)%Z /\ neqb x (nofZ k) = true.
Definition opt_whole (n : Z) (o : option num) : Prop := match o with Some x => whole n x | None => True end.

(** the first [n] correlations of every dataset *)
Definition crop (n : nat) (r : py_corr) : py_corr :=
  match r with Flat l => Flat (firstn n l) | Nested l => Nested (map (firstn n) l) end.

End SpecExt.
