(** Vocabulary for C110: times on an even grid with some of its points missing. Independent of the model. *)
From Coq Require Import ZArith Reals List Arith.
From Verif Require Import SpecR.
Local Open Scope R_scope.

(** the times [t0 + k dd] for the grid positions [k] of the list *)
Definition on_grid (t0 dd : R) (ns : list Z) : list R := map (fun k => t0 + IZR k * dd) ns.

(** positions in increasing order *)
Definition rising (ns : list Z) : Prop := forall x y, (x < y)%nat -> (y < length ns)%nat -> (nth x ns 0 < nth y ns 0)%Z.

(** point [z] lies [m] grid steps after point [q] *)
Definition steps (ns : list Z) (m : Z) (q z : nat) : bool := (nth z ns 0 =? nth q ns 0 + m)%Z.

(** point [q], moved by [m] steps, is not past the last point but meets none *)
Definition lonely (ns : list Z) (m : Z) (q : nat) : bool :=
  (nth q ns 0 + m <=? nth (length ns - 1) ns 0)%Z && negb (existsb (fun k => k =? nth q ns 0 + m)%Z ns).

(** sum of the products of deviations over the pairs of points exactly [m] steps apart *)
Definition pair_sum (ns : list Z) (m : Z) (rs : list R) : R :=
  rsum_n (length ns) (fun q => rsum_n (length ns) (fun z => if steps ns m q z then dev rs q * dev rs z else 0)).

(** number of lonely points *)
Definition n_lonely (ns : list Z) (m : Z) : nat := length (filter (lonely ns m) (seq 0 (length ns))).
