(** Vocabulary used in the statements of the theorems; independent of the
    model's functions. *)
From Coq Require Import ZArith List Bool Arith.
From Verif Require Import Num.
Import ListNotations.

(** the [j]-th piece of length [M] of a list *)
Definition piece {X} (M : nat) (l : list X) (j : nat) : list X := firstn M (skipn (j * M) l).

(** the list cut into its first [N] pieces of length [M] *)
Definition recut {X} (N M : nat) (l : list X) : list (list X) := map (piece M l) (seq 0 N).

Section Spec.
Context {A : Num}.

(** entries that are not NaN *)
Definition valid (xs : list num) : list num := filter (fun x => negb (nisnan x)) xs.

(** sum from the left starting with 0 *)
Definition sum (xs : list num) : num := fold_left nadd xs nzero.

(** mean of the valid entries *)
Definition mean (xs : list num) : num :=
  ndiv (sum (valid xs)) (nofZ (Z.of_nat (length (valid xs)))).

(** sum over the valid entries of the squared difference between the entry rounded to single
    precision and the mean *)
Definition sum_sq32 (xs : list num) : num :=
  sum (map (fun x => nmul (nsub (nf32 x) (mean xs)) (nsub (nf32 x) (mean xs))) (valid xs)).

(** entries in non-decreasing order (so no NaN among them) *)
Definition ordered (l : list num) : Prop :=
  forall i j a b, i <= j -> nth_error l i = Some a -> nth_error l j = Some b -> nle a b = true.

(** entries in strictly increasing order, none of them NaN *)
Definition increasing (l : list num) : Prop :=
  ordered l /\
  forall i j a b, i < j -> nth_error l i = Some a -> nth_error l j = Some b -> nlt a b = true.

(** a median: at least half of the entries on either side *)
Definition is_median (m : num) (l : list num) : Prop :=
  length l <= 2 * length (filter (fun x => nle x m) l) /\ length l <= 2 * length (filter (fun x => nle m x) l).

(** the first entry that is [beyond] has position [m] ([m] is the length if
    there is none) *)
Definition cut_at (beyond : num -> bool) (l : list num) (m : nat) : Prop :=
  m <= length l /\
  (forall i x, i < m -> nth_error l i = Some x -> beyond x = false) /\
  (forall x, nth_error l m = Some x -> beyond x = true).

(** the lag [kk] moves the first of the times [nt] strictly between the last two of them (for a single time: below it) *)
Definition in_last_gap (nt : list num) (kk : num) : Prop :=
  exists back, nth_error nt (length nt - 1) = Some back /\ nle back (nadd nzero kk) = false /\
    (length nt = 1 \/ exists y, nth_error nt (length nt - 2) = Some y /\ nlt y (nadd nzero kk) = true).

(** [n]-fold addition of [r] to [a], from the left *)
Definition steps (a r : num) (n : nat) : num := Nat.iter n (fun x => nadd x r) a.

(** the first term of [a, a+r, ...] that is not [<= b] has number [n] *)
Definition stops_at (a r b : num) (n : nat) : Prop :=
  (forall i, i < n -> nle (steps a r i) b = true) /\ nle (steps a r n) b = false.

(** put a zero in front of the first positive entry, unless a zero comes
    earlier *)
Fixpoint with_zero (l : list num) : list num :=
  match l with
  | [] => []
  | x :: l' =>
      if neqb x nzero then x :: l'
      else if nlt nzero x then nzero :: x :: l'
      else x :: with_zero l'
  end.

(** the lag grid: [a, a+r, ...] as long as it is [<= b], zero added *)
Definition lag_grid (a r b : num) (g : list num) : Prop :=
  exists n, stops_at a r b n /\ g = with_zero (map (steps a r) (seq 0 n)).

End Spec.
