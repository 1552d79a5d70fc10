(** Vocabulary: numbers written with so many digits (used in statements only). *)
From Coq Require Import ZArith Reals.
From Flocq Require Import Core BinarySingleNaN.
From Verif Require Import Num B64 FileReader SpecFile.
Local Open Scope R_scope.

(** the literal is the double to at least [k] significant digits, rounded to nearest *)
Definition written (k : nat) (l : literal) (x : b64) : Prop :=
  is_finite x = true /\ Bsign x = negative (l_sign l) /\
  (mantissa l = 0%Z /\ B2R x = 0 \/
   (10 ^ (Z.of_nat k - 1) <= mantissa l)%Z /\ Rabs (literal_real l - B2R x) <= powerRZ 10 (scale l) / 2).

(** a real number with at most [k] significant decimal digits *)
Definition short (k : nat) (r : R) : Prop := exists m s : Z, (Z.abs m < 10 ^ Z.of_nat k)%Z /\ r = IZR m * powerRZ 10 s.

(** zero, or not below the smallest normal double *)
Definition zero_or_normal (r : R) : Prop := r = 0 \/ bpow radix2 (-1022) <= Rabs r.
