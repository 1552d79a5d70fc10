(** Vocabulary of the statements in exact arithmetic. *)
From Coq Require Import String.
From Coq Require Import ZArith Reals List.
From Flocq Require Import Core BinarySingleNaN.
From Verif Require Import Num XR B64.
Import ListNotations.
Local Open Scope list_scope.
Local Open Scope R_scope.

(** sum of a list of real numbers *)
Definition rsum (l : list R) : R := fold_right Rplus 0 l.

(** arithmetic mean *)
Definition rmean (l : list R) : R := rsum l / INR (length l).

(** sum of [f i] for i = 0 .. n-1 *)
Definition rsum_n (n : nat) (f : nat -> R) : R := rsum (map f (seq 0 n)).

(** a table cell: a number, or missing (NaN) *)
Definition cell (o : option R) : xr := match o with Some r => Fin r | None => NaN end.

(** the numbers present in a row *)
Definition present (row : list (option R)) : list R :=
  flat_map (fun o => match o with Some r => [r] | None => [] end) row.

(** distance as computed by [abs]: the absolute value, or that of the truncated number *)
Definition dist (p : platform) (r : R) : R :=
  match p_abs p with AbsFloat => Rabs r | AbsInt => IZR (Z.abs (Ztrunc r)) end.

(** the weight functions *)
Definition rweight (wgt : string) (a x : R) : R :=
  if String.eqb wgt "fractional" then / (1 + x / a)
  else if String.eqb wgt "fractional_squared" then / (1 + (x / a) * (x / a))
  else exp (- (x * x) / (2 * a * a)).

(** [f] is an exponential function on doubles that is good to [eps] for arguments up to 0 *)
Definition exp_within (f : b64 -> b64) (eps : R) : Prop :=
  (forall x : b64, is_finite x = true -> B2R x <= 0 ->
     is_finite (f x) = true /\ Rabs (B2R (f x) - exp (B2R x)) <= eps) /\
  is_finite (f (B754_infinity true)) = true /\ Rabs (B2R (f (B754_infinity true))) <= eps.

(** deviation of entry [i] from the mean *)
Definition dev (rs : list R) (i : nat) : R := nth i rs 0 - rmean rs.

(** sum of squared deviations, and the same with the entries rounded to single precision first *)
Definition sq_dev (rs : list R) : R := rsum (map (fun v => (v - rmean rs) * (v - rmean rs)) rs).
Definition sq_dev32 (rs : list R) : R := rsum (map (fun v => (f32R v - rmean rs) * (f32R v - rmean rs)) rs).

(** representable in single precision (unbounded exponent above) *)
Definition single (v : R) : Prop := f32R v = v.

(** an evenly sampled grid: [M] times from [t0] in steps of [dd] *)
Definition grid (t0 dd : R) (M : nat) : list R := map (fun i => t0 + INR i * dd) (seq 0 M).

(** the largest finite binary64 number *)
Definition dbl_max : R := (2 - bpow radix2 (-52)) * bpow radix2 1023.

(** the numbers [a, a+r, a+2r, ...] that do not exceed [b] jump over zero *)
Definition jumps_zero (a r b : R) : Prop :=
  (exists j, 0 < a + INR j * r <= b) /\ forall j, a + INR j * r <> 0.

(** the number denoted by a double *)
Definition exact_of (x : b64) : xr :=
  match x with
  | B754_nan => NaN
  | B754_infinity s => if s then NInf else PInf
  | _ => Fin (B2R x)
  end.

(** a finite double that is a multiple [k * 2^g] of a power of two with [|k| <= 2^n] *)
Definition fixed_point (g n : Z) (x : b64) : Prop :=
  is_finite x = true /\ exists k, (Z.abs k <= 2 ^ n)%Z /\ B2R x = IZR k * bpow radix2 g.

(** zero, or a finite double between [2^-n] and [2^n] in size *)
Definition moderate (n : Z) (x : b64) : Prop :=
  is_finite x = true /\ (B2R x = 0 \/ bpow radix2 (- n) <= Rabs (B2R x) <= bpow radix2 n).

(** [y] is the double [2^e * x], with the sign of [x] also if it is a zero *)
Definition times_pow2 (e : Z) (x y : b64) : Prop :=
  is_finite x = true /\ is_finite y = true /\ Bsign y = Bsign x /\ B2R y = bpow radix2 e * B2R x.
(** an option and its scaled form *)
Definition opt_pow2 (e : Z) (o o' : option b64) : Prop :=
  match o, o' with Some x, Some y => times_pow2 e x y /\ moderate 400 x /\ moderate 400 y | None, None => True | _, _ => False end.


(** a data value and the same value in units smaller by [2^e]; infinities and NaN stay *)
Definition value_pow2 (e : Z) (x y : b64) : Prop :=
  (times_pow2 e x y /\ moderate 70 x /\ moderate 70 y) \/ (x = y /\ is_finite x = false).

(** [y] is [x + s] exactly: the addition of [s] rounds nothing; neither is the double -0 *)
Definition shifted_exactly (s : R) (x y : b64) : Prop :=
  is_finite x = true /\ is_finite y = true /\ x <> B754_zero true /\ y <> B754_zero true /\ B2R y = (B2R x + s)%R.

(** [om] bounds the error of the computed weights, see C53 *)
Definition weight_error (exp64 : b64 -> b64) (wgt : string) (a om : R) : Prop :=
  ((wgt = "fractional"%string \/ wgt = "fractional_squared"%string) /\ om = 7 * bpow radix2 (-53)) \/
  (wgt = "gaussian"%string /\ bpow radix2 (-150) <= a <= bpow radix2 150 /\
   exists eps, exp_within exp64 eps /\ om = eps + 16 * bpow radix2 (-53)).
