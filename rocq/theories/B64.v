(** The binary64 instance of the arithmetic: C++ [double] with
    round-to-nearest-even, as formalised by Flocq (BinarySingleNaN). *)
From Coq Require Import ZArith List Bool.
From Flocq Require Import Core BinarySingleNaN.
From Verif Require Import Num.

Notation b64 := (binary_float 53 1024).
Notation b32 := (binary_float 24 128).

Lemma prec64_gt_0 : Prec_gt_0 53. Proof. reflexivity. Qed.
Lemma prec64_lt_emax : Prec_lt_emax 53 1024. Proof. reflexivity. Qed.
Lemma prec32_gt_0 : Prec_gt_0 24. Proof. reflexivity. Qed.
Lemma prec32_lt_emax : Prec_lt_emax 24 128. Proof. reflexivity. Qed.
#[export] Existing Instance prec64_gt_0.
#[export] Existing Instance prec64_lt_emax.
#[export] Existing Instance prec32_gt_0.
#[export] Existing Instance prec32_lt_emax.

(** [(double) z] *)
Definition b64_ofZ (z : Z) : b64 := binary_normalize 53 1024 _ _ mode_NE z 0 false.

(** [std::floor x] as an integer *)
Definition b64_floor (x : b64) : option Z :=
  match x with
  | B754_zero _ => Some 0%Z
  | B754_finite s m e _ =>
      Some (match e with
            | Zneg q => Z.div (cond_Zopp s (Zpos m)) (Z.pow_pos 2 q)
            | _ => cond_Zopp s (Zpos m) * 2 ^ e
            end)%Z
  | _ => None
  end.

(** truncation toward zero *)
Definition b64_trunc (x : b64) : option Z :=
  match x with
  | B754_zero _ => Some 0%Z
  | B754_finite s m e _ =>
      Some (match e with
            | Zneg q => Z.quot (cond_Zopp s (Zpos m)) (Z.pow_pos 2 q)
            | _ => cond_Zopp s (Zpos m) * 2 ^ e
            end)%Z
  | _ => None
  end.

(** conversion of a double to float, and back to double (exact) *)
Definition b64_to_b32 (x : b64) : b32 :=
  match x with
  | B754_zero s => B754_zero s
  | B754_infinity s => B754_infinity s
  | B754_nan => B754_nan
  | B754_finite s m e _ => binary_normalize 24 128 _ _ mode_NE (cond_Zopp s (Zpos m)) e s
  end.
Definition b32_to_b64 (x : b32) : b64 :=
  match x with
  | B754_zero s => B754_zero s
  | B754_infinity s => B754_infinity s
  | B754_nan => B754_nan
  | B754_finite s m e _ => binary_normalize 53 1024 _ _ mode_NE (cond_Zopp s (Zpos m)) e s
  end.

(** The binary64 arithmetic; the libm function [exp] is a parameter. *)
Definition B64 (exp64 : b64 -> b64) : Num := {|
  num := b64;
  nadd := Bplus mode_NE;
  nsub := Bminus mode_NE;
  nmul := Bmult mode_NE;
  ndiv := Bdiv mode_NE;
  nneg := Bopp;
  nabs := Babs;
  nlt := Bltb;
  nle := Bleb;
  neqb := Beqb;
  nisnan := is_nan;
  nofZ := b64_ofZ;
  nfloor := b64_floor;
  ntrunc := b64_trunc;
  nf32 := fun x => b32_to_b64 (b64_to_b32 x);
  nexp := exp64;
  ndblmax := Bmax_float |}.
