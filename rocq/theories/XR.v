(** The exact instance of the arithmetic: real numbers with +oo, -oo and NaN.
    The IEEE-754 rules for infinities and NaN are kept, rounding is dropped
    (except for the conversion to [float]), and there is one unsigned zero:
    x/0 is +oo for x > 0. *)
From Coq Require Import ZArith Reals List Bool.
From Flocq Require Import Core.
From Verif Require Import Num.
Local Open Scope R_scope.

Inductive xr := Fin (r : R) | PInf | NInf | NaN.

Definition Rltb (a b : R) : bool := if Rlt_dec a b then true else false.
Definition Rleb (a b : R) : bool := if Rle_dec a b then true else false.
Definition Reqb (a b : R) : bool := if Req_EM_T a b then true else false.

Definition xneg (a : xr) : xr :=
  match a with Fin r => Fin (- r) | PInf => NInf | NInf => PInf | NaN => NaN end.
Definition xabs (a : xr) : xr :=
  match a with Fin r => Fin (Rabs r) | PInf | NInf => PInf | NaN => NaN end.
Definition xadd (a b : xr) : xr :=
  match a, b with
  | NaN, _ | _, NaN => NaN
  | Fin x, Fin y => Fin (x + y)
  | PInf, NInf | NInf, PInf => NaN
  | PInf, _ | _, PInf => PInf
  | NInf, _ | _, NInf => NInf
  end.
Definition xsub (a b : xr) : xr := xadd a (xneg b).

(** an infinity with the sign of [r] *)
Definition xinf_sign (neg : bool) (r : R) : xr :=
  if Reqb r 0 then NaN
  else if xorb neg (Rltb r 0) then NInf else PInf.
Definition xmul (a b : xr) : xr :=
  match a, b with
  | NaN, _ | _, NaN => NaN
  | Fin x, Fin y => Fin (x * y)
  | PInf, Fin y => xinf_sign false y
  | NInf, Fin y => xinf_sign true y
  | Fin x, PInf => xinf_sign false x
  | Fin x, NInf => xinf_sign true x
  | PInf, PInf | NInf, NInf => PInf
  | PInf, NInf | NInf, PInf => NInf
  end.
Definition xdiv (a b : xr) : xr :=
  match a, b with
  | NaN, _ | _, NaN => NaN
  | Fin x, Fin y => if Reqb y 0 then xinf_sign false x else Fin (x / y)
  | Fin _, PInf | Fin _, NInf => Fin 0
  | PInf, Fin y => if Rltb y 0 then NInf else PInf
  | NInf, Fin y => if Rltb y 0 then PInf else NInf
  | _, _ => NaN
  end.
Definition xlt (a b : xr) : bool :=
  match a, b with
  | NaN, _ | _, NaN => false
  | Fin x, Fin y => Rltb x y
  | NInf, NInf => false
  | NInf, _ => true
  | _, NInf => false
  | PInf, _ => false
  | Fin _, PInf => true
  end.
Definition xle (a b : xr) : bool :=
  match a, b with
  | NaN, _ | _, NaN => false
  | Fin x, Fin y => Rleb x y
  | NInf, _ => true
  | _, NInf => false
  | _, PInf => true
  | PInf, Fin _ => false
  end.
Definition xeqb (a b : xr) : bool :=
  match a, b with
  | Fin x, Fin y => Reqb x y
  | PInf, PInf | NInf, NInf => true
  | _, _ => false
  end.
Definition xisnan (a : xr) : bool := match a with NaN => true | _ => false end.

(** rounding of a real number to single precision (unbounded exponent above:
    overflow of float is not modelled in the exact instance) *)
Definition f32R (r : R) : R := round radix2 (FLT_exp (-149) 24) ZnearestE r.
Definition xf32 (a : xr) : xr := match a with Fin r => Fin (f32R r) | _ => a end.
Definition xexp (a : xr) : xr :=
  match a with Fin r => Fin (exp r) | PInf => PInf | NInf => Fin 0 | NaN => NaN end.

Definition XR : Num := {|
  num := xr;
  nadd := xadd; nsub := xsub; nmul := xmul; ndiv := xdiv;
  nneg := xneg; nabs := xabs;
  nlt := xlt; nle := xle; neqb := xeqb; nisnan := xisnan;
  nofZ := fun z => Fin (IZR z);
  nfloor := fun a => match a with Fin r => Some (Zfloor r) | _ => None end;
  ntrunc := fun a => match a with Fin r => Some (Ztrunc r) | _ => None end;
  nf32 := xf32;
  nexp := xexp;
  ndblmax := Fin ((2 - bpow radix2 (-52)) * bpow radix2 1023) |}.
