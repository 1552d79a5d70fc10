(** Theorems: infinite and very large values, and the sign of the values (C61, C62). *)
From Coq Require Import String.
From Coq Require Import ZArith Reals List Bool Arith Lia Lra.
From Flocq Require Import Core BinarySingleNaN.
From Verif Require Import Num Mem MemFacts XR B64 Spec SpecR DataStructure Correlator Sacf Api Examples
  Laws B64Facts Laws2 InfFacts NegFacts Props01_Construction.
Import ListNotations.
Local Open Scope list_scope.

(** ** C61: a value that is infinite makes the whole dataset NaN *)
Theorem C61_infinite_value {A : Num} (HA : arith A) (p : platform) (d : dstruct) (mi ma re al : option num) (sel wgt : string)
  (lags : list num) (corr : py_corr) (c : correlator) (rows : list (list num)) (j i : nat) (row : list num) (kk x : num) :
  accepted d -> autocorrelation p d mi ma re al sel wgt = Ok (lags, corr, c) ->
  data_2d d = Ok rows -> nth_error rows j = Some row -> nth_error lags i = Some kk ->
  In x row -> nisnan x = false -> ~ finite x ->
  exists v, corr_at corr j i = Some v /\ nisnan v = true.
Proof. exact (inf_value A HA p d mi ma re al sel wgt lags corr c rows j i row kk x). Qed.
Print Assumptions C61_infinite_value.

(** a finite value that single precision cannot hold leaves nothing but zeros and NaN *)
Theorem C61_huge_value (exp64 : b64 -> b64) (p : platform) (d : @dstruct (B64 exp64)) (mi ma re al : option b64) (sel wgt : string)
  (lags : list b64) (corr : @py_corr (B64 exp64)) (c : @correlator (B64 exp64)) (rows : list (list b64)) (j i : nat) (row : list b64) (kk x : b64) :
  accepted d -> autocorrelation (A := B64 exp64) p d mi ma re al sel wgt = Ok (lags, corr, c) ->
  data_2d d = Ok rows -> nth_error rows j = Some row -> nth_error lags i = Some kk ->
  In x row -> is_finite x = true -> (IZR (2 ^ 128 - 2 ^ 103) <= Rabs (B2R x))%R ->
  exists v, corr_at corr j i = Some v /\ (neqb (Num := B64 exp64) v (nzero (A := B64 exp64)) = true \/ nisnan (Num := B64 exp64) v = true).
Proof. exact (huge_value exp64 p d mi ma re al sel wgt lags corr c rows j i row kk x). Qed.
Print Assumptions C61_huge_value.

(** values 1, inf, 2 and 1, 2^128, 2: NaN throughout and zero throughout; for 2^128 - 2^104 the correlations are real numbers *)
Example C61_case :
  let call := fun v => do d <- SACF_1d (ints [0; 1; 2]%Z) v None; returned (autocorrelation clang d None None None None "natural" "fractional") in
  let all := fun (f : b64 -> bool) r => match r with Ok (_, Flat l) => (length l =? 5) && forallb f l | _ => false end in
  all is_nan (call [fl 1; nofZ (2 ^ 1024); fl 2]) = true /\
  all (fun x => neqb x (fl 0)) (call [fl 1; nofZ (2 ^ 128); fl 2]) = true /\
  all (fun x => is_finite x && negb (neqb x (fl 0))) (call [fl 1; nofZ (2 ^ 128 - 2 ^ 104); fl 2]) = true.
Proof. split; [|split]; vm_compute; reflexivity. Qed.

(** the bound, and a value that reaches it *)
Example C61_bound : B2R (b64_ofZ (2 ^ 128)) = IZR (2 ^ 128) /\ (IZR (2 ^ 128 - 2 ^ 103) <= Rabs (IZR (2 ^ 128)))%R.
Proof.
  split; [|rewrite Rabs_pos_eq by (apply IZR_le; vm_compute; discriminate); apply IZR_le; vm_compute; discriminate].
  assert (E : b64_ofZ (2 ^ 128) = @B754_finite 53 1024 false 4503599627370496 76 eq_refl) by (apply B2SF_inj; vm_compute; reflexivity).
  rewrite E. cbn [B2R]. unfold F2R. cbn [Fnum Fexp cond_Zopp]. rewrite <- (IZR_Zpower radix2) by lia. rewrite <- mult_IZR. f_equal.
Qed.

(** ** C62: changing the sign of the values of a dataset changes none of its correlations (zeros may change sign) *)
Theorem C62_negated_values {A : Num} (HA : arith A) (p : platform) (d d' : dstruct) (rows rows' : list (list num)) (mi ma re al : option num)
  (sel wgt : string) (j : nat) (row row' : list num) :
  accepted d -> accepted d' -> timeseries d = timeseries d' -> data_2d d = Ok rows -> data_2d d' = Ok rows' ->
  nth_error rows j = Some row -> nth_error rows' j = Some row' -> Forall2 (fun x y => same_value y (nneg x)) row row' ->
  same_outcome (fun x y => fst x = fst y /\
      exists out out', nth_error (rows_of (snd x)) j = Some out /\ nth_error (rows_of (snd y)) j = Some out' /\ Forall2 same_value out out')
    (visible (autocorrelation p d mi ma re al sel wgt)) (visible (autocorrelation p d' mi ma re al sel wgt)).
Proof. exact (neg_call A HA p d d' rows rows' mi ma re al sel wgt j row row'). Qed.
Print Assumptions C62_negated_values.

(** adding a constant is different: 0, 1, 3 against 2^53, 2^53 + 1, 2^53 + 3 *)
Example C62_case :
  let made := fun v => SACF_1d (ints [0; 1; 2]%Z) v None in
  let call := fun v => do d <- made v; returned (autocorrelation clang d None None None None "natural" "fractional") in
  ok_with (made (ints [0; 1; 3]%Z)) (fun d => true) = true /\ ok_with (made (ints [0; -1; -3]%Z)) (fun d => true) = true /\
  match call (ints [0; 1; 3]%Z), call (ints [0; -1; -3]%Z) with
  | Ok (l, Flat r), Ok (l', Flat r') => (length r =? 5) && forallb (fun xy => Beqb (fst xy) (snd xy)) (combine r r')
  | _, _ => false
  end = true /\
  match call (ints [0; 1; 3]%Z), call (ints [2 ^ 53; 2 ^ 53 + 1; 2 ^ 53 + 3]%Z) with
  | Ok (l, Flat r), Ok (l', Flat r') => existsb (fun xy => negb (Beqb (fst xy) (snd xy))) (combine r r')
  | _, _ => false
  end = true.
Proof. split; [|split; [|split]]; vm_compute; reflexivity. Qed.
