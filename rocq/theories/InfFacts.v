(** Infinite values, and values too large for single precision. *)
From Coq Require Import String.
From Coq Require Import ZArith Reals List Bool Arith Lia Lra.
From Flocq Require Import Core Relative BinarySingleNaN.
From Verif Require Import Num Mem MemFacts XR B64 Spec SpecR DataStructure DSFacts Correlator Sacf Api CorrFacts LoopFacts MainFacts
  Laws B64Facts Laws2 ConstrFacts SelFacts SelThms FastFacts TimeFacts WeightFacts ValFacts NanFacts.
Import ListNotations.
Local Open Scope list_scope.

(** ** infinite values *)
Section Inf.
Context {A : Num}.
Definition inf_like (x y : num) : Prop := nisnan y = true \/ y = x.
Definition is_inf (x : num) : Prop := nisnan x = false /\ nfloor x = None.
End Inf.

Lemma inf_add A (HA : arith A) (x y : @num A) : is_inf x -> inf_like x (nadd x y) /\ inf_like x (nadd y x).
Proof.
  unfold is_inf, inf_like. destruct HA as [e|].
  - cbn [num nadd nisnan nfloor B64]. intros [H1 H2]. destruct x as [s|s| |s m ex Hb]; try discriminate.
    destruct y as [s'|s'| |s' m' ex' Hb']; cbn; auto. destruct s, s'; auto.
  - cbn [num nadd nisnan nfloor XR]. intros [H1 H2]. destruct x as [x| | |]; try discriminate; destruct y; cbn; auto.
Qed.

Lemma inf_div A (HA : arith A) (x : @num A) (n : nat) : is_inf x -> 0 < n -> inf_like x (ndiv x (nofZ (Z.of_nat n))).
Proof.
  unfold is_inf, inf_like. intros Hx Hn. destruct HA as [e|].
  - cbn [num ndiv nisnan nfloor nofZ B64] in *. destruct Hx as [H1 H2]. destruct x as [s|s| |s m ex Hb]; try discriminate.
    assert (Hs : Bsign (b64_ofZ (Z.of_nat n)) = false).
    { unfold b64_ofZ. pose proof (binary_normalize_correct 53 1024 _ _ mode_NE (Z.of_nat n) 0 false) as HC.
      set (y := binary_normalize 53 1024 prec64_gt_0 prec64_lt_emax mode_NE (Z.of_nat n) 0 false) in *. cbv zeta in HC.
      assert (Hp : (0 < F2R (Float radix2 (Z.of_nat n) 0))%R) by (apply F2R_gt_0; cbn; lia).
      destruct (Rlt_bool _ _).
      - destruct HC as [_ [_ HC]]. rewrite Rcompare_Gt in HC by exact Hp. exact HC.
      - rewrite Rlt_bool_false in HC by lra. assert (Ey : y = B754_infinity false) by (apply B2SF_inj; exact HC). rewrite Ey. reflexivity. }
    destruct (b64_ofZ (Z.of_nat n)) as [s'|s'| |s' m' ex' Hb']; cbn in Hs |- *; try subst s'; auto; right; rewrite xorb_false_r; reflexivity.
  - cbn [num ndiv nisnan nfloor nofZ XR] in *. destruct Hx as [H1 H2].
    assert (0 < IZR (Z.of_nat n))%R by (apply IZR_lt; lia).
    destruct x as [x| | |]; try discriminate; cbn; destruct (Rltb_spec (IZR (Z.of_nat n)) 0); auto; lra.
Qed.

Lemma inf_sub A (HA : arith A) (x y : @num A) : is_inf x -> inf_like x y -> nisnan (nsub x y) = true.
Proof.
  intros Hx [H|H].
  - pose proof (arith_laws A HA) as L. apply l_nan_sub. rewrite H. apply orb_true_r.
  - subst y. destruct Hx as [H1 H2]. destruct HA as [e|].
    + cbn [num nsub nisnan nfloor B64] in *. destruct x as [s|s| |s m ex Hb]; try discriminate. destruct s; reflexivity.
    + cbn [num nsub nisnan nfloor XR] in *. destruct x as [x| | |]; try discriminate; reflexivity.
Qed.

Lemma inf_f32 A (HA : arith A) (x : @num A) : is_inf x -> nf32 x = x.
Proof.
  intros [H1 H2]. destruct HA as [e|].
  - cbn [num nf32 nisnan nfloor B64] in *. destruct x as [s|s| |s m ex Hb]; try discriminate. reflexivity.
  - cbn [num nf32 nisnan nfloor XR] in *. destruct x as [x| | |]; try discriminate; reflexivity.
Qed.

Lemma inf_fold A (HA : arith A) (x : @num A) l acc : is_inf x -> inf_like x acc -> inf_like x (fold_left nadd l acc).
Proof.
  intros Hx. pose proof (arith_laws A HA) as L. revert acc. induction l as [|y l IH]; intros acc H; cbn; [exact H|]. apply IH.
  destruct H as [H|H]; [left; apply l_nan_add; rewrite H; reflexivity|]. subst acc. apply (inf_add A HA x y Hx).
Qed.
Lemma inf_sum A (HA : arith A) (x : @num A) l acc : is_inf x -> In x l -> inf_like x (fold_left nadd l acc).
Proof.
  intros Hx. revert acc. induction l as [|y l IH]; intros acc Hin; cbn; [destruct Hin|]. destruct Hin as [->|Hin]; [|apply IH; exact Hin].
  apply inf_fold; [exact HA|exact Hx|apply (inf_add A HA x acc Hx)].
Qed.

Lemma inf_mean A (HA : arith A) (x : @num A) row : is_inf x -> In x row -> inf_like x (mean row).
Proof.
  intros Hx Hin. pose proof (arith_laws A HA) as L. unfold mean, sum.
  assert (Hv : In x (valid row)). { unfold valid. apply filter_In. split; [exact Hin|]. rewrite (proj1 Hx). reflexivity. }
  destruct (inf_sum A HA x (valid row) nzero Hx Hv) as [H|H]; [left; apply l_nan_div; rewrite H; reflexivity|].
  rewrite H. apply inf_div; [exact HA|exact Hx|]. destruct (valid row); [destruct Hv|cbn; lia].
Qed.

Lemma fold_add_nan {A : Num} {L : NumLaws A} l acc : nisnan acc = true \/ (exists x, In x l /\ nisnan x = true) -> nisnan (fold_left nadd l acc) = true.
Proof.
  revert acc. induction l as [|y l IH]; intros acc H; cbn.
  - destruct H as [H|[x [[] _]]]. exact H.
  - apply IH. destruct H as [H|[x [[->|Hin] Hx]]].
    + left. apply l_nan_add. rewrite H. reflexivity.
    + left. apply l_nan_add. rewrite Hx. apply orb_true_r.
    + right. eauto.
Qed.

Lemma inf_norm A (HA : arith A) (x : @num A) row : is_inf x -> In x row -> nisnan (sum_sq32 row) = true.
Proof.
  intros Hx Hin. pose proof (arith_laws A HA) as L. unfold sum_sq32, sum. apply fold_add_nan. right.
  exists (nmul (nsub (nf32 x) (mean row)) (nsub (nf32 x) (mean row))). split.
  - apply in_map_iff. exists x. split; [reflexivity|]. unfold valid. apply filter_In. split; [exact Hin|]. rewrite (proj1 Hx). reflexivity.
  - apply l_nan_mul. rewrite (inf_f32 A HA x Hx), (inf_sub A HA x _ Hx (inf_mean A HA x row Hx Hin)). reflexivity.
Qed.

Lemma inf_value A (HA : arith A) p (d : @dstruct A) mi ma re al sel wgt lags corr c rows j i row kk x :
  accepted d -> autocorrelation p d mi ma re al sel wgt = Ok (lags, corr, c) ->
  data_2d d = Ok rows -> nth_error rows j = Some row -> nth_error lags i = Some kk ->
  In x row -> nisnan x = false -> ~ finite x ->
  exists v, corr_at corr j i = Some v /\ nisnan v = true.
Proof.
  intros Ha E Hd Hj Hi Hin Hx Fx. pose proof (arith_laws A HA) as L.
  assert (Ix : is_inf x). { split; [exact Hx|]. unfold finite in Fx. destruct (nfloor x); [exfalso; apply Fx; discriminate|reflexivity]. }
  destruct (value_by_iterator p d mi ma re al sel wgt lags corr c rows j i row kk Ha E Hd Hj Hi)
    as [f' [w [it0 [it' [Hf' [Hw [Hrun [Hdt [Ho [Hl [Hs HV]]]]]]]]]]]. cbv zeta in HV. rewrite norm_of_sum_sq in HV.
  eexists. split; [exact HV|]. apply l_nan_mul. apply orb_true_intro. right. apply l_nan_div.
  rewrite (inf_norm A HA x row Ix Hin). apply orb_true_r.
Qed.

(** ** values beyond single precision, binary64 *)
Lemma f32_overflow (x : b64) : (IZR (2 ^ 128 - 2 ^ 103) <= Rabs (B2R x))%R -> is_finite x = true -> b64_to_b32 x = B754_infinity (Bsign x).
Proof.
  intros Hx Fx. destruct x as [s|s| |s m e Hb]; try discriminate.
  { exfalso. cbn [B2R] in Hx. rewrite Rabs_R0 in Hx. apply (le_IZR _ 0) in Hx. revert Hx. vm_compute. intros C. apply C. reflexivity. }
  set (x := B754_finite s m e Hb) in *. change (b64_to_b32 x) with (binary_normalize 24 128 _ _ mode_NE (cond_Zopp s (Zpos m)) e s).
  pose proof (binary_normalize_correct 24 128 _ _ mode_NE (cond_Zopp s (Zpos m)) e s) as HC. cbv zeta in HC.
  change (F2R (Float radix2 (cond_Zopp s (Zpos m)) e)) with (B2R x) in HC.
  set (f := round radix2 (SpecFloat.fexp 24 128) (round_mode mode_NE)) in *.
  assert (V1 : Valid_exp (SpecFloat.fexp 24 128)) by (apply fexp_correct; reflexivity).
  assert (Hbig : (bpow radix2 128 <= Rabs (f (B2R x)))%R).
  { unfold f. rewrite <- round_NE_abs by exact V1. 
    replace (bpow radix2 128) with (round radix2 (SpecFloat.fexp 24 128) (round_mode mode_NE) (IZR (2 ^ 128 - 2 ^ 103))).
    { apply round_le; [exact V1|apply valid_rnd_N|exact Hx]. }
    unfold round, scaled_mantissa, cexp.
    assert (Em : mag radix2 (IZR (2 ^ 128 - 2 ^ 103)) = 128%Z :> Z).
    { apply mag_unique. change (128 - 1)%Z with 127%Z. rewrite <- !(IZR_Zpower radix2) by lia. rewrite Rabs_pos_eq by (apply (IZR_le 0); vm_compute; discriminate).
      split; [apply IZR_le; vm_compute; discriminate|apply IZR_lt; vm_compute; reflexivity]. }
    rewrite Em. change (SpecFloat.fexp 24 128 128) with 104%Z. cbn [round_mode].
    match goal with |- context [(IZR (2 ^ 128 - 2 ^ 103) * bpow radix2 ?z)%R] =>
      change (IZR (2 ^ 128 - 2 ^ 103) * bpow radix2 z)%R with (IZR (2 ^ 128 - 2 ^ 103) * bpow radix2 (Z.opp 104))%R;
      replace (IZR (2 ^ 128 - 2 ^ 103) * bpow radix2 (Z.opp 104))%R with (IZR (2 ^ 25 - 1) / 2)%R end.
    - assert (EZ : ZnearestE (IZR (2 ^ 25 - 1) / 2) = (2 ^ 24)%Z).
      { unfold Znearest.
        assert (Ef : Zfloor (IZR (2 ^ 25 - 1) / 2) = (2 ^ 24 - 1)%Z).
        { apply Zfloor_imp. replace (2 ^ 24 - 1 + 1)%Z with (2 ^ 24)%Z by lia. change (2 ^ 25 - 1)%Z with 33554431%Z. change (2 ^ 24)%Z with 16777216%Z.
          change (16777216 - 1)%Z with 16777215%Z. lra. }
        rewrite Ef. rewrite Rcompare_Eq by (change (2 ^ 25 - 1)%Z with 33554431%Z; change (2 ^ 24 - 1)%Z with 16777215%Z; lra).
        replace (negb (Z.even (2 ^ 24 - 1))) with true by reflexivity.
        apply Zceil_imp. change (2 ^ 25 - 1)%Z with 33554431%Z. change (2 ^ 24)%Z with 16777216%Z. change (16777216 - 1)%Z with 16777215%Z. lra. }
      rewrite EZ. unfold F2R. cbn [Fnum Fexp]. change (IZR (2 ^ 24)) with (bpow radix2 24). rewrite <- bpow_plus. reflexivity.
    - apply (Rmult_eq_reg_r (bpow radix2 104)); [|apply Rgt_not_eq, bpow_gt_0]. rewrite Rmult_assoc, <- bpow_plus.
      change (bpow radix2 (Z.opp 104 + 104)) with 1%R. rewrite Rmult_1_r.
      change (2 ^ 128 - 2 ^ 103)%Z with ((2 ^ 25 - 1) * 2 ^ 103)%Z. rewrite mult_IZR.
      change 104%Z with (1 + 103)%Z. rewrite bpow_plus. change (bpow radix2 1) with 2%R. change (IZR (2 ^ 103)) with (bpow radix2 103).
      field. }
  rewrite Rlt_bool_false in HC by exact Hbig.
  apply B2SF_inj. etransitivity; [exact HC|]. cbn [binary_overflow overflow_to_inf B2SF Bsign x].
  assert (Hsg : Rlt_bool (B2R x) 0 = s).
  { unfold x, B2R. destruct s; [apply Rlt_bool_true, F2R_lt_0; reflexivity|apply Rlt_bool_false, F2R_ge_0; cbn; lia]. }
  rewrite Hsg. reflexivity.
Qed.

Section Huge.
Context (exp64 : b64 -> b64).

Definition top_or_nan (x : b64) : Prop := x = B754_nan \/ x = B754_infinity false.
Definition not_minf (x : b64) : Prop := x <> B754_infinity true.

Lemma sq_not_minf (x : b64) : not_minf (Bmult mode_NE x x).
Proof.
  unfold not_minf. intros C. destruct x as [s|s| |s m e Hb]; try discriminate.
  - destruct s; discriminate.
  - set (x := B754_finite s m e Hb) in *. pose proof (Bmult_correct 53 1024 _ _ mode_NE x x) as HC.
    destruct (Rlt_bool _ _).
    + destruct HC as [_ [HF _]]. rewrite C in HF. discriminate.
    + rewrite C in HC. cbn in HC. unfold BinarySingleNaN.binary_overflow in HC. cbn in HC. destruct s; discriminate.
Qed.

Lemma top_fold l acc : (forall x, In x l -> not_minf x) -> top_or_nan acc -> top_or_nan (fold_left (Bplus mode_NE) l acc).
Proof.
  revert acc. induction l as [|y l IH]; intros acc Hl Ha; cbn; [exact Ha|]. apply IH; [intros x Hx; apply Hl; right; exact Hx|].
  specialize (Hl y (or_introl eq_refl)). unfold not_minf in Hl. unfold top_or_nan in *.
  destruct Ha as [->| ->]; [left; reflexivity|]. destruct y as [s|[|]| |s m e Hb]; cbn; auto; congruence.
Qed.

Lemma top_sum l acc x : (forall y, In y l -> not_minf y) -> In x l -> top_or_nan x -> top_or_nan (fold_left (Bplus mode_NE) l acc).
Proof.
  revert acc. induction l as [|y l IH]; intros acc Hl Hin Hx; cbn; [destruct Hin|].
  assert (Hl' : forall z, In z l -> not_minf z) by (intros z Hz; apply Hl; right; exact Hz).
  destruct Hin as [->|Hin]; [|apply IH; assumption]. apply top_fold; [exact Hl'|]. unfold top_or_nan in *.
  destruct Hx as [->| ->]; destruct acc as [s|[|]| |s m e Hb]; cbn; auto.
Qed.

Lemma huge_term (x mn : b64) : (IZR (2 ^ 128 - 2 ^ 103) <= Rabs (B2R x))%R -> is_finite x = true ->
  let t := Bminus mode_NE (b32_to_b64 (b64_to_b32 x)) mn in top_or_nan (Bmult mode_NE t t).
Proof.
  intros Hx Fx. rewrite (f32_overflow x Hx Fx). cbn [b32_to_b64]. unfold top_or_nan.
  destruct mn as [s|[|]| |s m e Hb], (Bsign x); cbn; auto.
Qed.

Lemma huge_norm (row : list b64) x : In x row -> is_finite x = true -> (IZR (2 ^ 128 - 2 ^ 103) <= Rabs (B2R x))%R ->
  top_or_nan (sum_sq32 (A := B64 exp64) row).
Proof.
  intros Hin Fx Hx. unfold sum_sq32, sum. cbn [num nadd nmul nsub nf32 B64].
  apply (top_sum _ _ (Bmult mode_NE (Bminus mode_NE (b32_to_b64 (b64_to_b32 x)) (mean (A := B64 exp64) row)) (Bminus mode_NE (b32_to_b64 (b64_to_b32 x)) (mean (A := B64 exp64) row)))).
  - intros y Hy. apply in_map_iff in Hy. destruct Hy as [z [<- _]]. apply sq_not_minf.
  - apply in_map_iff. exists x. split; [reflexivity|]. apply filter_In. split; [exact Hin|]. destruct x; try discriminate; reflexivity.
  - exact (huge_term x _ Hx Fx).
Qed.

Lemma huge_value p (d : @dstruct (B64 exp64)) mi ma re al sel wgt lags corr c rows j i row kk x :
  accepted d -> autocorrelation (A := B64 exp64) p d mi ma re al sel wgt = Ok (lags, corr, c) ->
  data_2d d = Ok rows -> nth_error rows j = Some row -> nth_error lags i = Some kk ->
  In x row -> is_finite x = true -> (IZR (2 ^ 128 - 2 ^ 103) <= Rabs (B2R x))%R ->
  exists v, corr_at corr j i = Some v /\ (neqb v nzero = true \/ nisnan v = true).
Proof.
  intros Ha E Hd Hj Hi Hin Fx Hx.
  destruct (value_by_iterator p d mi ma re al sel wgt lags corr c rows j i row kk Ha E Hd Hj Hi)
    as [f' [w [it0 [it' [Hf' [Hw [Hrun [Hdt [Ho [Hl [Hs HV]]]]]]]]]]]. cbv zeta in HV. rewrite norm_of_sum_sq in HV.
  eexists. split; [exact HV|]. destruct (huge_norm row x Hin Fx Hx) as [H|H]; rewrite H.
  - right. apply (l_nan_mul (A := B64 exp64)). apply orb_true_r.
  - apply (l_mul_zero (A := B64 exp64)). reflexivity.
Qed.
End Huge.
