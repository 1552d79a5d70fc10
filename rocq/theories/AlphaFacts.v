(** Unusual weight widths: NaN, infinite, zero, and the negative of an offset. *)
From Coq Require Import String.
From Coq Require Import ZArith Reals List Bool Arith Lia Lra.
From Flocq Require Import Core BinarySingleNaN.
From Verif Require Import Num Mem MemFacts XR B64 Spec SpecR DataStructure Correlator Sacf Api Laws B64Facts Laws2 DSFacts CorrFacts LoopFacts MainFacts
  SelFacts ValFacts NanFacts InfFacts SimFacts FixedThms ItThms.
Import ListNotations.
Local Open Scope list_scope.

(** the value at a lag from the pairs and their offsets *)
Lemma value_pairs A (HA : arith A) p (d : @dstruct A) mi ma re al sel wgt lags corr c rows j i row kk f w n s offs :
  accepted d -> autocorrelation p d mi ma re al sel wgt = Ok (lags, corr, c) ->
  data_2d d = Ok rows -> nth_error rows j = Some row -> nth_error lags i = Some kk ->
  selection_function p sel d = Some f -> weight_function wgt = Some w -> pairs_by p d f kk n = Ok (s, offs) ->
  length offs = length s /\
  corr_at corr j i = Some (nmul (fold_left (fun acc q => nadd acc
       (nmul (nmul (w (opt_or al (median_time d)) (nth q offs nzero)) (nsub (nth q row nzero) (mean row))) (nsub (nth (nth q s 0) row nzero) (mean row))))
       (seq 0 (length s)) nzero) (ndiv none_ (sum_sq32 row))).
Proof.
  intros Ha E Hd Hj Hi Hf Hw HP. pose proof (arith_laws A HA) as L.
  destruct (value_by_iterator p d mi ma re al sel wgt lags corr c rows j i row kk Ha E Hd Hj Hi)
    as [f' [w' [it0 [it' [Hf' [Hw' [Hrun [Hdt [Ho [Hl [Hs HV]]]]]]]]]]]. cbv zeta in HV. rewrite norm_of_sum_sq in HV.
  rewrite Hf in Hf'. injection Hf' as <-. rewrite Hw in Hw'. injection Hw' as <-.
  assert (P2 : pairs_by p d f kk (length rows) = Ok (selection it', offsets it')).
  { unfold pairs_by. rewrite Hrun. cbn [bind]. rewrite Hdt. reflexivity. }
  assert (Es : selection it' = selection it0).
  { pose proof Hdt as D. unfold deltaT in D. apply mbind_Ok_inv in D. destruct D as [it1 [x [D1 D2]]]. injection D2 as <-.
    assert (G : forall nt vals q i0 i1 x, deltaT_loop p nt vals q i0 = (i1, Ok x) -> selection_indices i1 = selection_indices i0).
    { clear. intros nt vals. induction vals as [|v vals IH]; intros q i0 i1 x H; cbn in H; [injection H as <- _; reflexivity|].
      destruct (lat nt v); cbn in H; try discriminate. destruct (vget p (shifted_timeseries i0) q); cbn in H; try discriminate.
      destruct (cabs p (nsub a a0)); cbn in H; try discriminate. apply IH in H. exact H. }
    unfold selection. cbn. rewrite (G _ _ _ _ _ _ D1). reflexivity. }
  assert (Q : (s, offs) = (selection it', offsets it')).
  { destruct (pairs_by_closed p d sel f kk n Ha Hf) as [sf [S1 C1]]. destruct (pairs_by_closed p d sel f kk (length rows) Ha Hf) as [sf' [S2 C2]].
    rewrite S1 in S2. injection S2 as <-. rewrite HP in C1. rewrite P2 in C2.
    match type of C1 with same_outcome _ ?X _ => destruct X end; cbn in C1, C2; try contradiction. congruence. }
  injection Q as Q1 Q2. rewrite Q1, Q2, Es. split; [exact Ho|exact HV].
Qed.

(** an exception to [exp], for the Gaussian weight only *)
Section Weights.
Context (A : Num) (HA : arith A).

Lemma weight_cases (P : (num -> num -> num) -> Prop) wgt w : weight_function wgt = Some w ->
  P fractionWeightFunction -> P fractionSquaredWeightFunction -> (wgt = "gaussian"%string -> P gaussianWeightFunction) -> P w.
Proof.
  unfold weight_function. destruct (String.eqb wgt "fractional"); [injection 1 as <-; auto|].
  destruct (String.eqb wgt "fractional_squared"); [injection 1 as <-; auto|]. destruct (String.eqb_spec wgt "gaussian"); [|discriminate].
  injection 1 as <-. auto.
Qed.

Lemma nan_alpha wgt w a o : weight_function wgt = Some w -> (wgt = "gaussian"%string -> forall x : num, nisnan x = true -> nisnan (nexp x) = true) ->
  nisnan a = true -> nisnan (w a o) = true.
Proof.
  pose proof (arith_laws A HA) as L. intros Hw He Ha. revert He. apply (weight_cases (fun w => _ -> nisnan (w a o) = true) wgt w Hw).
  - intros _. apply l_nan_div. apply orb_true_intro. right. apply l_nan_add. apply orb_true_intro. right. apply l_nan_div. rewrite Ha. apply orb_true_r.
  - intros _. apply l_nan_div. apply orb_true_intro. right. apply l_nan_add. apply orb_true_intro. right.
    apply l_nan_mul. apply orb_true_intro. left. apply l_nan_div. rewrite Ha. apply orb_true_r.
  - intros Eg He. apply (He Eg). apply l_nan_div. apply orb_true_intro. right. apply l_nan_mul. rewrite Ha. apply orb_true_r.
Qed.

Lemma zero_alpha wgt w a o : weight_function wgt = Some w -> (wgt = "gaussian"%string -> forall x : num, nisnan x = true -> nisnan (nexp x) = true) ->
  neqb a nzero = true -> neqb o nzero = true -> nisnan (w a o) = true.
Proof.
  pose proof (arith_laws A HA) as L. pose proof (arith_laws4 A HA) as L4. intros Hw He Ha Ho. revert He. apply (weight_cases (fun w => _ -> nisnan (w a o) = true) wgt w Hw).
  - intros _. apply l_nan_div. apply orb_true_intro. right. apply l_nan_add. apply orb_true_intro. right. apply l_zero_zero; assumption.
  - intros _. apply l_nan_div. apply orb_true_intro. right. apply l_nan_add. apply orb_true_intro. right.
    apply l_nan_mul. apply orb_true_intro. left. apply l_zero_zero; assumption.
  - intros Eg He. apply (He Eg). 
    assert (H1 : neqb (nneg (nmul o o)) nzero = true \/ nisnan (nneg (nmul o o)) = true).
    { rewrite l_neg_nan. destruct (l_mul_zero o o Ho) as [H|H]; [left|right; exact H].
      clear -HA H. destruct HA; cbn in *.
      - apply b64_zero in H. destruct H as [s ->]. destruct s; reflexivity.
      - destruct (xmul o o) as [r| | |]; try discriminate. apply Reqb_true in H. subst r. cbn. apply Reqb_true. lra. }
    assert (H2 : neqb (nmul (nmul ntwo a) a) nzero = true \/ nisnan (nmul (nmul ntwo a) a) = true) by (apply l_mul_zero; exact Ha).
    destruct H1 as [H1|H1]; [|apply l_nan_div; rewrite H1; reflexivity]. destruct H2 as [H2|H2]; [|apply l_nan_div; rewrite H2; apply orb_true_r].
    apply l_zero_zero; assumption.
Qed.
End Weights.

(** infinite width: every weight is one *)
Lemma one_plus_zero_b (s : bool) : Bplus mode_NE (b64_ofZ 1) (B754_zero s) = b64_ofZ 1 :> b64.
Proof. destruct s; apply B2SF_inj; vm_compute; reflexivity. Qed.
Lemma one_over_one_b : Bdiv mode_NE (b64_ofZ 1) (b64_ofZ 1) = b64_ofZ 1 :> b64.
Proof. apply B2SF_inj; vm_compute; reflexivity. Qed.

Lemma div_inf A (HA : arith A) (a o : @num A) : is_inf a -> finite o -> neqb (ndiv o a) nzero = true /\
  nadd none_ (ndiv o a) = none_ /\ nadd none_ (nmul (ndiv o a) (ndiv o a)) = none_.
Proof.
  intros [H1 H2] Ho. unfold finite in Ho. destruct HA; cbn in *.
  - destruct a as [s|s| |s m e Hb]; cbn in *; try discriminate. destruct o as [t|t| |t m e Hb]; cbn in *; try (exfalso; apply Ho; reflexivity).
    + destruct t, s; (split; [reflexivity|]); split; first [exact (one_plus_zero_b true)|exact (one_plus_zero_b false)].
    + destruct t, s; (split; [reflexivity|]); split; first [exact (one_plus_zero_b true)|exact (one_plus_zero_b false)].
  - destruct a as [r| | |]; cbn in *; try discriminate; (destruct o as [r| | |]; cbn in *; try (exfalso; apply Ho; reflexivity));
      (split; [apply Reqb_true; reflexivity|]); split; cbn; f_equal; lra.
Qed.

Lemma one_over_one A (HA : arith A) : ndiv (@none_ A) none_ = none_.
Proof. destruct HA; unfold none_; cbn; [apply one_over_one_b|]. destruct (Reqb_spec 1 0); [lra|f_equal; lra]. Qed.

Lemma inf_sq A (HA : arith A) (a : @num A) : is_inf a -> is_inf (nmul (nmul ntwo a) a).
Proof.
  intros [H1 H2]. destruct HA; cbn in *.
  - destruct a as [s|s| |s m e Hb]; cbn in *; try discriminate. destruct s; split; reflexivity.
  - unfold is_inf, ntwo. cbn. destruct a as [r| | |]; cbn in *; try discriminate; unfold xinf_sign; destruct (Reqb_spec 2 0); try lra;
      (destruct (Rltb_spec 2 0); [lra|]); split; reflexivity.
Qed.

Lemma inf_alpha A (HA : arith A) wgt w (a o : @num A) : weight_function wgt = Some w ->
  (wgt = "gaussian"%string -> (forall x : num, neqb x nzero = true -> neqb (nexp x) none_ = true) /\ finite (nmul o o)) ->
  finite o -> is_inf a -> w a o = none_.
Proof.
  intros Hw He Ho Ha. pose proof (arith_laws A HA) as L. pose proof (arith_laws4 A HA) as L4. destruct (div_inf A HA a o Ha Ho) as [_ [D1 D2]]. revert He. apply (weight_cases A (fun w => _ -> w a o = none_) wgt w Hw).
  - intros _. unfold fractionWeightFunction. rewrite D1. apply one_over_one, HA.
  - intros _. unfold fractionSquaredWeightFunction. rewrite D2. apply one_over_one, HA.
  - intros Eg He. destruct (He Eg) as [He1 He2]. unfold gaussianWeightFunction. apply l_eq_one. apply He1.
    apply div_inf; [exact HA|apply inf_sq; assumption|]. clear -He2 L. pose proof (l_neg_fin (nmul o o)) as F. unfold nfin, finite in *.
    destruct (nfloor (nmul o o)); [|congruence]. destruct (nfloor (nneg (nmul o o))); congruence.
Qed.

(** not finite, whatever it is combined with *)
Lemma wild_add A (HA : arith A) (x y : @num A) : ~ finite x \/ ~ finite y -> ~ finite (nadd x y).
Proof.
  unfold finite. destruct HA; cbn.
  - intros H C. destruct x as [s|s| |s m e Hb], y as [t|t| |t m' e' Hb']; cbn in *; try (apply C; reflexivity); try (destruct H as [H|H]; apply H; discriminate);
      destruct s; try destruct t; cbn in *; apply C; reflexivity.
  - intros H C. destruct x, y; cbn in *; try (apply C; reflexivity); destruct H as [H|H]; apply H; discriminate.
Qed.
Lemma wild_mul A (HA : arith A) (x y : @num A) : ~ finite x \/ ~ finite y -> ~ finite (nmul x y).
Proof.
  unfold finite. destruct HA; cbn.
  - intros H C. destruct x as [s|s| |s m e Hb], y as [t|t| |t m' e' Hb']; cbn in *; try (apply C; reflexivity); try (destruct H as [H|H]; apply H; discriminate).
  - intros H C. destruct x, y; cbn in *; unfold xinf_sign in *; try (apply C; reflexivity); try (destruct H as [H|H]; apply H; discriminate);
      repeat (destruct (Reqb _ _) || destruct (xorb _ _)); apply C; reflexivity.
Qed.
Lemma wild_fold A (HA : arith A) (term : nat -> @num A) l acc : ~ finite acc \/ (exists q, In q l /\ ~ finite (term q)) ->
  ~ finite (fold_left (fun a q => nadd a (term q)) l acc).
Proof.
  revert acc. induction l as [|q l IH]; intros acc H; cbn.
  - destruct H as [H|[q [[] _]]]. exact H.
  - apply IH. destruct H as [H|[q' [[->|Hin] H]]]; [left; apply wild_add; auto|left; apply wild_add; auto|right; eauto].
Qed.

Lemma opposite_div A (HA : arith A) (a o : @num A) : finite a -> neqb a nzero = false -> neqb o (nneg a) = true ->
  ~ finite (fractionWeightFunction a o).
Proof.
  unfold finite, fractionWeightFunction, none_, nzero. intros Fa Na Eo C. destruct HA; cbn in *.
  - assert (Fx : is_finite a = true) by (destruct a; cbn in *; try reflexivity; exfalso; apply Fa; reflexivity).
    assert (Fo : is_finite o = true).
    { destruct o as [s|s| |s m e Hb]; try reflexivity; destruct a as [t|t| |t m' e' Hb']; try discriminate; destruct s; try destruct t; discriminate. }
    rewrite Beqb_correct in Eo by (try rewrite is_finite_Bopp; assumption). rewrite B2R_Bopp in Eo. destruct (Req_bool_spec (B2R o) (- B2R a)) as [Eo'|]; [|discriminate].
    assert (Za : B2R a <> 0%R).
    { intros Z. destruct a as [s|s| |s m e Hb]; try discriminate. pose proof (B2R_finite_sign s m e Hb) as Hs. destruct s; lra. }
    assert (Q : Bdiv mode_NE o a = b64_ofZ (-1)).
    { pose proof (Bdiv_correct 53 1024 _ _ mode_NE o a Za) as HD. rewrite Eo' in HD. replace (- B2R a / B2R a)%R with (-1)%R in HD by (field; exact Za).
      assert (R1 : B2R (b64_ofZ (-1)) = (-1)%R) by (assert (Q : b64_ofZ (-1) = @B754_finite 53 1024 true 4503599627370496 (-52) eq_refl) by (apply B2SF_inj; vm_compute; reflexivity); rewrite Q; cbn [B2R]; unfold F2R; cbn [Fnum Fexp cond_Zopp bpow]; cbn; lra).
      assert (R2 : round radix2 (SpecFloat.fexp 53 1024) (round_mode mode_NE) (-1) = (-1)%R).
      { apply round_generic; [apply valid_rnd_N|]. rewrite <- R1. apply generic_format_B2R. }
      rewrite R2 in HD. rewrite Rlt_bool_true in HD.
      - destruct HD as [H1 [H2 H3]]. apply B2R_inj; [apply is_finite_strict_B2R; rewrite H1; lra|vm_compute; reflexivity|rewrite H1; symmetry; exact R1].
      - apply Rlt_le_trans with (bpow radix2 1); [cbn; rewrite Rabs_left by lra; lra|apply bpow_le; lia]. }
    change (b64_floor (Bdiv mode_NE (b64_ofZ 1) (Bplus mode_NE (b64_ofZ 1) (Bdiv mode_NE o a))) <> None) in C.
    rewrite Q in C. apply C. assert (Z : Bplus mode_NE (b64_ofZ 1) (b64_ofZ (-1)) = B754_zero false) by (apply B2SF_inj; vm_compute; reflexivity).
    rewrite Z. assert (I : Bdiv mode_NE (b64_ofZ 1) (B754_zero false) = B754_infinity false) by (apply B2SF_inj; vm_compute; reflexivity). rewrite I. reflexivity.
  - destruct a as [r| | |]; cbn in *; try (apply Fa; reflexivity). destruct o as [r'| | |]; cbn in *; try discriminate.
    destruct (Reqb_spec r 0); [discriminate|]. destruct (Reqb_spec r' (- r)) as [->|]; [|discriminate]. cbn in C.
    destruct (Reqb_spec r 0); [contradiction|]. replace (-r / r)%R with (-1)%R in C by (field; assumption).
    cbn in C. destruct (Reqb_spec (1 + -1) 0) as [_|NE]; [|lra]. unfold xinf_sign in C. destruct (Reqb_spec 1 0); [lra|]. destruct (Rltb_spec 1 0); [lra|]. apply C. reflexivity.
Qed.

(** ** calls *)
Section Calls.
Context (A : Num) (HA : arith A) (p : platform) (d : @dstruct A) (mi ma re al : option (@num A)) (sel wgt : string) (lags : list (@num A)) (corr : @py_corr A)
  (c : @correlator A) (rows : list (list (@num A))) (j i : nat) (row : list (@num A)) (kk : @num A) (f : cor_it -> meth cor_it unit)
  (n : nat) (s : list nat) (offs : list (@num A)).
Hypothesis (Ha : accepted d) (E : autocorrelation p d mi ma re al sel wgt = Ok (lags, corr, c)) (Hd : data_2d d = Ok rows)
  (Hj : nth_error rows j = Some row) (Hi : nth_error lags i = Some kk) (Hf : selection_function p sel d = Some f) (HP : pairs_by p d f kk n = Ok (s, offs)).

Lemma named_weight : exists w, weight_function wgt = Some w.
Proof.
  destruct (value_by_iterator p d mi ma re al sel wgt lags corr c rows j i row kk Ha E Hd Hj Hi)
    as [f' [w' [it0 [it' [Hf' [Hw' _]]]]]]. eauto.
Qed.

Lemma call_nan_alpha : (wgt = "gaussian"%string -> forall x : num, nisnan x = true -> nisnan (nexp x) = true) ->
  nisnan (opt_or al (median_time d)) = true -> s <> [] -> exists v, corr_at corr j i = Some v /\ nisnan v = true.
Proof.
  intros He Hn Hs. pose proof (arith_laws A HA) as L. destruct named_weight as [w Hw].
  destruct (value_pairs A HA p d mi ma re al sel wgt lags corr c rows j i row kk f w n s offs Ha E Hd Hj Hi Hf Hw HP) as [_ HV].
  eexists. split; [exact HV|]. apply l_nan_mul. apply orb_true_intro. left. apply (fold_nan _ _ _ 0).
  - apply in_seq. destruct s; [congruence|cbn; lia].
  - apply l_nan_mul. apply orb_true_intro. left. apply l_nan_mul. apply orb_true_intro. left. apply (nan_alpha A HA wgt w); assumption.
Qed.

Lemma call_zero_alpha o : (wgt = "gaussian"%string -> forall x : num, nisnan x = true -> nisnan (nexp x) = true) ->
  neqb (opt_or al (median_time d)) nzero = true -> In o offs -> neqb o nzero = true -> exists v, corr_at corr j i = Some v /\ nisnan v = true.
Proof.
  intros He Hn Hin Ho. pose proof (arith_laws A HA) as L. destruct named_weight as [w Hw].
  destruct (value_pairs A HA p d mi ma re al sel wgt lags corr c rows j i row kk f w n s offs Ha E Hd Hj Hi Hf Hw HP) as [Hl HV].
  apply (In_nth _ _ nzero) in Hin. destruct Hin as [q [Hq Eq]].
  eexists. split; [exact HV|]. apply l_nan_mul. apply orb_true_intro. left. apply (fold_nan _ _ _ q); [apply in_seq; lia|].
  apply l_nan_mul. apply orb_true_intro. left. apply l_nan_mul. apply orb_true_intro. left. apply (zero_alpha A HA wgt w); try assumption. rewrite Eq. exact Ho.
Qed.

Lemma call_inf_alpha : (wgt = "gaussian"%string -> (forall x : num, neqb x nzero = true -> neqb (nexp x) none_ = true) /\ forall o, In o offs -> finite (nmul o o)) ->
  (forall o, In o offs -> finite o) -> is_inf (opt_or al (median_time d)) ->
  let x := fun q => nsub (nth q row nzero) (mean row) in
  corr_at corr j i = Some (nmul (fold_left (fun acc q => nadd acc (nmul (x q) (x (nth q s 0)))) (seq 0 (length s)) nzero) (ndiv none_ (sum_sq32 row))).
Proof.
  intros He Ho Hn x. pose proof (arith_laws A HA) as L. pose proof (arith_laws4 A HA) as L4. destruct named_weight as [w Hw].
  destruct (value_pairs A HA p d mi ma re al sel wgt lags corr c rows j i row kk f w n s offs Ha E Hd Hj Hi Hf Hw HP) as [Hl HV].
  rewrite HV. do 2 f_equal.
  assert (G : forall l acc, (forall q, In q l -> q < length s) -> fold_left (fun acc q => nadd acc
       (nmul (nmul (w (opt_or al (median_time d)) (nth q offs nzero)) (nsub (nth q row nzero) (mean row))) (nsub (nth (nth q s 0) row nzero) (mean row)))) l acc
     = fold_left (fun acc q => nadd acc (nmul (x q) (x (nth q s 0)))) l acc).
  { induction l as [|q l IH]; intros acc Hq; cbn [fold_left]; [reflexivity|]. rewrite (inf_alpha A HA wgt w).
    - rewrite l_one_mul. apply IH. intros; apply Hq; right; assumption.
    - exact Hw.
    - intros Eg. destruct (He Eg) as [H1 H2]. split; [exact H1|]. apply H2, nth_In. rewrite Hl. apply Hq. left. reflexivity.
    - apply Ho, nth_In. rewrite Hl. apply Hq. left. reflexivity.
    - exact Hn. }
  apply G. intros q Hq. apply in_seq in Hq. lia.
Qed.

Lemma call_opposite_alpha o : wgt = "fractional"%string -> finite (opt_or al (median_time d)) -> neqb (opt_or al (median_time d)) nzero = false ->
  In o offs -> neqb o (nneg (opt_or al (median_time d))) = true -> exists v, corr_at corr j i = Some v /\ ~ finite v.
Proof.
  intros Ew Fa Na Hin Ho. pose proof (arith_laws A HA) as L. 
  assert (Hw : weight_function wgt = Some fractionWeightFunction) by (rewrite Ew; reflexivity).
  destruct (value_pairs A HA p d mi ma re al sel wgt lags corr c rows j i row kk f _ n s offs Ha E Hd Hj Hi Hf Hw HP) as [Hl HV].
  apply (In_nth _ _ nzero) in Hin. destruct Hin as [q [Hq Eq]].
  eexists. split; [exact HV|]. apply wild_mul; [exact HA|left]. apply wild_fold; [exact HA|right]. exists q. split; [apply in_seq; lia|].
  apply wild_mul; [exact HA|left]. apply wild_mul; [exact HA|left]. rewrite Eq. apply opposite_div; assumption.
Qed.
End Calls.
