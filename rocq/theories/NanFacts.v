(** Missing and degenerate values. *)
From Coq Require Import String.
From Coq Require Import ZArith Reals List Bool Arith Lia Lra.
From Flocq Require Import Core Relative BinarySingleNaN.
From Verif Require Import Num Mem MemFacts XR B64 Spec SpecR DataStructure DSFacts Correlator Sacf Api CorrFacts LoopFacts MainFacts
  Laws B64Facts Laws2 ConstrFacts SelFacts SelThms FastFacts TimeFacts WeightFacts ValFacts.
Import ListNotations.
Local Open Scope list_scope.

Class NumLaws4 (A : Num) : Prop := {
  l_mul_zero : forall w x, neqb x nzero = true -> neqb (nmul w x) nzero = true \/ nisnan (nmul w x) = true;
  l_add_zero : forall x y, neqb x nzero = true -> neqb y nzero = true -> neqb (nadd x y) nzero = true;
  l_zero_inv : forall x y, neqb x nzero = true -> neqb y nzero = true -> nisnan (nmul x (ndiv none_ y)) = true;
  l_zero_zero : forall x y, neqb x nzero = true -> neqb y nzero = true -> nisnan (ndiv x y) = true;
  l_one_mul : forall x, nmul none_ x = x;
  l_eq_one : forall x, neqb x none_ = true -> x = none_
}.

#[export] Instance XR_laws4 : NumLaws4 XR.
Proof.
  constructor; unfold nzero, none_; cbn [num nadd nsub nmul ndiv nneg nabs nlt nle neqb nisnan nofZ XR].
  - intros w x H. apply xeqb_Fin in H. subst x. destruct w as [w| | |]; cbn.
    + left. apply Reqb_true. ring.
    + right. unfold xinf_sign. destruct (Reqb_spec 0 0); [reflexivity|congruence].
    + right. unfold xinf_sign. destruct (Reqb_spec 0 0); [reflexivity|congruence].
    + right. reflexivity.
  - intros x y H1 H2. apply xeqb_Fin in H1. apply xeqb_Fin in H2. subst. cbn. apply Reqb_true. ring.
  - intros x y H1 H2. apply xeqb_Fin in H1. apply xeqb_Fin in H2. subst. cbn. destruct (Reqb_spec 0 0); [|congruence].
    unfold xinf_sign. destruct (Reqb_spec 1 0); [lra|]. destruct (Rltb_spec 1 0); [lra|]. cbn. unfold xinf_sign.
    destruct (Reqb_spec 0 0); [reflexivity|congruence].
  - intros x y H1 H2. apply xeqb_Fin in H1. apply xeqb_Fin in H2. subst. cbn. destruct (Reqb_spec 0 0); [|congruence].
    unfold xinf_sign. destruct (Reqb_spec 0 0); [reflexivity|congruence].
  - intros [x| | |]; cbn; try reflexivity.
    + f_equal. ring.
    + unfold xinf_sign. destruct (Reqb_spec 1 0); [lra|]. destruct (Rltb_spec 1 0); [lra|]. reflexivity.
    + unfold xinf_sign. destruct (Reqb_spec 1 0); [lra|]. destruct (Rltb_spec 1 0); [lra|]. reflexivity.
  - intros x H. apply xeqb_Fin in H. exact H.
Qed.

Lemma b64_zero (x : b64) : Beqb x (b64_ofZ 0) = true -> exists s, x = B754_zero s.
Proof.
  intros H. destruct x as [s|s| |s m e Hb]; try (exists s; reflexivity); exfalso; revert H; cbn; try discriminate; destruct s; discriminate.
Qed.

Lemma b64_one_R : B2R (b64_ofZ 1) = 1%R.
Proof. exact (proj2 (toE_Fin _ _ toE_one)). Qed.

Lemma b64_one_mul (x : b64) : Bmult mode_NE (b64_ofZ 1) x = x.
Proof.
  destruct x as [s|s| |s m e Hb]; try (destruct s; reflexivity); try reflexivity.
  set (x := B754_finite s m e Hb).
  pose proof (Bmult_correct 53 1024 _ _ mode_NE (b64_ofZ 1) x) as HC.
  rewrite b64_one_R, Rmult_1_l in HC. rewrite round_generic in HC; [|apply valid_rnd_N|apply generic_format_B2R].
  rewrite Rlt_bool_true in HC by apply abs_B2R_lt_emax. destruct HC as [H1 [H2 H3]].
  apply B2R_Bsign_inj; [rewrite H2; reflexivity|reflexivity|exact H1|]. rewrite H3; [cbn [Bsign x]; destruct s; reflexivity|].
  apply not_true_iff_false. intros C. assert (F : is_finite (Bmult mode_NE (b64_ofZ 1) x) = true) by (rewrite H2; reflexivity).
  destruct (Bmult mode_NE (b64_ofZ 1) x); discriminate.
Qed.

#[export] Instance B64_laws4 e : NumLaws4 (B64 e).
Proof.
  constructor; unfold nzero, none_; cbn [num nadd nsub nmul ndiv nneg nabs nlt nle neqb nisnan nofZ B64].
  - intros w x H. apply b64_zero in H. destruct H as [s ->]. destruct w as [w|w| |w m ex Hb]; cbn; auto.
  - intros x y H1 H2. apply b64_zero in H1. apply b64_zero in H2. destruct H1 as [s ->], H2 as [s' ->]. destruct s, s'; reflexivity.
  - intros x y H1 H2. apply b64_zero in H1. apply b64_zero in H2. destruct H1 as [s ->], H2 as [s' ->]. destruct s, s'; reflexivity.
  - intros x y H1 H2. apply b64_zero in H1. apply b64_zero in H2. destruct H1 as [s ->], H2 as [s' ->]. destruct s, s'; reflexivity.
  - exact b64_one_mul.
  - intros x H. rewrite Beqb_toE in H. rewrite toE_one in H. apply xeqb_Fin in H.
    destruct (toE_Fin _ _ H) as [H1 H2]. apply B2R_inj; [|reflexivity|rewrite b64_one_R; exact H2].
    destruct x; try discriminate; [cbn in H2; lra|reflexivity].
Qed.

Lemma arith_laws4 A : arith A -> NumLaws4 A.
Proof. intros [e|]; [apply B64_laws4|apply XR_laws4]. Qed.

Section Nan.
Context {A : Num} {L : NumLaws A} {L2 : NumLaws2 A} {L3 : NumLaws3 A} {L4 : NumLaws4 A}.

Lemma fold_nan_acc (term : nat -> num) l acc : nisnan acc = true -> nisnan (fold_left (fun a q => nadd a (term q)) l acc) = true.
Proof.
  revert acc. induction l as [|q l IH]; intros acc H; cbn; [exact H|]. apply IH. apply l_nan_add. rewrite H. reflexivity.
Qed.
Lemma fold_nan (term : nat -> num) l acc q : In q l -> nisnan (term q) = true -> nisnan (fold_left (fun a q => nadd a (term q)) l acc) = true.
Proof.
  revert acc. induction l as [|r l IH]; intros acc Hin H; cbn; [destruct Hin|]. destruct Hin as [->|Hin]; [|apply IH; assumption].
  apply fold_nan_acc. apply l_nan_add. rewrite H. apply orb_true_r.
Qed.

Lemma fold_zero (term : nat -> num) l acc : (forall q, In q l -> neqb (term q) nzero = true \/ nisnan (term q) = true) ->
  neqb acc nzero = true \/ nisnan acc = true ->
  neqb (fold_left (fun a q => nadd a (term q)) l acc) nzero = true \/ nisnan (fold_left (fun a q => nadd a (term q)) l acc) = true.
Proof.
  revert acc. induction l as [|r l IH]; intros acc H Hacc; cbn; [exact Hacc|]. apply IH; [intros; apply H; right; assumption|].
  destruct Hacc as [Hz|Hn]; [|right; apply l_nan_add; rewrite Hn; reflexivity].
  destruct (H r (or_introl eq_refl)) as [Hz'|Hn]; [left; apply l_add_zero; assumption|right; apply l_nan_add; rewrite Hn; apply orb_true_r].
Qed.

Lemma zero_zero : neqb (@nzero A) nzero = true.
Proof. apply le_eq; apply le_refl; apply l_fin_nan; exact l_fin_Z0. Qed.

(** a paired missing value *)
Lemma poison p d mi ma re al sel wgt lags corr c rows j i row kk q x f n it :
  accepted d -> autocorrelation p d mi ma re al sel wgt = Ok (lags, corr, c) ->
  data_2d d = Ok rows -> nth_error rows j = Some row -> nth_error lags i = Some kk ->
  nth_error row q = Some x -> nisnan x = true ->
  selection_function p sel d = Some f -> f (CorrelationIterator kk n) = (it, Ok tt) ->
  q < length (selection it) \/ In q (selection it) ->
  exists v, corr_at corr j i = Some v /\ nisnan v = true.
Proof.
  intros Ha E Hd Hj Hi Hq Hx Hf Hit Hin.
  destruct (value_by_iterator p d mi ma re al sel wgt lags corr c rows j i row kk Ha E Hd Hj Hi)
    as [f' [w [it0 [it' [Hf' [Hw [Hrun [Hdt [Ho [Hl [Hs HV]]]]]]]]]]]. cbv zeta in HV.
  rewrite Hf in Hf'. injection Hf' as <-.
  assert (Es : selection it = selection it0).
  { unfold selection_function in Hf.
    destruct (String.eqb sel "natural"); [|destruct (String.eqb sel "fast"); [|discriminate]]; injection Hf as <-.
    - destruct (chosen_inv p false d kk n it Ha Hit) as [m [b [H1 [H2 [H3 [H4 [H5 _]]]]]]].
      destruct (chosen_inv p false d kk (length rows) it0 Ha Hrun) as [m' [b' [H1' [H2' [H3' [H4' [H5' _]]]]]]].
      rewrite H5 in H5'. injection H5' as E5 _. exact E5.
    - destruct (chosen_inv p true d kk n it Ha Hit) as [m [b [H1 [H2 [H3 [H4 [H5 _]]]]]]].
      destruct (chosen_inv p true d kk (length rows) it0 Ha Hrun) as [m' [b' [H1' [H2' [H3' [H4' [H5' _]]]]]]].
      rewrite H5 in H5'. injection H5' as E5 _. exact E5. }
  rewrite Es in Hin. eexists. split; [exact HV|]. apply l_nan_mul. apply orb_true_intro. left.
  assert (Hsub : nisnan (nsub (nth q row nzero) (mean row)) = true).
  { apply l_nan_sub. rewrite (nth_error_nth row q nzero Hq), Hx. reflexivity. }
  destruct Hin as [Hin|Hin].
  - apply (fold_nan _ _ _ q); [apply in_seq; lia|]. apply l_nan_mul. apply orb_true_intro. left.
    apply l_nan_mul. apply orb_true_intro. right. exact Hsub.
  - apply (In_nth _ _ 0) in Hin. destruct Hin as [r [Hr Er]].
    apply (fold_nan _ _ _ r); [apply in_seq; lia|]. apply l_nan_mul. apply orb_true_intro. right. rewrite Er. exact Hsub.
Qed.

(** at lags [<= 0] the natural selection uses every point *)
Lemma natural_nonpositive p d kk n it : accepted d -> times_ok d -> nle kk nzero = true ->
  naturalSelectionFunctionIdx p d (CorrelationIterator kk n) = (it, Ok tt) -> length (selection it) = length (normalised_timeseries d).
Proof.
  intros Ha Ht Hk Hrun. destruct (times_ok_norm d Ha Ht) as [Ko [Kf [K0 Kp]]].
  destruct (chosen_inv p false d kk n it Ha Hrun) as [m [b [H1 [H2 [H3 _]]]]]. rewrite H3.
  destruct H2 as [M1 [M2 M3]]. set (nt := normalised_timeseries d) in *.
  destruct (Nat.eq_dec m (length nt)) as [E|Hne]; [exact E|]. exfalso.
  destruct (nth_error_Some_ex nt m ltac:(lia)) as [x Hx]. specialize (M3 x Hx). cbn [beyond_of] in M3.
  destruct (back_In nt b H1) as [Bin Bn]. pose proof (Kf x (nth_error_In _ _ Hx)) as Fx.
  pose proof (l_le_nan _ _ Hk) as [Nk _].
  assert (Hxk : nle (nadd x kk) x = true).
  { apply (l_le_trans _ (nadd x nzero)); [|apply (eq_le _ _ (l_add_0_r x (l_fin_nan _ Fx)))].
    apply l_add_mono_r; [exact Hk|apply l_add_fin_nan; assumption|apply l_add_fin; [exact Fx|apply l_fin_Z0]]. }
  assert (Hxb : nle x b = true) by (apply (Ko m (length nt - 1)); [lia|assumption|assumption]).
  pose proof (l_le_trans _ _ _ Hxk Hxb) as C. rewrite (le_nlt _ _ C) in M3. discriminate.
Qed.

Lemma poison_nonpositive p d mi ma re al wgt lags corr c rows j i row kk q x :
  accepted d -> times_ok d -> autocorrelation p d mi ma re al "natural" wgt = Ok (lags, corr, c) ->
  data_2d d = Ok rows -> nth_error rows j = Some row -> nth_error lags i = Some kk -> nle kk nzero = true ->
  nth_error row q = Some x -> nisnan x = true ->
  exists v, corr_at corr j i = Some v /\ nisnan v = true.
Proof.
  intros Ha Ht E Hd Hj Hi Hk Hq Hx.
  destruct (value_by_iterator p d mi ma re al _ wgt lags corr c rows j i row kk Ha E Hd Hj Hi)
    as [f' [w [it0 [it' [Hf' [Hw [Hrun [Hdt [Ho [Hl [Hs HV]]]]]]]]]]].
  pose proof Hf' as Hf0. injection Hf' as <-.
  destruct (call_value p d mi ma re al _ wgt lags corr c rows j i row kk Ha E Hd Hj Hi) as [_ [_ [_ [_ [_ [_ [_ [_ [_ [_ HL]]]]]]]]]].
  apply (poison p d mi ma re al _ wgt lags corr c rows j i row kk q x _ (length rows) it0 Ha E Hd Hj Hi Hq Hx Hf0 Hrun).
  left. rewrite (natural_nonpositive p d kk (length rows) it0 Ha Ht Hk Hrun), <- HL. apply nth_error_Some. congruence.
Qed.

(** a row whose deviations from the mean all vanish *)
Lemma flat_row p d mi ma re al sel wgt lags corr c rows j i row kk :
  accepted d -> autocorrelation p d mi ma re al sel wgt = Ok (lags, corr, c) ->
  data_2d d = Ok rows -> nth_error rows j = Some row -> nth_error lags i = Some kk ->
  (forall x, In x row -> neqb (nsub x (mean row)) nzero = true /\ neqb (nsub (nf32 x) (mean row)) nzero = true) ->
  exists v, corr_at corr j i = Some v /\ nisnan v = true.
Proof.
  intros Ha E Hd Hj Hi Hz.
  destruct (value_by_iterator p d mi ma re al sel wgt lags corr c rows j i row kk Ha E Hd Hj Hi)
    as [f' [w [it0 [it' [Hf' [Hw [Hrun [Hdt [Ho [Hl [Hs HV]]]]]]]]]]]. cbv zeta in HV.
  eexists. split; [exact HV|].
  assert (HN : neqb (norm_of row) nzero = true).
  { rewrite norm_of_sum_sq. unfold sum_sq32, sum.
    assert (forall x, In x (valid row) -> neqb (nsub (nf32 x) (mean row)) nzero = true).
    { intros x Hx. apply filter_In in Hx. apply Hz. apply Hx. }
    revert H. generalize (mean row) as mm. intros mm. generalize (valid row) as l. pose proof zero_zero as Z. revert Z. generalize (@nzero A) at 1 4 as acc.
    intros acc Hacc l. revert acc Hacc. induction l as [|x l IH]; intros acc Hacc H; cbn [map fold_left]; [exact Hacc|].
    apply IH; [|intros; apply H; right; assumption]. apply l_add_zero; [exact Hacc|]. apply l_sq_0. apply H. left. reflexivity. }
  match goal with |- nisnan (nmul ?S _) = true => assert (HS : neqb S nzero = true \/ nisnan S = true) end.
  { apply fold_zero; [|left; apply zero_zero]. intros q Hq. apply in_seq in Hq. apply l_mul_zero. apply Hz. apply nth_In. apply Hs. apply nth_In. lia. }
  destruct HS as [HS|HS]; [apply l_zero_inv; assumption|]. apply l_nan_mul. rewrite HS. reflexivity.
Qed.

(** ** Lag zero, as computed *)
Lemma zero_offsets p nt kk dts : (forall x, In x nt -> nfin x = true) -> neqb kk nzero = true ->
  deltas p nt (seq 0 (length nt)) (map (fun x => nadd x kk) nt) = Ok dts ->
  length dts = length nt /\ forall q dq, nth_error dts q = Some dq -> neqb dq nzero = true.
Proof.
  intros Hf Hk E. unfold deltas in E. destruct (mapM_Ok_inv _ _ _ E) as [H1 H2].
  assert (Hl : length dts = length nt) by (rewrite H1, combine_length, seq_length, map_length; apply Nat.min_id).
  split; [exact Hl|]. intros q dq Hq. assert (Hlt : q < length nt) by (rewrite <- Hl; apply nth_error_Some; congruence).
  destruct (nth_error_Some_ex nt q Hlt) as [x Hx]. pose proof (Hf x (nth_error_In _ _ Hx)) as Fx.
  destruct (H2 q (q, nadd x kk)) as [b [Hb Hd]].
  { apply nth_error_combine; [rewrite nth_error_seq; destruct (Nat.ltb_spec q (length nt)); [reflexivity|lia]|].
    rewrite nth_error_map, Hx. reflexivity. }
  rewrite Hq in Hb. injection Hb as <-. unfold delta_of in Hd. cbn [fst snd] in Hd. unfold lat in Hd. rewrite Hx in Hd. cbn [bind] in Hd.
  destruct (p_checked p); [discriminate|]. cbn [bind] in Hd. refine (cabs_zero p _ dq _ Hd).
  pose proof (add_zero x kk Fx Hk) as Ex. apply sub_eq; [exact Fx|exact (fin_eq _ _ Ex Fx)|].
  apply le_eq; [exact (eq_le2 _ _ Ex)|exact (eq_le1 _ _ Ex)].
Qed.

Lemma pair_sum_ones xs : forall m n ws acc, length ws = n -> (forall w, In w ws -> w = none_) -> m + n <= length xs ->
  pair_sum xs m (seq m n) ws acc = fold_left nadd (map (fun x => nmul x x) (firstn n (skipn m xs))) acc.
Proof.
  intros m n. revert m. induction n as [|n IH]; intros m ws acc Hl Hw Hm; destruct ws as [|w ws]; try discriminate; [reflexivity|].
  injection Hl as Hl. destruct (nth_error_Some_ex xs m ltac:(lia)) as [x Hx].
  assert (Hsk : skipn m xs = x :: skipn (S m) xs).
  { apply list_ext. intros q. rewrite nth_error_skipn. destruct q as [|q].
    - rewrite Nat.add_0_r. exact Hx.
    - cbn [nth_error]. rewrite nth_error_skipn. f_equal. lia. }
  rewrite Hsk. cbn [seq pair_sum firstn map fold_left]. rewrite (nth_error_nth xs m nzero Hx), (Hw w) by (left; reflexivity).
  rewrite l_one_mul. apply IH; [exact Hl|intros; apply Hw; right; assumption|lia].
Qed.

Lemma zero_lag p d mi ma re al wgt lags corr c rows j i row kk w :
  accepted d -> times_ok d -> increasing (normalised_timeseries d) ->
  autocorrelation p d mi ma re al "natural" wgt = Ok (lags, corr, c) ->
  data_2d d = Ok rows -> nth_error rows j = Some row -> nth_error lags i = Some kk -> neqb kk nzero = true ->
  weight_function wgt = Some w ->
  (forall dq, neqb dq nzero = true -> neqb (w (opt_or al (median_time d)) dq) none_ = true) ->
  corr_at corr j i = Some (nmul (sum (map (fun x => nmul (nsub x (mean row)) (nsub x (mean row))) row)) (ndiv none_ (sum_sq32 row))).
Proof.
  intros Ha Ht Hinc E Hd Hj Hi Hk Hw Hone. destruct (times_ok_norm d Ha Ht) as [Ko [Kf [K0 Kp]]].
  destruct (call_value p d mi ma re al _ wgt lags corr c rows j i row kk Ha E Hd Hj Hi) as [sf [w' [sidx [Sv [dts [Hs [Hw' [HS [HD [HV HL]]]]]]]]]].
  injection Hs as <-. destruct (weight_names wgt _ w' Hw') as [w2 [Hw2 ->]]. rewrite Hw in Hw2. injection Hw2 as <-.
  destruct (natural_sel_zero p (normalised_timeseries d) kk sidx Sv Hinc Kf) as [Es ESv]; [intros C; rewrite C in K0; discriminate|exact Hk|exact HS|].
  subst sidx Sv. destruct (zero_offsets p _ kk dts Kf Hk HD) as [Hdl Hdz]. rewrite HV. f_equal. unfold corr_value. rewrite norm_of_sum_sq.
  f_equal. rewrite pair_sum_ones.
  - rewrite skipn_O, <- HL. unfold sum. f_equal.
    replace (length row) with (length (centred row)) by (unfold centred; apply map_length). rewrite firstn_all.
    unfold centred. rewrite map_map. reflexivity.
  - rewrite map_length. exact Hdl.
  - intros v Hv. apply in_map_iff in Hv. destruct Hv as [dq [<- Hin]]. apply In_nth_error in Hin. destruct Hin as [q Hq].
    apply l_eq_one. apply Hone. exact (Hdz q dq Hq).
  - unfold centred. rewrite map_length, HL. apply Nat.le_refl.
Qed.

(** a single time point and the default alpha: the weight is 0/0 *)
Lemma one_point p d mi ma re wgt lags corr c rows j i row kk t0 :
  accepted d -> timeseries d = [t0] -> finite t0 ->
  autocorrelation p d mi ma re None "natural" wgt = Ok (lags, corr, c) ->
  wgt = "fractional"%string \/ wgt = "fractional_squared"%string ->
  data_2d d = Ok rows -> nth_error rows j = Some row -> nth_error lags i = Some kk -> neqb kk nzero = true ->
  exists v, corr_at corr j i = Some v /\ nisnan v = true.
Proof.
  intros Ha Ht Ft E Hw Hd Hj Hi Hk. apply finite_nfin in Ft.
  assert (En : normalised_timeseries d = [nzero] /\ median_time d = nzero).
  { destruct (accepted_times d Ha) as [ts [data [er [N [-> [H1 [Hnt _]]]]]]]. change (ts = [t0]) in Ht. subst ts.
    change (median_time (the_ds [t0] data er N)) with (nsub t0 t0). rewrite Hnt. unfold rel_times. cbn [map]. rewrite l_sub_self by exact Ft. auto. }
  destruct En as [En Em].
  destruct (call_value p d mi ma re None _ wgt lags corr c rows j i row kk Ha E Hd Hj Hi) as [sf [w' [sidx [Sv [dts [Hs [Hw' [HS [HD [HV HL]]]]]]]]]].
  injection Hs as <-. cbn [opt_or] in Hw'. rewrite Em in Hw'. rewrite En in *.
  assert (Hinc : increasing [@nzero A]).
  { split; intros [|q] [|q'] a b Hij Ha' Hb'; cbn in Ha', Hb'; try destruct q; try destruct q'; try discriminate; try lia.
    injection Ha' as <-. injection Hb' as <-. apply le_refl. apply l_fin_nan. exact l_fin_Z0. }
  assert (Hfin : forall x, In x [@nzero A] -> nfin x = true) by (intros x [<-|[]]; exact l_fin_Z0).
  destruct (natural_sel_zero p [nzero] kk sidx Sv Hinc Hfin) as [Es ESv]; [discriminate|exact Hk|exact HS|].
  subst sidx Sv. destruct (zero_offsets p [nzero] kk dts Hfin Hk HD) as [Hdl Hdz].
  destruct dts as [|d0 [|? ?]]; try discriminate. specialize (Hdz 0 d0 eq_refl).
  eexists. split; [exact HV|]. unfold corr_value. apply l_nan_mul. apply orb_true_intro. left. cbn [length seq map pair_sum].
  apply l_nan_add. apply orb_true_intro. right. apply l_nan_mul. apply orb_true_intro. left. apply l_nan_mul. apply orb_true_intro. left.
  pose proof (l_zero_zero d0 nzero Hdz zero_zero) as Hnan.
  destruct Hw as [->| ->]; injection Hw' as <-.
  - unfold fractionWeightFunction. apply l_nan_div. apply orb_true_intro. right. apply l_nan_add. rewrite Hnan. apply orb_true_r.
  - unfold fractionSquaredWeightFunction. apply l_nan_div. apply orb_true_intro. right. apply l_nan_add. apply orb_true_intro. right.
    apply l_nan_mul. rewrite Hnan. reflexivity.
Qed.

End Nan.

(** ** P * (1/P) in binary64 *)
Local Open Scope R_scope.
Lemma rnd_one_up : rnd (1 + bpow radix2 (-53)) = 1.
Proof.
  pose (t := @B754_finite 53 1024 false 4503599627370496 (-105) eq_refl).
  assert (Ht : B2R t = bpow radix2 (-53)).
  { unfold t, B2R, F2R, Fnum, Fexp. change (IZR (cond_Zopp false (Zpos 4503599627370496))) with (bpow radix2 52).
    rewrite <- bpow_plus. reflexivity. }
  pose proof (toE_plus (b64_ofZ 1) t) as H.
  assert (E : Bplus mode_NE (b64_ofZ 1) t = b64_ofZ 1) by (apply B2SF_inj; vm_compute; reflexivity).
  rewrite E, toE_one, (toE_finite t eq_refl), Ht in H. cbn [xadd rndE] in H.
  destruct (Rltb _ _); [injection H as H; symmetry; exact H|]. destruct (Rltb _ _); discriminate.
Qed.

Lemma rnd_one_down : rnd (1 - bpow radix2 (-53)) = 1 - bpow radix2 (-53).
Proof.
  pose (t := @B754_finite 53 1024 false 9007199254740991 (-53) eq_refl).
  assert (Ht : B2R t = 1 - bpow radix2 (-53)).
  { unfold t, B2R, F2R, Fnum, Fexp. change (IZR (cond_Zopp false (Zpos 9007199254740991))) with (IZR (2 ^ 53 - 1)).
    rewrite minus_IZR. change (IZR (2 ^ 53)) with (bpow radix2 53). rewrite Rmult_minus_distr_r, <- bpow_plus.
    change (bpow radix2 (53 + -53)) with 1. ring. }
  rewrite <- Ht. apply rnd_fix.
Qed.

Lemma inv_round (x : R) : bpow radix2 (-1000) <= x <= bpow radix2 1000 ->
  bpow radix2 (-1000) <= rnd (1 / x) <= bpow radix2 1000 /\ 1 - bpow radix2 (-53) <= x * rnd (1 / x) <= 1 + bpow radix2 (-53).
Proof.
  intros [H1 H2]. assert (Hx : 0 < x) by (eapply Rlt_le_trans; [apply bpow_gt_0|exact H1]).
  assert (B : bpow radix2 (-1000) <= 1 / x <= bpow radix2 1000).
  { unfold Rdiv. rewrite Rmult_1_l. split.
    - change (-1000)%Z with (- (1000))%Z. rewrite bpow_opp. apply Rinv_le_contravar; assumption.
    - replace (bpow radix2 1000) with (/ bpow radix2 (-1000)) by (rewrite <- bpow_opp; reflexivity).
      apply Rinv_le_contravar; [apply bpow_gt_0|assumption]. }
  split.
  - split; (rewrite <- (round_generic radix2 fexp64 ZnearestE (bpow radix2 _)); [apply rnd_le; apply B|]);
      apply generic_format_bpow; cbv; discriminate.
  - destruct (relative_error_N_FLT_ex radix2 (-1074) 53 eq_refl (fun z => negb (Z.even z)) (1 / x)) as [e [He Er]].
    { rewrite Rabs_pos_eq by (apply Rle_trans with (2 := proj1 B); apply bpow_ge_0).
      apply Rle_trans with (2 := proj1 B). apply bpow_le. lia. }
    change (round radix2 fexp64 ZnearestE (1 / x)) with (rnd (1 / x)) in Er. rewrite Er.
    replace (x * (1 / x * (1 + e))) with (1 + e) by (field; lra).
    assert (Hh : / 2 * bpow radix2 (- (53) + 1) = bpow radix2 (-53)).
    { change (/ 2) with (bpow radix2 (-1)). rewrite <- bpow_plus. reflexivity. }
    rewrite Hh in He. revert He. unfold Rabs. destruct (Rcase_abs e); intros; split; lra.
Qed.

Lemma self_quotient (P : b64) : is_finite P = true -> bpow radix2 (-1000) <= B2R P <= bpow radix2 1000 ->
  exists v, toE (Bmult mode_NE P (Bdiv mode_NE (b64_ofZ 1) P)) = Fin v /\ 1 - bpow radix2 (-53) <= v <= 1.
Proof.
  intros F H. destruct (inv_round (B2R P) H) as [I1 I2].
  assert (Hpos : 0 < B2R P) by (eapply Rlt_le_trans; [apply bpow_gt_0|apply H]).
  assert (Hbig : bpow radix2 1000 < big) by (apply bpow_lt; lia).
  assert (HI : toE (Bdiv mode_NE (b64_ofZ 1) P) = Fin (rnd (1 / B2R P))).
  { rewrite toE_div by (rewrite (toE_finite P F); intros C; injection C; lra). rewrite toE_one, (toE_finite P F). cbn [xdiv].
    destruct (Reqb_spec (B2R P) 0); [lra|]. cbn [rndE]. destruct (Rltb_spec (Rabs (rnd (1 / B2R P))) big) as [_|C]; [reflexivity|].
    exfalso. apply C. rewrite Rabs_pos_eq by (apply Rle_trans with (2 := proj1 I1); apply bpow_ge_0). lra. }
  rewrite toE_mult, HI, (toE_finite P F). cbn [xmul rndE].
  assert (V : 1 - bpow radix2 (-53) <= rnd (B2R P * rnd (1 / B2R P)) <= 1).
  { pose proof (rnd_le _ _ (proj1 I2)) as V1. pose proof (rnd_le _ _ (proj2 I2)) as V2. rewrite rnd_one_down in V1. rewrite rnd_one_up in V2. auto. }
  assert (B53 : bpow radix2 (-53) < 1) by (change 1 with (bpow radix2 0); apply bpow_lt; lia).
  destruct (Rltb_spec (Rabs (rnd (B2R P * rnd (1 / B2R P)))) big) as [_|C]; [eexists; split; [reflexivity|exact V]|].
  exfalso. apply C. rewrite Rabs_pos_eq by lra. apply Rle_lt_trans with 1; [apply V|]. change 1 with (bpow radix2 0). apply bpow_lt. lia.
Qed.
