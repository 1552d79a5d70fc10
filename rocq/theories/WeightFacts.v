(** Facts about the weight functions (Correlator.cpp:150-197), from order laws
    of division and multiplication that hold in both arithmetics. *)
From Coq Require Import ZArith Reals List Bool Lia Lra.
From Flocq Require Import Core BinarySingleNaN.
From Verif Require Import Num Mem MemFacts XR B64 Spec DataStructure Correlator Sacf Api Laws B64Facts Laws2.
Import ListNotations.

Class NumLaws3 (A : Num) : Prop := {
  l_one_pos : nlt nzero none_ = true;
  l_fin_one : nfin none_ = true;
  l_div_mono : forall a b c, nlt nzero c = true -> nle a b = true ->
    nisnan (ndiv a c) = false -> nisnan (ndiv b c) = false -> nle (ndiv a c) (ndiv b c) = true;
  l_div_0 : forall c, nlt nzero c = true -> neqb (ndiv nzero c) nzero = true;
  l_div_nan_l : forall a c, nlt nzero c = true -> nfin c = true -> nisnan a = false -> nisnan (ndiv a c) = false;
  l_div_nan_r : forall a c, nlt nzero c = true -> nfin a = true -> nisnan (ndiv a c) = false;
  l_sq_mono : forall a b, nle nzero a = true -> nle a b = true -> nle (nmul a a) (nmul b b) = true;
  l_sq_pos : forall a, nle nzero a = true -> nle nzero (nmul a a) = true;
  l_sq_0 : forall a, neqb a nzero = true -> neqb (nmul a a) nzero = true;
  l_inv_anti : forall a b, nle none_ a = true -> nle a b = true -> nle (ndiv none_ b) (ndiv none_ a) = true;
  l_inv_pos : forall a, nle none_ a = true -> nle nzero (ndiv none_ a) = true;
  l_inv_one : forall a, neqb a none_ = true -> neqb (ndiv none_ a) none_ = true
}.

Local Open Scope R_scope.

#[export] Instance XR_laws3 : NumLaws3 XR.
Proof.
  constructor; unfold nfin, nzero, none_; cbn [num nadd nsub nmul ndiv nneg nabs nlt nle neqb nisnan nofZ nfloor ntrunc nf32 nexp XR].
  - cbn. apply Rltb_true. lra.
  - reflexivity.
  - intros a b c; destruct a as [a| | |], b as [b| | |], c as [c| | |]; cbn; try discriminate; auto; rewrite ?Rltb_true, ?Rleb_true; intros Hc Hab;
      try (destruct (Reqb_spec c 0); [lra|]); try (destruct (Rltb_spec c 0); [lra|]); try reflexivity; try discriminate; intros _ _.
    + apply Rleb_true. unfold Rdiv. apply Rmult_le_compat_r; [|exact Hab]. apply Rlt_le, Rinv_0_lt_compat. exact Hc.
    + apply Rle_refl.
  - intros c; destruct c as [c| | |]; cbn; try discriminate; rewrite ?Rltb_true; intros Hc.
    + destruct (Reqb_spec c 0); [lra|]. apply Reqb_true. unfold Rdiv. ring.
    + apply Reqb_true. reflexivity.
  - intros a c; destruct a as [a| | |], c as [c| | |]; cbn; try discriminate; auto; rewrite ?Rltb_true; intros Hc _ _.
    + destruct (Reqb_spec c 0); [lra|]. reflexivity.
    + destruct (Rltb_spec c 0); [lra|]. reflexivity.
    + destruct (Rltb_spec c 0); [lra|]. reflexivity.
  - intros a c; destruct a as [a| | |], c as [c| | |]; cbn; try discriminate; auto; rewrite ?Rltb_true; intros Hc _.
    destruct (Reqb_spec c 0); [lra|]. reflexivity.
  - intros a b; destruct a as [a| | |], b as [b| | |]; cbn; try discriminate; auto; rewrite ?Rleb_true; intros Ha Hab.
    nra.
  - intros a; destruct a as [a| | |]; cbn; try discriminate; auto; rewrite ?Rleb_true. intros Ha. nra.
  - intros a; destruct a as [a| | |]; cbn; try discriminate; auto; rewrite ?Reqb_true. intros ->. ring.
  - intros a b; destruct a as [a| | |], b as [b| | |]; cbn; try discriminate; auto; rewrite ?Rleb_true; intros Ha Hab;
      repeat match goal with |- context [Reqb ?x 0] => destruct (Reqb_spec x 0); [lra|] end; rewrite ?Rleb_true; unfold Rdiv; rewrite ?Rmult_1_l.
    + cbn. apply Rleb_true. apply Rle_Rinv; lra.
    + apply Rlt_le, Rinv_0_lt_compat; lra.
    + apply Rle_refl.
  - intros a; destruct a as [a| | |]; cbn; try discriminate; rewrite ?Rleb_true; intros Ha.
    + destruct (Reqb_spec a 0); [lra|]. apply Rleb_true. unfold Rdiv. rewrite Rmult_1_l. apply Rlt_le, Rinv_0_lt_compat; lra.
    + apply Rle_refl.
  - intros a; destruct a as [a| | |]; cbn; try discriminate; rewrite ?Reqb_true; intros ->.
    destruct (Reqb_spec 1 0); [lra|]. apply Reqb_true. field.
Qed.

Lemma xeqb_Fin a r : xeqb a (Fin r) = true -> a = Fin r.
Proof. destruct a; cbn; try discriminate. rewrite Reqb_true. congruence. Qed.
Lemma rndE_0 : rndE (Fin 0) = Fin 0.
Proof. exact (rndE_toE (B754_zero false)). Qed.
Lemma toE_one : toE (b64_ofZ 1) = Fin 1.
Proof. rewrite toE_ofZ_small by lia. reflexivity. Qed.
Lemma rndE_1 : rndE (Fin 1) = Fin 1.
Proof. rewrite <- toE_one. apply rndE_toE. Qed.

#[export] Instance B64_laws3 exp64 : NumLaws3 (B64 exp64).
Proof.
  pose proof XR_laws3 as LX.
  assert (Hpos : forall c, xlt (Fin 0) (toE c) = true -> toE c <> Fin 0).
  { intros c H E. rewrite E in H. cbn in H. apply Rltb_true in H. lra. }
  assert (Hone : forall c, xle (Fin 1) (toE c) = true -> toE c <> Fin 0).
  { intros c H E. rewrite E in H. cbn in H. apply Rleb_true in H. lra. }
  assert (Z0 : toE (b64_ofZ 0) = Fin 0) by reflexivity.
  pose proof toE_one as Z1.
  constructor; intros; rewrite ?fin_toE in *; unfold nzero, none_ in *; cbn [num nadd nsub nmul ndiv nneg nabs nlt nle neqb nisnan nofZ nfloor ntrunc nf32 nexp B64] in *;
    rewrite ?Bltb_toE, ?Bleb_toE, ?Beqb_toE, ?is_nan_toE in *; rewrite ?Z0, ?Z1 in *.
  - cbn. apply Rltb_true. lra.
  - reflexivity.
  - rewrite !toE_div, ?xisnan_rndE in * by auto. apply xle_rndE. apply (l_div_mono (A := XR)); assumption.
  - rewrite toE_div by auto. rewrite Z0. pose proof (xeqb_Fin _ _ (l_div_0 (A := XR) _ H)) as E0. change (xdiv (Fin 0) (toE c) = Fin 0) in E0. rewrite E0, rndE_0. apply Reqb_true. reflexivity.
  - rewrite toE_div, xisnan_rndE by auto. apply (l_div_nan_l (A := XR)); try assumption.
    destruct (toE c); try discriminate; reflexivity.
  - rewrite toE_div, xisnan_rndE by auto. apply (l_div_nan_r (A := XR)); try assumption.
    destruct (toE a); try discriminate; reflexivity.
  - rewrite !toE_mult. apply xle_rndE. apply (l_sq_mono (A := XR)); assumption.
  - rewrite toE_mult. rewrite <- rndE_0 at 1. apply xle_rndE. apply (l_sq_pos (A := XR)); assumption.
  - apply xeqb_Fin in H. rewrite toE_mult, H. cbn [xmul]. rewrite Rmult_0_l, rndE_0. apply Reqb_true. reflexivity.
  - pose proof (l_inv_anti (A := XR) _ _ H H0) as HH.
    assert (Hb : xle (Fin 1) (toE b) = true) by (eapply (l_le_trans (A := XR)); eassumption).
    rewrite !toE_div by auto. rewrite Z1. apply xle_rndE. exact HH.
  - rewrite toE_div by auto. rewrite Z1. rewrite <- rndE_0 at 1. apply xle_rndE. apply (l_inv_pos (A := XR)). exact H.
  - apply xeqb_Fin in H. rewrite toE_div by (rewrite H; intros E; injection E; lra).
    rewrite Z1, H. cbn [xdiv]. destruct (Reqb_spec 1 0); [lra|]. replace (1 / 1) with 1 by field. rewrite rndE_1. apply Reqb_true. reflexivity.
Qed.

Lemma arith_laws3 A : arith A -> NumLaws3 A.
Proof. intros [e|]; [apply B64_laws3|apply XR_laws3]. Qed.

Local Close Scope R_scope.

Section Facts.
Context {A : Num} {L1 : NumLaws A} {L2 : NumLaws2 A} {L3 : NumLaws3 A}.

Lemma finite_nfin a : finite a <-> nfin a = true.
Proof. unfold finite, nfin. destruct (nfloor a); split; congruence. Qed.

Lemma nan_of a b : nle a b = true -> nisnan a = false.
Proof. intros H. apply (l_le_nan _ _ H). Qed.
Lemma nan_of' a b : nle a b = true -> nisnan b = false.
Proof. intros H. apply (l_le_nan _ _ H). Qed.

Lemma eq_le1 a b : neqb a b = true -> nle a b = true.
Proof. rewrite l_eq. intros H. apply andb_prop in H. apply H. Qed.
Lemma eq_le2 a b : neqb a b = true -> nle b a = true.
Proof. rewrite l_eq. intros H. apply andb_prop in H. apply H. Qed.
Lemma le_eq a b : nle a b = true -> nle b a = true -> neqb a b = true.
Proof. rewrite l_eq. intros -> ->. reflexivity. Qed.

Lemma zero_le_one : nle nzero none_ = true.
Proof. apply lt_le. exact l_one_pos. Qed.

(** division by [al > 0] of numbers [>= 0] *)
Section Ratio.
Variable al : num.
Hypothesis Hal : nlt nzero al = true.

Lemma ratio_nan d : nle nzero d = true -> nfin al = true \/ nfin d = true -> nisnan (ndiv d al) = false.
Proof. intros Hd [H|H]; [apply l_div_nan_l|apply l_div_nan_r]; try assumption. exact (nan_of' _ _ Hd). Qed.

Lemma ratio_pos d : nle nzero d = true -> nfin al = true \/ nfin d = true -> nle nzero (ndiv d al) = true.
Proof.
  intros Hd H. pose proof (ratio_nan d Hd H) as Hn.
  apply l_le_trans with (ndiv nzero al).
  - apply eq_le2. apply l_div_0. exact Hal.
  - apply l_div_mono; try assumption. apply l_div_nan_r; [exact Hal|exact l_fin_Z0].
Qed.

Lemma ratio_mono d d' : nle nzero d = true -> nle d d' = true -> nfin al = true \/ nfin d' = true ->
  nle (ndiv d al) (ndiv d' al) = true.
Proof.
  intros Hd Hdd H. apply l_div_mono; try assumption; apply ratio_nan; try assumption.
  - destruct H as [H|H]; [left; exact H|right]. exact (l_fin_between _ _ _ Hd Hdd l_fin_Z0 H).
  - eapply l_le_trans; eassumption.
Qed.

Lemma ratio_0 d : neqb d nzero = true -> neqb (ndiv d al) nzero = true.
Proof.
  intros H. pose proof (eq_le1 _ _ H) as H1. pose proof (eq_le2 _ _ H) as H2.
  assert (F : nfin d = true) by (apply (l_fin_between nzero d nzero); auto using l_fin_Z0).
  apply le_eq.
  - apply l_le_trans with (ndiv nzero al); [|apply eq_le1, l_div_0; exact Hal].
    apply ratio_mono; auto using l_fin_Z0.
  - apply ratio_pos; auto.
Qed.
End Ratio.

(** 1/(1+x) *)
Lemma one_plus_nan x : nisnan x = false -> nisnan (nadd none_ x) = false.
Proof. intros H. apply l_add_fin_nan; [exact l_fin_one|exact H]. Qed.

Lemma one_plus_0 x : neqb x nzero = true -> neqb (nadd none_ x) none_ = true.
Proof.
  intros H. pose proof (eq_le1 _ _ H) as H1. pose proof (eq_le2 _ _ H) as H2.
  assert (Hn : nisnan none_ = false) by (apply l_fin_nan; exact l_fin_one).
  pose proof (l_add_0_r none_ Hn) as E.
  assert (Hx : nisnan (nadd none_ x) = false) by (apply one_plus_nan; exact (nan_of _ _ H1)).
  assert (H0 : nisnan (nadd none_ nzero) = false) by (apply one_plus_nan; apply l_fin_nan; exact l_fin_Z0).
  apply le_eq.
  - apply l_le_trans with (nadd none_ nzero); [apply l_add_mono_r; assumption|apply eq_le1; exact E].
  - apply l_le_trans with (nadd none_ nzero); [apply eq_le2; exact E|apply l_add_mono_r; assumption].
Qed.

Lemma one_plus_ge x : nle nzero x = true -> nle none_ (nadd none_ x) = true.
Proof.
  intros H. assert (Hn : nisnan none_ = false) by (apply l_fin_nan; exact l_fin_one).
  apply l_le_trans with (nadd none_ nzero); [apply eq_le2; apply l_add_0_r; exact Hn|].
  apply l_add_mono_r; [exact H| |]; apply one_plus_nan; [exact (nan_of _ _ H)|exact (nan_of' _ _ H)].
Qed.

Lemma one_plus_mono x y : nle x y = true -> nle (nadd none_ x) (nadd none_ y) = true.
Proof.
  intros H. apply l_add_mono_r; [exact H| |]; apply one_plus_nan; [exact (nan_of _ _ H)|exact (nan_of' _ _ H)].
Qed.

Lemma hyper_range x : nle nzero x = true ->
  nle nzero (ndiv none_ (nadd none_ x)) = true /\ nle (ndiv none_ (nadd none_ x)) none_ = true.
Proof.
  intros H. pose proof (one_plus_ge x H) as H1. split; [apply l_inv_pos; exact H1|].
  assert (Hn : nisnan none_ = false) by (apply l_fin_nan; exact l_fin_one).
  apply l_le_trans with (ndiv none_ none_).
  - apply l_inv_anti; [apply le_refl; exact Hn|exact H1].
  - apply eq_le1. apply l_inv_one. apply le_eq; apply le_refl; exact Hn.
Qed.
Lemma hyper_mono x y : nle nzero x = true -> nle x y = true ->
  nle (ndiv none_ (nadd none_ y)) (ndiv none_ (nadd none_ x)) = true.
Proof. intros H Hxy. apply l_inv_anti; [apply one_plus_ge; exact H|apply one_plus_mono; exact Hxy]. Qed.
Lemma hyper_0 x : neqb x nzero = true -> neqb (ndiv none_ (nadd none_ x)) none_ = true.
Proof. intros H. apply l_inv_one. apply one_plus_0. exact H. Qed.

(** ** The three weight functions *)
Lemma frac_range al d : nlt nzero al = true -> nle nzero d = true -> finite al \/ finite d ->
  nle nzero (fractionWeightFunction al d) = true /\ nle (fractionWeightFunction al d) none_ = true.
Proof. rewrite !finite_nfin. intros Hal Hd H. apply hyper_range. apply ratio_pos; assumption. Qed.
Lemma frac_mono al d d' : nlt nzero al = true -> nle nzero d = true -> nle d d' = true -> finite al \/ finite d' ->
  nle (fractionWeightFunction al d') (fractionWeightFunction al d) = true.
Proof.
  rewrite !finite_nfin. intros Hal Hd Hdd H. apply hyper_mono; [apply ratio_pos|apply ratio_mono]; try assumption.
  destruct H as [H|H]; [left; exact H|right]. exact (l_fin_between _ _ _ Hd Hdd l_fin_Z0 H).
Qed.
Lemma frac_zero al d : nlt nzero al = true -> neqb d nzero = true -> neqb (fractionWeightFunction al d) none_ = true.
Proof. intros Hal H. apply hyper_0. apply ratio_0; assumption. Qed.

Lemma sq_range al d : nlt nzero al = true -> nle nzero d = true -> finite al \/ finite d ->
  nle nzero (fractionSquaredWeightFunction al d) = true /\ nle (fractionSquaredWeightFunction al d) none_ = true.
Proof. rewrite !finite_nfin. intros Hal Hd H. apply hyper_range. apply l_sq_pos. apply ratio_pos; assumption. Qed.
Lemma sq_mono al d d' : nlt nzero al = true -> nle nzero d = true -> nle d d' = true -> finite al \/ finite d' ->
  nle (fractionSquaredWeightFunction al d') (fractionSquaredWeightFunction al d) = true.
Proof.
  rewrite !finite_nfin. intros Hal Hd Hdd H.
  assert (P : nle nzero (ndiv d al) = true).
  { apply ratio_pos; try assumption. destruct H as [H|H]; [left; exact H|right]. exact (l_fin_between _ _ _ Hd Hdd l_fin_Z0 H). }
  apply hyper_mono; [apply l_sq_pos; exact P|]. apply l_sq_mono; [exact P|]. apply ratio_mono; assumption.
Qed.
Lemma sq_zero al d : nlt nzero al = true -> neqb d nzero = true -> neqb (fractionSquaredWeightFunction al d) none_ = true.
Proof. intros Hal H. apply hyper_0. apply l_sq_0. apply ratio_0; assumption. Qed.

(** argument of the exponential *)
Notation width al := (nmul (nmul ntwo al) al).

Lemma neg_sq_nonpos d : nle nzero d = true -> nle (nneg (nmul d d)) nzero = true.
Proof.
  intros H. pose proof (l_sq_pos d H) as P. apply l_le_trans with (nneg nzero).
  - apply l_neg_anti. exact P.
  - apply eq_le1. apply l_neg_0.
Qed.

Lemma garg_nan al d : nlt nzero (width al) = true -> nle nzero d = true -> finite (width al) \/ finite (nmul d d) ->
  nisnan (ndiv (nneg (nmul d d)) (width al)) = false.
Proof.
  rewrite !finite_nfin. intros Hw Hd [H|H]; [apply l_div_nan_l|apply l_div_nan_r]; try assumption.
  - exact (nan_of _ _ (neg_sq_nonpos d Hd)).
  - rewrite l_neg_fin. exact H.
Qed.

Lemma garg_nonpos al d : nlt nzero (width al) = true -> nle nzero d = true -> finite (width al) \/ finite (nmul d d) ->
  nle (ndiv (nneg (nmul d d)) (width al)) nzero = true.
Proof.
  intros Hw Hd H. apply l_le_trans with (ndiv nzero (width al)).
  - apply l_div_mono; [exact Hw|apply neg_sq_nonpos; exact Hd|apply garg_nan; assumption|].
    apply l_div_nan_r; [exact Hw|exact l_fin_Z0].
  - apply eq_le1. apply l_div_0. exact Hw.
Qed.

Lemma garg_mono al d d' : nlt nzero (width al) = true -> nle nzero d = true -> nle d d' = true ->
  finite (width al) \/ finite (nmul d' d') ->
  nle (ndiv (nneg (nmul d' d')) (width al)) (ndiv (nneg (nmul d d)) (width al)) = true.
Proof.
  intros Hw Hd Hdd H. pose proof (l_sq_mono d d' Hd Hdd) as S. pose proof (l_sq_pos d Hd) as P.
  assert (Hd' : nle nzero d' = true) by exact (l_le_trans _ _ _ Hd Hdd).
  apply l_div_mono; [exact Hw|apply l_neg_anti; exact S| |]; apply garg_nan; try assumption.
  destruct H as [H|H]; [left; exact H|right]. rewrite finite_nfin in *. exact (l_fin_between _ _ _ P S l_fin_Z0 H).
Qed.

Lemma garg_zero al d : nlt nzero (width al) = true -> neqb d nzero = true ->
  neqb (ndiv (nneg (nmul d d)) (width al)) nzero = true.
Proof.
  intros Hw H. apply ratio_0; [exact Hw|]. pose proof (l_sq_0 d H) as S.
  apply le_eq.
  - apply neg_sq_nonpos. exact (eq_le2 _ _ H).
  - apply l_le_trans with (nneg nzero); [apply eq_le2; apply l_neg_0|]. apply l_neg_anti. apply eq_le1. exact S.
Qed.

Lemma gauss_range al d : good_exp -> nlt nzero (width al) = true -> nle nzero d = true ->
  finite (width al) \/ finite (nmul d d) ->
  nle nzero (gaussianWeightFunction al d) = true /\ nle (gaussianWeightFunction al d) none_ = true.
Proof. intros [G [_ _]] Hw Hd H. apply G. apply garg_nonpos; assumption. Qed.
Lemma gauss_mono al d d' : good_exp -> nlt nzero (width al) = true -> nle nzero d = true -> nle d d' = true ->
  finite (width al) \/ finite (nmul d' d') ->
  nle (gaussianWeightFunction al d') (gaussianWeightFunction al d) = true.
Proof. intros [_ [_ G]] Hw Hd Hdd H. apply G. apply garg_mono; assumption. Qed.
Lemma gauss_zero al d : good_exp -> nlt nzero (width al) = true -> neqb d nzero = true ->
  neqb (gaussianWeightFunction al d) none_ = true.
Proof. intros [_ [G _]] Hw H. apply G. apply garg_zero; assumption. Qed.

(** weights of an iterator *)
Lemma weights_applied w (it : cor_it) : weights it = vempty ->
  vlive (weights (getWeights w it)) = map w (offsets it) /\ offsets (getWeights w it) = [].
Proof.
  intros H. unfold getWeights, offsets. cbn. rewrite H.
  destruct (vpush_fold_live w (vlive (delta_t it)) vempty vwf_empty) as [_ [H1 _]]. split; [exact H1|reflexivity].
Qed.

End Facts.

Local Open Scope R_scope.
Lemma good_exp_exact : @good_exp XR.
Proof.
  split; [|split].
  - intros x. destruct x as [x| | |]; cbn; try discriminate.
    + intros H. apply Rleb_true in H. pose proof (exp_pos x). split; apply Rleb_true; [lra|].
      rewrite <- exp_0. destruct H as [H|H]; [left; apply exp_increasing; exact H|rewrite H; right; reflexivity].
    + intros _. split; apply Rleb_true; lra.
  - intros x H. apply xeqb_Fin in H. subst x. cbn. rewrite exp_0. apply Reqb_true. reflexivity.
  - intros x y. destruct x as [x| | |], y as [y| | |]; cbn; try discriminate; auto.
    + intros H. apply Rleb_true in H. apply Rleb_true. destruct H as [H|H]; [left; apply exp_increasing; exact H|rewrite H; right; reflexivity].
    + intros _. apply Rleb_true. left. apply exp_pos.
    + intros _. apply Rleb_true. right. reflexivity.
Qed.

(** exact values *)
Lemma frac_exact a d : 0 < a -> @fractionWeightFunction XR (Fin a) (Fin d) =
  if Reqb (1 + d / a) 0 then PInf else Fin (/ (1 + d / a)).
Proof.
  intros Ha. cbn. destruct (Reqb_spec a 0); [lra|]. cbn.
  destruct (Reqb_spec (1 + d / a) 0).
  - unfold xinf_sign. destruct (Reqb_spec 1 0); [lra|]. destruct (Rltb_spec 1 0); [lra|]. reflexivity.
  - f_equal. unfold Rdiv. ring.
Qed.
Lemma ratio_ge0 d a : 0 <= d -> 0 < a -> 0 <= d / a.
Proof. intros. apply Rmult_le_pos; [assumption|]. apply Rlt_le, Rinv_0_lt_compat. assumption. Qed.
Lemma ratio_lt d d' a : d < d' -> 0 < a -> d / a < d' / a.
Proof. intros. apply Rmult_lt_compat_r; [apply Rinv_0_lt_compat; assumption|assumption]. Qed.
Lemma frac_value a d : 0 < a -> 0 <= d -> @fractionWeightFunction XR (Fin a) (Fin d) = Fin (/ (1 + d / a)).
Proof.
  intros Ha Hd. rewrite frac_exact by exact Ha. pose proof (ratio_ge0 d a Hd Ha).
  destruct (Reqb_spec (1 + d / a) 0); [lra|reflexivity].
Qed.
Lemma sq_value a d : 0 < a -> 0 <= d -> @fractionSquaredWeightFunction XR (Fin a) (Fin d) = Fin (/ (1 + (d / a) * (d / a))).
Proof.
  intros Ha Hd. cbn. destruct (Reqb_spec a 0); [lra|]. cbn. pose proof (ratio_ge0 d a Hd Ha).
  destruct (Reqb_spec (1 + d / a * (d / a)) 0); [nra|]. f_equal. unfold Rdiv. ring.
Qed.
Lemma gauss_value a d : 0 < a -> @gaussianWeightFunction XR (Fin a) (Fin d) = Fin (exp (- (d * d) / (2 * a * a))).
Proof. intros Ha. cbn. destruct (Reqb_spec (2 * a * a) 0); [nra|]. reflexivity. Qed.

Lemma frac_strict a d d' : 0 < a -> 0 <= d -> d < d' ->
  nlt (@fractionWeightFunction XR (Fin a) (Fin d')) (@fractionWeightFunction XR (Fin a) (Fin d)) = true.
Proof.
  intros Ha Hd Hl. rewrite !frac_value by lra. cbn. apply Rltb_true.
  pose proof (ratio_ge0 d a Hd Ha). pose proof (ratio_lt d d' a Hl Ha). apply Rinv_lt_contravar; [|lra]. apply Rmult_lt_0_compat; lra.
Qed.
Lemma sq_strict a d d' : 0 < a -> 0 <= d -> d < d' ->
  nlt (@fractionSquaredWeightFunction XR (Fin a) (Fin d')) (@fractionSquaredWeightFunction XR (Fin a) (Fin d)) = true.
Proof.
  intros Ha Hd Hl. rewrite !sq_value by lra. cbn. apply Rltb_true.
  pose proof (ratio_ge0 d a Hd Ha). pose proof (ratio_lt d d' a Hl Ha). apply Rinv_lt_contravar; [|nra]. apply Rmult_lt_0_compat; nra.
Qed.
Lemma gauss_strict a d d' : 0 < a -> 0 <= d -> d < d' ->
  nlt (@gaussianWeightFunction XR (Fin a) (Fin d')) (@gaussianWeightFunction XR (Fin a) (Fin d)) = true.
Proof.
  intros Ha Hd Hl. rewrite !gauss_value by lra. cbn. apply Rltb_true. apply exp_increasing.
  unfold Rdiv. apply Rmult_lt_compat_r; [apply Rinv_0_lt_compat; nra|nra].
Qed.
