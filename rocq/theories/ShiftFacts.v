(** Times shifted without rounding, in binary64. *)
From Coq Require Import String.
From Coq Require Import ZArith Reals List Bool Arith Lia Lra.
From Flocq Require Import Core BinarySingleNaN.
From Verif Require Import Num Mem MemFacts XR B64 Spec SpecR DataStructure Correlator Sacf Api Laws B64Facts Laws2 DSFacts CorrFacts LoopFacts MainFacts
  RelFacts ConstrFacts TimeFacts AccFacts.
Import ListNotations.
Local Open Scope list_scope.
Local Open Scope R_scope.

(** ** A call sees the times only through the normalised ones *)
Lemma same_normalised {A : Num} (p : platform) (d d' : dstruct) rows mi ma re al sel wgt :
  accepted d -> accepted d' -> normalised_timeseries d' = normalised_timeseries d -> data_2d d = Ok rows -> data_2d d' = Ok rows ->
  median_time d' = median_time d /\
  visible (autocorrelation p d' mi ma re al sel wgt) = visible (autocorrelation p d mi ma re al sel wgt).
Proof.
  intros Ha Ha' Ht Hr Hr'.
  destruct (accepted_values d Ha) as [ts0 [data [er [N [-> [G1 [G2 [G3 G4]]]]]]]].
  destruct (accepted_values d' Ha') as [ts0' [data' [er' [N' [-> [G1' [G2' [G3' G4']]]]]]]].
  cbn [normalised_timeseries norm_t median_time t_median the_ds] in *. split; [rewrite Ht; reflexivity|].
  rewrite !visible_core by assumption.
  assert (Ec : acf_core p ts0' mi ma re al sel wgt = acf_core p ts0 mi ma re al sel wgt).
  { unfold acf_core, named_acf, acf_at. rewrite Ht. reflexivity. }
  rewrite Ec. rewrite Hr in G4. injection G4 as G4. rewrite Hr' in G4'. injection G4' as G4'. rewrite <- G4, <- G4'. reflexivity.
Qed.

(** ** The difference of two doubles depends only on its exact value *)
Lemma pos_zero (x : b64) : is_finite x = true -> x <> B754_zero true -> B2R x = 0 -> Bsign x = false.
Proof.
  destruct x as [[]| | |s m e H]; try discriminate; try congruence; try reflexivity. intros _ _ E. cbn in E.
  apply eq_0_F2R in E. destruct s; discriminate.
Qed.


Lemma sign_R (x : b64) : is_finite x = true -> if Bsign x then B2R x <= 0 else 0 <= B2R x.
Proof.
  destruct x as [[]| | |[] m e H]; try discriminate; intros _; cbn; try lra.
  - apply F2R_le_0. cbn. lia.
  - apply F2R_ge_0. cbn. lia.
Qed.

Lemma minus_eq (x y x' y' : b64) : is_finite x = true -> is_finite y = true -> is_finite x' = true -> is_finite y' = true ->
  x <> B754_zero true -> y <> B754_zero true -> x' <> B754_zero true -> y' <> B754_zero true ->
  B2R x - B2R y = B2R x' - B2R y' -> Bminus mode_NE x y = Bminus mode_NE x' y'.
Proof.
  intros Fx Fy Fx' Fy' Nx Ny Nx' Ny' E.
  pose proof (Bminus_correct 53 1024 _ _ mode_NE x y Fx Fy) as H. pose proof (Bminus_correct 53 1024 _ _ mode_NE x' y' Fx' Fy') as H'.
  rewrite <- E in H'.
  assert (sg : forall a b : b64, is_finite a = true -> is_finite b = true -> a <> B754_zero true -> b <> B754_zero true -> B2R a - B2R b = 0 -> Bsign a && negb (Bsign b) = false).
  { intros a b Fa Fb Na Nb Z. destruct (Req_dec (B2R a) 0) as [K|K].
    - rewrite (pos_zero a Fa Na K). reflexivity.
    - assert (Q : B2R a = B2R b) by lra. rewrite (B2R_inj _ _ a b); [destruct (Bsign b); reflexivity| | |exact Q].
      + destruct a; try discriminate; [cbn in K; lra|reflexivity].
      + rewrite Q in K. destruct b; try discriminate; [cbn in K; lra|reflexivity]. }
  destruct (Rlt_bool_spec (Rabs (round radix2 (SpecFloat.fexp 53 1024) (round_mode mode_NE) (B2R x - B2R y))) (bpow radix2 1024)) as [L|L].
  - destruct H as [V [F S]], H' as [V' [F' S']]. apply B2R_Bsign_inj; try assumption; [rewrite V, V'; reflexivity|]. rewrite S, S'.
    destruct (Rcompare_spec (B2R x - B2R y) 0) as [K|K|K]; try reflexivity.
    rewrite (sg x y), (sg x' y') by (assumption || lra). reflexivity.
  - assert (NZ : B2R x - B2R y <> 0).
    { intros Z. rewrite Z, round_0, Rabs_R0 in L by apply valid_rnd_N. pose proof (bpow_gt_0 radix2 1024). lra. }
    destruct H as [V S], H' as [V' S']. apply B2SF_inj. rewrite V, V'. f_equal.
    pose proof (sign_R x Fx) as P1. pose proof (sign_R y Fy) as P2. pose proof (sign_R x' Fx') as P3. pose proof (sign_R y' Fy') as P4.
    rewrite S in P1 |- *. rewrite S' in P3 |- *. destruct (Bsign y), (Bsign y'); cbn in *; try reflexivity; lra.
Qed.

Section Shift.
Context (exp64 : b64 -> b64).
Notation BN := (B64 exp64).

Lemma rel_times_exact (s : R) (ts ts' : list b64) : Forall2 (shifted_exactly s) ts ts' ->
  rel_times (A := BN) ts' = rel_times (A := BN) ts.
Proof.
  intros H. destruct H as [|t t' ts ts' Ht H]; [reflexivity|]. unfold rel_times. cbn [map].
  assert (G : forall x x', shifted_exactly s x x' -> @nsub BN x' t' = @nsub BN x t).
  { intros x x' [F [F' [N [N' E]]]]. destruct Ht as [Ft [Ft' [Nt [Nt' Et]]]]. change (Bminus mode_NE x' t' = Bminus mode_NE x t).
    apply minus_eq; try assumption. rewrite E, Et. ring. }
  f_equal; [apply G; exact Ht|]. induction H as [|x x' l l' Hx Hl IH]; cbn [map]; [reflexivity|]. f_equal; [apply G; exact Hx|exact IH].
Qed.

Lemma exact_shift_lemma (s : R) (p : platform) (d d' : @dstruct BN) (mi ma re al : option b64) (sel wgt : string) (rows : list (list b64)) :
  accepted d -> accepted d' -> Forall2 (shifted_exactly s) (timeseries d) (timeseries d') -> data_2d d = Ok rows -> data_2d d' = Ok rows ->
  normalised_timeseries d' = normalised_timeseries d /\ median_time d' = median_time d /\
  visible (autocorrelation (A := BN) p d' mi ma re al sel wgt) = visible (autocorrelation (A := BN) p d mi ma re al sel wgt).
Proof.
  intros Ha Ha' Ht Hr Hr'.
  assert (K : normalised_timeseries d' = normalised_timeseries d).
  { destruct (accepted_values d Ha) as [ts0 [data [er [N [-> _]]]]]. destruct (accepted_values d' Ha') as [ts0' [data' [er' [N' [-> _]]]]].
    exact (rel_times_exact s _ _ Ht). }
  split; [exact K|]. exact (same_normalised p d d' rows mi ma re al sel wgt Ha Ha' K Hr Hr').
Qed.
End Shift.
