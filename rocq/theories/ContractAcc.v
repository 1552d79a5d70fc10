(** Accuracy of the correlations when multiplications and additions are contracted. *)
From Coq Require Import String.
From Coq Require Import ZArith Reals List Bool Arith Lia Lra Psatz.
From Flocq Require Import Core Relative Plus_error BinarySingleNaN.
From Verif Require Import Num Mem MemFacts XR B64 Spec SpecR DataStructure Correlator Sacf Api Laws B64Facts Laws2 DSFacts CorrFacts MainFacts
  DefaultFacts WeightFacts WeightAcc ValFacts ExactFacts AccFacts OffFacts Contract ContractFacts.
Import ListNotations.
Local Open Scope list_scope.
Local Open Scope R_scope.

(** ** the fused operation *)
Lemma toE_fused (x y z : b64) : fin x = true -> fin y = true -> fin z = true ->
  toE (fused x y z) = rndE (Fin (B2R x * B2R y + B2R z)).
Proof.
  intros Fx Fy Fz. unfold fused. cbn [rndE].
  pose proof (Bfma_correct 53 1024 _ _ mode_NE x y z Fx Fy Fz) as H. cbv zeta in H.
  change (round radix2 (SpecFloat.fexp 53 1024) (round_mode mode_NE)) with rnd in H.
  change (bpow radix2 1024) with big in H. rewrite Rlt_bool_Rltb in H.
  destruct (Rltb_spec (Rabs (rnd (B2R x * B2R y + B2R z))) big) as [Hr|Hr].
  - destruct H as [H1 [H2 _]]. rewrite toE_finite by exact H2. f_equal. exact H1.
  - eapply toE_overflow; [exact Hr|exact H| |]; intros E; revert E;
      destruct (Rlt_bool_spec (B2R x * B2R y + B2R z) 0); try discriminate; lra.
Qed.

Lemma fused_args (x y z : b64) : fin (fused x y z) = true -> fin x = true /\ fin y = true /\ fin z = true.
Proof.
  unfold fused. destruct x as [s|s| |s m e H], y as [s'|s'| |s' m' e' H'], z as [s2|s2| |s2 m2 e2 H2]; cbn;
    try discriminate; auto; destruct (Bool.eqb _ _); discriminate.
Qed.

(** ** what the accumulation x*y+z guarantees, fused or not: it adds [g], a computed value of x*y, with one rounding *)
Record accum (F : b64 -> b64 -> b64 -> b64) : Prop := {
  ac_args : forall x y z, fin (F x y z) = true -> fin x = true /\ fin y = true /\ fin z = true;
  ac_near : forall x y z, fin (F x y z) = true ->
    exists g, Rabs (g - B2R x * B2R y) <= u64 * Rabs (B2R x * B2R y) + eta /\
      Rabs (B2R (F x y z) - (B2R z + g)) <= u64 * Rabs (B2R z + g);
  ac_pos : forall x y z, fin (F x y z) = true -> 0 <= B2R x * B2R y -> 0 <= B2R z -> 0 <= B2R (F x y z);
  ac_fin : forall x y z, fin x = true -> fin y = true -> fin z = true ->
    Rabs (B2R x * B2R y) <= bpow radix2 300 -> Rabs (B2R z) <= bpow radix2 300 -> fin (F x y z) = true
}.

Lemma two_steps_accum exp64 : accum (two_steps (A := B64 exp64)).
Proof.
  unfold two_steps. cbn [nadd nmul B64]. split.
  - intros x y z H. destruct (plus_inv _ _ H) as [Fz [Fm _]]. destruct (mult_inv _ _ Fm) as [Fx [Fy _]]. auto.
  - intros x y z H. destruct (plus_inv _ _ H) as [Fz [Fm E]]. destruct (mult_inv _ _ Fm) as [Fx [Fy Em]].
    exists (B2R (Bmult mode_NE x y)). split; [rewrite Em; apply rnd_err|]. rewrite E. apply rnd_plus.
  - intros x y z H P Pz. destruct (plus_inv _ _ H) as [Fz [Fm E]]. destruct (mult_inv _ _ Fm) as [Fx [Fy Em]]. rewrite E, Em.
    apply rnd_nonneg. pose proof (rnd_nonneg _ P). lra.
  - intros x y z Fx Fy Fz B1 B2. pose proof (rnd_bpow_le _ 300 ltac:(lia) B1) as B3.
    destruct (mult_fin x y Fx Fy) as [Fm Em]; [apply Rle_lt_trans with (1 := B3); apply big_gt; lia|].
    apply plus_fin; [exact Fz|exact Fm|].
    assert (B4 : Rabs (B2R z + B2R (Bmult mode_NE x y)) <= bpow radix2 301).
    { eapply Rle_trans; [apply Rabs_triang|]. rewrite Em. change 301%Z with (300 + 1)%Z. rewrite <- bpow_double. lra. }
    apply Rle_lt_trans with (1 := rnd_bpow_le _ 301 ltac:(lia) B4). apply big_gt. lia.
Qed.

Lemma rnd_rel_or_abs r : Rabs (rnd r - r) <= u64 * Rabs r \/ Rabs (rnd r - r) <= eta.
Proof.
  destruct (error_N_FLT radix2 (-1074) 53 eq_refl (fun z => negb (Z.even z)) r) as (e & h & He & Hh & Z & E).
  change (rnd r = r * (1 + e) + h) in E. rewrite E. apply Rmult_integral in Z. destruct Z as [->| ->].
  - right. replace (r * (1 + 0) + h - r) with h by ring. eapply Rle_trans; [exact Hh|]. unfold eta. change (-1075)%Z with (-1 + -1074)%Z.
    rewrite bpow_plus. apply Req_le. cbn [bpow]. reflexivity.
  - left. replace (r * (1 + e) + 0 - r) with (e * r) by ring. rewrite Rabs_mult. apply Rmult_le_compat_r; [apply Rabs_pos|].
    eapply Rle_trans; [exact He|]. apply Req_le. change (u_ro radix2 53 = u64). apply u_ro_64.
Qed.

Lemma fused_inv (x y z : b64) : fin (fused x y z) = true -> B2R (fused x y z) = rnd (B2R x * B2R y + B2R z).
Proof.
  intros H. destruct (fused_args _ _ _ H) as [Fx [Fy Fz]]. pose proof (toE_fused x y z Fx Fy Fz) as E. rewrite (fin_E _ H) in E.
  symmetry in E. apply rndE_inv in E. destruct E as [s [E1 E2]]. injection E1 as <-. exact E2.
Qed.

Lemma fused_accum : accum fused.
Proof.
  split.
  - exact fused_args.
  - intros x y z H. rewrite (fused_inv x y z H). set (r := B2R x * B2R y + B2R z). pose proof u64_pos as U. pose proof eta_pos as E0.
    pose proof (Rabs_pos (B2R x * B2R y)) as A0. pose proof (Rabs_pos (B2R z + (rnd r - B2R z))) as A1.
    assert (A2 : 0 <= u64 * Rabs (B2R x * B2R y)) by (apply Rmult_le_pos; lra).
    destruct (rnd_rel_or_abs r) as [K|K].
    + exists (B2R x * B2R y). split; [rewrite Rminus_eq_0, Rabs_R0; lra|]. replace (B2R z + B2R x * B2R y) with r by (unfold r; ring). exact K.
    + exists (rnd r - B2R z). split.
      * replace (rnd r - B2R z - B2R x * B2R y) with (rnd r - r) by (unfold r; ring). lra.
      * replace (rnd r - (B2R z + (rnd r - B2R z))) with 0 by ring. rewrite Rabs_R0. apply Rmult_le_pos; lra.
  - intros x y z H P Pz. rewrite (fused_inv x y z H). apply rnd_nonneg. lra.
  - intros x y z Fx Fy Fz B1 B2.
    assert (B4 : Rabs (B2R x * B2R y + B2R z) <= bpow radix2 301).
    { eapply Rle_trans; [apply Rabs_triang|]. change 301%Z with (300 + 1)%Z. rewrite <- bpow_double. lra. }
    assert (B5 : Rabs (rnd (B2R x * B2R y + B2R z)) < big) by (apply Rle_lt_trans with (1 := rnd_bpow_le _ 301 ltac:(lia) B4); apply big_gt; lia).
    pose proof (toE_fused x y z Fx Fy Fz) as E. cbn [rndE] in E.
    destruct (Rltb_spec (Rabs (rnd (B2R x * B2R y + B2R z))) big); [|contradiction]. apply E_fin in E. apply E.
Qed.

Lemma fused_at_accum exp64 b : accum (fused_at (exp64 := exp64) b).
Proof. destruct b; [exact fused_accum|exact (two_steps_accum exp64)]. Qed.

(** ** sums *)
Section Sum.
Context (F : b64 -> b64 -> b64 -> b64) (HF : accum F).
Context {X : Type} (P Y : X -> b64).
Definition ksum (Q : list X) (acc : b64) : b64 := fold_left (fun a q => F (P q) (Y q) a) Q acc.

Lemma ksum_fin Q acc : fin (ksum Q acc) = true -> fin acc = true /\ Forall (fun q => fin (P q) = true /\ fin (Y q) = true) Q.
Proof.
  revert acc. induction Q as [|q Q IH]; intros acc H; cbn in H; [auto|]. destruct (IH _ H) as [H1 H2].
  apply (ac_args F HF) in H1. destruct H1 as [H1 [H3 H4]]. auto.
Qed.

Lemma ksum_near (t e : X -> R) (a : R) : 0 <= a -> (forall q, 0 <= e q) -> forall Q acc,
  fin (ksum Q acc) = true ->
  Forall (fun q => fin (P q) = true -> fin (Y q) = true -> forall g,
    Rabs (g - B2R (P q) * B2R (Y q)) <= u64 * Rabs (B2R (P q) * B2R (Y q)) + eta -> Rabs (g - t q) <= a * Rabs (t q) + e q) Q ->
  Rabs (B2R (ksum Q acc) - (B2R acc + rsum (map t Q))) <=
    (PW (length Q) - 1) * Rabs (B2R acc) + ((1 + a) * PW (length Q) - 1) * rsum (map (fun q => Rabs (t q)) Q) + PW (length Q) * rsum (map e Q).
Proof.
  intros Ha He. induction Q as [|q Q IH]; intros acc H HQ.
  - cbn. unfold PW, rsum. cbn. rewrite Rplus_0_r, Rminus_eq_0, Rabs_R0. lra.
  - inversion HQ as [|? ? H1 H2]; subst. change (ksum (q :: Q) acc) with (ksum Q (F (P q) (Y q) acc)) in *. specialize (IH _ H H2).
    destruct (ksum_fin _ _ H) as [F1 _]. destruct (ac_args F HF _ _ _ F1) as [FP [FY Fa]]. destruct (ac_near F HF _ _ _ F1) as [g [G1 G2]].
    specialize (H1 FP FY g G1). cbn [map length]. rewrite !rsum_cons, PW_S. set (s1 := B2R (F (P q) (Y q) acc)) in *. set (s := B2R (ksum Q _)) in *.
    set (S := rsum (map t Q)) in *. set (AT := rsum (map (fun q => Rabs (t q)) Q)) in *. set (EE := rsum (map e Q)) in *.
    assert (AT0 : 0 <= AT) by (apply rsum_abs_pos).
    assert (EE0 : 0 <= EE).
    { unfold EE. clear - He. induction Q as [|q Q IH]; [apply Rle_refl|]. cbn [map]. rewrite rsum_cons. pose proof (He q). lra. }
    pose proof (PW_ge (length Q)) as Pp. set (p := PW (length Q)) in *. pose proof u64_pos as U. pose proof (He q) as Hq.
    pose proof (near _ _ _ G2) as N1. pose proof (near _ _ _ H1) as N2. set (ac := B2R acc) in *. set (tq := t q) in *.
    pose proof (Rabs_triang ac g) as N3. pose proof (Rabs_pos ac) as A0. pose proof (Rabs_pos tq) as T0. pose proof (Rabs_pos (ac + g)) as G0.
    replace (s - (ac + (tq + S))) with ((s - (s1 + S)) + ((s1 - (ac + g)) + (g - tq))) by ring.
    eapply Rle_trans; [apply Rabs_triang|]. pose proof (Rabs_triang (s1 - (ac + g)) (g - tq)) as N4.
    set (G := Rabs (ac + g)) in *.
    assert (N5 : G <= Rabs ac + (1 + a) * Rabs tq + e q) by lra.
    assert (K1 : (p - 1) * Rabs s1 <= (p - 1) * ((1 + u64) * G)) by (apply Rmult_le_compat_l; lra).
    assert (K2 : ((1 + u64) * p - 1) * G <= ((1 + u64) * p - 1) * (Rabs ac + (1 + a) * Rabs tq + e q)).
    { apply Rmult_le_compat_l; [nra|exact N5]. }
    assert (K3 : 0 <= u64 * p * ((1 + a) * AT + EE)).
    { apply Rmult_le_pos; [apply Rmult_le_pos; lra|]. assert (0 <= (1 + a) * AT) by (apply Rmult_le_pos; lra). lra. }
    nra.
Qed.

(** terms of at most [B] *)
Lemma ksum_range (B : R) : 1 <= B <= bpow radix2 299 -> forall Q acc, fin acc = true ->
  Forall (fun q => fin (P q) = true /\ fin (Y q) = true /\ Rabs (B2R (P q) * B2R (Y q)) <= B) Q ->
  PW (length Q) * (Rabs (B2R acc) + INR (length Q) * (2 * B)) <= bpow radix2 300 ->
  fin (ksum Q acc) = true /\ Rabs (B2R (ksum Q acc)) <= PW (length Q) * (Rabs (B2R acc) + INR (length Q) * (2 * B)).
Proof.
  intros HB. induction Q as [|q Q IH]; intros acc Fa HQ H.
  - cbn. split; [exact Fa|]. unfold PW. cbn. lra.
  - inversion HQ as [|? ? [FP [FY Bq]] HQ']; subst. change (ksum (q :: Q) acc) with (ksum Q (F (P q) (Y q) acc)).
    cbn [length] in *. rewrite S_INR, PW_S in *. pose proof (PW_ge (length Q)) as Pp. set (p := PW (length Q)) in *.
    pose proof (pos_INR (length Q)) as N0. set (n := INR (length Q)) in *. pose proof u64_pos as U. pose proof eta_small as E1. pose proof u64_small as U1.
    pose proof (Rabs_pos (B2R acc)) as A0. assert (N1 : 0 <= n * (2 * B)) by (apply Rmult_le_pos; lra).
    assert (Q1 : 1 <= (1 + u64) * p) by nra.
    assert (Ba : Rabs (B2R acc) <= bpow radix2 300).
    { apply Rle_trans with (2 := H). assert (Rabs (B2R acc) <= Rabs (B2R acc) + (n + 1) * (2 * B)) by lra.
      apply Rle_trans with (1 := H0). rewrite <- (Rmult_1_l (_ + _)) at 1. apply Rmult_le_compat_r; lra. }
    assert (Bq' : Rabs (B2R (P q) * B2R (Y q)) <= bpow radix2 300).
    { apply Rle_trans with (1 := Bq). apply Rle_trans with (1 := proj2 HB). apply bpow_le. lia. }
    pose proof (ac_fin F HF _ _ _ FP FY Fa Bq' Ba) as F1. destruct (ac_near F HF _ _ _ F1) as [g [G1 G2]].
    pose proof (near _ _ _ G1) as N2. pose proof (near _ _ _ G2) as N3. pose proof (Rabs_triang (B2R acc) g) as N4.
    assert (N5 : Rabs g <= 2 * B).
    { assert (u64 * Rabs (B2R (P q) * B2R (Y q)) <= u64 * B) by (apply Rmult_le_compat_l; lra). nra. }
    assert (N6 : Rabs (B2R (F (P q) (Y q) acc)) + n * (2 * B) <= (1 + u64) * (Rabs (B2R acc) + (n + 1) * (2 * B))).
    { assert (u64 * Rabs (B2R acc + g) <= u64 * (Rabs (B2R acc) + 2 * B)) by (apply Rmult_le_compat_l; lra).
      assert (0 <= u64 * (n * (2 * B))) by (apply Rmult_le_pos; lra). lra. }
    assert (N7 : p * (Rabs (B2R (F (P q) (Y q) acc)) + n * (2 * B)) <= (1 + u64) * p * (Rabs (B2R acc) + (n + 1) * (2 * B))).
    { replace ((1 + u64) * p * (Rabs (B2R acc) + (n + 1) * (2 * B))) with (p * ((1 + u64) * (Rabs (B2R acc) + (n + 1) * (2 * B)))) by ring.
      apply Rmult_le_compat_l; lra. }
    destruct (IH (F (P q) (Y q) acc) F1 HQ') as [I1 I2]; [lra|]. split; [exact I1|]. lra.
Qed.

Lemma ksum_pos Q acc : 0 <= B2R acc -> (forall q, 0 <= B2R (P q) * B2R (Y q)) -> fin (ksum Q acc) = true -> 0 <= B2R (ksum Q acc).
Proof.
  revert acc. induction Q as [|q Q IH]; intros acc Ha H Fs; [exact Ha|]. change (ksum (q :: Q) acc) with (ksum Q (F (P q) (Y q) acc)) in *.
  destruct (ksum_fin _ _ Fs) as [F1 _]. apply IH; [|exact H|exact Fs]. apply (ac_pos F HF); auto.
Qed.
End Sum.

(** ** terms *)
(** [g] is a computed value of (w*(x-mu))*(y-mu) *)
Lemma dev_term_g (w x y mu : b64) (g : R) :
  let p := Bmult mode_NE w (Bminus mode_NE x mu) in let y' := Bminus mode_NE y mu in
  let r := B2R w * (B2R x - B2R mu) * (B2R y - B2R mu) in
  fin p = true -> fin y' = true -> Rabs (g - B2R p * B2R y') <= u64 * Rabs (B2R p * B2R y') + eta ->
  Rabs (g - r) <= (PW 4 - 1) * Rabs r + eta * (1 + PW 2 * Rabs (B2R y - B2R mu)).
Proof.
  intros p y' r Fp F2 HG. destruct (mult_inv _ _ Fp) as [Fw [F1 Ep]]. destruct (minus_inv _ _ F1) as [Fx [Fm E1]], (minus_inv _ _ F2) as [Fy [_ E2]].
  fold p in Ep. fold y' in E2. pose proof (rnd_err (B2R w * B2R (Bminus mode_NE x mu))) as RP. rewrite <- Ep in RP. clear Ep.
  rewrite E1 in RP. rewrite E2 in HG. pose proof (rnd_minus x mu) as R1. pose proof (rnd_minus y mu) as R2. unfold r.
  set (X := B2R x - B2R mu) in *. set (Y := B2R y - B2R mu) in *. set (X' := rnd X) in *. set (Y' := rnd Y) in *. set (W := B2R w) in *. set (A := B2R p) in *.
  pose proof (near _ _ _ R1) as N1. pose proof (near _ _ _ R2) as N2. pose proof u64_pos as U. pose proof eta_pos as E0.
  assert (D : Rabs (W * X' * Y' - W * X * Y) <= (PW 2 - 1) * Rabs (W * X * Y)).
  { replace (W * X' * Y' - W * X * Y) with (W * ((X' - X) * Y' + X * (Y' - Y))) by ring. rewrite !Rabs_mult.
    pose proof (Rabs_pos W) as W0. pose proof (Rabs_pos X) as X0. pose proof (Rabs_pos Y) as Y0.
    replace ((PW 2 - 1) * (Rabs W * Rabs X * Rabs Y)) with (Rabs W * ((PW 2 - 1) * (Rabs X * Rabs Y))) by ring.
    apply Rmult_le_compat_l; [exact W0|]. eapply Rle_trans; [apply Rabs_triang|]. rewrite !Rabs_mult. unfold PW. cbn [pow].
    assert (K1 : Rabs (X' - X) * Rabs Y' <= (u64 * Rabs X) * ((1 + u64) * Rabs Y)) by (apply Rmult_le_compat; try apply Rabs_pos; lra).
    assert (K2 : Rabs X * Rabs (Y' - Y) <= Rabs X * (u64 * Rabs Y)) by (apply Rmult_le_compat_l; lra). nra. }
  pose proof (near _ _ _ D) as ND.
  assert (K : Rabs (g - W * X' * Y') <= (PW 2 - 1) * Rabs (W * X' * Y') + eta * (1 + (1 + u64) * Rabs Y')).
  { set (Q := W * X') in *. pose proof (near _ _ _ RP) as R3. rewrite !Rabs_mult in *.
    replace (g - Q * Y') with ((g - A * Y') + (A - Q) * Y') by ring.
    eapply Rle_trans; [apply Rabs_triang|]. rewrite Rabs_mult.
    pose proof (Rabs_pos Y') as Y0. assert (P0 : 0 <= Rabs W * Rabs X') by (apply Rmult_le_pos; apply Rabs_pos). unfold PW. cbn [pow].
    assert (Q0 : Rabs Q = Rabs W * Rabs X') by (unfold Q; apply Rabs_mult). rewrite Q0 in *.
    set (q := Rabs W * Rabs X') in *.
    assert (K1 : Rabs A * Rabs Y' <= ((1 + u64) * q + eta) * Rabs Y') by (apply Rmult_le_compat_r; lra).
    assert (K2 : Rabs (A - Q) * Rabs Y' <= (u64 * q + eta) * Rabs Y') by (apply Rmult_le_compat_r; lra). nra. }
  assert (K' : Rabs (g - W * X' * Y') <= (PW 2 - 1) * (PW 2 * Rabs (W * X * Y)) + eta * (1 + PW 2 * Rabs Y)).
  { eapply Rle_trans; [exact K|]. apply Rplus_le_compat.
    - apply Rmult_le_compat_l; [pose proof (PW_ge 2); lra|]. lra.
    - apply Rmult_le_compat_l; [lra|]. apply Rplus_le_compat_l. replace (PW 2 * Rabs Y) with ((1 + u64) * ((1 + u64) * Rabs Y)) by (unfold PW; ring).
      apply Rmult_le_compat_l; lra. }
  replace (g - W * X * Y) with ((g - W * X' * Y') + (W * X' * Y' - W * X * Y)) by ring.
  eapply Rle_trans; [apply Rabs_triang|]. replace (PW 4) with (PW 2 * PW 2) by (unfold PW; ring). nra.
Qed.

(** ** the normalisation *)
Section Moderate.
Context (exp64 : b64 -> b64).
Notation BN := (B64 exp64).
Context (F : b64 -> b64 -> b64 -> b64) (HF : accum F).
Context (row : list b64).
Let vs : list b64 := valid (A := BN) row.
Let n := length vs.
Let mu : b64 := mean (A := BN) row.
Hypothesis Hn0 : (0 < n)%nat.
Hypothesis Hn : (Z.of_nat n <= 2 ^ 50)%Z.
Hypothesis Hv : Forall (fun x : b64 => fin x = true /\ Rabs (B2R x) <= bpow radix2 100) vs.

Definition dev (x : b64) : b64 := Bminus mode_NE (b32_to_b64 (b64_to_b32 x)) mu.
Definition knorm : b64 := ksum F dev dev vs (b64_ofZ 0).

Lemma dev_moderate (x : b64) : fin x = true -> Rabs (B2R x) <= bpow radix2 100 ->
  fin (dev x) = true /\ Rabs (B2R (dev x) * B2R (dev x)) <= bpow radix2 208 /\
  forall g, Rabs (g - B2R (dev x) * B2R (dev x)) <= u64 * Rabs (B2R (dev x) * B2R (dev x)) + eta ->
    Rabs (g - rsq exp64 row x) <= (PW 3 - 1) * Rabs (rsq exp64 row x) + eta.
Proof.
  intros Fx Bx. pose proof (f32R_le (B2R x) 100 ltac:(lia) Bx) as B1. destruct (f32_value x Fx) as [F1 E1].
  { apply Rle_lt_trans with (1 := B1). apply bpow_lt. lia. }
  destruct (mean_moderate exp64 row Hn0 Hn Hv) as [Fm Bm]. fold mu in Fm, Bm. unfold dev, rsq. fold mu. set (X := b32_to_b64 (b64_to_b32 x)) in *. rewrite <- E1 in *. clear E1.
  assert (D1 : Rabs (B2R X - B2R mu) <= bpow radix2 104).
  { unfold Rminus. eapply Rle_trans; [apply Rabs_triang|]. rewrite Rabs_Ropp. change 104%Z with (103 + 1)%Z. rewrite <- bpow_double.
    assert (bpow radix2 100 <= bpow radix2 103) by (apply bpow_le; lia). lra. }
  pose proof (rnd_bpow_le _ 104 ltac:(lia) D1) as D2.
  destruct (minus_fin X mu F1 Fm) as [F2 E2]; [apply Rle_lt_trans with (1 := D2); apply big_gt; lia|].
  set (D := Bminus mode_NE X mu) in *. rewrite <- E2 in D2. split; [exact F2|].
  split; [rewrite Rabs_mult; change 208%Z with (104 + 104)%Z; rewrite bpow_plus; apply Rmult_le_compat; try apply Rabs_pos; exact D2|].
  intros g R1. pose proof (rnd_minus X mu) as R2. rewrite <- E2 in R2.
  set (d := B2R D) in *. set (t := B2R X - B2R mu) in *. pose proof (near _ _ _ R2) as N2. rewrite !Rabs_mult in *.
  replace (g - t * t) with ((g - d * d) + (d - t) * (d + t)) by ring. eapply Rle_trans; [apply Rabs_triang|]. rewrite Rabs_mult.
  pose proof (Rabs_triang d t) as T1. pose proof (Rabs_pos t) as T0. pose proof (Rabs_pos d) as Dp. pose proof u64_pos as U. pose proof (Rabs_pos (d - t)) as Q0.
  assert (K1 : Rabs (d - t) * Rabs (d + t) <= (u64 * Rabs t) * ((2 + u64) * Rabs t)) by (apply Rmult_le_compat; try apply Rabs_pos; lra).
  assert (K2 : Rabs d * Rabs d <= ((1 + u64) * Rabs t) * ((1 + u64) * Rabs t)) by (apply Rmult_le_compat; lra).
  unfold PW. cbn [pow]. nra.
Qed.

Lemma knorm_moderate :
  fin knorm = true /\ 0 <= B2R knorm <= bpow radix2 260 /\
  Rabs (B2R knorm - rsum (map (rsq exp64 row) vs)) <= (PW (n + 3) - 1) * rsum (map (rsq exp64 row) vs) + PW n * (INR n * eta).
Proof.
  pose proof (n_le exp64 row Hn) as NL. change (length (valid (A := BN) row)) with n in NL.
  assert (P2 : PW n <= 2) by (apply PW_small; lia). pose proof (PW_ge n) as P1. pose proof (pos_INR n) as N0.
  assert (PB : PW n * (Rabs (B2R (b64_ofZ 0)) + INR n * (2 * bpow radix2 208)) <= bpow radix2 260).
  { change (B2R (b64_ofZ 0)) with 0. rewrite Rabs_R0, Rplus_0_l. pose proof (bpow_gt_0 radix2 208) as B0.
    assert (B1 : INR n * (2 * bpow radix2 208) <= bpow radix2 259).
    { change 259%Z with (50 + (1 + 208))%Z. rewrite !bpow_plus. change (bpow radix2 1) with 2. apply Rmult_le_compat_r; [lra|exact NL]. }
    change 260%Z with (259 + 1)%Z. rewrite <- bpow_double. assert (0 <= INR n * (2 * bpow radix2 208)) by (apply Rmult_le_pos; lra).
    apply Rle_trans with (2 * (INR n * (2 * bpow radix2 208))); [apply Rmult_le_compat_r; assumption|lra]. }
  assert (HQ : Forall (fun q => fin (dev q) = true /\ fin (dev q) = true /\ Rabs (B2R (dev q) * B2R (dev q)) <= bpow radix2 208) vs).
  { eapply Forall_impl; [|exact Hv]. intros x [H1 H2]. destruct (dev_moderate x H1 H2) as [K1 [K2 _]]. auto. }
  destruct (ksum_range F HF dev dev (bpow radix2 208)) with (Q := vs) (acc := b64_ofZ 0) as [FN BN'].
  { split; [change 1 with (bpow radix2 0)|]; apply bpow_le; lia. }
  { reflexivity. }
  { exact HQ. }
  { change (length vs) with n. apply Rle_trans with (1 := PB). apply bpow_le. lia. }
  fold knorm in FN, BN'. change (length vs) with n in BN'. split; [exact FN|]. split.
  - split.
    + apply ksum_pos; [exact HF|cbn; lra|intros q; apply Rle_0_sqr|exact FN].
    + apply Rle_trans with (1 := Rle_abs _). lra.
  - assert (RP : rsum (map (fun x => Rabs (rsq exp64 row x)) vs) = rsum (map (rsq exp64 row) vs)).
    { f_equal. apply map_ext. intros x. apply Rabs_pos_eq. apply Rle_0_sqr. }
    assert (EP : rsum (map (fun _ : b64 => eta) vs) = INR n * eta).
    { change n with (length vs). clear. induction vs as [|x l IH]; [cbn; rewrite Rmult_0_l; reflexivity|]. cbn [map length]. rewrite rsum_cons, IH, S_INR. ring. }
    pose proof (PW_ge 3) as P3. pose proof eta_pos as E0.
    pose proof (ksum_near F HF dev dev (rsq exp64 row) (fun _ => eta) (PW 3 - 1) ltac:(lra) ltac:(intros; lra) vs (b64_ofZ 0) FN) as K.
    fold knorm in K. change (length vs) with n in K. rewrite RP, EP in K. change (B2R (b64_ofZ 0)) with 0 in K. rewrite Rabs_R0, Rplus_0_l, Rmult_0_r, Rplus_0_l in K.
    replace (PW (n + 3)) with ((1 + (PW 3 - 1)) * PW n) by (rewrite PW_add; ring). apply K.
    eapply Forall_impl; [|exact Hv]. intros x [H1 H2] _ _. apply (dev_moderate x H1 H2).
Qed.
End Moderate.

(** ** the value *)
Section Value.
Context (exp64 : b64 -> b64).
Notation BN := (B64 exp64).
Context (F1 F2 : b64 -> b64 -> b64 -> b64) (HF1 : accum F1) (HF2 : accum F2).
Context (row : list b64).
Let mu : b64 := mean (A := BN) row.
Let vs : list b64 := valid (A := BN) row.
Context (W Y1 Y2 : nat -> b64) (m : nat).
(** the exact sum over the pairs, the sum of the magnitudes, the exact normalisation *)
Let t (q : nat) : R := B2R (W q) * (B2R (Y1 q) - B2R mu) * (B2R (Y2 q) - B2R mu).
Let V : R := rsum (map t (seq 0 m)).
Let T : R := rsum (map (fun q => Rabs (t q)) (seq 0 m)).
Let N : R := rsum (map (rsq exp64 row) vs).
Let Pq (q : nat) : b64 := Bmult mode_NE (W q) (Bminus mode_NE (Y1 q) mu).
Let Yq (q : nat) : b64 := Bminus mode_NE (Y2 q) mu.
Let s : b64 := ksum F2 Pq Yq (seq 0 m) (b64_ofZ 0).
Let v : b64 := Bmult mode_NE s (Bdiv mode_NE (b64_ofZ 1) (knorm exp64 F1 row)).

Lemma kvalue_acc :
  (Z.of_nat (length row) <= 2 ^ 50)%Z -> (m <= length row)%nat ->
  (forall x : b64, In x row -> is_nan x = true \/ fin x = true /\ Rabs (B2R x) <= bpow radix2 100) ->
  (forall q, (q < m)%nat -> In (Y2 q) row) ->
  bpow radix2 (-800) <= N -> fin v = true ->
  Rabs (B2R v - V / N) <= 2 * INR (m + length vs + 10) * u64 * (T / N) + bpow radix2 (-110).
Proof.
  intros Hl Hm Hv HY HN Fv. pose proof (bpow_gt_0 radix2 (-800)) as B8. assert (N0 : 0 < N) by lra.
  assert (HV : Forall (fun x : b64 => fin x = true /\ Rabs (B2R x) <= bpow radix2 100) vs).
  { apply Forall_forall. intros x Hx. apply filter_In in Hx. destruct Hx as [Hx Hn]. destruct (Hv x Hx) as [C|C]; [|exact C].
    exfalso. cbn in Hn. rewrite C in Hn. discriminate. }
  assert (Lv : (length vs <= length row)%nat) by apply filter_le.
  assert (Hn0 : (0 < length vs)%nat).
  { destruct (Nat.eq_0_gt_0_cases (length vs)) as [C|C]; [|exact C]. exfalso. apply length_zero_iff_nil in C. unfold N in N0. rewrite C in N0. exact (Rlt_irrefl _ N0). }
  destruct (mean_moderate exp64 row Hn0 ltac:(fold vs; lia) HV) as [Fm Bm].
  destruct (knorm_moderate exp64 F1 HF1 row Hn0 ltac:(fold vs; lia) HV) as [FN [[N1 N2] N3]]. fold vs in N3. fold N in N3. fold mu in Fm, Bm.
  set (Nc := knorm exp64 F1 row) in *. set (n := length vs) in *.
  pose proof u64_pos as U. pose proof u64_val as UV. pose proof eta_pos as E0.
  assert (Ln : INR n <= bpow radix2 50) by (rewrite INR_IZR_INZ; change (bpow radix2 50) with (IZR (2 ^ 50)); apply IZR_le; lia).
  assert (Lm : INR m <= bpow radix2 50) by (rewrite INR_IZR_INZ; change (bpow radix2 50) with (IZR (2 ^ 50)); apply IZR_le; lia).
  assert (U8 : bpow radix2 50 * u64 = / 8).
  { unfold u64. rewrite <- bpow_plus. reflexivity. }
  assert (Gn : forall k a, INR k <= bpow radix2 50 -> (a <= 16)%nat -> INR (k + a) * u64 <= / 8 + 16 * u64).
  { intros k a Hk Ha. rewrite plus_INR. apply le_INR in Ha. change (INR 16) with (IZR (Z.of_nat 16)) in Ha || (rewrite (INR_IZR_INZ 16) in Ha). cbn [Z.of_nat Pos.of_succ_nat Pos.succ] in Ha.
    rewrite Rmult_plus_distr_r. apply Rplus_le_compat; [rewrite <- U8|]; apply Rmult_le_compat_r; lra. }
  destruct (PW_mid (n + 3) (Gn n 3%nat Ln ltac:(lia))) as [Pn1 Pn2]. destruct (PW_mid (m + 6) (Gn m 6%nat Lm ltac:(lia))) as [Pm1 Pm2].
  destruct (PW_mid (m + 2) (Gn m 2%nat Lm ltac:(lia))) as [_ Pm3].
  destruct (PW_mid n ltac:(rewrite <- (Nat.add_0_r n); apply Gn; [exact Ln|lia])) as [_ Pn4].
  (* the sum over the pairs *)
  set (e := fun q => if (q <? m)%nat then eta * (1 + PW 2 * Rabs (B2R (Y2 q) - B2R mu)) else 0).
  set (E := rsum (map (fun q => eta * (1 + PW 2 * Rabs (B2R (Y2 q) - B2R mu))) (seq 0 m))).
  assert (HS : fin s = true -> Rabs (B2R s - V) <= (PW (m + 4) - 1) * T + PW m * E).
  { intros Fs. pose proof (PW_ge 4) as P4.
    pose proof (ksum_near F2 HF2 Pq Yq t (fun q => eta * (1 + PW 2 * Rabs (B2R (Y2 q) - B2R mu))) (PW 4 - 1) ltac:(lra)) as K.
    assert (He : forall q, 0 <= eta * (1 + PW 2 * Rabs (B2R (Y2 q) - B2R mu))).
    { intros q. apply Rmult_le_pos; [lra|]. pose proof (PW_ge 2). pose proof (Rabs_pos (B2R (Y2 q) - B2R mu)).
      assert (0 <= PW 2 * Rabs (B2R (Y2 q) - B2R mu)) by (apply Rmult_le_pos; lra). lra. }
    specialize (K He (seq 0 m) (b64_ofZ 0) Fs). fold s in K. rewrite seq_length in K. change (B2R (b64_ofZ 0)) with 0 in K.
    rewrite Rabs_R0, Rplus_0_l, Rmult_0_r, Rplus_0_l in K.
    replace (PW (m + 4)) with ((1 + (PW 4 - 1)) * PW m) by (rewrite PW_add; ring). apply K.
    apply Forall_forall. intros q _ FP FY g Hg. exact (dev_term_g (W q) (Y1 q) (Y2 q) mu g FP FY Hg). }
  assert (HVT : Rabs V <= T).
  { unfold V, T. generalize (seq 0 m). induction l as [|q l IH]; cbn [map]; [unfold rsum; cbn; rewrite Rabs_R0; apply Rle_refl|]. rewrite !rsum_cons.
    eapply Rle_trans; [apply Rabs_triang|]. lra. }
  destruct (mult_inv _ _ Fv) as [Fs _].
  assert (HE : 0 <= E <= bpow radix2 50 * (eta * bpow radix2 106)).
  { assert (G : forall l, (forall q, In q l -> (q < m)%nat /\ fin (Yq q) = true) ->
      0 <= rsum (map (fun q => eta * (1 + PW 2 * Rabs (B2R (Y2 q) - B2R mu))) l) <= INR (length l) * (eta * bpow radix2 106)).
    { induction l as [|q l IH]; intros H; [cbn; unfold rsum; cbn; lra|]. cbn [map length]. rewrite rsum_cons, S_INR.
      specialize (IH (fun q Hq => H q (or_intror Hq))). destruct (H q (or_introl eq_refl)) as [Hq Ft].
      destruct (minus_inv _ _ Ft) as [Fy _].
      assert (By : Rabs (B2R (Y2 q)) <= bpow radix2 100).
      { destruct (Hv _ (HY q Hq)) as [C|C]; [|apply C]. exfalso. destruct (Y2 q); discriminate. }
      assert (D : Rabs (B2R (Y2 q) - B2R mu) <= bpow radix2 104).
      { unfold Rminus. eapply Rle_trans; [apply Rabs_triang|]. rewrite Rabs_Ropp. change 104%Z with (103 + 1)%Z. rewrite <- bpow_double.
        assert (bpow radix2 100 <= bpow radix2 103) by (apply bpow_le; lia). lra. }
      pose proof (Rabs_pos (B2R (Y2 q) - B2R mu)) as D0. set (D' := Rabs (B2R (Y2 q) - B2R mu)) in *.
      assert (P2 : 1 <= PW 2 <= 2) by (split; [apply PW_ge|apply PW_small; cbn; lia]).
      assert (Q : 0 <= 1 + PW 2 * D' <= bpow radix2 106).
      { assert (0 <= PW 2 * D') by (apply Rmult_le_pos; lra). assert (PW 2 * D' <= 2 * bpow radix2 104) by (apply Rmult_le_compat; lra).
        change 106%Z with (105 + 1)%Z. rewrite <- bpow_double. assert (1 <= bpow radix2 105) by (change 1 with (bpow radix2 0); apply bpow_le; lia).
        pose proof (bpow_double 104) as BD. change (104 + 1)%Z with 105%Z in BD. lra. }
      assert (0 <= eta * (1 + PW 2 * D') <= eta * bpow radix2 106) by (split; [apply Rmult_le_pos|apply Rmult_le_compat_l]; lra). lra. }
    destruct (G (seq 0 m)) as [G1 G2].
    { intros q Hq. split; [apply in_seq in Hq; lia|]. destruct (ksum_fin F2 HF2 Pq Yq _ _ Fs) as [_ Fl].
      rewrite Forall_forall in Fl. apply Fl. exact Hq. }
    split; [exact G1|]. fold E in G2. rewrite seq_length in G2. eapply Rle_trans; [exact G2|]. apply Rmult_le_compat_r; [|exact Lm].
    apply Rmult_le_pos; [lra|apply bpow_ge_0]. }
  destruct HE as [HE1 HE2].
  assert (N2' : B2R Nc <= bpow radix2 900) by (eapply Rle_trans; [exact N2|apply bpow_le; lia]).
  destruct (quotient_acc s Nc v V T E m eq_refl Fv FN (conj N1 N2') HS HVT HE1) as [NP K].
  (* the normalisation *)
  assert (Tiny : PW n * (INR n * eta) <= u64 * N).
  { apply Rle_trans with (2 * (bpow radix2 50 * eta)).
    - apply Rmult_le_compat; [pose proof (PW_ge n); lra|apply Rmult_le_pos; [apply pos_INR|lra]|lra|apply Rmult_le_compat_r; lra].
    - apply Rle_trans with (u64 * bpow radix2 (-800)); [|apply Rmult_le_compat_l; lra]. unfold eta, u64. rewrite <- !bpow_plus.
      change 2 with (bpow radix2 1). rewrite <- bpow_plus. apply bpow_le. lia. }
  assert (N3' : Rabs (B2R Nc - N) <= 1.15 * (INR (n + 4) * u64) * N).
  { eapply Rle_trans; [exact N3|]. apply Rle_trans with (1.15 * (INR (n + 3) * u64) * N + u64 * N).
    - apply Rplus_le_compat; [apply Rmult_le_compat_r; lra|exact Tiny].
    - replace (INR (n + 4)) with (INR (n + 3) + 1) by (rewrite !plus_INR; cbn; lra).
      assert (0 <= u64 * N) by (apply Rmult_le_pos; lra). lra. }
  set (h := 1.15 * (INR (n + 4) * u64)) in *. set (nc := B2R Nc) in *.
  assert (Hh : h <= 0.15).
  { unfold h. pose proof (Gn n 4%nat Ln ltac:(lia)) as G. assert (16 * u64 <= 1 / 1000000) by (rewrite UV; lra). lra. }
  assert (Hnc : 0.85 * N <= nc).
  { assert (h * N <= 0.15 * N) by (apply Rmult_le_compat_r; lra). unfold Rabs in N3'. destruct (Rcase_abs (nc - N)); lra. }
  assert (I0 : 0 < / N) by (apply Rinv_0_lt_compat; exact N0). assert (I1 : 0 < / nc) by (apply Rinv_0_lt_compat; exact NP).
  assert (I2 : / nc <= / N * (20 / 17)).
  { apply (Rmult_le_reg_r nc); [exact NP|]. rewrite Rinv_l by lra. apply (Rmult_le_reg_l N); [exact N0|].
    replace (N * (/ N * (20 / 17) * nc)) with (20 / 17 * nc) by (field; lra). lra. }
  assert (I3 : Rabs (/ nc - / N) <= h * / nc).
  { replace (/ nc - / N) with ((N - nc) * (/ N * / nc)) by (field; lra). rewrite Rabs_mult, (Rabs_pos_eq (/ N * / nc)) by (apply Rmult_le_pos; lra).
    rewrite Rabs_minus_sym. apply Rle_trans with (h * N * (/ N * / nc)); [apply Rmult_le_compat_r; [apply Rmult_le_pos; lra|exact N3']|].
    apply Req_le. field. lra. }
  assert (T0 : 0 <= T) by (pose proof (Rabs_pos V); lra).
  replace (B2R v - V / N) with ((B2R v - V / nc) + V * (/ nc - / N)) by (unfold Rdiv; ring).
  eapply Rle_trans; [apply Rabs_triang|]. rewrite (Rabs_mult V).
  assert (J1 : Rabs V * Rabs (/ nc - / N) <= T * (h * / nc)) by (apply Rmult_le_compat; try apply Rabs_pos; assumption).
  set (g := 1.15 * (INR (m + 6) * u64)) in *.
  assert (J2 : ((PW (m + 6) - 1) * T + PW (m + 2) * E) / nc <= (g * T) * / nc + 1.15 * E * / nc).
  { unfold Rdiv. rewrite Rmult_plus_distr_r. apply Rplus_le_compat; apply Rmult_le_compat_r; try lra; apply Rmult_le_compat_r; lra. }
  assert (J3 : (g + h) * T * / nc <= (g + h) * T * (/ N * (20 / 17))).
  { apply Rmult_le_compat_l; [|exact I2]. apply Rmult_le_pos; [|exact T0]. unfold g, h.
    pose proof (pos_INR (m + 6)). pose proof (pos_INR (n + 4)). assert (0 <= INR (m + 6) * u64) by (apply Rmult_le_pos; lra).
    assert (0 <= INR (n + 4) * u64) by (apply Rmult_le_pos; lra). lra. }
  assert (J4 : 1.15 * E * / nc <= bpow radix2 (-111)).
  { apply Rle_trans with (2 * (bpow radix2 50 * (eta * bpow radix2 106)) * (bpow radix2 800 * 2)).
    - apply Rmult_le_compat; [lra|lra|lra|]. eapply Rle_trans; [exact I2|]. assert (/ N <= bpow radix2 800); [|lra].
      replace (bpow radix2 800) with (/ bpow radix2 (-800)) by (rewrite <- bpow_opp; reflexivity). apply Rinv_le; assumption.
    - unfold eta. change 2 with (bpow radix2 1). rewrite <- !bpow_plus. apply bpow_le. lia. }
  assert (J5 : eta <= bpow radix2 (-111)) by (apply bpow_le; lia). pose proof (bpow_double (-111)) as J6. change (-111 + 1)%Z with (-110)%Z in J6.
  assert (J7 : (g + h) * T * (/ N * (20 / 17)) <= 2 * INR (m + n + 10) * u64 * (T / N)).
  { replace (2 * INR (m + n + 10) * u64 * (T / N)) with (2 * (INR (m + n + 10) * u64) * (T * / N)) by (unfold Rdiv; ring).
    replace ((g + h) * T * (/ N * (20 / 17))) with ((g + h) * (20 / 17) * (T * / N)) by ring.
    apply Rmult_le_compat_r; [apply Rmult_le_pos; lra|]. unfold g, h.
    replace (INR (m + n + 10)) with (INR (m + 6) + INR (n + 4)) by (rewrite <- plus_INR; f_equal; lia).
    pose proof (pos_INR (m + 6)). pose proof (pos_INR (n + 4)). assert (0 <= INR (m + 6) * u64) by (apply Rmult_le_pos; lra).
    assert (0 <= INR (n + 4) * u64) by (apply Rmult_le_pos; lra). lra. }
  lra.
Qed.

(** data of moderate size, no value missing: the result is finite *)
Lemma kvalue_fin :
  (Z.of_nat (length row) <= 2 ^ 50)%Z -> (m <= length row)%nat ->
  (forall x : b64, In x row -> fin x = true /\ Rabs (B2R x) <= bpow radix2 100) ->
  (forall q, (q < m)%nat -> In (Y1 q) row /\ In (Y2 q) row /\ fin (W q) = true /\ Rabs (B2R (W q)) <= 1) ->
  bpow radix2 (-750) <= N -> fin v = true.
Proof.
  intros Hl Hm Hv HY HN. pose proof (bpow_gt_0 radix2 (-750)) as B8. assert (N0 : 0 < N) by lra.
  assert (HV : Forall (fun x : b64 => fin x = true /\ Rabs (B2R x) <= bpow radix2 100) vs).
  { apply Forall_forall. intros x Hx. apply filter_In in Hx. apply Hv. apply Hx. }
  assert (Lv : (length vs <= length row)%nat) by apply filter_le.
  assert (Hn0 : (0 < length vs)%nat).
  { destruct (Nat.eq_0_gt_0_cases (length vs)) as [C|C]; [|exact C]. exfalso. apply length_zero_iff_nil in C. unfold N in N0. rewrite C in N0. exact (Rlt_irrefl _ N0). }
  destruct (mean_moderate exp64 row Hn0 ltac:(fold vs; lia) HV) as [Fm Bm].
  destruct (knorm_moderate exp64 F1 HF1 row Hn0 ltac:(fold vs; lia) HV) as [FN [[N1 N2] N3]]. fold vs in N3. fold N in N3. fold mu in Fm, Bm.
  set (Nc := knorm exp64 F1 row) in *. set (n := length vs) in *.
  pose proof u64_pos as U. pose proof u64_val as UV. pose proof eta_pos as E0.
  assert (Ln : INR n <= bpow radix2 50) by (rewrite INR_IZR_INZ; change (bpow radix2 50) with (IZR (2 ^ 50)); apply IZR_le; lia).
  assert (Lm : INR m <= bpow radix2 50) by (rewrite INR_IZR_INZ; change (bpow radix2 50) with (IZR (2 ^ 50)); apply IZR_le; lia).
  assert (U8 : bpow radix2 50 * u64 = / 8).
  { unfold u64. rewrite <- bpow_plus. reflexivity. }
  assert (G3 : INR (n + 3) * u64 <= / 8 + 16 * u64).
  { rewrite plus_INR. change (INR 3) with (IZR (Z.of_nat 3)) || rewrite (INR_IZR_INZ 3). cbn [Z.of_nat Pos.of_succ_nat Pos.succ].
    rewrite Rmult_plus_distr_r. apply Rplus_le_compat; [rewrite <- U8|]; apply Rmult_le_compat_r; lra. }
  destruct (PW_mid (n + 3) G3) as [Pn1 Pn2].
  assert (Hnc : 0.8 * N <= B2R Nc).
  { assert (P2 : PW n <= 2) by (apply PW_small; lia).
    assert (Tiny : PW n * (INR n * eta) <= 0.05 * N).
    { apply Rle_trans with (2 * (bpow radix2 50 * eta)).
      - apply Rmult_le_compat; [pose proof (PW_ge n); lra|apply Rmult_le_pos; [apply pos_INR|lra]|lra|apply Rmult_le_compat_r; lra].
      - apply Rle_trans with (u64 * bpow radix2 (-750)); [|apply Rmult_le_compat; try lra; apply bpow_ge_0]. unfold eta, u64. rewrite <- !bpow_plus.
        change 2 with (bpow radix2 1). rewrite <- bpow_plus. apply bpow_le. lia. }
    assert ((PW (n + 3) - 1) * N <= 0.15 * N) by (apply Rmult_le_compat_r; lra).
    unfold Rabs in N3. destruct (Rcase_abs (B2R Nc - N)); lra. }
  (* the sum *)
  assert (TB : forall q, (q < m)%nat -> fin (Pq q) = true /\ fin (Yq q) = true /\ Rabs (B2R (Pq q) * B2R (Yq q)) <= bpow radix2 208).
  { intros q Hq. destruct (HY q Hq) as [H1 [H2 [Fw Bw]]]. destruct (Hv _ H1) as [Fy1 B1], (Hv _ H2) as [Fy2 B2].
    assert (D : forall y : b64, fin y = true -> Rabs (B2R y) <= bpow radix2 100 ->
      fin (Bminus mode_NE y mu) = true /\ Rabs (B2R (Bminus mode_NE y mu)) <= bpow radix2 104).
    { intros y Fy By. assert (D1 : Rabs (B2R y - B2R mu) <= bpow radix2 104).
      { unfold Rminus. eapply Rle_trans; [apply Rabs_triang|]. rewrite Rabs_Ropp. change 104%Z with (103 + 1)%Z. rewrite <- bpow_double.
        assert (bpow radix2 100 <= bpow radix2 103) by (apply bpow_le; lia). lra. }
      pose proof (rnd_bpow_le _ 104 ltac:(lia) D1) as D2.
      destruct (minus_fin y mu Fy Fm) as [F E]; [apply Rle_lt_trans with (1 := D2); apply big_gt; lia|]. rewrite E. auto. }
    destruct (D _ Fy1 B1) as [FD1 BD1], (D _ Fy2 B2) as [FD2 BD2]. unfold Pq, Yq.
    assert (M1 : Rabs (B2R (W q) * B2R (Bminus mode_NE (Y1 q) mu)) <= bpow radix2 104).
    { rewrite Rabs_mult, <- (Rmult_1_l (bpow radix2 104)). apply Rmult_le_compat; try apply Rabs_pos; assumption. }
    pose proof (rnd_bpow_le _ 104 ltac:(lia) M1) as M2.
    destruct (mult_fin _ _ Fw FD1) as [FM EM]; [apply Rle_lt_trans with (1 := M2); apply big_gt; lia|]. rewrite <- EM in M2.
    split; [exact FM|]. split; [exact FD2|].
    rewrite Rabs_mult. change 208%Z with (104 + 104)%Z. rewrite bpow_plus. apply Rmult_le_compat; try apply Rabs_pos; assumption. }
  assert (HQ : Forall (fun q => fin (Pq q) = true /\ fin (Yq q) = true /\ Rabs (B2R (Pq q) * B2R (Yq q)) <= bpow radix2 208) (seq 0 m)).
  { apply Forall_forall. intros q Hq. apply in_seq in Hq. apply TB. lia. }
  assert (P2 : PW m <= 2) by (apply PW_small; lia). pose proof (PW_ge m) as P1. pose proof (pos_INR m) as M0.
  assert (PB : PW m * (Rabs (B2R (b64_ofZ 0)) + INR m * (2 * bpow radix2 208)) <= bpow radix2 260).
  { change (B2R (b64_ofZ 0)) with 0. rewrite Rabs_R0, Rplus_0_l. pose proof (bpow_gt_0 radix2 208) as B0.
    assert (B1 : INR m * (2 * bpow radix2 208) <= bpow radix2 259).
    { change 259%Z with (50 + (1 + 208))%Z. rewrite !bpow_plus. change (bpow radix2 1) with 2. apply Rmult_le_compat_r; [lra|exact Lm]. }
    change 260%Z with (259 + 1)%Z. rewrite <- bpow_double. assert (0 <= INR m * (2 * bpow radix2 208)) by (apply Rmult_le_pos; lra).
    apply Rle_trans with (2 * (INR m * (2 * bpow radix2 208))); [apply Rmult_le_compat_r; assumption|lra]. }
  destruct (ksum_range F2 HF2 Pq Yq (bpow radix2 208)) with (Q := seq 0 m) (acc := b64_ofZ 0) as [Fs Bs].
  { split; [change 1 with (bpow radix2 0)|]; apply bpow_le; lia. }
  { reflexivity. }
  { exact HQ. }
  { rewrite seq_length. apply Rle_trans with (1 := PB). apply bpow_le. lia. }
  fold s in Fs, Bs. rewrite seq_length in Bs. apply (fun H => Rle_trans _ _ _ H PB) in Bs.
  (* the quotient *)
  assert (NP : 0 < B2R Nc) by lra.
  assert (I1 : Rabs (1 / B2R Nc) <= bpow radix2 751).
  { unfold Rdiv. rewrite Rmult_1_l, Rabs_pos_eq by (apply Rlt_le, Rinv_0_lt_compat; exact NP).
    replace (bpow radix2 751) with (/ bpow radix2 (-751)) by (rewrite <- bpow_opp; reflexivity). apply Rinv_le; [apply bpow_gt_0|].
    pose proof (bpow_double (-751)) as BD. change (-751 + 1)%Z with (-750)%Z in BD. lra. }
  pose proof (rnd_bpow_le _ 751 ltac:(lia) I1) as I2.
  destruct (E_fin _ _ one_E) as [Fo E1].
  destruct (div_fin (b64_ofZ 1) Nc Fo FN ltac:(lra)) as [Fr Er].
  { rewrite E1. apply Rle_lt_trans with (1 := I2). apply big_gt. lia. }
  rewrite E1 in Er. rewrite <- Er in I2.
  unfold v. fold Nc. apply mult_fin; [exact Fs|exact Fr|].
  assert (M : Rabs (B2R s * B2R (Bdiv mode_NE (b64_ofZ 1) Nc)) <= bpow radix2 1011).
  { rewrite Rabs_mult. change 1011%Z with (260 + 751)%Z. rewrite bpow_plus. apply Rmult_le_compat; try apply Rabs_pos; assumption. }
  apply Rle_lt_trans with (1 := rnd_bpow_le _ 1011 ltac:(lia) M). apply big_gt. lia.
Qed.
End Value.
