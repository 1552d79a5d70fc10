(** binary64 as rounded extended-real arithmetic, and the order laws. *)
From Coq Require Import ZArith Reals List Bool Lia Lra.
From Coq Require Import SpecFloat.
From Flocq Require Import Core Plus_error BinarySingleNaN.
From Verif Require Import Num XR B64 Laws.
Local Open Scope R_scope.

(** value of a double *)
Definition toE (x : b64) : xr :=
  match x with
  | B754_zero _ => Fin 0
  | B754_infinity false => PInf
  | B754_infinity true => NInf
  | B754_nan => NaN
  | B754_finite _ _ _ _ => Fin (B2R x)
  end.

Lemma toE_finite x : is_finite x = true -> toE x = Fin (B2R x).
Proof. destruct x; cbn; try discriminate; reflexivity. Qed.

Lemma toE_Fin x r : toE x = Fin r -> is_finite x = true /\ B2R x = r.
Proof. destruct x as [s|[|]| |s m e H]; cbn; intros E; try discriminate; injection E as <-; auto. Qed.

Lemma toE_nan x : toE x = NaN <-> is_nan x = true.
Proof. destruct x as [s|[|]| |s m e H]; cbn; split; intros; try discriminate; reflexivity. Qed.

Lemma is_nan_toE x : is_nan x = xisnan (toE x).
Proof. destruct x as [s|[|]| |s m e H]; reflexivity. Qed.

Lemma Rlt_bool_Rltb a b : Rlt_bool a b = Rltb a b.
Proof. destruct (Rlt_bool_spec a b), (Rltb_spec a b); try reflexivity; lra. Qed.
Lemma Rle_bool_Rleb a b : Rle_bool a b = Rleb a b.
Proof. destruct (Rle_bool_spec a b), (Rleb_spec a b); try reflexivity; lra. Qed.
Lemma Req_bool_Reqb a b : Req_bool a b = Reqb a b.
Proof. destruct (Req_bool_spec a b), (Reqb_spec a b); try reflexivity; lra. Qed.

Lemma Bltb_toE x y : Bltb x y = xlt (toE x) (toE y).
Proof.
  destruct (is_finite x) eqn:Fx, (is_finite y) eqn:Fy.
  - rewrite Bltb_correct, !toE_finite by assumption. apply Rlt_bool_Rltb.
  - destruct x as [s|[|]| |s m e H], y as [s'|[|]| |s' m' e' H']; try discriminate; reflexivity.
  - destruct x as [s|[|]| |s m e H], y as [s'|[|]| |s' m' e' H']; try discriminate; reflexivity.
  - destruct x as [s|[|]| |s m e H], y as [s'|[|]| |s' m' e' H']; try discriminate; reflexivity.
Qed.

Lemma Bleb_toE x y : Bleb x y = xle (toE x) (toE y).
Proof.
  destruct (is_finite x) eqn:Fx, (is_finite y) eqn:Fy.
  - rewrite Bleb_correct, !toE_finite by assumption. apply Rle_bool_Rleb.
  - destruct x as [s|[|]| |s m e H], y as [s'|[|]| |s' m' e' H']; try discriminate; reflexivity.
  - destruct x as [s|[|]| |s m e H], y as [s'|[|]| |s' m' e' H']; try discriminate; reflexivity.
  - destruct x as [s|[|]| |s m e H], y as [s'|[|]| |s' m' e' H']; try discriminate; reflexivity.
Qed.

Lemma Beqb_toE x y : Beqb x y = xeqb (toE x) (toE y).
Proof.
  destruct (is_finite x) eqn:Fx, (is_finite y) eqn:Fy.
  - rewrite Beqb_correct, !toE_finite by assumption. apply Req_bool_Reqb.
  - destruct x as [s|[|]| |s m e H], y as [s'|[|]| |s' m' e' H']; try discriminate; reflexivity.
  - destruct x as [s|[|]| |s m e H], y as [s'|[|]| |s' m' e' H']; try discriminate; reflexivity.
  - destruct x as [s|[|]| |s m e H], y as [s'|[|]| |s' m' e' H']; try discriminate; reflexivity.
Qed.

Lemma toE_opp x : toE (Bopp x) = xneg (toE x).
Proof.
  destruct x as [s|[|]| |s m e H]; cbn; try reflexivity.
  - f_equal. lra.
  - f_equal. change (B2R (Bopp (B754_finite s m e H)) = - B2R (B754_finite s m e H)). apply B2R_Bopp.
Qed.

Lemma toE_abs x : toE (Babs x) = xabs (toE x).
Proof.
  destruct x as [s|[|]| |s m e H]; cbn; try reflexivity.
  - f_equal. rewrite Rabs_R0. reflexivity.
  - f_equal. change (B2R (Babs (B754_finite s m e H)) = Rabs (B2R (B754_finite s m e H))). apply B2R_Babs.
Qed.

(** ** Rounding *)
Notation fexp64 := (FLT_exp (-1074) 53).
Definition rnd (r : R) : R := round radix2 fexp64 ZnearestE r.
Definition big : R := bpow radix2 1024.

Definition rndE (a : xr) : xr :=
  match a with
  | Fin r => if Rltb (Rabs (rnd r)) big then Fin (rnd r) else if Rltb r 0 then NInf else PInf
  | _ => a
  end.

#[export] Instance valid_fexp64 : Valid_exp fexp64.
Proof. apply FLT_exp_valid. reflexivity. Qed.

#[export] Instance exp_not_FTZ64 : Exp_not_FTZ fexp64.
Proof. intros e. unfold FLT_exp. lia. Qed.

Lemma rnd_le a b : a <= b -> rnd a <= rnd b.
Proof. intros H. apply round_le; auto with typeclass_instances. Qed.
Lemma rnd_0 : rnd 0 = 0.
Proof. apply round_0. auto with typeclass_instances. Qed.
Lemma rnd_opp a : rnd (- a) = - rnd a.
Proof. unfold rnd. apply round_NE_opp. Qed.
Lemma rnd_fix (x : b64) : rnd (B2R x) = B2R x.
Proof. apply round_generic; auto with typeclass_instances. apply (generic_format_B2R 53 1024). Qed.

Lemma xle_Fin_rndE a b : a <= b -> xle (rndE (Fin a)) (rndE (Fin b)) = true.
Proof.
  intros H. pose proof (rnd_le a b H) as Hr. unfold rndE.
  assert (Hbig : 0 < big) by apply bpow_gt_0.
  destruct (Rltb_spec (Rabs (rnd a)) big) as [Ha|Ha], (Rltb_spec (Rabs (rnd b)) big) as [Hb|Hb]; cbn.
  - apply Rleb_true. exact Hr.
  - destruct (Rltb_spec b 0) as [Hb0|Hb0]; [|reflexivity]. exfalso.
    assert (rnd b <= 0) by (rewrite <- rnd_0; apply rnd_le; lra).
    apply Rabs_def2 in Ha. rewrite (Rabs_left1 _ H0) in Hb. lra.
  - destruct (Rltb_spec a 0) as [Ha0|Ha0]; [reflexivity|]. exfalso.
    assert (0 <= rnd a) by (rewrite <- rnd_0; apply rnd_le; lra).
    apply Rabs_def2 in Hb. rewrite (Rabs_pos_eq _ H0) in Ha. lra.
  - destruct (Rltb_spec a 0), (Rltb_spec b 0); try reflexivity; lra.
Qed.

Lemma xle_rndE a b : xle a b = true -> xle (rndE a) (rndE b) = true.
Proof.
  destruct a as [a| | |], b as [b| | |]; try discriminate; try reflexivity.
  - intros H. apply Rleb_true in H. apply xle_Fin_rndE. exact H.
  - intros _. cbn [rndE]. destruct (Rltb _ _); [reflexivity|]. destruct (Rltb a 0); reflexivity.
  - intros _. cbn [rndE]. destruct (Rltb _ _); [reflexivity|]. destruct (Rltb b 0); reflexivity.
Qed.

Lemma xisnan_rndE a : xisnan (rndE a) = xisnan a.
Proof. destruct a as [a| | |]; cbn; try reflexivity. destruct (Rltb _ _); [reflexivity|]. destruct (Rltb a 0); reflexivity. Qed.

Lemma xle_self a : xisnan a = false -> xle a a = true.
Proof. destruct a; cbn; intros H; try reflexivity; [|discriminate]. apply Rleb_true. lra. Qed.

Lemma rndE_toE (x : b64) : rndE (toE x) = toE x.
Proof.
  destruct (is_finite x) eqn:F.
  - rewrite toE_finite by exact F. unfold rndE. rewrite rnd_fix.
    destruct (Rltb_spec (Rabs (B2R x)) big) as [H|H]; [reflexivity|].
    exfalso. apply H. apply (abs_B2R_lt_emax 53 1024).
  - destruct x as [s|[|]| |s m e H]; try discriminate; reflexivity.
Qed.

Lemma SF_inf (x : b64) s : B2SF x = S754_infinity s -> x = B754_infinity s.
Proof. destruct x; cbn; try discriminate. intros E. injection E as ->. reflexivity. Qed.

(** sign and value *)
Lemma Bsign_neg (x : b64) : is_finite x = true -> Bsign x = true -> B2R x <= 0.
Proof.
  destruct x as [s|s| |s m e H]; cbn; try discriminate; intros _ E; [lra|]. subst s.
  apply Rlt_le. apply F2R_lt_0. reflexivity.
Qed.
Lemma Bsign_pos (x : b64) : is_finite x = true -> Bsign x = false -> 0 <= B2R x.
Proof.
  destruct x as [s|s| |s m e H]; cbn; try discriminate; intros _ E; [lra|]. subst s.
  apply Rlt_le. apply F2R_gt_0. reflexivity.
Qed.

Lemma rnd_big_nonzero r : ~ Rabs (rnd r) < big -> r <> 0.
Proof.
  intros H E. subst r. rewrite rnd_0, Rabs_R0 in H. apply H. apply bpow_gt_0.
Qed.

Lemma toE_overflow (z : b64) (r : R) s :
  ~ Rabs (rnd r) < big -> B2SF z = binary_overflow 53 1024 mode_NE s ->
  (s = true -> r <= 0) -> (s = false -> 0 <= r) -> toE z = if Rltb r 0 then NInf else PInf.
Proof.
  intros Hn Hz Ht Hf. apply rnd_big_nonzero in Hn. apply SF_inf in Hz. subst z.
  destruct s; cbn.
  - specialize (Ht eq_refl). destruct (Rltb_spec r 0); [reflexivity|lra].
  - specialize (Hf eq_refl). destruct (Rltb_spec r 0); [lra|reflexivity].
Qed.

Lemma toE_plus x y : toE (Bplus mode_NE x y) = rndE (xadd (toE x) (toE y)).
Proof.
  destruct (is_finite x) eqn:Fx, (is_finite y) eqn:Fy.
  - rewrite (toE_finite x), (toE_finite y) by assumption. cbn [xadd rndE].
    pose proof (Bplus_correct 53 1024 _ _ mode_NE x y Fx Fy) as H.
    change (round radix2 (SpecFloat.fexp 53 1024) (round_mode mode_NE)) with rnd in H.
    change (bpow radix2 1024) with big in H. rewrite Rlt_bool_Rltb in H.
    destruct (Rltb_spec (Rabs (rnd (B2R x + B2R y))) big) as [Hr|Hr].
    + destruct H as [H1 [H2 _]]. rewrite toE_finite by exact H2. f_equal. exact H1.
    + destruct H as [H1 H2]. eapply toE_overflow; [exact Hr|exact H1| |].
      * intros E. pose proof (Bsign_neg x Fx E). rewrite E in H2. pose proof (Bsign_neg y Fy (Logic.eq_sym H2)). lra.
      * intros E. pose proof (Bsign_pos x Fx E). rewrite E in H2. pose proof (Bsign_pos y Fy (Logic.eq_sym H2)). lra.
  - destruct x as [s|[|]| |s m e H], y as [s'|[|]| |s' m' e' H']; try discriminate; reflexivity.
  - destruct x as [s|[|]| |s m e H], y as [s'|[|]| |s' m' e' H']; try discriminate; reflexivity.
  - destruct x as [s|[|]| |s m e H], y as [s'|[|]| |s' m' e' H']; try discriminate; reflexivity.
Qed.

Lemma toE_minus x y : toE (Bminus mode_NE x y) = rndE (xsub (toE x) (toE y)).
Proof.
  destruct (is_finite x) eqn:Fx, (is_finite y) eqn:Fy.
  - rewrite (toE_finite x), (toE_finite y) by assumption. cbn [xsub xneg xadd rndE].
    pose proof (Bminus_correct 53 1024 _ _ mode_NE x y Fx Fy) as H.
    change (round radix2 (SpecFloat.fexp 53 1024) (round_mode mode_NE)) with rnd in H.
    change (bpow radix2 1024) with big in H. rewrite Rlt_bool_Rltb in H.
    change (B2R x - B2R y) with (B2R x + - B2R y) in H.
    destruct (Rltb_spec (Rabs (rnd (B2R x + - B2R y))) big) as [Hr|Hr].
    + destruct H as [H1 [H2 _]]. rewrite toE_finite by exact H2. f_equal. exact H1.
    + destruct H as [H1 H2]. eapply toE_overflow; [exact Hr|exact H1| |].
      * intros E. pose proof (Bsign_neg x Fx E). rewrite E in H2.
        assert (E2 : Bsign y = false) by (destruct (Bsign y); [discriminate|reflexivity]).
        pose proof (Bsign_pos y Fy E2). lra.
      * intros E. pose proof (Bsign_pos x Fx E). rewrite E in H2.
        assert (E2 : Bsign y = true) by (destruct (Bsign y); [reflexivity|discriminate]).
        pose proof (Bsign_neg y Fy E2). lra.
  - destruct x as [s|[|]| |s m e H], y as [s'|[|]| |s' m' e' H']; try discriminate; reflexivity.
  - destruct x as [s|[|]| |s m e H], y as [s'|[|]| |s' m' e' H']; try discriminate; reflexivity.
  - destruct x as [s|[|]| |s m e H], y as [s'|[|]| |s' m' e' H']; try discriminate; reflexivity.
Qed.

Lemma B2R_finite_sign (s : bool) m e (H : SpecFloat.bounded 53 1024 m e = true) :
  if s then B2R (B754_finite s m e H : b64) < 0 else 0 < B2R (B754_finite s m e H : b64).
Proof. destruct s; [apply F2R_lt_0|apply F2R_gt_0]; reflexivity. Qed.

Ltac sign_cases :=
  repeat match goal with
  | |- context [Reqb ?a ?b] => destruct (Reqb_spec a b); [exfalso; lra|]
  | |- context [Rltb ?a ?b] => destruct (Rltb_spec a b); try (exfalso; lra); []
  end; reflexivity.

Lemma toE_mult x y : toE (Bmult mode_NE x y) = rndE (xmul (toE x) (toE y)).
Proof.
  destruct (is_finite x) eqn:Fx, (is_finite y) eqn:Fy.
  - rewrite (toE_finite x), (toE_finite y) by assumption. cbn [xmul rndE].
    pose proof (Bmult_correct 53 1024 _ _ mode_NE x y) as H.
    change (round radix2 (SpecFloat.fexp 53 1024) (round_mode mode_NE)) with rnd in H.
    change (bpow radix2 1024) with big in H. rewrite Rlt_bool_Rltb in H.
    destruct (Rltb_spec (Rabs (rnd (B2R x * B2R y))) big) as [Hr|Hr].
    + destruct H as [H1 [H2 _]]. rewrite Fx, Fy in H2. rewrite toE_finite by exact H2. f_equal. exact H1.
    + eapply toE_overflow; [exact Hr|exact H| |].
      * intros E. destruct (Bsign x) eqn:Ex, (Bsign y) eqn:Ey; try discriminate.
        -- pose proof (Bsign_neg x Fx Ex). pose proof (Bsign_pos y Fy Ey). nra.
        -- pose proof (Bsign_pos x Fx Ex). pose proof (Bsign_neg y Fy Ey). nra.
      * intros E. destruct (Bsign x) eqn:Ex, (Bsign y) eqn:Ey; try discriminate.
        -- pose proof (Bsign_neg x Fx Ex). pose proof (Bsign_neg y Fy Ey). nra.
        -- pose proof (Bsign_pos x Fx Ex). pose proof (Bsign_pos y Fy Ey). nra.
  - destruct x as [s|[|]| |s m e H], y as [s'|[|]| |s' m' e' H']; try discriminate; try reflexivity;
      cbn [toE xmul]; unfold xinf_sign;
      try (destruct (Reqb_spec 0 0); [reflexivity|lra]);
      pose proof (B2R_finite_sign s m e H) as Hs; destruct s; sign_cases.
  - destruct x as [s|[|]| |s m e H], y as [s'|[|]| |s' m' e' H']; try discriminate; try reflexivity;
      cbn [toE xmul]; unfold xinf_sign;
      try (destruct (Reqb_spec 0 0); [reflexivity|lra]);
      pose proof (B2R_finite_sign s' m' e' H') as Hs; destruct s'; sign_cases.
  - destruct x as [s|[|]| |s m e H], y as [s'|[|]| |s' m' e' H']; try discriminate; reflexivity.
Qed.

(** division by a non-zero number *)
Lemma toE_div x y : toE y <> Fin 0 -> toE (Bdiv mode_NE x y) = rndE (xdiv (toE x) (toE y)).
Proof.
  intros Hy0. destruct (is_finite x) eqn:Fx, (is_finite y) eqn:Fy.
  - rewrite (toE_finite y) in Hy0 by assumption.
    assert (Hy : B2R y <> 0) by congruence.
    rewrite (toE_finite x), (toE_finite y) by assumption. cbn [xdiv].
    destruct (Reqb_spec (B2R y) 0) as [E|_]; [congruence|]. cbn [rndE].
    pose proof (Bdiv_correct 53 1024 _ _ mode_NE x y Hy) as H.
    change (round radix2 (SpecFloat.fexp 53 1024) (round_mode mode_NE)) with rnd in H.
    change (bpow radix2 1024) with big in H. rewrite Rlt_bool_Rltb in H.
    destruct (Rltb_spec (Rabs (rnd (B2R x / B2R y))) big) as [Hr|Hr].
    + destruct H as [H1 [H2 _]]. rewrite Fx in H2. rewrite toE_finite by exact H2. f_equal. exact H1.
    + assert (Hinv : 0 < B2R y -> 0 < / B2R y) by apply Rinv_0_lt_compat.
      assert (Hinv' : B2R y < 0 -> / B2R y < 0) by apply Rinv_lt_0_compat.
      unfold Rdiv in *.
      eapply toE_overflow; [exact Hr|exact H| |].
      * intros E. destruct (Bsign x) eqn:Ex, (Bsign y) eqn:Ey; try discriminate.
        -- pose proof (Bsign_neg x Fx Ex). pose proof (Bsign_pos y Fy Ey). nra.
        -- pose proof (Bsign_pos x Fx Ex). pose proof (Bsign_neg y Fy Ey). nra.
      * intros E. destruct (Bsign x) eqn:Ex, (Bsign y) eqn:Ey; try discriminate.
        -- pose proof (Bsign_neg x Fx Ex). pose proof (Bsign_neg y Fy Ey). nra.
        -- pose proof (Bsign_pos x Fx Ex). pose proof (Bsign_pos y Fy Ey). nra.
  - assert (R0 : rndE (Fin 0) = Fin 0).
    { cbn [rndE]. rewrite rnd_0, Rabs_R0. destruct (Rltb_spec 0 big) as [|n]; [reflexivity|]. exfalso. apply n. apply bpow_gt_0. }
    destruct x as [s|[|]| |s m e H], y as [s'|[|]| |s' m' e' H']; try discriminate; try reflexivity; cbn [toE xdiv];
      rewrite R0; reflexivity.
  - destruct y as [s'|[|]| |s' m' e' H']; try discriminate.
    + cbn in Hy0. congruence.
    + pose proof (B2R_finite_sign s' m' e' H') as Hs.
      destruct x as [s|[|]| |s m e H]; try discriminate; try reflexivity; cbn [toE xdiv]; destruct s'; sign_cases.
  - destruct x as [s|[|]| |s m e H], y as [s'|[|]| |s' m' e' H']; try discriminate; reflexivity.
Qed.

(** conversions *)
Lemma toE_ofZ z : toE (b64_ofZ z) = rndE (Fin (IZR z)).
Proof.
  unfold b64_ofZ. pose proof (binary_normalize_correct 53 1024 _ _ mode_NE z 0 false) as H. cbv zeta in H.
  change (round radix2 (SpecFloat.fexp 53 1024) (round_mode mode_NE)) with rnd in H.
  change (bpow radix2 1024) with big in H. rewrite Rlt_bool_Rltb in H.
  assert (E : F2R (Float radix2 z 0) = IZR z) by (unfold F2R; cbn; ring).
  rewrite E in H. cbn [rndE].
  destruct (Rltb_spec (Rabs (rnd (IZR z))) big) as [Hr|Hr].
  - destruct H as [H1 [H2 _]]. rewrite toE_finite by exact H2. f_equal. exact H1.
  - eapply toE_overflow; [exact Hr|exact H| |]; rewrite Rlt_bool_Rltb.
    + intros E1. apply Rltb_true in E1. lra.
    + intros E1. apply Rltb_false in E1. exact E1.
Qed.

Lemma rnd_IZR z : (Z.abs z <= 2 ^ 53)%Z -> rnd (IZR z) = IZR z.
Proof.
  intros H. apply round_generic; auto with typeclass_instances.
  destruct (Z.eq_dec (Z.abs z) (2 ^ 53)) as [E|E].
  - assert (Hz : IZR z = bpow radix2 53 \/ IZR z = - bpow radix2 53).
    { assert (z = 2 ^ 53 \/ z = - 2 ^ 53)%Z as [-> | ->] by lia; [left|right]; cbn; lra. }
    destruct Hz as [-> | ->]; [|apply generic_format_opp]; apply generic_format_bpow; unfold FLT_exp; lia.
  - apply generic_format_FLT. exists (Float radix2 z 0); unfold F2R; cbn [Fnum Fexp].
    + cbn. ring.
    + change (radix_val radix2) with 2%Z. lia.
    + lia.
Qed.

Lemma big_IZR z : (Z.abs z <= 2 ^ 53)%Z -> Rabs (IZR z) < big.
Proof.
  intros H. rewrite <- abs_IZR. apply Rle_lt_trans with (bpow radix2 53).
  - replace (bpow radix2 53) with (IZR (2 ^ 53)) by reflexivity. apply IZR_le. exact H.
  - apply bpow_lt. lia.
Qed.

Lemma toE_ofZ_small z : (Z.abs z <= 2 ^ 53)%Z -> toE (b64_ofZ z) = Fin (IZR z).
Proof.
  intros H. rewrite toE_ofZ. cbn [rndE]. rewrite rnd_IZR by exact H.
  pose proof (big_IZR z H) as Hb. destruct (Rltb_spec (Rabs (IZR z)) big); [reflexivity|lra].
Qed.

(** ** Laws *)
Section Laws.
Variable exp64 : b64 -> b64.
Local Existing Instance XR_laws.

Lemma fin_toE (x : b64) : @nfin (B64 exp64) x = match toE x with Fin _ => true | _ => false end.
Proof. destruct x as [s|[|]| |s m e H]; reflexivity. Qed.

Lemma toE_inj (x y : b64) : toE x = toE y -> (toE x = Fin 0 -> x = y) -> x = y.
Proof.
  intros H H0. destruct (is_finite x) eqn:Fx, (is_finite y) eqn:Fy.
  - rewrite !toE_finite in H by assumption. injection H as H.
    destruct (Req_dec (B2R x) 0) as [E|E]; [apply H0; rewrite toE_finite by exact Fx; f_equal; exact E|].
    apply B2R_inj; [|rewrite H in E|exact H]; apply is_finite_strict_B2R; assumption.
  - destruct x as [s|[|]| |s m e Hx], y as [s'|[|]| |s' m' e' H']; try discriminate.
  - destruct x as [s|[|]| |s m e Hx], y as [s'|[|]| |s' m' e' H']; try discriminate.
  - destruct x as [s|[|]| |s m e Hx], y as [s'|[|]| |s' m' e' H']; try discriminate; reflexivity.
Qed.

Lemma Bminus_self (x : b64) : is_finite x = true -> Bminus mode_NE x x = B754_zero false.
Proof.
  intros F. pose proof (Bminus_correct 53 1024 _ _ mode_NE x x F F) as H.
  rewrite Rminus_diag_eq in H by reflexivity. rewrite round_0 in H by auto with typeclass_instances.
  rewrite Rabs_R0, Rlt_bool_true in H by apply bpow_gt_0. rewrite Rcompare_Eq in H by reflexivity.
  destruct H as [H1 [H2 H3]].
  destruct (Bminus mode_NE x x) as [s|s| |s m e Hx] eqn:E; try discriminate.
  - cbn in H3. f_equal. rewrite H3. destruct (Bsign x); reflexivity.
  - exfalso. pose proof (B2R_finite_sign s m e Hx). destruct s; lra.
Qed.

Lemma rnd_pos_sub (x y : b64) : B2R x < B2R y -> 0 < rnd (B2R y - B2R x).
Proof.
  intros H. assert (Hle : 0 <= rnd (B2R y - B2R x)) by (rewrite <- rnd_0; apply rnd_le; lra).
  destruct Hle as [Hl|He]; [exact Hl|]. exfalso.
  pose proof (round_plus_neq_0 radix2 fexp64 ZnearestE (B2R y) (- B2R x)) as Hn.
  apply Hn; auto with typeclass_instances.
  - apply (generic_format_B2R 53 1024).
  - apply generic_format_opp. apply (generic_format_B2R 53 1024).
  - lra.
Qed.

Lemma zero64 : b64_ofZ 0 = B754_zero false. Proof. reflexivity. Qed.

Lemma f32_nan (x : b64) : is_nan (b32_to_b64 (b64_to_b32 x)) = is_nan x.
Proof.
  destruct x as [s|s| |s m e H]; try reflexivity.
  unfold b64_to_b32. pose proof (is_nan_binary_normalize 24 128 _ _ mode_NE (cond_Zopp s (Zpos m)) e s) as H1.
  destruct (binary_normalize 24 128 _ _ mode_NE (cond_Zopp s (Zpos m)) e s) as [s1|s1| |s1 m1 e1 Hb1]; try discriminate; try reflexivity.
  cbn [b32_to_b64 is_nan]. apply is_nan_binary_normalize.
Qed.

#[export] Instance B64_laws : NumLaws (B64 exp64).
Proof.
  constructor; intros; rewrite ?fin_toE in *; unfold nzero in *; cbn [num nadd nsub nmul ndiv nneg nabs nlt nle neqb nisnan nofZ nfloor ntrunc nf32 nexp B64] in *;
    rewrite ?Bltb_toE, ?Bleb_toE, ?Beqb_toE, ?is_nan_toE in *.
  - eapply (l_le_trans (A:=XR)); eassumption.
  - apply (l_le_nan (A:=XR)). assumption.
  - apply (l_le_total (A:=XR)); assumption.
  - apply (l_lt (A:=XR)).
  - apply (l_eq (A:=XR)).
  - destruct (toE a); try discriminate; reflexivity.
  - reflexivity.
  - destruct (toE a), (toE b), (toE c); try discriminate; reflexivity.
  - rewrite !toE_plus, !xisnan_rndE in *. apply xle_rndE. apply (l_add_mono (A:=XR)); assumption.
  - rewrite !toE_minus, !xisnan_rndE in *. apply xle_rndE. apply (l_sub_mono (A:=XR)); assumption.
  - rewrite !toE_minus, !xisnan_rndE in *. apply xle_rndE. apply (l_sub_anti (A:=XR)); assumption.
  - rewrite toE_plus, xisnan_rndE. destruct (toE a), (toE b); try discriminate; reflexivity.
  - rewrite toE_minus, xisnan_rndE. destruct (toE a), (toE b); try discriminate; reflexivity.
  - rewrite zero64. apply Bminus_self. destruct a as [s|[|]| |s m e Hx]; try discriminate; reflexivity.
  - (* sub_pos *)
    rewrite toE_minus, xisnan_rndE in *. change (toE (b64_ofZ 0)) with (Fin 0).
    destruct (is_finite a) eqn:Fa, (is_finite b) eqn:Fb.
    + rewrite !toE_finite in * by assumption. apply Rltb_true in H. cbn [xsub xneg xadd rndE].
      pose proof (rnd_pos_sub a b H) as Hp. unfold Rminus in Hp.
      destruct (Rltb_spec (Rabs (rnd (B2R b + - B2R a))) big).
      * apply Rltb_true. exact Hp.
      * destruct (Rltb_spec (B2R b + - B2R a) 0); [lra|reflexivity].
    + destruct a as [s|[|]| |s m e Hx], b as [s'|[|]| |s' m' e' H']; try discriminate; reflexivity.
    + destruct a as [s|[|]| |s m e Hx], b as [s'|[|]| |s' m' e' H']; try discriminate; reflexivity.
    + destruct a as [s|[|]| |s m e Hx], b as [s'|[|]| |s' m' e' H']; try discriminate; reflexivity.
  - rewrite toE_minus. change (toE (b64_ofZ 0)) with (Fin 0).
    assert (E : xsub (toE a) (Fin 0) = toE a) by (destruct (toE a); cbn; try reflexivity; f_equal; ring).
    rewrite E, rndE_toE. rewrite xeqb_le, xle_self by assumption. reflexivity.
  - rewrite toE_plus. change (toE (b64_ofZ 0)) with (Fin 0).
    assert (E : xadd (toE a) (Fin 0) = toE a) by (destruct (toE a); cbn; try reflexivity; f_equal; ring).
    rewrite E, rndE_toE. rewrite xeqb_le, xle_self by assumption. reflexivity.
  - rewrite !toE_opp. apply (l_neg_anti (A:=XR)). assumption.
  - cbn. apply Reqb_true. reflexivity.
  - rewrite toE_opp. destruct (toE a); reflexivity.
  - rewrite toE_opp. destruct (toE a); reflexivity.
  - rewrite toE_abs. apply (l_abs_pos (A:=XR)). exact H.
  - rewrite toE_abs, toE_opp. apply (l_abs_neg (A:=XR)). exact H.
  - rewrite toE_abs. destruct (toE a); reflexivity.
  - (* abs sub *)
    apply toE_inj.
    + rewrite !toE_abs, !toE_minus. destruct (toE a) as [x| | |], (toE b) as [y| | |]; try reflexivity.
      cbn [xsub xneg xadd rndE]. replace (x + - y) with (- (y + - x)) by ring. rewrite rnd_opp, Rabs_Ropp.
      destruct (Rltb _ _); cbn [xabs]; [rewrite Rabs_Ropp; reflexivity|].
      destruct (Rltb (- (y + - x)) 0), (Rltb (y + - x) 0); reflexivity.
    + intros E0. 
      assert (Z : forall u v : b64, toE (Babs (Bminus mode_NE u v)) = Fin 0 -> Babs (Bminus mode_NE u v) = B754_zero false).
      { intros u v Hz. destruct (Bminus mode_NE u v) as [s|[|]| |s m e Hx]; try discriminate; [reflexivity|].
        cbn [Babs] in Hz. apply toE_Fin in Hz. destruct Hz as [_ Hz].
        pose proof (B2R_finite_sign false m e Hx). cbn beta iota in H. lra. }
      rewrite (Z a b E0). symmetry. apply Z.
      revert E0. rewrite !toE_abs, !toE_minus. destruct (toE a) as [x| | |], (toE b) as [y| | |]; try (intros E1; exact E1).
      cbn [xsub xneg xadd rndE]. replace (x + - y) with (- (y + - x)) by ring. rewrite rnd_opp, Rabs_Ropp.
      destruct (Rltb _ _); cbn [xabs]; [rewrite Rabs_Ropp; intros E1; exact E1|].
      destruct (Rltb (- (y + - x)) 0), (Rltb (y + - x) 0); intros E1; exact E1.
  - rewrite toE_plus, xisnan_rndE. apply (l_nan_add (A:=XR)). assumption.
  - rewrite toE_minus, xisnan_rndE. apply (l_nan_sub (A:=XR)). assumption.
  - rewrite toE_mult, xisnan_rndE. apply (l_nan_mul (A:=XR)). assumption.
  - rewrite <- !is_nan_toE in *. destruct a as [s|s| |s m e Hx], b as [s'|s'| |s' m' e' H']; try discriminate; reflexivity.
  - rewrite <- !is_nan_toE in *. apply f32_nan.
  - destruct a as [s|[|]| |s m e Hx]; try discriminate; [left|right]; intros b Hb; rewrite Bleb_toE; rewrite is_nan_toE in Hb;
      destruct (toE b); try discriminate; reflexivity.
Qed.

End Laws.
