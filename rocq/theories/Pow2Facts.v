(** Two runs in binary64 whose times differ by a power of two. *)
From Coq Require Import String.
From Coq Require Import ZArith Reals List Bool Arith Lia Lra.
From Flocq Require Import Core BinarySingleNaN.
From Verif Require Import Num Mem MemFacts XR B64 Spec SpecR DataStructure Correlator Sacf Api Laws B64Facts Laws2 DSFacts CorrFacts LoopFacts MainFacts
  RelFacts ConstrFacts TimeFacts SelFacts DefaultFacts AccFacts SimFacts FixedFacts.
Import ListNotations.
Local Open Scope list_scope.
Local Open Scope R_scope.

Notation grain lo := (generic_format radix2 (FIX_exp lo)).

Lemma grain_plus lo x y : grain lo x -> grain lo y -> grain lo (x + y).
Proof.
  intros Hx Hy. apply FIX_format_generic in Hx. apply FIX_format_generic in Hy. destruct Hx as [[m e] -> E], Hy as [[m' e'] -> E'].
  cbn in E, E'. subst e e'. apply generic_format_FIX. exists (Float radix2 (m + m') lo); [|reflexivity].
  unfold F2R. cbn. rewrite plus_IZR. ring.
Qed.
Lemma grain_mult lo lo' x y : grain lo x -> grain lo' y -> grain (lo + lo') (x * y).
Proof.
  intros Hx Hy. apply FIX_format_generic in Hx. apply FIX_format_generic in Hy. destruct Hx as [[m e] -> E], Hy as [[m' e'] -> E'].
  cbn in E, E'. subst e e'. apply generic_format_FIX. exists (Float radix2 (m * m') (lo + lo')); [|reflexivity].
  unfold F2R. cbn. rewrite mult_IZR, bpow_plus. ring.
Qed.
Lemma grain_minus lo x y : grain lo x -> grain lo y -> grain lo (x - y).
Proof. intros Hx Hy. apply grain_plus; [exact Hx|]. apply generic_format_opp. exact Hy. Qed.
Lemma grain_rnd lo x : grain lo x -> grain lo (rnd x).
Proof. intros H. unfold rnd. apply generic_round_generic; try exact H; try apply valid_rnd_N; [apply FIX_exp_valid|apply FLT_exp_valid; reflexivity]. Qed.
Lemma grain_le lo lo' x : (lo' <= lo)%Z -> grain lo x -> grain lo' x.
Proof.
  intros H. apply generic_inclusion_mag. intros _. unfold FIX_exp. exact H.
Qed.
Lemma grain_small lo x : grain lo x -> x <> 0 -> bpow radix2 lo <= Rabs x.
Proof.
  intros H Hx. apply FIX_format_generic in H. destruct H as [[m e] -> E]. cbn in E. subst e. unfold F2R in *. cbn in *.
  rewrite Rabs_mult, (Rabs_pos_eq (bpow radix2 lo)) by apply bpow_ge_0. rewrite <- (Rmult_1_l (bpow radix2 lo)) at 1.
  apply Rmult_le_compat_r; [apply bpow_ge_0|]. rewrite <- abs_IZR. apply IZR_le.
  assert (m <> 0)%Z by (intros ->; apply Hx; ring). lia.
Qed.

(** rounding commutes with powers of two away from the subnormal range *)
Lemma rnd_pow2 e x : grain (-1022) x -> grain (-1022) (bpow radix2 e * x) -> rnd (bpow radix2 e * x) = bpow radix2 e * rnd x.
Proof.
  intros G G'. destruct (Req_dec x 0) as [->|Hx]; [rewrite Rmult_0_r, rnd_0; ring|].
  assert (Hx' : bpow radix2 e * x <> 0) by (apply Rmult_integral_contrapositive; split; [apply Rgt_not_eq, bpow_gt_0|exact Hx]).
  unfold rnd. rewrite !(round_FLT_FLX radix2 (-1074) 53) by (apply grain_small; assumption).
  unfold round, scaled_mantissa, cexp, FLX_exp. rewrite (Rmult_comm (bpow radix2 e) x), mag_mult_bpow by exact Hx.
  replace (mag radix2 x + e - 53)%Z with (mag radix2 x - 53 + e)%Z by lia.
  rewrite Rmult_assoc, <- bpow_plus. replace (e + - (mag radix2 x - 53 + e))%Z with (- (mag radix2 x - 53))%Z by lia.
  unfold F2R. cbn [Fnum Fexp]. rewrite (bpow_plus radix2 _ e). ring.
Qed.

Lemma rnd_bound n x : (-1074 <= n)%Z -> Rabs x <= bpow radix2 n -> Rabs (rnd x) <= bpow radix2 n.
Proof.
  intros Hn H. unfold rnd. apply abs_round_le_generic; [apply FLT_exp_valid; reflexivity|apply valid_rnd_N| |exact H].
  apply generic_format_bpow. unfold fexp64, FLT_exp. lia.
Qed.

(** [y] is [2^e x]; both are multiples of [2^lo] and at most [2^n] *)
Definition sc (e lo n : Z) (x y : b64) : Prop :=
  is_finite x = true /\ is_finite y = true /\ Bsign x = Bsign y /\ B2R y = bpow radix2 e * B2R x /\
  grain lo (B2R x) /\ grain lo (B2R y) /\ Rabs (B2R x) <= bpow radix2 n /\ Rabs (B2R y) <= bpow radix2 n.

Lemma sc_mono e lo lo' n n' x y : (lo' <= lo)%Z -> (n <= n')%Z -> sc e lo n x y -> sc e lo' n' x y.
Proof.
  intros Hl Hn [F [F' [S [E [G [G' [B B']]]]]]]. repeat (split; [first [assumption|apply (grain_le lo); assumption|apply Rle_trans with (bpow radix2 n); [assumption|apply bpow_le; exact Hn]]|]).
  apply Rle_trans with (bpow radix2 n); [assumption|apply bpow_le; exact Hn].
Qed.

Lemma sc_zero e lo n : sc e lo n (b64_ofZ 0) (b64_ofZ 0).
Proof.
  change (B2R (b64_ofZ 0)) with 0. repeat split; try reflexivity; change (B2R (b64_ofZ 0)) with 0.
  - ring.
  - apply generic_format_0.
  - apply generic_format_0.
  - rewrite Rabs_R0. apply bpow_ge_0.
  - rewrite Rabs_R0. apply bpow_ge_0.
Qed.

Lemma Rcompare_pow2 e x : Rcompare (bpow radix2 e * x) 0 = Rcompare x 0.
Proof. rewrite <- (Rmult_0_r (bpow radix2 e)) at 1. apply Rcompare_mult_l. apply bpow_gt_0. Qed.

Lemma plus_sign (x y : b64) : is_finite x = true -> is_finite y = true -> Rabs (rnd (B2R x + B2R y)) < big ->
  is_finite (Bplus mode_NE x y) = true /\ B2R (Bplus mode_NE x y) = rnd (B2R x + B2R y) /\
  Bsign (Bplus mode_NE x y) = match Rcompare (B2R x + B2R y) 0 with Eq => andb (Bsign x) (Bsign y) | Lt => true | Gt => false end.
Proof.
  intros Fx Fy H. pose proof (Bplus_correct 53 1024 _ _ mode_NE x y Fx Fy) as K.
  rewrite Rlt_bool_true in K by exact H. destruct K as [K1 [K2 K3]]. auto.
Qed.

Lemma sc_add e lo n x x' y y' : (-1022 <= lo)%Z -> (-1000 <= n <= 1020)%Z -> sc e lo n x x' -> sc e lo n y y' ->
  sc e lo (n + 1) (Bplus mode_NE x y) (Bplus mode_NE x' y').
Proof.
  intros Hl Hn [Fx [Fx' [Sx [Ex [Gx [Gx' [Bx Bx']]]]]]] [Fy [Fy' [Sy [Ey [Gy [Gy' [By By']]]]]]].
  assert (Bd : forall u v, Rabs u <= bpow radix2 n -> Rabs v <= bpow radix2 n -> Rabs (rnd (u + v)) <= bpow radix2 (n + 1)).
  { intros u v Hu Hv. apply rnd_bound; [lia|]. rewrite bpow_plus. change (bpow radix2 1) with 2. pose proof (Rabs_triang u v). lra. }
  assert (Bg : forall r, r <= bpow radix2 (n + 1) -> r < big) by (intros r Hr; eapply Rle_lt_trans; [exact Hr|apply big_gt; lia]).
  destruct (plus_sign x y Fx Fy) as [F1 [V1 S1]]; [apply Bg, Bd; assumption|].
  destruct (plus_sign x' y' Fx' Fy') as [F2 [V2 S2]]; [apply Bg, Bd; assumption|].
  pose proof (grain_plus lo _ _ Gx Gy) as G1. pose proof (grain_plus lo _ _ Gx' Gy') as G2.
  assert (E : B2R x' + B2R y' = bpow radix2 e * (B2R x + B2R y)) by (rewrite Ex, Ey; ring).
  split; [exact F1|]. split; [exact F2|]. split; [rewrite S1, S2, E, Rcompare_pow2, Sx, Sy; reflexivity|].
  split; [rewrite V1, V2, E; apply rnd_pow2; [|rewrite <- E]; apply (grain_le lo); assumption|].
  rewrite V1, V2. split; [apply grain_rnd; exact G1|]. split; [apply grain_rnd; exact G2|]. split; apply Bd; assumption.
Qed.

Lemma sc_neg e lo n x y : sc e lo n x y -> sc e lo n (Bopp x) (Bopp y).
Proof.
  intros [F [F' [S [E [G [G' [B B']]]]]]]. unfold sc. rewrite !is_finite_Bopp, !B2R_Bopp, !Bsign_Bopp by (destruct x, y; try discriminate; reflexivity).
  rewrite !Rabs_Ropp. repeat (split; [first [assumption|apply generic_format_opp; assumption|rewrite S; reflexivity|rewrite E; ring]|]). assumption.
Qed.

Lemma sc_sub e lo n x x' y y' : (-1022 <= lo)%Z -> (-1000 <= n <= 1020)%Z -> sc e lo n x x' -> sc e lo n y y' ->
  sc e lo (n + 1) (Bminus mode_NE x y) (Bminus mode_NE x' y').
Proof.
  intros Hl Hn Hx Hy.
  replace (Bminus mode_NE x y) with (Bplus mode_NE x (Bopp y)) by (destruct x, y; reflexivity).
  replace (Bminus mode_NE x' y') with (Bplus mode_NE x' (Bopp y')) by (destruct x', y'; reflexivity).
  apply sc_add; try assumption. apply sc_neg. exact Hy.
Qed.

Lemma sc_abs e lo n x y : sc e lo n x y -> sc e lo n (Babs x) (Babs y).
Proof.
  intros [F [F' [S [E [G [G' [B B']]]]]]]. unfold sc. rewrite !is_finite_Babs, !B2R_Babs, !Bsign_Babs by (destruct x, y; try discriminate; reflexivity).
  rewrite !Rabs_Rabsolu. repeat (split; [first [assumption|apply generic_format_abs; assumption|reflexivity|rewrite E, Rabs_mult, (Rabs_pos_eq (bpow radix2 e)) by apply bpow_ge_0; reflexivity]|]). assumption.
Qed.

Lemma sc_mult e e' lo lo' n n' x x' y y' : (-1022 <= lo + lo')%Z -> (-1000 <= n + n' <= 1020)%Z -> sc e lo n x x' -> sc e' lo' n' y y' ->
  sc (e + e') (lo + lo') (n + n') (Bmult mode_NE x y) (Bmult mode_NE x' y').
Proof.
  intros Hl Hn [Fx [Fx' [Sx [Ex [Gx [Gx' [Bx Bx']]]]]]] [Fy [Fy' [Sy [Ey [Gy [Gy' [By By']]]]]]].
  assert (Bd : forall u v, Rabs u <= bpow radix2 n -> Rabs v <= bpow radix2 n' -> Rabs (rnd (u * v)) <= bpow radix2 (n + n')).
  { intros u v Hu Hv. apply rnd_bound; [lia|]. rewrite bpow_plus, Rabs_mult. apply Rmult_le_compat; try apply Rabs_pos; assumption. }
  assert (Bg : forall r, r <= bpow radix2 (n + n') -> r < big) by (intros r Hr; eapply Rle_lt_trans; [exact Hr|apply big_gt; lia]).
  assert (M : forall a b : b64, is_finite a = true -> is_finite b = true -> Rabs (rnd (B2R a * B2R b)) < big ->
     is_finite (Bmult mode_NE a b) = true /\ B2R (Bmult mode_NE a b) = rnd (B2R a * B2R b) /\ Bsign (Bmult mode_NE a b) = xorb (Bsign a) (Bsign b)).
  { intros a b Fa Fb H. pose proof (Bmult_correct 53 1024 _ _ mode_NE a b) as K. rewrite Rlt_bool_true in K by exact H.
    rewrite Fa, Fb in K. destruct K as [K1 [K2 K3]]. split; [exact K2|]. split; [exact K1|]. apply K3. destruct (Bmult mode_NE a b); try discriminate; reflexivity. }
  destruct (M x y Fx Fy) as [F1 [V1 S1]]; [apply Bg, Bd; assumption|].
  destruct (M x' y' Fx' Fy') as [F2 [V2 S2]]; [apply Bg, Bd; assumption|].
  pose proof (grain_mult lo lo' _ _ Gx Gy) as G1. pose proof (grain_mult lo lo' _ _ Gx' Gy') as G2.
  assert (E : B2R x' * B2R y' = bpow radix2 (e + e') * (B2R x * B2R y)) by (rewrite Ex, Ey, bpow_plus; ring).
  split; [exact F1|]. split; [exact F2|]. split; [rewrite S1, S2, Sx, Sy; reflexivity|].
  split; [rewrite V1, V2, E; apply rnd_pow2; [|rewrite <- E]; apply (grain_le (lo + lo')); assumption|].
  rewrite V1, V2. split; [apply grain_rnd; exact G1|]. split; [apply grain_rnd; exact G2|]. split; apply Bd; assumption.
Qed.

(** quotients of scaled numbers are the same double *)
Lemma sc_div e lo n lo' n' x x' y y' : sc e lo n x x' -> sc e lo' n' y y' -> Bdiv mode_NE x y = Bdiv mode_NE x' y'.
Proof.
  intros [Fx [Fx' [Sx [Ex _]]]] [Fy [Fy' [Sy [Ey _]]]]. pose proof (bpow_gt_0 radix2 e) as P.
  assert (Zr : forall (a : b64) s m e0 H, a = B754_finite s m e0 H -> B2R a <> 0).
  { intros a s m e0 H -> C. cbn in C. apply eq_0_F2R in C. destruct s; discriminate. }
  assert (Zx : B2R x = 0 <-> B2R x' = 0) by (rewrite Ex; split; [intros ->; ring|intros C; apply Rmult_integral in C; destruct C; [lra|assumption]]).
  assert (Zy : B2R y = 0 <-> B2R y' = 0) by (rewrite Ey; split; [intros ->; ring|intros C; apply Rmult_integral in C; destruct C; [lra|assumption]]).
  destruct (Req_dec (B2R y) 0) as [Y0|Y0].
  - assert (Y0' : B2R y' = 0) by (apply Zy; exact Y0).
    destruct y as [sy|sy| |sy my ey py]; try discriminate; [|exfalso; exact (Zr _ _ _ _ _ eq_refl Y0)].
    destruct y' as [sy'|sy'| |sy' my' ey' py']; try discriminate; [|exfalso; exact (Zr _ _ _ _ _ eq_refl Y0')].
    cbn in Sy. subst sy'.
    destruct x as [sx|sx| |sx mx ex px]; try discriminate; destruct x' as [sx'|sx'| |sx' mx' ex' px']; try discriminate; cbn in Sx; subst sx'; try reflexivity.
    + exfalso. apply (Zr (B754_finite sx mx' ex' px') _ _ _ _ eq_refl). apply Zx. reflexivity.
    + exfalso. apply (Zr (B754_finite sx mx ex px) _ _ _ _ eq_refl). apply Zx. reflexivity.
  - assert (Y0' : B2R y' <> 0) by (intros C; apply Y0, Zy; exact C).
    pose proof (Bdiv_correct 53 1024 _ _ mode_NE x y Y0) as K. pose proof (Bdiv_correct 53 1024 _ _ mode_NE x' y' Y0') as K'.
    assert (E : B2R x' / B2R y' = B2R x / B2R y) by (rewrite Ex, Ey; field; split; [exact Y0|lra]).
    rewrite E in K'. destruct (Rlt_bool _ _).
    + destruct K as [K1 [K2 K3]], K' as [K1' [K2' K3']]. rewrite Fx in K2. rewrite Fx' in K2'.
      apply B2R_Bsign_inj; try assumption; [rewrite K1, K1'; reflexivity|].
      rewrite K3, K3', Sx, Sy by (match goal with |- is_nan ?b = false => destruct b; try discriminate; reflexivity end). reflexivity.
    + apply B2SF_inj. rewrite K, K', Sx, Sy. reflexivity.
Qed.

Lemma sc_lt e lo n lo' n' x x' y y' : sc e lo n x x' -> sc e lo' n' y y' -> Bltb x y = Bltb x' y'.
Proof.
  intros [Fx [Fx' [_ [Ex _]]]] [Fy [Fy' [_ [Ey _]]]]. rewrite !Bltb_correct by assumption. rewrite Ex, Ey.
  unfold Rlt_bool. rewrite Rcompare_mult_l by apply bpow_gt_0. reflexivity.
Qed.
Lemma sc_le e lo n lo' n' x x' y y' : sc e lo n x x' -> sc e lo' n' y y' -> Bleb x y = Bleb x' y'.
Proof.
  intros [Fx [Fx' [_ [Ex _]]]] [Fy [Fy' [_ [Ey _]]]]. rewrite !Bleb_correct by assumption. rewrite Ex, Ey.
  unfold Rle_bool. rewrite Rcompare_mult_l by apply bpow_gt_0. reflexivity.
Qed.
Lemma sc_eqb e lo n lo' n' x x' y y' : sc e lo n x x' -> sc e lo' n' y y' -> Beqb x y = Beqb x' y'.
Proof.
  intros [Fx [Fx' [_ [Ex _]]]] [Fy [Fy' [_ [Ey _]]]]. rewrite !Beqb_correct by assumption. rewrite Ex, Ey.
  unfold Req_bool. rewrite Rcompare_mult_l by apply bpow_gt_0. reflexivity.
Qed.

(** halving *)
Lemma sc_half e lo n x y : (-1021 <= lo)%Z -> (n <= 1020)%Z -> sc e lo n x y -> sc e (lo - 1) n (Bdiv mode_NE x (b64_ofZ 2)) (Bdiv mode_NE y (b64_ofZ 2)).
Proof.
  intros Hl Hn [F [F' [S [E [G [G' [B B']]]]]]].
  assert (T : B2R (b64_ofZ 2) = 2).
  { destruct (E_fin _ _ (toE_ofZ_small 2 ltac:(lia))) as [_ K]. exact K. }
  assert (D : forall a : b64, is_finite a = true -> grain lo (B2R a) -> Rabs (B2R a) <= bpow radix2 n ->
     is_finite (Bdiv mode_NE a (b64_ofZ 2)) = true /\ B2R (Bdiv mode_NE a (b64_ofZ 2)) = B2R a / 2 /\ Bsign (Bdiv mode_NE a (b64_ofZ 2)) = Bsign a /\ grain (lo - 1) (B2R a / 2) /\ Rabs (B2R a / 2) <= bpow radix2 n).
  { intros a Fa Ga Ba. assert (N2 : B2R (b64_ofZ 2) <> 0) by lra.
    assert (G2 : grain (lo - 1) (B2R a / 2)).
    { replace (B2R a / 2) with (B2R a * bpow radix2 (-1)) by (change (bpow radix2 (-1)) with (/ 2); field).
      apply grain_mult; [exact Ga|]. apply generic_format_FIX. exists (Float radix2 1 (-1)); [unfold F2R; cbn; ring|reflexivity]. }
    assert (R2 : rnd (B2R a / 2) = B2R a / 2).
    { replace (B2R a / 2) with (bpow radix2 (-1) * B2R a) by (change (bpow radix2 (-1)) with (/ 2); field).
      rewrite rnd_pow2; [f_equal; apply round_generic; [apply valid_rnd_N|apply (generic_format_B2R 53 1024)]|apply (grain_le lo); [lia|exact Ga]|].
      replace (bpow radix2 (-1) * B2R a) with (B2R a / 2) by (change (bpow radix2 (-1)) with (/ 2); field). apply (grain_le (lo - 1)); [lia|exact G2]. }
    assert (B2 : Rabs (B2R a / 2) <= bpow radix2 n).
    { unfold Rdiv. rewrite Rabs_mult, (Rabs_pos_eq (/ 2)) by lra. pose proof (Rabs_pos (B2R a)). lra. }
    pose proof (Bdiv_correct 53 1024 _ _ mode_NE a (b64_ofZ 2) N2) as K. rewrite T in K.
    change (round radix2 (SpecFloat.fexp 53 1024) (round_mode mode_NE) (B2R a / 2)) with (rnd (B2R a / 2)) in K.
    rewrite Rlt_bool_true in K by (rewrite R2; eapply Rle_lt_trans; [exact B2|]; apply (big_gt n); lia).
    destruct K as [K1 [K2 K3]]. rewrite Fa in K2. rewrite R2 in K1. split; [exact K2|]. split; [exact K1|].
    split; [rewrite K3 by (destruct (Bdiv mode_NE a (b64_ofZ 2)); try discriminate; reflexivity); change (Bsign (b64_ofZ 2)) with false; apply xorb_false_r|]. split; assumption. }
  destruct (D x F G B) as [D1 [D2 [D3 [D4 D5]]]]. destruct (D y F' G' B') as [D1' [D2' [D3' [D4' D5']]]].
  unfold sc. rewrite D2, D2', D3, D3'. repeat (split; [first [assumption|rewrite E; field]|]). assumption.
Qed.

Lemma sc_eq e lo n x y y' : sc e lo n x y -> sc e lo n x y' -> y = y'.
Proof.
  intros [F [F' [S [E _]]]] [_ [F2' [S2 [E2 _]]]]. apply B2R_Bsign_inj; try assumption; congruence.
Qed.
