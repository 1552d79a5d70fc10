(** Time stamps that are multiples of a power of two: binary64 and exact arithmetic agree on them. *)
From Coq Require Import String.
From Coq Require Import ZArith Reals List Bool Arith Lia Lra.
From Flocq Require Import Core BinarySingleNaN.
From Verif Require Import Num Mem MemFacts XR B64 Spec SpecR DataStructure Correlator Sacf Api Laws B64Facts Laws2 DSFacts CorrFacts LoopFacts MainFacts
  RelFacts ConstrFacts TimeFacts SelFacts DefaultFacts AccFacts SimFacts.
Import ListNotations.
Local Open Scope list_scope.
Local Open Scope R_scope.

(** [x] is a finite double, [k * 2^g] with [|k| <= 2^n], and [y] the same real number *)
Definition fx (g n : Z) (x : b64) (y : xr) : Prop :=
  is_finite x = true /\ y = Fin (B2R x) /\ exists k, (Z.abs k <= 2 ^ n)%Z /\ B2R x = IZR k * bpow radix2 g.

Section Fixed.
Context (exp64 : b64 -> b64) (g : Z) (Hg : (-1073 <= g <= 960)%Z).
Notation BN := (B64 exp64).

Lemma format_k k e : (Z.abs k <= 2 ^ 53)%Z -> (-1074 <= e)%Z -> generic_format radix2 fexp64 (IZR k * bpow radix2 e).
Proof.
  intros Hk He. destruct (Z.eq_dec (Z.abs k) (2 ^ 53)) as [E|E].
  - assert (G : generic_format radix2 fexp64 (bpow radix2 (53 + e))) by (apply generic_format_bpow; unfold fexp64, FLT_exp; lia).
    rewrite bpow_plus in G. destruct (Z.abs_spec k) as [[_ A]|[_ A]]; rewrite A in E.
    + subst k. exact G.
    + replace k with (- 2 ^ 53)%Z by lia. rewrite opp_IZR, Ropp_mult_distr_l_reverse. apply generic_format_opp. exact G.
  - apply generic_format_FLT. exists (Float radix2 k e).
    + unfold F2R. reflexivity.
    + cbn [Fnum]. change (radix2 ^ 53)%Z with (2 ^ 53)%Z. lia.
    + cbn [Fexp]. exact He.
Qed.

Lemma rnd_k k : (Z.abs k <= 2 ^ 53)%Z -> rnd (IZR k * bpow radix2 g) = IZR k * bpow radix2 g.
Proof. intros Hk. apply round_generic; [apply valid_rnd_N|]. apply format_k; [exact Hk|lia]. Qed.

Lemma k_lt k : (Z.abs k <= 2 ^ 53)%Z -> Rabs (IZR k * bpow radix2 g) < big.
Proof.
  intros Hk. rewrite Rabs_mult, (Rabs_pos_eq (bpow radix2 g)) by apply bpow_ge_0. rewrite <- abs_IZR.
  apply Rle_lt_trans with (IZR (2 ^ 53) * bpow radix2 g).
  - apply Rmult_le_compat_r; [apply bpow_ge_0|]. apply IZR_le. exact Hk.
  - change (IZR (2 ^ 53)) with (bpow radix2 53). rewrite <- bpow_plus. apply big_gt. lia.
Qed.

Lemma fx_mono n n' x y : (n <= n')%Z -> fx g n x y -> fx g n' x y.
Proof.
  intros Hn [F [E [k [Hk E']]]]. split; [exact F|]. split; [exact E|]. exists k. split; [|exact E'].
  eapply Z.le_trans; [exact Hk|]. destruct (Z.lt_ge_cases n 0); [rewrite Z.pow_neg_r by lia; apply Z.pow_nonneg; lia|]. apply Z.pow_le_mono_r; lia.
Qed.

Lemma fx_add n x x' y y' : (0 <= n <= 52)%Z -> fx g n x x' -> fx g n y y' -> fx g (n + 1) (Bplus mode_NE x y) (xadd x' y').
Proof.
  intros Hn [Fx [-> [k [Hk Ek]]]] [Fy [-> [l [Hl El]]]].
  assert (B : (Z.abs (k + l) <= 2 ^ (n + 1))%Z) by (rewrite Z.pow_add_r by lia; lia).
  assert (B' : (2 ^ (n + 1) <= 2 ^ 53)%Z) by (apply Z.pow_le_mono_r; lia).
  assert (E : B2R x + B2R y = IZR (k + l) * bpow radix2 g) by (rewrite Ek, El, plus_IZR; ring).
  destruct (plus_fin x y Fx Fy) as [F V]; [rewrite E, rnd_k by lia; apply k_lt; lia|].
  rewrite E, rnd_k in V by lia. split; [exact F|]. split; [cbn; rewrite V, E; reflexivity|]. exists (k + l)%Z. split; [exact B|exact V].
Qed.

Lemma fx_sub n x x' y y' : (0 <= n <= 52)%Z -> fx g n x x' -> fx g n y y' -> fx g (n + 1) (Bminus mode_NE x y) (xsub x' y').
Proof.
  intros Hn [Fx [-> [k [Hk Ek]]]] [Fy [-> [l [Hl El]]]].
  assert (B : (Z.abs (k - l) <= 2 ^ (n + 1))%Z) by (rewrite Z.pow_add_r by lia; lia).
  assert (B' : (2 ^ (n + 1) <= 2 ^ 53)%Z) by (apply Z.pow_le_mono_r; lia).
  assert (E : B2R x - B2R y = IZR (k - l) * bpow radix2 g) by (rewrite Ek, El, minus_IZR; ring).
  destruct (minus_fin x y Fx Fy) as [F V]; [rewrite E, rnd_k by lia; apply k_lt; lia|].
  rewrite E, rnd_k in V by lia. split; [exact F|]. split; [cbn; rewrite V, <- E; reflexivity|]. exists (k - l)%Z. split; [exact B|exact V].
Qed.

Lemma fx_neg n x x' : fx g n x x' -> fx g n (Bopp x) (xneg x').
Proof.
  intros [Fx [-> [k [Hk Ek]]]]. split; [rewrite is_finite_Bopp; exact Fx|]. rewrite B2R_Bopp. split; [reflexivity|].
  exists (- k)%Z. split; [rewrite Z.abs_opp; exact Hk|]. rewrite Ek, opp_IZR. ring.
Qed.

Lemma fx_lt n m x x' y y' : fx g n x x' -> fx g m y y' -> Bltb x y = xlt x' y'.
Proof. intros [Fx [-> _]] [Fy [-> _]]. rewrite Bltb_toE, (toE_finite x Fx), (toE_finite y Fy). reflexivity. Qed.
Lemma fx_le n m x x' y y' : fx g n x x' -> fx g m y y' -> Bleb x y = xle x' y'.
Proof. intros [Fx [-> _]] [Fy [-> _]]. rewrite Bleb_toE, (toE_finite x Fx), (toE_finite y Fy). reflexivity. Qed.
Lemma fx_eqb n m x x' y y' : fx g n x x' -> fx g m y y' -> Beqb x y = xeqb x' y'.
Proof. intros [Fx [-> _]] [Fy [-> _]]. rewrite Beqb_toE, (toE_finite x Fx), (toE_finite y Fy). reflexivity. Qed.

Lemma fx_zero n : fx g n (b64_ofZ 0) (Fin 0).
Proof. split; [reflexivity|]. split; [reflexivity|]. exists 0%Z. split; [apply Z.pow_nonneg; lia|]. change (B2R (b64_ofZ 0)) with 0. ring. Qed.

Lemma fx_abs p n x x' : (0 <= n)%Z -> fx g n x x' -> same_outcome (fx g n) (cabs (A := BN) p x) (cabs (A := XR) p x').
Proof.
  intros Hn [Fx [-> [k [Hk Ek]]]]. unfold cabs. destruct (p_abs p).
  - cbn [same_outcome]. change (@nabs BN x) with (Babs x). split; [rewrite is_finite_Babs; exact Fx|]. rewrite B2R_Babs. split; [reflexivity|].
    exists (Z.abs k). split; [rewrite Z.abs_involutive; exact Hk|]. rewrite Ek, Rabs_mult, (Rabs_pos_eq (bpow radix2 g)) by apply bpow_ge_0.
    rewrite <- abs_IZR. reflexivity.
  - change (@ntrunc BN x) with (b64_trunc x). rewrite b64_trunc_R by exact Fx. change (@ntrunc XR (Fin (B2R x))) with (Some (Ztrunc (B2R x))).
    unfold to_int. destruct (in_int (Ztrunc (B2R x))) eqn:Ei; [|reflexivity]. cbn [bind].
    destruct (Ztrunc (B2R x) =? INT_MIN)%Z eqn:Em; [reflexivity|]. cbn [same_outcome].
    assert (Hz : (Z.abs (Ztrunc (B2R x)) <= 2 ^ 31)%Z).
    { unfold in_int, INT_MIN, INT_MAX in Ei. apply andb_prop in Ei. destruct Ei as [E1 E2]. apply Z.leb_le in E1, E2. lia. }
    destruct (E_fin _ _ (toE_ofZ_small (Z.abs (Ztrunc (B2R x))) ltac:(lia))) as [F E].
    change (@nofZ BN (Z.abs (Ztrunc (B2R x)))) with (b64_ofZ (Z.abs (Ztrunc (B2R x)))).
    split; [exact F|]. split; [rewrite E; reflexivity|]. rewrite E.
    destruct (Z.le_gt_cases g 0) as [Hg0|Hg0].
    + exists (Z.abs (Ztrunc (B2R x)) * 2 ^ (- g))%Z. split.
      * apply le_IZR. rewrite Z.abs_mul, Z.abs_involutive, (Z.abs_eq (2 ^ (- g))) by (apply Z.pow_nonneg; lia).
        rewrite mult_IZR. change 2%Z with (radix_val radix2) at 1. rewrite IZR_Zpower by lia. apply Rmult_le_reg_r with (bpow radix2 g); [apply bpow_gt_0|].
        rewrite Rmult_assoc, <- bpow_plus. replace (- g + g)%Z with 0%Z by lia. change (bpow radix2 0) with 1. rewrite Rmult_1_r.
        apply Rle_trans with (Rabs (B2R x)).
        -- rewrite abs_IZR. rewrite <- scaled_mantissa_0 with (x := B2R x) at 1 || idtac.
           destruct (Rle_or_lt 0 (B2R x)) as [H0|H0].
           ++ rewrite Ztrunc_floor by exact H0. rewrite !Rabs_pos_eq; [apply Zfloor_lb|exact H0|apply IZR_le; apply Zfloor_lub; exact H0].
           ++ rewrite Ztrunc_ceil by lra. rewrite !Rabs_left1; [apply Ropp_le_contravar; apply Zceil_ub|lra|apply IZR_le; apply Zceil_glb; cbn; lra].
        -- rewrite Ek, Rabs_mult, (Rabs_pos_eq (bpow radix2 g)) by apply bpow_ge_0. apply Rmult_le_compat_r; [apply bpow_ge_0|].
           rewrite <- abs_IZR. apply IZR_le. exact Hk.
      * rewrite mult_IZR. change 2%Z with (radix_val radix2) at 1. rewrite IZR_Zpower by lia. rewrite Rmult_assoc, <- bpow_plus. replace (- g + g)%Z with 0%Z by lia.
        change (bpow radix2 0) with 1. ring.
    + exists (Z.abs k). split; [rewrite Z.abs_involutive; exact Hk|].
      assert (EZ : B2R x = IZR (k * 2 ^ g)) by (rewrite Ek, mult_IZR; change 2%Z with (radix_val radix2) at 1; rewrite IZR_Zpower by lia; reflexivity).
      rewrite EZ, Ztrunc_IZR, Z.abs_mul, (Z.abs_eq (2 ^ g)) by (apply Z.pow_nonneg; lia). rewrite mult_IZR.
      change 2%Z with (radix_val radix2) at 1. rewrite IZR_Zpower by lia. reflexivity.
Qed.

(** times relative to the first *)
Lemma fx_rel_times n (ts : list b64) (ts' : list xr) : (0 <= n <= 52)%Z -> Forall2 (fx g n) ts ts' ->
  Forall2 (fx g (n + 1)) (rel_times (A := BN) ts) (rel_times (A := XR) ts').
Proof.
  intros Hn H. destruct H as [|t t' ts ts' Ht H]; [constructor|]. unfold rel_times. cbn [map].
  assert (G : forall x x', fx g n x x' -> fx g (n + 1) (Bminus mode_NE x t) (xsub x' t')) by (intros x x' Hx; apply fx_sub; assumption).
  constructor; [apply G; exact Ht|]. induction H as [|x x' l l' Hx Hl IH]; cbn [map]; constructor; [apply G; exact Hx|exact IH].
Qed.

Lemma Forall2_last {X Y} (R : X -> Y -> Prop) l l' d d' : R d d' -> Forall2 R l l' -> R (last l d) (last l' d').
Proof.
  intros Hd H. induction H as [|x y l l' Hx Hl IH]; [exact Hd|]. destruct Hl; [exact Hx|exact IH].
Qed.

(** the smallest step *)
Lemma fx_min_loop (l : list b64) (l' : list xr) dd dd' : Forall2 (fx g 51) l l' -> fx g 52 dd dd' ->
  fx g 52 (findMinDiff_loop (A := BN) l dd) (findMinDiff_loop (A := XR) l' dd').
Proof.
  intros H. revert dd dd'. induction H as [|x x' l l' Hx Hl IH]; intros dd dd' Hd; [exact Hd|].
  destruct Hl as [|y y' l l' Hy Hl]; [exact Hd|]. cbn [findMinDiff_loop].
  change (@nsub BN y x) with (Bminus mode_NE y x). change (@nsub XR y' x') with (xsub y' x').
  pose proof (fx_sub 51 _ _ _ _ ltac:(lia) Hy Hx) as Hs. change (51 + 1)%Z with 52%Z in Hs.
  change (@nlt BN (Bminus mode_NE y x) dd) with (Bltb (Bminus mode_NE y x) dd). rewrite (fx_lt _ _ _ _ _ _ Hs Hd).
  change (@nlt XR) with xlt. apply IH. destruct (xlt (xsub y' x') dd'); assumption.
Qed.

Lemma fx_lt_max n x x' : (n <= 53)%Z -> fx g n x x' -> Bltb x Bmax_float = true /\ xlt x' (Fin dbl_max) = true.
Proof.
  intros Hn [Fx [-> [k [Hk Ek]]]]. assert (Hk' : (Z.abs k <= 2 ^ 53)%Z).
  { eapply Z.le_trans; [exact Hk|]. destruct (Z.lt_ge_cases n 0); [rewrite Z.pow_neg_r by lia; lia|]. apply Z.pow_le_mono_r; lia. }
  assert (B : B2R x < dbl_max).
  { apply Rle_lt_trans with (bpow radix2 1013).
    - rewrite Ek. apply Rle_trans with (IZR (2 ^ 53) * bpow radix2 g).
      + apply Rmult_le_compat_r; [apply bpow_ge_0|]. apply IZR_le. lia.
      + change (IZR (2 ^ 53)) with (bpow radix2 53). rewrite <- bpow_plus. apply bpow_le. lia.
    - unfold dbl_max. apply Rlt_le_trans with (1 * bpow radix2 1023); [rewrite Rmult_1_l; apply bpow_lt; lia|].
      apply Rmult_le_compat_r; [apply bpow_ge_0|]. assert (bpow radix2 (-52) <= bpow radix2 0) by (apply bpow_le; lia). change (bpow radix2 0) with 1 in H. lra. }
  split; [|cbn; unfold Rltb; destruct (Rlt_dec (B2R x) dbl_max); [reflexivity|lra]].
  rewrite Bltb_correct by (try exact Fx; reflexivity). apply Rlt_bool_true. eapply Rlt_le_trans; [exact B|]. apply Req_le.
  unfold Bmax_float. rewrite B2R_SF2B. unfold SF2R, F2R, dbl_max. cbn [Fnum Fexp cond_Zopp].
  change (bpow radix2 1023) with (bpow radix2 (52 + (1024 - 53))). rewrite (bpow_plus radix2 52), <- Rmult_assoc. f_equal.
  rewrite Rmult_minus_distr_r, <- bpow_plus. change (bpow radix2 (-52 + 52)) with 1. change (bpow radix2 52) with (IZR (2 ^ 52)).
  rewrite <- mult_IZR, <- minus_IZR. f_equal.
Qed.

Lemma fx_min (l : list b64) (l' : list xr) : Forall2 (fx g 51) l l' -> (2 <= length l)%nat ->
  fx g 52 (findMinDiff (A := BN) l) (findMinDiff (A := XR) l').
Proof.
  intros H Hl. destruct H as [|x x' l l' Hx H]; [cbn in Hl; lia|]. destruct H as [|y y' l l' Hy H]; [cbn in Hl; lia|].
  unfold findMinDiff. cbn [findMinDiff_loop].
  change (@nsub BN y x) with (Bminus mode_NE y x). change (@nsub XR y' x') with (xsub y' x').
  pose proof (fx_sub 51 _ _ _ _ ltac:(lia) Hy Hx) as Hs. change (51 + 1)%Z with 52%Z in Hs.
  destruct (fx_lt_max 52 _ _ ltac:(lia) Hs) as [M1 M2].
  change (@nlt BN (Bminus mode_NE y x) (@ndblmax BN)) with (Bltb (Bminus mode_NE y x) Bmax_float).
  change (@nlt XR (xsub y' x') (@ndblmax XR)) with (xlt (xsub y' x') (Fin dbl_max)). rewrite M1, M2.
  apply (fx_min_loop (y :: l) (y' :: l')); [constructor; assumption|exact Hs].
Qed.

(** the quotient of two integers of at most 53 bits is not rounded across an integer *)
Lemma floor_rnd (a b : Z) : (0 <= a < 2 ^ 53)%Z -> (0 < b <= 2 ^ 53)%Z -> Zfloor (rnd (IZR a / IZR b)) = (a / b)%Z.
Proof.
  intros Ha Hb. destruct Hb as [Hb Hb53]. pose proof (IZR_lt 0 b Hb) as Hb'. set (q := IZR a / IZR b).
  pose proof (Z.div_mod a b ltac:(lia)) as Edm. pose proof (Z.mod_pos_bound a b Hb) as Hm. set (k := (a / b)%Z) in *.
  assert (Hk : (0 <= k < 2 ^ 53)%Z) by (split; [apply Z.div_pos; lia|apply Z.div_lt_upper_bound; nia]).
  assert (L : IZR k <= q).
  { unfold q. apply Rmult_le_reg_r with (IZR b); [exact Hb'|]. unfold Rdiv. rewrite Rmult_assoc, Rinv_l, Rmult_1_r by lra.
    rewrite <- mult_IZR. apply IZR_le. lia. }
  assert (U : q <= IZR (k + 1) - / IZR b).
  { unfold q. apply Rmult_le_reg_r with (IZR b); [exact Hb'|]. unfold Rdiv. rewrite Rmult_assoc, Rinv_l, Rmult_1_r by lra.
    rewrite Rmult_minus_distr_r, Rinv_l by lra. rewrite <- mult_IZR, <- minus_IZR. apply IZR_le. lia. }
  apply Zfloor_imp. split.
  - rewrite <- (rnd_IZR k) by lia. apply rnd_le. exact L.
  - destruct (Z.eq_dec a 0) as [E0|E0].
    { unfold q. rewrite E0. unfold Rdiv. rewrite Rmult_0_l, rnd_0. apply IZR_lt. lia. }
    assert (Ib : 0 < / IZR b) by (apply Rinv_0_lt_compat; exact Hb').
    assert (Ha1 : 1 <= IZR a) by (apply IZR_le; lia).
    assert (Q0 : / IZR b <= q) by (unfold q, Rdiv; rewrite <- (Rmult_1_l (/ IZR b)) at 1; apply Rmult_le_compat_r; lra).
    assert (Q1 : bpow radix2 (-1000) <= Rabs q).
    { rewrite Rabs_pos_eq by lra. eapply Rle_trans; [|exact Q0]. apply Rle_trans with (bpow radix2 (-53)); [apply bpow_le; lia|].
      change (bpow radix2 (-53)) with (bpow radix2 (- (53))). rewrite bpow_opp. apply Rinv_le; [exact Hb'|]. change (bpow radix2 53) with (IZR (2 ^ 53)). apply IZR_le. exact Hb53. }
    pose proof (rnd_inv_normal q Q1) as E. rewrite (Rabs_pos_eq q) in E by lra. apply Rabs_le_inv in E.
    assert (D : u64 * q < / IZR b).
    { unfold q, Rdiv. rewrite <- Rmult_assoc. rewrite <- (Rmult_1_l (/ IZR b)) at 2. apply Rmult_lt_compat_r; [exact Ib|].
      apply Rmult_lt_reg_l with (bpow radix2 53); [apply bpow_gt_0|]. rewrite <- Rmult_assoc. unfold u64. rewrite <- bpow_plus.
      change (bpow radix2 (53 + -53)) with 1. rewrite Rmult_1_l, Rmult_1_r. change (bpow radix2 53) with (IZR (2 ^ 53)). apply IZR_lt. lia. }
    lra.
Qed.

Lemma fx_allot (nt : list b64) (nt' : list xr) : Forall2 (fx g 51) nt nt' -> (2 <= length nt)%nat ->
  0 <= B2R (last nt (b64_ofZ 0)) -> 0 <= B2R (findMinDiff (A := BN) nt : b64) ->
  allot (A := BN) nt = allot (A := XR) nt'.
Proof.
  intros H Hl Hp Hr. unfold allot. pose proof (fx_min nt nt' H Hl) as Hm.
  assert (N : nt <> []) by (intros ->; cbn in Hl; lia). assert (N' : nt' <> []) by (intros ->; apply Forall2_len in H; cbn in H; lia).
  rewrite (lback_ok (nt : list (@num BN)) (b64_ofZ 0) N), (lback_ok (nt' : list (@num XR)) (Fin 0) N'). cbn [bind].
  pose proof (Forall2_last (fx g 51) nt nt' _ _ (fx_zero 51) H) as HL.
  set (m := last nt (b64_ofZ 0)) in *. set (m' := last nt' (Fin 0)) in *.
  change (@last (@num BN) nt (b64_ofZ 0)) with m. change (@last (@num XR) nt' (Fin 0)) with m'.
  set (r := findMinDiff (A := BN) nt : b64) in *. set (r' := findMinDiff (A := XR) nt' : xr) in *.
  change (@nsub BN m (@nneg BN m)) with (Bminus mode_NE m (Bopp m)). change (@nsub XR m' (@nneg XR m')) with (xsub m' (xneg m')).
  pose proof (fx_sub 51 _ _ _ _ ltac:(lia) HL (fx_neg 51 _ _ HL)) as Hs. change (51 + 1)%Z with 52%Z in Hs.
  set (s := Bminus mode_NE m (Bopp m)) in *. set (s' := xsub m' (xneg m')) in *.
  change (@ndiv BN s r) with (Bdiv mode_NE s r). change (@ndiv XR s' r') with (xdiv s' r').
  change (@nfloor BN) with b64_floor.
  assert (E : b64_floor (Bdiv mode_NE s r) = @nfloor XR (xdiv s' r')); [|rewrite E; reflexivity].
  assert (Sp : 0 <= B2R s).
  { destruct Hs as [_ [Es _]]. destruct HL as [_ [Em _]]. unfold s' in Es. rewrite Em in Es. cbn in Es. injection Es as Es. rewrite <- Es. lra. }
  destruct Hs as [Fs [-> [a [Ka Ea]]]]. destruct Hm as [Fr [-> [b [Kb Eb]]]].
  pose proof (bpow_gt_0 radix2 g) as G0.
  assert (A0 : (0 <= a)%Z) by (apply le_IZR; apply Rmult_le_reg_r with (bpow radix2 g); [exact G0|]; rewrite Rmult_0_l, <- Ea; exact Sp).
  assert (B0 : (0 <= b)%Z) by (apply le_IZR; apply Rmult_le_reg_r with (bpow radix2 g); [exact G0|]; rewrite Rmult_0_l, <- Eb; exact Hr).
  destruct (Z.eq_dec b 0) as [Z0|Z0].
  - assert (Br : B2R r = 0) by (rewrite Eb, Z0; ring). rewrite Br. cbn [xdiv]. destruct (Reqb_spec 0 0); [|lra].
    destruct r as [sr|sr| |sr mr er pr]; try discriminate.
    + destruct s as [ss|ss| |ss ms es ps]; try discriminate; cbn; unfold xinf_sign; repeat match goal with |- context [if ?c then _ else _] => destruct c end; reflexivity.
    + exfalso. cbn in Br. apply eq_0_F2R in Br. destruct sr; discriminate.
  - assert (Hb0 : (0 < b <= 2 ^ 53)%Z) by lia.
    assert (Rr : B2R r <> 0) by (rewrite Eb; apply Rmult_integral_contrapositive; split; [apply IZR_neq; exact Z0|lra]).
    assert (Q : B2R s / B2R r = IZR a / IZR b) by (rewrite Ea, Eb; field; split; [apply IZR_neq; exact Z0|lra]).
    assert (Qk : rnd (B2R s / B2R r) < big).
    { apply Rle_lt_trans with (rnd (IZR (2 ^ 52))).
      - apply rnd_le. rewrite Q. apply Rle_trans with (IZR a); [|apply IZR_le; lia]. apply Rmult_le_reg_r with (IZR b); [apply IZR_lt; lia|].
        unfold Rdiv. rewrite Rmult_assoc, Rinv_l, Rmult_1_r by (apply IZR_neq; exact Z0). rewrite <- mult_IZR. apply IZR_le. nia.
      - rewrite rnd_IZR by (vm_compute; discriminate). change (IZR (2 ^ 52)) with (bpow radix2 52). apply big_gt. lia. }
    assert (Qp : 0 <= rnd (B2R s / B2R r)).
    { rewrite <- rnd_0. apply rnd_le. rewrite Q. apply Rmult_le_pos; [apply IZR_le; exact A0|]. apply Rlt_le, Rinv_0_lt_compat, IZR_lt. lia. }
    destruct (div_fin s r Fs Fr Rr) as [F V]; [rewrite Rabs_pos_eq by exact Qp; exact Qk|].
    rewrite b64_floor_R by exact F. rewrite V, Q, floor_rnd by lia. cbn [xdiv]. destruct (Reqb_spec (B2R r) 0); [contradiction|].
    change (@nfloor XR (Fin (B2R s / B2R r))) with (Some (Zfloor (B2R s / B2R r))). rewrite Q, Zfloor_div by lia. reflexivity.
Qed.

Lemma fin_real (x : b64) y : is_finite x = true -> (@nle BN (b64_ofZ 0) y = true) -> y = x -> 0 <= B2R x.
Proof.
  intros F H ->. change (Bleb (b64_ofZ 0) x = true) in H. rewrite Bleb_correct in H by (try exact F; reflexivity).
  destruct (Rle_bool_spec (B2R (b64_ofZ 0)) (B2R x)) as [K|K]; [exact K|discriminate].
Qed.

(** from ordered time stamps *)
Lemma fx_nonneg (nt : list b64) (nt' : list xr) : Forall2 (fx g 51) nt nt' -> (2 <= length nt)%nat -> ordered (A := BN) nt ->
  nth_error nt 0 = Some (b64_ofZ 0) -> 0 <= B2R (last nt (b64_ofZ 0)) /\ 0 <= B2R (findMinDiff (A := BN) nt : b64).
Proof.
  intros H Hl Ho H0. pose proof (Forall2_last (fx g 51) nt nt' _ _ (fx_zero 51) H) as [FL _].
  pose proof (fx_min nt nt' H Hl) as [FM _].
  assert (HF : forall i x, nth_error nt i = Some x -> exists y, fx g 51 x y).
  { intros i x Hx. pose proof (Forall2_nth_error (fx g 51) nt nt' i H) as K. rewrite Hx in K. destruct (nth_error nt' i) as [y|]; [eauto|contradiction]. }
  split.
  - eapply fin_real; [exact FL| |reflexivity]. rewrite last_nth. apply (Ho 0%nat (length nt - 1)%nat); [lia|exact H0|]. apply nth_error_nth'. lia.
  - pose proof (arith_binary64 exp64) as HA.
    destruct (@findMinDiff_loop_spec BN (arith_laws _ HA) nt (@ndblmax BN) eq_refl) as [_ [_ S]]. fold (findMinDiff (A := BN) nt) in S.
    destruct S as [E|[i [a [b [Ha [Hb [E _]]]]]]].
    + rewrite E. cbn [ndblmax B64]. unfold Bmax_float. rewrite B2R_SF2B. unfold SF2R. apply F2R_ge_0. cbn. lia.
    + rewrite E. change (@nsub BN b a) with (Bminus mode_NE b a). pose proof (Ho i (S i) a b ltac:(lia) Ha Hb) as Hab.
      destruct (HF _ _ Ha) as [a' Ka]. destruct (HF _ _ Hb) as [b' Kb]. destruct (fx_sub 51 _ _ _ _ ltac:(lia) Kb Ka) as [_ [Es _]].
      destruct Ka as [Fa [-> _]], Kb as [Fb [-> _]]. cbn in Es. injection Es as Es. rewrite <- Es.
      change (Bleb a b = true) in Hab. rewrite Bleb_correct in Hab by assumption. destruct (Rle_bool_spec (B2R a) (B2R b)); [lra|discriminate].
Qed.

Definition opt_rel {X Y} (R : X -> Y -> Prop) (o : option X) (o' : option Y) : Prop :=
  match o, o' with Some x, Some y => R x y | None, None => True | _, _ => False end.

Lemma opt_or_rel (R : b64 -> xr -> Prop) o o' x x' : opt_rel R o o' -> R x x' -> R (opt_or (A := BN) o x) (opt_or (A := XR) o' x').
Proof. destruct o, o'; cbn; auto; contradiction. Qed.

(** lags before they are compared with the largest *)
Definition Lfx (x : b64) (y : xr) : Prop := fx g 53 x y /\ - IZR (2 ^ 51) * bpow radix2 g <= B2R x.

Lemma fx_core p (ts : list b64) (ts' : list xr) mi mi' ma ma' re re' al al' sel wgt :
  Forall2 (fx g 50) ts ts' -> (2 <= length ts)%nat -> ordered (A := BN) ts ->
  opt_rel (fx g 51) mi mi' -> opt_rel (fx g 51) ma ma' -> opt_rel (fun x y => fx g 51 x y /\ 0 <= B2R x) re re' ->
  same_outcome (fun x y => Forall2 (fx g 51) (fst x) (fst y) /\
      Forall2 (fun_rel (A := BN) (B := XR) (fx g 53) wgt (opt_or (A := BN) al (middle (A := BN) (rel_times (A := BN) ts) (b64_ofZ 0))) (opt_or (A := XR) al' (middle (A := XR) (rel_times (A := XR) ts') (Fin 0))))
        (snd x) (snd y))
    (acf_core (A := BN) p ts mi ma re al sel wgt) (acf_core (A := XR) p ts' mi' ma' re' al' sel wgt).
Proof.
  intros H Hl Ho Hmi Hma Hre.
  pose proof (fx_rel_times 50 ts ts' ltac:(lia) H) as Hn. change (50 + 1)%Z with 51%Z in Hn.
  pose proof (arith_binary64 exp64) as HA.
  assert (HF : forall x, In x ts -> finite (A := BN) x).
  { intros x Hx. apply In_nth_error in Hx. destruct Hx as [i Hi]. pose proof (Forall2_nth_error (fx g 50) ts ts' i H) as K. rewrite Hi in K.
    destruct (nth_error ts' i); [|contradiction]. destruct K as [F _]. unfold finite. change (@nfloor BN x) with (b64_floor x). rewrite b64_floor_R by exact F. discriminate. }
  pose proof (@rel_times_ordered BN (arith_laws _ HA) ts Ho HF) as Hor.
  assert (Hl' : (2 <= @length b64 (rel_times (A := BN) ts))%nat) by (change (2 <= @length (@num BN) (rel_times (A := BN) ts))%nat; rewrite rel_times_length; exact Hl).
  assert (E0 : nth_error (rel_times (A := BN) ts : list b64) 0 = Some (b64_ofZ 0)).
  { destruct H as [|t t' ts ts' [F _] H]; [cbn in Hl; lia|]. cbn. f_equal. apply Bminus_self. exact F. }
  destruct (fx_nonneg _ _ Hn Hl' Hor E0) as [P1 P2].
  pose proof (fx_allot _ _ Hn Hl' P1 P2) as EA. pose proof (fx_min _ _ Hn Hl') as Hr.
  pose proof (Forall2_last (fx g 51) _ _ _ _ (fx_zero 51) Hn) as HL.
  set (nt := rel_times (A := BN) ts : list b64) in *. set (nt' := rel_times (A := XR) ts' : list xr) in *.
  assert (Hmax : fx g 51 (opt_or (A := BN) ma (last nt (b64_ofZ 0))) (opt_or (A := XR) ma' (last nt' (Fin 0)))) by (apply opt_or_rel; assumption).
  assert (Hmin : fx g 51 (opt_or (A := BN) mi (Bopp (last nt (b64_ofZ 0)))) (opt_or (A := XR) mi' (xneg (last nt' (Fin 0))))) by (apply opt_or_rel; [assumption|apply fx_neg; exact HL]).
  assert (Hres : (fun x y => fx g 52 x y /\ 0 <= B2R x) (opt_or (A := BN) re (findMinDiff (A := BN) nt)) (opt_or (A := XR) re' (findMinDiff (A := XR) nt'))).
  { apply (opt_or_rel (fun x y => fx g 52 x y /\ 0 <= B2R x)); [|split; assumption]. destruct re, re'; cbn in *; auto. destruct Hre as [K1 K2]. split; [|exact K2].
    apply (fx_mono 51); [lia|exact K1]. }
  assert (low : forall x y, fx g 51 x y -> - IZR (2 ^ 51) * bpow radix2 g <= B2R x).
  { intros x y [_ [_ [k [Hk ->]]]]. apply Rmult_le_compat_r; [apply bpow_ge_0|]. rewrite <- opp_IZR. apply IZR_le. lia. }
  refine (acf_core_rel (A := BN) (B := XR) (fx g 51) (fx g 52) (fx g 53) _ _ _ _ _ _ p p eq_refl _ Lfx ts ts' mi mi' ma ma' re re' al al' sel wgt Hn EA (fx_zero 51) _ _).
  - intros x x' y y' Hx Hy. exact (fx_add 51 x x' y y' ltac:(lia) Hx Hy).
  - intros x x' y y' Hx Hy. exact (fx_sub 52 x x' y y' ltac:(lia) Hx (fx_mono 51 52 _ _ ltac:(lia) Hy)).
  - intros x x' y y' Hx Hy. exact (fx_sub 52 x x' y y' ltac:(lia) (fx_mono 51 52 _ _ ltac:(lia) Hx) Hy).
  - intros x x' y y' Hx Hy. exact (fx_lt 51 52 x x' y y' Hx Hy).
  - intros x x' y y' Hx Hy. exact (fx_le 51 52 x x' y y' Hx Hy).
  - intros x x' y y' Hx Hy. exact (fx_lt 53 53 x x' y y' Hx Hy).
  - intros x x' Hx. apply fx_abs; [lia|exact Hx].
  - split; [apply (fx_mono 51 53); [lia|exact Hmin]|]. exact (low _ _ Hmin).
  - intros x x' [Hx Hlo]. split; [exact (fx_le 53 51 x x' _ _ Hx Hmax)|]. intros Hle.
    split; [exact (fx_eqb 53 51 x x' _ _ Hx (fx_zero 51))|]. split; [exact (fx_lt 51 53 _ _ x x' (fx_zero 51) Hx)|].
    assert (T : fx g 51 x x').
    { destruct Hx as [F [E [k [Hk Ek]]]]. split; [exact F|]. split; [exact E|]. exists k. split; [|exact Ek].
      destruct Hmax as [FM [_ [m [Hm Em]]]]. set (M := opt_or (A := BN) ma (last nt (b64_ofZ 0)) : b64) in *. change (Bleb x M = true) in Hle.
      rewrite Bleb_correct in Hle by assumption. destruct (Rle_bool_spec (B2R x) (B2R M)) as [Hxm|]; [|discriminate].
      rewrite Ek, Em in Hxm. rewrite Ek in Hlo. pose proof (bpow_gt_0 radix2 g) as G0. apply Rmult_le_reg_r in Hxm, Hlo; try exact G0.
      apply le_IZR in Hxm. rewrite <- opp_IZR in Hlo. apply le_IZR in Hlo. lia. }
    split; [exact T|]. destruct Hres as [Hr1 Hr2]. destruct T as [F [-> [k [Hk Ek]]]].
    destruct Hr1 as [Fr [Er [m [Hm Em]]]]. set (R := opt_or (A := BN) re (findMinDiff (A := BN) nt) : b64) in *.
    change (Lfx (Bplus mode_NE x R) (xadd (Fin (B2R x)) (opt_or (A := XR) re' (findMinDiff (A := XR) nt')))). rewrite Er.
    assert (E : B2R x + B2R R = IZR (k + m) * bpow radix2 g) by (rewrite Ek, Em, plus_IZR; ring).
    assert (B : (Z.abs (k + m) <= 2 ^ 53)%Z) by lia.
    destruct (plus_fin x R F Fr) as [F' V]; [rewrite E, rnd_k by lia; apply k_lt; lia|]. rewrite E, rnd_k in V by lia.
    split; [split; [exact F'|]; split; [cbn; rewrite V, E; reflexivity|]; exists (k + m)%Z; split; [exact B|exact V]|].
    rewrite V, <- E. pose proof (low x (Fin (B2R x)) (conj F (conj eq_refl (ex_intro _ k (conj Hk Ek))))). lra.
Qed.
End Fixed.
