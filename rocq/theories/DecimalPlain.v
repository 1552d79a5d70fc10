(** The default alpha for times close to an even grid, and the call without any option. *)
From Coq Require Import String.
From Coq Require Import ZArith Reals List Bool Arith Lia Lra Psatz.
From Flocq Require Import Core BinarySingleNaN.
From Verif Require Import ValFacts ExactFacts AccThms AccExact GridVals SelFacts WeightFacts.
From Verif Require Import Num Mem MemFacts XR B64 Spec SpecR SpecTime SpecEven DataStructure Correlator Sacf Api Laws B64Facts Laws2 DSFacts CorrFacts
  ConstrFacts TimeFacts DefaultFacts WeightAcc AccFacts FixedThms TimeCloseFacts AnyTimes EvenFacts EvenFloat DecimalFacts DecimalRound.
Import ListNotations.
Local Open Scope list_scope.
Local Open Scope R_scope.

Lemma is_finite_fin (exp64 : b64 -> b64) (x : b64) : is_finite x = true -> finite (A := B64 exp64) x.
Proof. intros Fx. unfold finite. intros C. destruct x; first [discriminate Fx|vm_compute in C; congruence|idtac]. Qed.

Lemma median_even (exp64 : b64 -> b64) (d : @dstruct (B64 exp64)) (t0 dd h : R) : accepted d -> times_ok (A := B64 exp64) d ->
  let ts := map B2R (timeseries d) in
  let T := nth (length ts - 1) ts 0 - nth 0 ts 0 in
  let M := length ts in
  T <= bpow radix2 1021 -> (2 <= M)%nat -> nearly_even ts t0 dd h -> bpow radix2 (-1000) <= dd ->
  4 * (4 * INR M * (h + 3 * bpow radix2 (-53) * T)) < dd ->
  is_finite (median_time d : b64) = true /\ INR (M - 1) * dd / 4 <= B2R (median_time d : b64).
Proof.
  intros Ha Hok ts T M HT HM He Hd HG.
  destruct (base exp64 d t0 dd h Ha Hok HM He) as [H0 [T0 [UT [M2 [U2 U0]]]]]. fold ts T M in T0, UT, M2.
  set (u := bpow radix2 (-53)) in *. assert (D : 0 < dd) by (pose proof (bpow_gt_0 radix2 (-1000)); lra).
  assert (Q : 32 * (2 * h + 6 * (u * T)) <= 2 * dd) by nra.
  destruct (len_nt exp64 d Ha) as [L1 [_ [L3 _]]]. fold ts in L1, L3. fold M in L1, L3.
  assert (X : forall q, (q < M)%nat -> is_finite (nth q (normalised_timeseries d : list b64) (b64_ofZ 0)) = true /\
                Rabs (B2R (nth q (normalised_timeseries d : list b64) (b64_ofZ 0)) - INR q * dd) <= dd / 16 /\ Rabs (B2R (nth q (normalised_timeseries d : list b64) (b64_ofZ 0))) <= 101 / 100 * T).
  { intros q Hq. split; [apply (tl_fin exp64 d Ha Hok q Hq)|]. pose proof (x_near exp64 d Ha Hok q Hq) as A. destruct (span exp64 d Ha Hok q 0 Hq L3) as [B _].
    change u64 with u in A. change (Rabs (nth q ts 0 - nth 0 ts 0) <= T) in B. 
    change (Rabs (B2R (nth q (normalised_timeseries d : list b64) (b64_ofZ 0)) - (nth q ts 0 - nth 0 ts 0)) <= u * T) in A.
    pose proof (He q Hq) as C1. pose proof (He 0%nat L3) as C0. cbn [INR] in C0. apply Rabs_le_inv in A, B, C1, C0.
    assert (u * T <= T * / 1000000000) by nra. split; apply Rabs_le; lra. }
  destruct Hok as [Ho [Hf Hf2]].
  destruct (median_time_median (B64 exp64) (arith_binary64 exp64) d Ha Ho Hf Hf2) as [Od [Ev _]]. change (@num (B64 exp64)) with b64 in *. rewrite L1 in Od, Ev.
  assert (M1 : 1 <= INR (M - 1)) by (change 1 with (INR 1); apply le_INR; lia).
  destruct (Nat.Even_or_Odd M) as [[k Ek]|[k Ek]].
  - destruct (Ev (ex_intro _ k Ek)) as [a [b [E1 [E2 E3]]]]. assert (Ek2 : (M / 2 = k)%nat) by (rewrite Ek, Nat.mul_comm; apply Nat.div_mul; lia). rewrite Ek2 in *.
    apply (nth_error_nth _ _ (b64_ofZ 0)) in E1, E2. destruct (X (k - 1)%nat ltac:(lia)) as [F1 [A1 B1]]. destruct (X k ltac:(lia)) as [F2 [A2 B2]]. rewrite E1 in F1, A1, B1. rewrite E2 in F2, A2, B2.
    assert (S0 : INR (k - 1) + INR k = INR (M - 1)) by (rewrite <- plus_INR; f_equal; lia).
    pose proof (rnd_plus a b) as R. change u64 with u in R.
    assert (SL : 7 / 8 * (INR (M - 1) * dd) <= B2R a + B2R b).
    { apply Rabs_le_inv in A1, A2. replace (INR (M - 1) * dd) with (INR (k - 1) * dd + INR k * dd) by (rewrite <- S0; ring).
      assert (dd <= INR (k - 1) * dd + INR k * dd) by (replace (INR (k - 1) * dd + INR k * dd) with (INR (M - 1) * dd) by (rewrite <- S0; ring); nra). lra. }
    assert (SU : B2R a + B2R b <= 202 / 100 * T) by (apply Rabs_le_inv in B1, B2; lra).
    assert (D1 : dd <= INR (M - 1) * dd) by nra. set (J := INR (M - 1) * dd) in *.
    rewrite (Rabs_pos_eq (B2R a + B2R b)) in R by lra. set (s := B2R a + B2R b) in *.
    assert (us : u * s <= s * / 1000000000) by nra. assert (us0 : 0 <= u * s) by (apply Rmult_le_pos; lra).
    destruct (plus_fin a b F1 F2) as [Fp Vp].
    { fold s. apply near in R. rewrite (Rabs_pos_eq s) in R by lra. pose proof big_2 as Bg. pose proof (bpow_gt_0 radix2 1021). lra. }
    fold s in Vp. set (y := Bplus mode_NE a b) in *. assert (Y : 999 / 1000 * s <= B2R y <= 1001 / 1000 * s) by (rewrite Vp; apply Rabs_le_inv in R; lra).
    destruct (E_fin _ _ (toE_ofZ_small 2 ltac:(lia))) as [Ft Vt].
    pose proof (rnd_err (B2R y / 2)) as R2. change u64 with u in R2. rewrite (Rabs_pos_eq (B2R y / 2)) in R2 by lra.
    assert (uy : u * (B2R y / 2) <= (B2R y / 2) * / 1000000000) by nra.
    assert (et : eta <= dd / 1000).
    { apply Rle_trans with (bpow radix2 (-1010)); [unfold eta; apply bpow_le; lia|]. apply Rle_trans with (bpow radix2 (-10) * bpow radix2 (-1000)); [rewrite <- bpow_plus; apply bpow_le; lia|].
      change (bpow radix2 (-10)) with (/ 1024). lra. }
    destruct (div_fin y (b64_ofZ 2) Fp Ft ltac:(rewrite Vt; lra)) as [Fq Vq].
    { rewrite Vt. pose proof (near _ _ _ R2) as R3. rewrite (Rabs_pos_eq (B2R y / 2)) in R3 by lra. pose proof big_2 as Bg. lra. }
    rewrite Vt in Vq. assert (E4 : (median_time d : b64) = Bdiv mode_NE y (b64_ofZ 2)) by exact E3. rewrite E4. split; [exact Fq|]. rewrite Vq. apply Rabs_le_inv in R2. lra.
  - pose proof (Od (ex_intro _ k Ek)) as E1. assert (Ek2 : (M / 2 = k)%nat) by (rewrite Ek; symmetry; apply (Nat.div_unique _ 2 k 1); lia). rewrite Ek2 in *.
    apply (nth_error_nth _ _ (b64_ofZ 0)) in E1. destruct (X k ltac:(lia)) as [F1 [A1 _]]. rewrite E1 in F1, A1. split; [exact F1|].
    assert (S0 : INR (M - 1) = 2 * INR k) by (replace (M - 1)%nat with (2 * k)%nat by lia; rewrite mult_INR; reflexivity). rewrite S0 in *. apply Rabs_le_inv in A1.
    assert (dd <= 2 * INR k * dd) by nra. lra.
Qed.

Theorem rounded_plain (exp64 : b64 -> b64) (p : platform) (d : @dstruct (B64 exp64)) (wgt : string) (lags : list b64) corr c (rows : list (list b64)) (j : nat) (row : list b64) (b : Z) (t0 dd Tm : R) :
  accepted d -> (forall x : b64, In x (timeseries d) -> is_finite x = true) ->
  let M := length (timeseries d) in
  (2 <= M)%nat ->
  (forall q, (q < M)%nat -> B2R (nth q (timeseries d : list b64) (b64_ofZ 0)) = round radix2 (FLT_exp (-1074) 53) ZnearestE (t0 + INR q * dd)) ->
  (forall q, (q < M)%nat -> (Rabs (t0 + INR q * dd) <= Tm)%R) ->
  (bpow radix2 (-1000) <= dd)%R -> (Tm <= bpow radix2 1019)%R ->
  let G := (32 * INR M * Tm * bpow radix2 (-53))%R in
  (4 * G <= dd)%R ->
  p_abs p = AbsFloat -> wgt = "fractional"%string \/ wgt = "fractional_squared"%string ->
  autocorrelation (A := B64 exp64) p d None None None None "natural" wgt = Ok (lags, corr, c) ->
  data_2d d = Ok rows -> nth_error rows j = Some row ->
  (-149 <= b <= 100)%Z -> (forall x : b64, In x row -> is_finite x = true /\ (Rabs (B2R x) <= bpow radix2 b)%R) ->
  let rs := map B2R row in
  length rs = M ->
  let N := sq_dev32 rs in
  let K := (INR M * (bpow radix2 b * bpow radix2 b) / N)%R in
  (bpow radix2 (-700) <= N)%R -> ((INR M + 1) * K <= bpow radix2 48)%R ->
  forall m, (m <= M - 2)%nat -> exists i (kk v : b64), (i = M - 1 + m \/ i = M + m)%nat /\
    nth_error lags i = Some kk /\ (Rabs (B2R kk - INR m * dd) <= G)%R /\
    corr_at corr j i = Some v /\ is_finite v = true /\
    (Rabs (B2R v - rsum_n (M - m) (fun q => dev rs q * dev rs (q + m)%nat) / N) <=
      50 * (INR M + 10) * bpow radix2 (-53) * (K * K + K) + 35 * bpow radix2 (-53) * K + bpow radix2 (-110) +
      (512 * Tm * bpow radix2 (-53) / dd * sq_dev rs + Rabs (dev rs (M - 1 - m) * dev rs (M - 1))) / N)%R.
Proof.
  intros Ha Hf M HM Hr Hb Hd HT G HG Hp Hw E Hd2 Hj Hbb Hx rs Lr N K HN HKK m Hm.
  assert (EM : length (map B2R (timeseries d : list b64)) = M) by apply map_length.
  assert (HM' : (2 <= length (map B2R (timeseries d : list b64)))%nat) by (rewrite EM; exact HM).
  assert (HG' : 128 * INR (length (map B2R (timeseries d : list b64))) * Tm * bpow radix2 (-53) <= dd) by (rewrite EM; unfold G in HG; lra).
  pose proof (rounded_ok exp64 d t0 dd Tm Ha Hf HM' Hr Hb Hd HT) as Hok.
  pose proof (rounded_near exp64 d t0 dd Tm Hr Hb) as He.
  destruct (rounded_span exp64 d t0 dd Tm Ha Hf HM' Hr Hb Hd HT) as [_ Hs].
  destruct (rounded_G exp64 d t0 dd Tm Ha Hf HM' Hr Hb Hd HT HG') as [_ G2].
  destruct (median_even exp64 d t0 dd _ Ha Hok Hs HM' He Hd G2) as [Fm Pm]. rewrite EM in Pm. clear G2 Hs He.
  destruct (sizes exp64 d t0 dd Tm HM' Hb Hd) as [D [_ [U [_ [P _]]]]].
  assert (M1 : 1 <= INR (M - 1)) by (change 1 with (INR 1); apply le_INR; lia).
  assert (M2 : INR M <= 2 * INR (M - 1)) by (change 2 with (INR 2); rewrite <- mult_INR; apply le_INR; lia).
  assert (Pa : 0 < B2R (median_time d : b64)) by nra.
  assert (Wn : String.eqb wgt "gaussian" = false) by (destruct Hw as [-> | ->]; reflexivity).
  destruct (rounded_default exp64 p d None wgt lags corr c rows j row b (7 * bpow radix2 (-53)) t0 dd Tm Ha Hf HM Hr Hb Hd HT HG Hp E Hd2 Hj) with (m := m) as [i [kk [v [H1 [H2 [H3 [H4 [H5 H6]]]]]]]].
  { exact Fm. } { exact Pa. }
  { left. split; [exact Hw|]. change (Bltb (b64_ofZ 0) (median_time d) = true). destruct (E_fin _ _ (toE_ofZ_small 0 ltac:(lia))) as [F0 V0].
    rewrite Bltb_correct by assumption. apply Rlt_bool_true. rewrite V0. exact Pa. }
  { rewrite Wn. cbn [opt_or]. apply is_finite_fin. exact Fm. }
  { left. split; [exact Hw|reflexivity]. }
  { exact Hbb. } { exact Hx. } { exact Lr. } { exact HN. } { exact HKK. } { exact Hm. }
  exists i, kk, v. repeat (split; [assumption|]). cbn [opt_or] in H6. eapply Rle_trans; [exact H6|].
  fold rs N. fold M. fold K. fold G. set (u := bpow radix2 (-53)) in *.
  replace (5 * (7 * u) * K) with (35 * u * K) by ring. apply Rplus_le_compat_l. apply Rmult_le_compat_r.
  { left. apply Rinv_0_lt_compat. pose proof (bpow_gt_0 radix2 (-700)). lra. }
  apply Rplus_le_compat_r. apply Rmult_le_compat_r; [rewrite sq_dev_n; apply rsum_n_nonneg; intros; apply Rle_0_sqr|].
  set (a := B2R (median_time d : b64)) in *. apply Rmult_le_reg_r with (a * dd); [apply Rmult_lt_0_compat; assumption|].
  replace (2 * G / a * (a * dd)) with (2 * G * dd) by (field; lra). replace (512 * Tm * u / dd * (a * dd)) with (512 * (Tm * u) * a) by (field; lra).
  assert (W : 0 < Tm * u) by (apply Rmult_lt_0_compat; assumption). unfold G. fold u.
  apply Rle_trans with (512 * (Tm * u) * (INR (M - 1) * dd / 4)); [|apply Rmult_le_compat_l; [lra|exact Pm]].
  replace (2 * (32 * INR M * Tm * u) * dd) with (64 * (Tm * u) * dd * INR M) by ring. replace (512 * (Tm * u) * (INR (M - 1) * dd / 4)) with (64 * (Tm * u) * dd * (2 * INR (M - 1))) by field.
  apply Rmult_le_compat_l; [|exact M2]. apply Rmult_le_pos; lra.
Qed.
