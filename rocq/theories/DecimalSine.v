(** Sinusoids sampled at decimal time stamps, in a call without options. *)
From Coq Require Import String.
From Coq Require Import ZArith Reals List Bool Arith Lia Lra Psatz.
From Flocq Require Import Core BinarySingleNaN.
From Verif Require Import Num Mem MemFacts XR B64 Spec SpecR SpecTime SpecEven DataStructure Correlator Sacf Api ValFacts ExactFacts GridVals GridSums SineFacts EvenFacts EvenSine
  DecimalFacts DecimalRound DecimalPlain DecimalReturns.
Import ListNotations.
Local Open Scope list_scope.
Local Open Scope R_scope.

Theorem rounded_sine (exp64 : b64 -> b64) (p : platform) (d : @dstruct (B64 exp64)) (wgt : string) (rows : list (list b64)) (t0 dd Tm : R) :
  accepted d -> (forall x : b64, In x (timeseries d) -> is_finite x = true) ->
  let M := length (timeseries d) in
  (2 <= M)%nat ->
  (forall q, (q < M)%nat -> B2R (nth q (timeseries d : list b64) (b64_ofZ 0)) = round radix2 (FLT_exp (-1074) 53) ZnearestE (t0 + INR q * dd)) ->
  (forall q, (q < M)%nat -> (Rabs (t0 + INR q * dd) <= Tm)%R) ->
  (bpow radix2 (-1000) <= dd)%R -> (Tm <= bpow radix2 1019)%R ->
  let G := (32 * INR M * Tm * bpow radix2 (-53))%R in
  (4 * G <= dd)%R ->
  p_abs p = AbsFloat -> p_checked p = false -> wgt = "fractional"%string \/ wgt = "fractional_squared"%string -> data_2d d = Ok rows ->
  exists (lags : list b64) corr c, autocorrelation (A := B64 exp64) p d None None None None "natural" wgt = Ok (lags, corr, c) /\
  forall (j : nat) (row : list b64) (k : Z) (b A w ph e : R), nth_error rows j = Some row ->
    (-149 <= k <= 100)%Z -> (forall x : b64, In x row -> is_finite x = true /\ (Rabs (B2R x) <= bpow radix2 k)%R) ->
    let rs := map B2R row in
    length rs = M -> Forall single rs ->
    (forall q, (q < M)%nat -> (Rabs (nth q rs 0 - (b + A * cos (w * INR q + ph))) <= e)%R) -> (0 < A)%R -> (0 <= e)%R -> (128 * e <= A)%R -> (32 <= INR M * Rabs (sin w))%R ->
    let N := sq_dev rs in
    let K := (INR M * (bpow radix2 k * bpow radix2 k) / N)%R in
    (bpow radix2 (-700) <= N)%R -> ((INR M + 1) * K <= bpow radix2 48)%R ->
    forall m, (m <= M - 2)%nat -> exists i (kk v : b64), (i = M - 1 + m \/ i = M + m)%nat /\
      nth_error lags i = Some kk /\ (Rabs (B2R kk - INR m * dd) <= G)%R /\
      corr_at corr j i = Some v /\ is_finite v = true /\
      (Rabs (B2R v - (1 - INR m / INR M) * cos (w * INR m)) <=
        6 / (INR M * Rabs (sin w)) + 96 * (e / A) + 13 / INR M + 512 * Tm * bpow radix2 (-53) / dd +
        (50 * (INR M + 10) * bpow radix2 (-53) * (K * K + K) + 35 * bpow radix2 (-53) * K + bpow radix2 (-110)))%R.
Proof.
  intros Ha Hf M HM Hr Hb Hd HT G HG Hp Hc Hw Hd2.
  destruct (rounded_returns exp64 p d wgt t0 dd Tm Ha Hf HM Hr Hb Hd HT ltac:(fold M; unfold G in HG; lra) Hp Hc) as [[[lags corr] c] E]; [unfold known_weight; tauto|].
  exists lags, corr, c. split; [exact E|]. intros j row k b A w ph e Hj Hk Hx rs Lr Hs H HA He HeA HMs N K HN HKK m Hm.
  assert (ES : sq_dev32 rs = N) by (apply sq_dev_single; exact Hs).
  destruct (rounded_plain exp64 p d wgt lags corr c rows j row k t0 dd Tm Ha Hf HM Hr Hb Hd HT HG Hp Hw E Hd2 Hj Hk Hx Lr) with (m := m) as [i [kk [v [H1 [H2 [H3 [H4 [H5 H6]]]]]]]].
  { fold rs. rewrite ES. exact HN. } { fold rs M. rewrite ES. exact HKK. } { exact Hm. }
  exists i, kk, v. repeat (split; [assumption|]). fold rs M in H6. rewrite ES in H6. fold N K in H6.
  destruct (sine_core rs b A w ph e M m Lr HA He HeA HMs ltac:(lia) H) as [[N0 N3] HB]. fold N in N0, N3, HB.
  assert (M0 : 0 < INR M) by (apply lt_0_INR; lia).
  assert (DB : forall q, (q < M)%nat -> Rabs (dev rs q) <= 2 * (A * (1 + / 128))).
  { intros q Hq. apply (dev_about rs b); [rewrite Lr; exact Hq|]. intros z Hz. rewrite Lr in Hz. specialize (H z Hz). pose proof (COS_bound (w * INR z + ph)) as CB.
    set (c2 := cos (w * INR z + ph)) in *. apply Rabs_le_inv in H. apply Rabs_le. nra. }
  assert (L13 : Rabs (dev rs (M - 1 - m) * dev rs (M - 1)) / N <= 13 / INR M).
  { rewrite Rabs_mult. pose proof (DB (M - 1 - m)%nat ltac:(lia)) as D1. pose proof (DB (M - 1)%nat ltac:(lia)) as D2.
    apply Rmult_le_reg_r with N; [exact N0|]. replace (Rabs (dev rs (M - 1 - m)) * Rabs (dev rs (M - 1)) / N * N) with (Rabs (dev rs (M - 1 - m)) * Rabs (dev rs (M - 1))) by (field; lra).
    apply Rle_trans with (13 / INR M * (A * A * (INR M / 3))).
    - replace (13 / INR M * (A * A * (INR M / 3))) with (13 / 3 * (A * A)) by (field; lra).
      eapply Rle_trans; [apply Rmult_le_compat; [apply Rabs_pos|apply Rabs_pos|exact D1|exact D2]|]. nra.
    - apply Rmult_le_compat_l; [unfold Rdiv; apply Rmult_le_pos; [lra|left; apply Rinv_0_lt_compat; exact M0]|exact N3]. }
  change (rsum_n (M - m) (fun q => dev rs q * dev rs (q + m)%nat)) with (lagged M (dev rs) m) in H6.
  change (sq_dev rs) with N in H6.
  replace ((512 * Tm * bpow radix2 (-53) / dd * N + Rabs (dev rs (M - 1 - m) * dev rs (M - 1))) / N)
    with (512 * Tm * bpow radix2 (-53) / dd + Rabs (dev rs (M - 1 - m) * dev rs (M - 1)) / N) in H6 by (field; pose proof (bpow_gt_0 radix2 (-1000)); lra).
  set (l := lagged M (dev rs) m / N) in *. set (y := (1 - INR m / INR M) * cos (w * INR m)) in *. set (z := 512 * Tm * bpow radix2 (-53) / dd) in *.
  apply Rabs_le_inv in H6, HB. apply Rabs_le. lra.
Qed.
