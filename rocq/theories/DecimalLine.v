(** Straight lines sampled at decimal time stamps, in a call without options. *)
From Coq Require Import String.
From Coq Require Import ZArith Reals List Bool Arith Lia Lra Psatz.
From Flocq Require Import Core BinarySingleNaN.
From Verif Require Import Num Mem MemFacts XR B64 Spec SpecR SpecTime SpecEven DataStructure Correlator Sacf Api ValFacts ExactFacts GridVals GridSums SignalFacts EvenFacts
  DecimalFacts DecimalRound DecimalPlain DecimalReturns.
Import ListNotations.
Local Open Scope list_scope.
Local Open Scope R_scope.

Lemma line_last s b M m : (2 <= M)%nat -> (m <= M - 2)%nat -> s <> 0 ->
  Rabs (dev (line s b M) (M - 1 - m) * dev (line s b M) (M - 1)) / sq_dev (line s b M) <= 3 / INR M.
Proof.
  intros HM Hm Hs. rewrite !line_dev by lia. rewrite line_sq.
  assert (M2 : 2 <= INR M) by (apply (le_INR 2) in HM; cbn [INR] in HM; lra).
  assert (m2 : 0 <= INR m <= INR M - 2) by (split; [apply pos_INR|apply le_INR in Hm; rewrite minus_INR in Hm by exact HM; cbn [INR] in Hm; lra]).
  replace (INR (M - 1 - m)) with (INR M - 1 - INR m) by (rewrite !minus_INR by lia; reflexivity). replace (INR (M - 1)) with (INR M - 1) by (rewrite minus_INR by lia; reflexivity).
  set (x := INR M) in *. set (y := INR m) in *. assert (S2 : 0 < s * s) by nra.
  assert (D : 0 < s * s * (x * (x * x - 1) / 12)) by (apply Rmult_lt_0_compat; [exact S2|]; apply Rmult_lt_0_compat; [|lra]; apply Rmult_lt_0_compat; nra).
  replace (s * (x - 1 - y - (x - 1) / 2) * (s * (x - 1 - (x - 1) / 2))) with (s * s * ((x - 1) / 2) * ((x - 1) / 2 - y)) by field.
  apply Rmult_le_reg_r with (s * s * (x * (x * x - 1) / 12)); [exact D|]. unfold Rdiv at 1. rewrite Rmult_assoc, Rinv_l, Rmult_1_r by lra.
  rewrite Rabs_mult, (Rabs_pos_eq (s * s * ((x - 1) / 2))) by nra.
  replace (3 / x * (s * s * (x * (x * x - 1) / 12))) with (s * s * ((x - 1) / 2) * ((x + 1) / 2)) by (field; lra).
  apply Rmult_le_compat_l; [nra|]. apply Rabs_le. lra.
Qed.

Theorem rounded_line (exp64 : b64 -> b64) (p : platform) (d : @dstruct (B64 exp64)) (wgt : string) (rows : list (list b64)) (t0 dd Tm : R) :
  accepted d -> (forall x : b64, In x (timeseries d) -> is_finite x = true) ->
  let M := length (timeseries d) in
  (2 <= M)%nat ->
  (forall q, (q < M)%nat -> B2R (nth q (timeseries d : list b64) (b64_ofZ 0)) = round radix2 (FLT_exp (-1074) 53) ZnearestE (t0 + INR q * dd)) ->
  (forall q, (q < M)%nat -> (Rabs (t0 + INR q * dd) <= Tm)%R) ->
  (bpow radix2 (-1000) <= dd)%R -> (Tm <= bpow radix2 1019)%R ->
  let G := (32 * INR M * Tm * bpow radix2 (-53))%R in
  (4 * G <= dd)%R ->
  p_abs p = AbsFloat -> p_checked p = false -> wgt = "fractional"%string \/ wgt = "fractional_squared"%string -> data_2d d = Ok rows ->
  exists (lags : list b64) corr c, autocorrelation (A := B64 exp64) p d None None None None "natural" wgt = Ok (lags, corr, c) /\
  forall (j : nat) (row : list b64) (k : Z) (s b : R), nth_error rows j = Some row ->
    (-149 <= k <= 100)%Z -> (forall x : b64, In x row -> is_finite x = true /\ (Rabs (B2R x) <= bpow radix2 k)%R) ->
    map B2R row = map (fun q => b + s * INR q) (seq 0 M) -> Forall single (map B2R row) -> s <> 0 ->
    let x := INR M in
    let N := s * s * (x * (x * x - 1) / 12) in
    let K := (x * (bpow radix2 k * bpow radix2 k) / N)%R in
    (bpow radix2 (-700) <= N)%R -> ((x + 1) * K <= bpow radix2 48)%R ->
    forall m, (m <= M - 2)%nat -> exists i (kk v : b64), (i = M - 1 + m \/ i = M + m)%nat /\
      nth_error lags i = Some kk /\ (Rabs (B2R kk - INR m * dd) <= G)%R /\
      corr_at corr j i = Some v /\ is_finite v = true /\
      (Rabs (B2R v - (x - INR m) * ((x - INR m) * (x - INR m) - 1 - 3 * INR m * INR m) / (x * (x * x - 1))) <=
        3 / x + 512 * Tm * bpow radix2 (-53) / dd +
        (50 * (x + 10) * bpow radix2 (-53) * (K * K + K) + 35 * bpow radix2 (-53) * K + bpow radix2 (-110)))%R.
Proof.
  intros Ha Hf M HM Hr Hb Hd HT G HG Hp Hc Hw Hd2.
  destruct (rounded_returns exp64 p d wgt t0 dd Tm Ha Hf HM Hr Hb Hd HT ltac:(fold M; unfold G in HG; lra) Hp Hc) as [[[lags corr] c] E]; [unfold known_weight; tauto|].
  exists lags, corr, c. split; [exact E|]. intros j row k s b Hj Hk Hx El Hs Hs0 x N K HN HKK m Hm.
  change (map B2R row = line s b M) in El. set (rs := map B2R row) in *.
  assert (EN : sq_dev rs = N) by (rewrite El; apply line_sq).
  assert (ES : sq_dev32 rs = N) by (rewrite <- EN; apply sq_dev_single; exact Hs).
  assert (Lr : length rs = M) by (rewrite El; apply line_length).
  destruct (rounded_plain exp64 p d wgt lags corr c rows j row k t0 dd Tm Ha Hf HM Hr Hb Hd HT HG Hp Hw E Hd2 Hj Hk Hx Lr) with (m := m) as [i [kk [v [H1 [H2 [H3 [H4 [H5 H6]]]]]]]].
  { fold rs. rewrite ES. exact HN. } { fold rs M. rewrite ES. exact HKK. } { exact Hm. }
  exists i, kk, v. repeat (split; [assumption|]). fold rs M in H6. rewrite ES, EN in H6. fold x K in H6.
  assert (N0 : 0 < N) by (pose proof (bpow_gt_0 radix2 (-700)); lra).
  pose proof (line_last s b M m HM Hm Hs0) as L. rewrite <- El, EN in L. fold x in L.
  change (rsum_n (M - m) (fun q => dev rs q * dev rs (q + m)%nat)) with (lagged M (dev rs) m) in H6.
  assert (EL : lagged M (dev rs) m / N = (x - INR m) * ((x - INR m) * (x - INR m) - 1 - 3 * INR m * INR m) / (x * (x * x - 1))).
  { rewrite El, line_lagged by lia. rewrite ?minus_INR by lia. fold x. unfold N. assert (2 <= x) by (apply (le_INR 2) in HM; cbn [INR] in HM; exact HM). field. split; [nra|]. split; [lra|exact Hs0]. }
  replace ((512 * Tm * bpow radix2 (-53) / dd * N + Rabs (dev rs (M - 1 - m) * dev rs (M - 1))) / N)
    with (512 * Tm * bpow radix2 (-53) / dd + Rabs (dev rs (M - 1 - m) * dev rs (M - 1)) / N) in H6 by (field; pose proof (bpow_gt_0 radix2 (-1000)); lra).
  rewrite EL in H6. set (y := (x - INR m) * ((x - INR m) * (x - INR m) - 1 - 3 * INR m * INR m) / (x * (x * x - 1))) in *. set (z := 512 * Tm * bpow radix2 (-53) / dd) in *.
  apply Rabs_le_inv in H6. apply Rabs_le. lra.
Qed.

(** Values that repeat after [P] points, [n] periods of them. *)
Lemma term_le n (f : nat -> R) q : (q < n)%nat -> (forall i, 0 <= f i) -> f q <= rsum_n n f.
Proof.
  intros Hq Hf. replace n with (q + (1 + (n - q - 1)))%nat by lia. rewrite rsum_n_split, rsum_n_split.
  pose proof (rsum_n_nonneg q f ltac:(intros; apply Hf)). pose proof (rsum_n_nonneg (n - q - 1) (fun i => f (q + (1 + i))%nat) ltac:(intros; apply Hf)).
  assert (rsum_n 1 (fun i => f (q + i)%nat) = f q) by (unfold rsum_n, rsum; cbn [map seq fold_right]; rewrite Nat.add_0_r; ring). lra.
Qed.

Theorem rounded_repeat (exp64 : b64 -> b64) (p : platform) (d : @dstruct (B64 exp64)) (wgt : string) (rows : list (list b64)) (t0 dd Tm : R) :
  accepted d -> (forall x : b64, In x (timeseries d) -> is_finite x = true) ->
  let M := length (timeseries d) in
  (2 <= M)%nat ->
  (forall q, (q < M)%nat -> B2R (nth q (timeseries d : list b64) (b64_ofZ 0)) = round radix2 (FLT_exp (-1074) 53) ZnearestE (t0 + INR q * dd)) ->
  (forall q, (q < M)%nat -> (Rabs (t0 + INR q * dd) <= Tm)%R) ->
  (bpow radix2 (-1000) <= dd)%R -> (Tm <= bpow radix2 1019)%R ->
  let G := (32 * INR M * Tm * bpow radix2 (-53))%R in
  (4 * G <= dd)%R ->
  p_abs p = AbsFloat -> p_checked p = false -> wgt = "fractional"%string \/ wgt = "fractional_squared"%string -> data_2d d = Ok rows ->
  exists (lags : list b64) corr c, autocorrelation (A := B64 exp64) p d None None None None "natural" wgt = Ok (lags, corr, c) /\
  forall (j : nat) (row : list b64) (k : Z) (n P : nat), nth_error rows j = Some row ->
    (-149 <= k <= 100)%Z -> (forall x : b64, In x row -> is_finite x = true /\ (Rabs (B2R x) <= bpow radix2 k)%R) ->
    let rs := map B2R row in
    length rs = M -> M = (n * P)%nat -> (2 <= P)%nat -> Forall single rs -> (forall q, (q + P < M)%nat -> nth (q + P) rs 0 = nth q rs 0) ->
    let N := sq_dev rs in
    let K := (INR M * (bpow radix2 k * bpow radix2 k) / N)%R in
    (bpow radix2 (-700) <= N)%R -> ((INR M + 1) * K <= bpow radix2 48)%R ->
    forall l, (l < n)%nat -> exists i (kk v : b64), (i = M - 1 + l * P \/ i = M + l * P)%nat /\
      nth_error lags i = Some kk /\ (Rabs (B2R kk - INR (l * P) * dd) <= G)%R /\
      corr_at corr j i = Some v /\ is_finite v = true /\
      (Rabs (B2R v - (1 - INR l / INR n)) <=
        1 / INR n + 512 * Tm * bpow radix2 (-53) / dd +
        (50 * (INR M + 10) * bpow radix2 (-53) * (K * K + K) + 35 * bpow radix2 (-53) * K + bpow radix2 (-110)))%R.
Proof.
  intros Ha Hf M HM Hr Hb Hd HT G HG Hp Hc Hw Hd2.
  destruct (rounded_returns exp64 p d wgt t0 dd Tm Ha Hf HM Hr Hb Hd HT ltac:(fold M; unfold G in HG; lra) Hp Hc) as [[[lags corr] c] E]; [unfold known_weight; tauto|].
  exists lags, corr, c. split; [exact E|]. intros j row k n P Hj Hk Hx rs Lr EM HP Hs Hrep N K HN HKK l Hl.
  assert (ES : sq_dev32 rs = N) by (apply sq_dev_single; exact Hs).
  assert (Hm : (l * P <= M - 2)%nat) by (rewrite EM; assert (S l * P <= n * P)%nat by (apply Nat.mul_le_mono_r; lia); lia).
  destruct (rounded_plain exp64 p d wgt lags corr c rows j row k t0 dd Tm Ha Hf HM Hr Hb Hd HT HG Hp Hw E Hd2 Hj Hk Hx Lr) with (m := (l * P)%nat) as [i [kk [v [H1 [H2 [H3 [H4 [H5 H6]]]]]]]].
  { fold rs. rewrite ES. exact HN. } { fold rs M. rewrite ES. exact HKK. } { exact Hm. }
  exists i, kk, v. repeat (split; [assumption|]). fold rs M in H6. rewrite ES in H6. fold N K in H6.
  assert (N0 : 0 < N) by (pose proof (bpow_gt_0 radix2 (-700)); lra).
  assert (Hrd : forall q, (q + P < M)%nat -> dev rs (q + P) = dev rs q) by (intros q Hq; unfold dev; rewrite Hrep by exact Hq; reflexivity).
  assert (Hrk : forall z q, (q + z * P < M)%nat -> dev rs (q + z * P) = dev rs q) by (intros z; apply period_multiple; exact Hrd).
  set (y := fun q => dev rs q * dev rs q). assert (Hy : forall q, (q + P < n * P)%nat -> y (q + P)%nat = y q) by (intros q Hq; unfold y; rewrite Hrd by (rewrite EM; exact Hq); reflexivity).
  assert (EN : N = rsum_n (n * P) y) by (unfold N; rewrite sq_dev_n, Lr, EM; reflexivity).
  assert (n0 : 0 < INR n) by (apply lt_0_INR; lia).
  assert (EL : rsum_n (M - l * P) (fun q => dev rs q * dev rs (q + l * P)%nat) / N = 1 - INR l / INR n).
  { rewrite (rsum_n_ext _ _ y) by (intros q Hq; unfold y; rewrite Hrk by lia; reflexivity). rewrite EM, (sum_part P y n l) by (assumption || lia). rewrite <- EN. field. split; lra. }
  assert (LP : Rabs (dev rs (M - 1 - l * P) * dev rs (M - 1)) / N <= 1 / INR n).
  { replace (dev rs (M - 1)) with (dev rs (M - 1 - l * P)) by (rewrite <- (Hrk l (M - 1 - l * P)%nat) by lia; f_equal; lia).
    assert (E1 : dev rs (M - 1 - l * P) = dev rs (P - 1)).
    { replace (M - 1 - l * P)%nat with (P - 1 + (n - l - 1) * P)%nat; [apply Hrk|]; rewrite EM; assert (n * P = (n - l - 1) * P + l * P + P)%nat by (replace n with ((n - l - 1) + l + 1)%nat at 1 by lia; ring); lia. }
    rewrite E1, Rabs_pos_eq by apply Rle_0_sqr. rewrite EN, (sum_blocks P y n Hy).
    pose proof (term_le P y (P - 1)%nat ltac:(lia) ltac:(intros; apply Rle_0_sqr)) as T. change (dev rs (P - 1) * dev rs (P - 1)) with (y (P - 1)%nat).
    assert (Y0 : 0 < rsum_n P y) by (rewrite EN, (sum_blocks P y n Hy) in N0; apply Rmult_lt_reg_l with (INR n); [exact n0|rewrite Rmult_0_r; exact N0]).
    apply Rmult_le_reg_r with (INR n * rsum_n P y); [apply Rmult_lt_0_compat; assumption|].
    replace (y (P - 1)%nat / (INR n * rsum_n P y) * (INR n * rsum_n P y)) with (y (P - 1)%nat) by (field; split; lra).
    replace (1 / INR n * (INR n * rsum_n P y)) with (rsum_n P y) by (field; lra). exact T. }
  rewrite EL in H6. change (sq_dev rs) with N in H6.
  replace ((512 * Tm * bpow radix2 (-53) / dd * N + Rabs (dev rs (M - 1 - l * P) * dev rs (M - 1))) / N)
    with (512 * Tm * bpow radix2 (-53) / dd + Rabs (dev rs (M - 1 - l * P) * dev rs (M - 1)) / N) in H6 by (field; pose proof (bpow_gt_0 radix2 (-1000)); lra).
  set (w := 1 - INR l / INR n) in *. set (z := 512 * Tm * bpow radix2 (-53) / dd) in *.
  apply Rabs_le_inv in H6. apply Rabs_le. lra.
Qed.
