(** Theorems: a sinusoid's period is where its correlation is largest (C120). *)
From Coq Require Import String.
From Coq Require Import ZArith Reals List Bool Arith Lia Lra.
From Flocq Require Import Core BinarySingleNaN.
From Verif Require Import Num Mem MemFacts XR B64 Spec SpecR SpecTime SpecEven DataStructure Correlator Sacf Api Examples B64Facts ExactFacts GridVals SineFacts OutlierFacts PeriodFacts
  Props01_Construction Props48_Sine Props49_NearlyEven Props50_Decimal.
Import ListNotations.
Local Open Scope list_scope.
Local Open Scope R_scope.

(** Values within [e] of a sinusoid of period [P] steps. Between half and three halves of the period, every lag [m] further from [P] than stated has a smaller correlation than the lag [n];
    [n] is meant to be the whole number nearest to [P], but the theorem holds for all. Exact arithmetic, any lag settings, weight function and positive [alpha]. *)
Theorem C120_exact (p : platform) (d : @dstruct XR) mi ma re al wgt lags corr c rows j i i' (rs : list R) (t0 dd a b A P ph e : R) (M m n : nat) :
  accepted d -> autocorrelation (A := XR) p d mi ma re al "natural" wgt = Ok (lags, corr, c) -> data_2d d = Ok rows ->
  nth_error rows j = Some (map Fin rs) -> timeseries d = map Fin (grid t0 dd M) -> 0 < dd ->
  opt_or (A := XR) al (median_time d) = Fin a -> 0 < a -> Forall single rs ->
  nth_error lags i = Some (Fin (INR m * dd)) -> (m <= M)%nat -> nth_error lags i' = Some (Fin (INR n * dd)) -> (n <= M)%nat ->
  0 < P -> (forall q, (q < M)%nat -> Rabs (nth q rs 0 - (b + A * cos (2 * PI / P * INR q + ph))) <= e) -> 0 < A -> 0 <= e -> 128 * e <= A -> 32 <= INR M * Rabs (sin (2 * PI / P)) ->
  Rabs (INR m - P) <= P / 2 ->
  let E := 6 / (INR M * Rabs (sin (2 * PI / P))) + 96 * (e / A) in
  P * P * (INR n / INR M + 2 * E) + 21 * ((INR n - P) * (INR n - P)) < 4 * ((INR m - P) * (INR m - P)) ->
  exists r r', corr_at corr j i = Some (Fin r) /\ corr_at corr j i' = Some (Fin r') /\ r < r'.
Proof. exact (period_exact p d mi ma re al wgt lags corr c rows j i i' rs t0 dd a b A P ph e M m n). Qed.
Print Assumptions C120_exact.

(** The same for a call in binary64 without options, on the doubles nearest to [t0 + q dd]; such a call returns. *)
Theorem C120_decimal (exp64 : b64 -> b64) (p : platform) (d : @dstruct (B64 exp64)) (wgt : string) (rows : list (list b64)) (t0 dd Tm : R) :
  accepted d -> (forall x : b64, In x (timeseries d) -> is_finite x = true) ->
  let M := length (timeseries d) in
  (2 <= M)%nat ->
  (forall q, (q < M)%nat -> B2R (nth q (timeseries d : list b64) (b64_ofZ 0)) = round radix2 (FLT_exp (-1074) 53) ZnearestE (t0 + INR q * dd)) ->
  (forall q, (q < M)%nat -> (Rabs (t0 + INR q * dd) <= Tm)%R) ->
  (bpow radix2 (-1000) <= dd)%R -> (Tm <= bpow radix2 1019)%R ->
  let G := (32 * INR M * Tm * bpow radix2 (-53))%R in
  (4 * G <= dd)%R ->
  p_abs p = AbsFloat -> p_checked p = false -> wgt = "fractional"%string \/ wgt = "fractional_squared"%string -> data_2d d = Ok rows ->
  exists (lags : list b64) corr c, autocorrelation (A := B64 exp64) p d None None None None "natural" wgt = Ok (lags, corr, c) /\
  forall (j : nat) (row : list b64) (k : Z) (b A P ph e : R), nth_error rows j = Some row ->
    (-149 <= k <= 100)%Z -> (forall x : b64, In x row -> is_finite x = true /\ (Rabs (B2R x) <= bpow radix2 k)%R) ->
    let rs := map B2R row in
    length rs = M -> Forall single rs -> 0 < P ->
    (forall q, (q < M)%nat -> (Rabs (nth q rs 0 - (b + A * cos (2 * PI / P * INR q + ph))) <= e)%R) -> (0 < A)%R -> (0 <= e)%R -> (128 * e <= A)%R -> (32 <= INR M * Rabs (sin (2 * PI / P)))%R ->
    let N := sq_dev rs in
    let K := (INR M * (bpow radix2 k * bpow radix2 k) / N)%R in
    (bpow radix2 (-700) <= N)%R -> ((INR M + 1) * K <= bpow radix2 48)%R ->
    let E := (6 / (INR M * Rabs (sin (2 * PI / P))) + 96 * (e / A) + 13 / INR M + 512 * Tm * bpow radix2 (-53) / dd +
        (50 * (INR M + 10) * bpow radix2 (-53) * (K * K + K) + 35 * bpow radix2 (-53) * K + bpow radix2 (-110)))%R in
    forall n, (n <= M - 2)%nat -> exists i' (kn vn : b64), (i' = M - 1 + n \/ i' = M + n)%nat /\
      nth_error lags i' = Some kn /\ (Rabs (B2R kn - INR n * dd) <= G)%R /\ corr_at corr j i' = Some vn /\ is_finite vn = true /\
      forall m, (m <= M - 2)%nat -> Rabs (INR m - P) <= P / 2 -> exists i (km vm : b64), (i = M - 1 + m \/ i = M + m)%nat /\
        nth_error lags i = Some km /\ (Rabs (B2R km - INR m * dd) <= G)%R /\ corr_at corr j i = Some vm /\ is_finite vm = true /\
        (P * P * (INR n / INR M + 2 * E) + 21 * ((INR n - P) * (INR n - P)) < 4 * ((INR m - P) * (INR m - P)) -> B2R vm < B2R vn).
Proof. exact (period_decimal exp64 p d wgt rows t0 dd Tm). Qed.
Print Assumptions C120_decimal.

(** The call of [C117_case], period 4: the correlation at lag 2 is below that at lag 4. *)
Example C120_case : exists (d : @dstruct XR) corr c, let lags := map (fun i => Fin ((INR i - INR 63) * 1)) (seq 0 127) in
  accepted d /\ autocorrelation (A := XR) gcc d None None None None "natural" "fractional" = Ok (lags, corr, c) /\ data_2d d = Ok [map Fin wave] /\
  timeseries d = map Fin (grid 0 1 64) /\ opt_or (A := XR) None (median_time d) = Fin (63 / 2) /\ Forall single wave /\
  nth_error lags 65 = Some (Fin (INR 2 * 1)) /\ nth_error lags 67 = Some (Fin (INR 4 * 1)) /\
  (forall q, (q < 64)%nat -> Rabs (nth q wave 0 - (5 + 1000 * cos (2 * PI / 4 * INR q + 0))) <= 1) /\ 128 * 1 <= 1000 /\
  32 <= INR 64 * Rabs (sin (2 * PI / 4)) /\ Rabs (INR 2 - 4) <= 4 / 2 /\
  4 * 4 * (INR 4 / INR 64 + 2 * (6 / (INR 64 * Rabs (sin (2 * PI / 4))) + 96 * (1 / 1000))) + 21 * ((INR 4 - 4) * (INR 4 - 4)) < 4 * ((INR 2 - 4) * (INR 2 - 4)).
Proof.
  destruct C117_case as [d [corr [c H]]]. cbv zeta in H. destruct H as [H1 [H2 [H3 [H4 [H5 [H6 [H7 [H8 [H9 [H10 [_ H11]]]]]]]]]]].
  assert (W : 2 * PI / 4 = PI / 2) by field. exists d, corr, c. cbv zeta. rewrite W. repeat (split; [assumption|]).
  assert (R64 : INR 64 = 64) by (rewrite INR_IZR_INZ; reflexivity).
  split; [rewrite nth_error_map, (nth_error_nth' (seq 0 127) 0%nat) by (rewrite seq_length; lia); rewrite seq_nth by lia; cbn [option_map Nat.add]; do 2 f_equal; rewrite !INR_IZR_INZ; cbn [Z.of_nat Pos.of_succ_nat Pos.succ]; lra|].
  repeat (split; [assumption|]). split; [cbn [INR]; apply Rabs_le; lra|]. set (E := 6 / (INR 64 * Rabs (sin (PI / 2))) + 96 * (1 / 1000)) in *. rewrite R64. cbn [INR]. lra.
Qed.

(** The decimal time stamps of [C119_case_sinusoid]: its hypotheses are those of [C120_decimal], and the bound is small enough to tell lag 0.2 from lag 0.4. *)
Example C120_case_decimal : let N := sq_dev wave in let K := INR 64 * (bpow radix2 10 * bpow radix2 10) / N in
  let E := 6 / (INR 64 * Rabs (sin (2 * PI / 4))) + 96 * (1 / 1000) + 13 / INR 64 + 512 * (63 / 10) * bpow radix2 (-53) / (1 / 10) +
    (50 * (INR 64 + 10) * bpow radix2 (-53) * (K * K + K) + 35 * bpow radix2 (-53) * K + bpow radix2 (-110)) in
  4 * 4 * (INR 4 / INR 64 + 2 * E) + 21 * ((INR 4 - 4) * (INR 4 - 4)) < 4 * ((INR 2 - 4) * (INR 2 - 4)).
Proof.
  intros N K E. assert (R64 : INR 64 = 64) by (rewrite INR_IZR_INZ; reflexivity).
  assert (HN : 2000000 <= N).
  { unfold N. rewrite sq_dev_n. change (length wave) with 64%nat. eapply Rle_trans; [|apply (rsum_n_prefix 3 64); [lia|intros q; apply Rle_0_sqr]].
    unfold rsum_n, rsum. cbn [map seq fold_right]. unfold dev. change (nth 0 wave 0%R) with (IZR 1006). change (nth 1 wave 0%R) with (IZR 5). change (nth 2 wave 0%R) with (IZR (-995)).
    set (m := rmean wave). pose proof (Rle_0_sqr (m - 11/2)) as Q1. pose proof (Rle_0_sqr (5 - m)) as Q2. unfold Rsqr in *. lra. }
  assert (HK : 0 <= K <= 34).
  { unfold K. rewrite R64. change (bpow radix2 10) with 1024. split.
    - apply Rmult_le_pos; [lra|left; apply Rinv_0_lt_compat; lra].
    - apply Rmult_le_reg_r with N; [lra|]. replace (64 * (1024 * 1024) / N * N) with (64 * (1024 * 1024)) by (field; lra). lra. }
  assert (KK : 0 <= K * K <= 34 * 34) by (split; [apply Rle_0_sqr|apply Rmult_le_compat; lra]).
  assert (HE : E <= 4 / 10).
  { unfold E. replace (2 * PI / 4) with (PI / 2) by field. rewrite sin_PI2, Rabs_R1, R64.
    assert (B : bpow radix2 (-110) <= bpow radix2 (-53)) by (apply bpow_le; lia). change (bpow radix2 (-53)) with (/ 9007199254740992) in *. lra. }
  rewrite R64. cbn [INR]. lra.
Qed.
