(** Theorems: nearly even time stamps with the default lags, in binary64 (C119). *)
From Coq Require Import String.
From Coq Require Import ZArith Reals List Bool Arith Lia Lra.
From Flocq Require Import Core BinarySingleNaN.
From Verif Require Import Num Mem MemFacts XR B64 Spec SpecR SpecTime SpecEven DataStructure Correlator Sacf Api Examples B64Facts Laws2 WeightAcc AccFacts AccThms FixedFacts FixedThms AccExact GridVals ValThms
  ExactFacts SignalFacts EvenFacts EvenSine EvenExample EvenFloat AnyTimes DecimalFacts DecimalRound DecimalPlain DecimalReturns DecimalSine Props01_Construction Props48_Sine Props49_NearlyEven.
Import ListNotations.
Local Open Scope list_scope.

(** Each time stamp, a double, within [h] of [t0 + q dd], and a quarter of a step above [G], or half a step for the lags: the lags found by default
    are the multiples [-(M-1) dd .. (M-2) dd], each within [G], perhaps [(M-1) dd], and perhaps an added zero. *)
Theorem C119_lags (exp64 : b64 -> b64) (p : platform) (d : @dstruct (B64 exp64)) (al : option b64) (sel wgt : string) (lags : list b64) corr c (t0 dd h : R) :
  accepted d -> times_ok (A := B64 exp64) d ->
  autocorrelation (A := B64 exp64) p d None None None al sel wgt = Ok (lags, corr, c) ->
  let ts := map B2R (timeseries d) in
  let T := (nth (length ts - 1) ts 0 - nth 0 ts 0)%R in
  let M := length ts in
  let G := (4 * INR M * (h + 3 * bpow radix2 (-53) * T))%R in
  (T <= bpow radix2 1021)%R -> 2 <= M -> nearly_even ts t0 dd h -> (2 * G < dd)%R ->
  2 * M - 2 <= length lags <= 2 * M /\
  (forall n, n <= 2 * M - 3 -> exists i (kk : b64), (i = n \/ i = S n) /\ nth_error lags i = Some kk /\ is_finite kk = true /\
     (Rabs (B2R kk - (INR n - INR (M - 1)) * dd) <= G)%R) /\
  (forall i (kk : b64), nth_error lags i = Some kk ->
     B2R kk = 0%R \/ exists n, (n = i \/ S n = i) /\ n <= 2 * M - 2 /\ (Rabs (B2R kk - (INR n - INR (M - 1)) * dd) <= G)%R).
Proof. exact (even_lags64 exp64 p d al sel wgt lags corr c t0 dd h). Qed.
Print Assumptions C119_lags.

(** ... and the returned correlations are the autocorrelation of the values at the lags 0, 1, ..., M-2 in steps. *)
Theorem C119_values (exp64 : b64 -> b64) (p : platform) (d : @dstruct (B64 exp64)) (al : option b64) (wgt : string) (lags : list b64) corr c
  (rows : list (list b64)) (j : nat) (row : list b64) (b : Z) (om t0 dd h : R) :
  accepted d -> times_ok (A := B64 exp64) d -> p_abs p = AbsFloat ->
  autocorrelation (A := B64 exp64) p d None None None al "natural" wgt = Ok (lags, corr, c) ->
  data_2d d = Ok rows -> nth_error rows j = Some row ->
  let ts := map B2R (timeseries d) in
  let T := (nth (length ts - 1) ts 0 - nth 0 ts 0)%R in
  let M := length ts in
  let G := (4 * INR M * (h + 3 * bpow radix2 (-53) * T))%R in
  (T <= bpow radix2 1021)%R -> 2 <= M -> nearly_even ts t0 dd h -> (4 * G < dd)%R ->
  let a : b64 := opt_or (A := B64 exp64) al (median_time d) in
  is_finite a = true -> (0 < B2R a)%R -> proper_alpha (A := B64 exp64) wgt a ->
  finite (A := B64 exp64) (if String.eqb wgt "gaussian" then nmul (nmul (nofZ 2) a) a else a) ->
  weight_error exp64 wgt (B2R a) om ->
  (-149 <= b <= 100)%Z -> (forall x : b64, In x row -> is_finite x = true /\ (Rabs (B2R x) <= bpow radix2 b)%R) ->
  let rs := map B2R row in
  length rs = M ->
  let N := sq_dev32 rs in
  let K := (INR M * (bpow radix2 b * bpow radix2 b) / N)%R in
  (bpow radix2 (-700) <= N)%R -> ((INR M + 1) * K <= bpow radix2 48)%R ->
  forall m, m <= M - 2 -> exists i (kk v : b64), (i = M - 1 + m \/ i = M + m) /\
    nth_error lags i = Some kk /\ (Rabs (B2R kk - INR m * dd) <= G)%R /\
    corr_at corr j i = Some v /\ is_finite v = true /\
    (Rabs (B2R v - rsum_n (M - m) (fun q => dev rs q * dev rs (q + m)%nat) / N) <=
      50 * (INR M + 10) * bpow radix2 (-53) * (K * K + K) + 5 * om * K + bpow radix2 (-110) +
      (2 * G / B2R a * sq_dev rs + Rabs (dev rs (M - 1 - m) * dev rs (M - 1))) / N)%R.
Proof. exact (even_default64 exp64 p d al wgt lags corr c rows j row b om t0 dd h). Qed.
Print Assumptions C119_values.

(** The times 0, 0.1, 0.2, 0.3 as doubles and the values 1, 2, 4, 8: all hypotheses of both theorems hold. *)
Example C119_case : exists (d : @dstruct BB) lags corr c, let row := ints [1; 2; 4; 8]%Z : list b64 in
  accepted d /\ times_ok (A := BB) d /\ p_abs clang = AbsFloat /\
  autocorrelation (A := BB) clang d None None None None "natural" "fractional" = Ok (lags, corr, c) /\ data_2d d = Ok [row] /\
  let ts := map B2R (timeseries d) in
  let T := (nth (length ts - 1) ts 0 - nth 0 ts 0)%R in
  let M := length ts in
  let G := (4 * INR M * (bpow radix2 (-53) + 3 * bpow radix2 (-53) * T))%R in
  (T <= bpow radix2 1021)%R /\ M = 4 /\ nearly_even ts 0 (1 / 10) (bpow radix2 (-53)) /\ (4 * G < 1 / 10)%R /\
  median_time d = alpha_tenth /\ is_finite alpha_tenth = true /\ (0 < B2R alpha_tenth)%R /\ proper_alpha (A := BB) "fractional" alpha_tenth /\ finite (A := BB) alpha_tenth /\
  weight_error (fun x => x) "fractional" (B2R alpha_tenth) (7 * bpow radix2 (-53)) /\
  (forall x : b64, In x row -> is_finite x = true /\ (Rabs (B2R x) <= bpow radix2 3)%R) /\ length (map B2R row) = M /\
  (bpow radix2 (-700) <= sq_dev32 (map B2R row))%R /\
  ((INR M + 1) * (INR M * (bpow radix2 3 * bpow radix2 3) / sq_dev32 (map B2R row)) <= bpow radix2 48)%R.
Proof.
  destruct C118_case_binary64 as [d [lags [corr [c H]]]]. exists d, lags, corr, c. cbv zeta in *.
  destruct H as [A1 [A2 [A3 [A4 [A5 [_ [_ [A6 [_ [_ [A7 [_ [_ [_ [B1 [B2 [B3 [B4 [B5 [B6 [B7 [B8 [B9 B10]]]]]]]]]]]]]]]]]]]]]]].
  rewrite B8, B9, B10. rewrite B9 in A6. set (ts := map B2R (timeseries d)) in *.
  repeat (split; [assumption|]). split; [reflexivity|]. split; [exact A7|]. split.
  { pose proof (A7 3 ltac:(lia)) as C3. pose proof (A7 0 ltac:(lia)) as C0. cbn [INR] in C3, C0. apply Rabs_le_inv in C3, C0.
    change (4 - 1) with 3. change (bpow radix2 (-53)) with (/ 9007199254740992)%R in *. set (x := nth 3 ts 0%R) in *. set (y := nth 0 ts 0%R) in *. cbn [INR]. lra. }
  repeat (split; [assumption|]). split; [reflexivity|]. split.
  - apply Rle_trans with (bpow radix2 0); [apply bpow_le; lia|]. change (bpow radix2 0) with 1%R. lra.
  - change (bpow radix2 3) with 8%R. change (bpow radix2 48) with 281474976710656%R. cbn [INR]. lra.
Qed.

(** Time stamps that are the doubles nearest to [t0 + q dd], such as multiples of a decimal fraction, none beyond [Tm] in size: nothing else is needed of them. *)
Theorem C119_rounded_lags (exp64 : b64 -> b64) (p : platform) (d : @dstruct (B64 exp64)) (al : option b64) (sel wgt : string) (lags : list b64) corr c (t0 dd Tm : R) :
  accepted d -> (forall x : b64, In x (timeseries d) -> is_finite x = true) ->
  let M := length (timeseries d) in
  2 <= M ->
  (forall q, q < M -> B2R (nth q (timeseries d : list b64) (b64_ofZ 0)) = round radix2 (FLT_exp (-1074) 53) ZnearestE (t0 + INR q * dd)) ->
  (forall q, q < M -> (Rabs (t0 + INR q * dd) <= Tm)%R) ->
  (bpow radix2 (-1000) <= dd)%R -> (Tm <= bpow radix2 1019)%R ->
  let G := (32 * INR M * Tm * bpow radix2 (-53))%R in
  (4 * G <= dd)%R ->
  autocorrelation (A := B64 exp64) p d None None None al sel wgt = Ok (lags, corr, c) ->
  2 * M - 2 <= length lags <= 2 * M /\
  (forall n, n <= 2 * M - 3 -> exists i (kk : b64), (i = n \/ i = S n) /\ nth_error lags i = Some kk /\ is_finite kk = true /\
     (Rabs (B2R kk - (INR n - INR (M - 1)) * dd) <= G)%R) /\
  (forall i (kk : b64), nth_error lags i = Some kk ->
     B2R kk = 0%R \/ exists n, (n = i \/ S n = i) /\ n <= 2 * M - 2 /\ (Rabs (B2R kk - (INR n - INR (M - 1)) * dd) <= G)%R).
Proof. exact (rounded_lags exp64 p d al sel wgt lags corr c t0 dd Tm). Qed.
Print Assumptions C119_rounded_lags.

Theorem C119_rounded_values (exp64 : b64 -> b64) (p : platform) (d : @dstruct (B64 exp64)) (al : option b64) (wgt : string) (lags : list b64) corr c
  (rows : list (list b64)) (j : nat) (row : list b64) (b : Z) (om t0 dd Tm : R) :
  accepted d -> (forall x : b64, In x (timeseries d) -> is_finite x = true) ->
  let M := length (timeseries d) in
  2 <= M ->
  (forall q, q < M -> B2R (nth q (timeseries d : list b64) (b64_ofZ 0)) = round radix2 (FLT_exp (-1074) 53) ZnearestE (t0 + INR q * dd)) ->
  (forall q, q < M -> (Rabs (t0 + INR q * dd) <= Tm)%R) ->
  (bpow radix2 (-1000) <= dd)%R -> (Tm <= bpow radix2 1019)%R ->
  let G := (32 * INR M * Tm * bpow radix2 (-53))%R in
  (4 * G <= dd)%R ->
  p_abs p = AbsFloat ->
  autocorrelation (A := B64 exp64) p d None None None al "natural" wgt = Ok (lags, corr, c) ->
  data_2d d = Ok rows -> nth_error rows j = Some row ->
  let a : b64 := opt_or (A := B64 exp64) al (median_time d) in
  is_finite a = true -> (0 < B2R a)%R -> proper_alpha (A := B64 exp64) wgt a ->
  finite (A := B64 exp64) (if String.eqb wgt "gaussian" then nmul (nmul (nofZ 2) a) a else a) ->
  weight_error exp64 wgt (B2R a) om ->
  (-149 <= b <= 100)%Z -> (forall x : b64, In x row -> is_finite x = true /\ (Rabs (B2R x) <= bpow radix2 b)%R) ->
  let rs := map B2R row in
  length rs = M ->
  let N := sq_dev32 rs in
  let K := (INR M * (bpow radix2 b * bpow radix2 b) / N)%R in
  (bpow radix2 (-700) <= N)%R -> ((INR M + 1) * K <= bpow radix2 48)%R ->
  forall m, m <= M - 2 -> exists i (kk v : b64), (i = M - 1 + m \/ i = M + m) /\
    nth_error lags i = Some kk /\ (Rabs (B2R kk - INR m * dd) <= G)%R /\
    corr_at corr j i = Some v /\ is_finite v = true /\
    (Rabs (B2R v - rsum_n (M - m) (fun q => dev rs q * dev rs (q + m)%nat) / N) <=
      50 * (INR M + 10) * bpow radix2 (-53) * (K * K + K) + 5 * om * K + bpow radix2 (-110) +
      (2 * G / B2R a * sq_dev rs + Rabs (dev rs (M - 1 - m) * dev rs (M - 1))) / N)%R.
Proof. exact (rounded_default exp64 p d al wgt lags corr c rows j row b om t0 dd Tm). Qed.
Print Assumptions C119_rounded_values.

(** Nothing but the data given: the default alpha, the middle time, is then at least [(M-1) dd / 4], and no condition on it remains. *)
Theorem C119_plain (exp64 : b64 -> b64) (p : platform) (d : @dstruct (B64 exp64)) (wgt : string) (lags : list b64) corr c (rows : list (list b64)) (j : nat) (row : list b64) (b : Z) (t0 dd Tm : R) :
  accepted d -> (forall x : b64, In x (timeseries d) -> is_finite x = true) ->
  let M := length (timeseries d) in
  2 <= M ->
  (forall q, q < M -> B2R (nth q (timeseries d : list b64) (b64_ofZ 0)) = round radix2 (FLT_exp (-1074) 53) ZnearestE (t0 + INR q * dd)) ->
  (forall q, q < M -> (Rabs (t0 + INR q * dd) <= Tm)%R) ->
  (bpow radix2 (-1000) <= dd)%R -> (Tm <= bpow radix2 1019)%R ->
  let G := (32 * INR M * Tm * bpow radix2 (-53))%R in
  (4 * G <= dd)%R ->
  p_abs p = AbsFloat -> wgt = "fractional"%string \/ wgt = "fractional_squared"%string ->
  autocorrelation (A := B64 exp64) p d None None None None "natural" wgt = Ok (lags, corr, c) ->
  data_2d d = Ok rows -> nth_error rows j = Some row ->
  (-149 <= b <= 100)%Z -> (forall x : b64, In x row -> is_finite x = true /\ (Rabs (B2R x) <= bpow radix2 b)%R) ->
  let rs := map B2R row in
  length rs = M ->
  let N := sq_dev32 rs in
  let K := (INR M * (bpow radix2 b * bpow radix2 b) / N)%R in
  (bpow radix2 (-700) <= N)%R -> ((INR M + 1) * K <= bpow radix2 48)%R ->
  forall m, m <= M - 2 -> exists i (kk v : b64), (i = M - 1 + m \/ i = M + m) /\
    nth_error lags i = Some kk /\ (Rabs (B2R kk - INR m * dd) <= G)%R /\
    corr_at corr j i = Some v /\ is_finite v = true /\
    (Rabs (B2R v - rsum_n (M - m) (fun q => dev rs q * dev rs (q + m)%nat) / N) <=
      50 * (INR M + 10) * bpow radix2 (-53) * (K * K + K) + 35 * bpow radix2 (-53) * K + bpow radix2 (-110) +
      (512 * Tm * bpow radix2 (-53) / dd * sq_dev rs + Rabs (dev rs (M - 1 - m) * dev rs (M - 1))) / N)%R.
Proof. exact (rounded_plain exp64 p d wgt lags corr c rows j row b t0 dd Tm). Qed.
Print Assumptions C119_plain.

(** Such a call returns: the number of lags that are allotted is an [int] of a size for which the results fit, whatever the number of points. *)
Theorem C119_returns (exp64 : b64 -> b64) (p : platform) (d : @dstruct (B64 exp64)) (wgt : string) (t0 dd Tm : R) :
  accepted d -> (forall x : b64, In x (timeseries d) -> is_finite x = true) ->
  let M := length (timeseries d) in
  2 <= M ->
  (forall q, q < M -> B2R (nth q (timeseries d : list b64) (b64_ofZ 0)) = round radix2 (FLT_exp (-1074) 53) ZnearestE (t0 + INR q * dd)) ->
  (forall q, q < M -> (Rabs (t0 + INR q * dd) <= Tm)%R) ->
  (bpow radix2 (-1000) <= dd)%R -> (Tm <= bpow radix2 1019)%R ->
  (128 * INR M * Tm * bpow radix2 (-53) <= dd)%R ->
  p_abs p = AbsFloat -> p_checked p = false -> known_weight wgt ->
  exists r, autocorrelation (A := B64 exp64) p d None None None None "natural" wgt = Ok r.
Proof. exact (rounded_returns exp64 p d wgt t0 dd Tm). Qed.
Print Assumptions C119_returns.

(** From data to result: values close to [b + A cos (w q + ph)], no options; the call returns, and at [m] steps the correlation is close to [(1 - m/M) cos (w m)]. *)
Theorem C119_sinusoid (exp64 : b64 -> b64) (p : platform) (d : @dstruct (B64 exp64)) (wgt : string) (rows : list (list b64)) (t0 dd Tm : R) :
  accepted d -> (forall x : b64, In x (timeseries d) -> is_finite x = true) ->
  let M := length (timeseries d) in
  2 <= M ->
  (forall q, q < M -> B2R (nth q (timeseries d : list b64) (b64_ofZ 0)) = round radix2 (FLT_exp (-1074) 53) ZnearestE (t0 + INR q * dd)) ->
  (forall q, q < M -> (Rabs (t0 + INR q * dd) <= Tm)%R) ->
  (bpow radix2 (-1000) <= dd)%R -> (Tm <= bpow radix2 1019)%R ->
  let G := (32 * INR M * Tm * bpow radix2 (-53))%R in
  (4 * G <= dd)%R ->
  p_abs p = AbsFloat -> p_checked p = false -> wgt = "fractional"%string \/ wgt = "fractional_squared"%string -> data_2d d = Ok rows ->
  exists (lags : list b64) corr c, autocorrelation (A := B64 exp64) p d None None None None "natural" wgt = Ok (lags, corr, c) /\
  forall (j : nat) (row : list b64) (k : Z) (b A w ph e : R), nth_error rows j = Some row ->
    (-149 <= k <= 100)%Z -> (forall x : b64, In x row -> is_finite x = true /\ (Rabs (B2R x) <= bpow radix2 k)%R) ->
    let rs := map B2R row in
    length rs = M -> Forall single rs ->
    (forall q, q < M -> (Rabs (nth q rs 0 - (b + A * cos (w * INR q + ph))) <= e)%R) -> (0 < A)%R -> (0 <= e)%R -> (128 * e <= A)%R -> (32 <= INR M * Rabs (sin w))%R ->
    let N := sq_dev rs in
    let K := (INR M * (bpow radix2 k * bpow radix2 k) / N)%R in
    (bpow radix2 (-700) <= N)%R -> ((INR M + 1) * K <= bpow radix2 48)%R ->
    forall m, m <= M - 2 -> exists i (kk v : b64), (i = M - 1 + m \/ i = M + m) /\
      nth_error lags i = Some kk /\ (Rabs (B2R kk - INR m * dd) <= G)%R /\
      corr_at corr j i = Some v /\ is_finite v = true /\
      (Rabs (B2R v - (1 - INR m / INR M) * cos (w * INR m)) <=
        6 / (INR M * Rabs (sin w)) + 96 * (e / A) + 13 / INR M + 512 * Tm * bpow radix2 (-53) / dd +
        (50 * (INR M + 10) * bpow radix2 (-53) * (K * K + K) + 35 * bpow radix2 (-53) * K + bpow radix2 (-110)))%R.
Proof. exact (rounded_sine exp64 p d wgt rows t0 dd Tm). Qed.
Print Assumptions C119_sinusoid.

(** 0, 0.1, 0.2, 0.3 again; the hypotheses on the values are those of [C119_case]. *)
Example C119_case_rounded : exists (d : @dstruct BB) lags corr c,
  accepted d /\ (forall x : b64, In x (timeseries d) -> is_finite x = true) /\
  let M := length (timeseries d) in
  M = 4 /\
  (forall q, q < M -> B2R (nth q (timeseries d : list b64) (b64_ofZ 0)) = round radix2 (FLT_exp (-1074) 53) ZnearestE (0 + INR q * (1 / 10))) /\
  (forall q, q < M -> (Rabs (0 + INR q * (1 / 10)) <= 3 / 10)%R) /\
  (bpow radix2 (-1000) <= 1 / 10)%R /\ (3 / 10 <= bpow radix2 1019)%R /\
  (4 * (32 * INR M * (3 / 10) * bpow radix2 (-53)) <= 1 / 10)%R /\
  autocorrelation (A := BB) clang d None None None None "natural" "fractional" = Ok (lags, corr, c).
Proof.
  destruct C118_case_binary64 as [d [lags [corr [c H]]]]. exists d, lags, corr, c. cbv zeta in *.
  destruct H as [A1 [A2 [A3 [A4 [A5 [_ [_ [A6 [_ [R [A7 [_ [_ [_ [B1 [B2 [B3 [B4 [B5 [B6 [B7 [B8 [B9 B10]]]]]]]]]]]]]]]]]]]]]]].
  rewrite map_length in B9. split; [exact A1|]. split; [intros x Hx; apply (finite_is (fun x => x)); exact (proj1 (proj2 A2) x Hx)|]. split; [exact B9|].
  split; [exact R|]. change (@num BB) with b64 in *. rewrite B9. split.
  { intros q Hq. pose proof (pos_INR q). assert (INR q <= INR 3)%R by (apply le_INR; lia). cbn [INR] in *. apply Rabs_le. lra. }
  split; [apply Rle_trans with (bpow radix2 (-4)); [apply bpow_le; lia|change (bpow radix2 (-4)) with (/ 16)%R; lra]|].
  split; [apply Rle_trans with (bpow radix2 0); [change (bpow radix2 0) with 1%R; lra|apply bpow_le; lia]|].
  split; [change (bpow radix2 (-53)) with (/ 9007199254740992)%R; cbn [INR]; lra|exact A4].
Qed.

(** The values of [C117_case], 64 of them, at the doubles nearest to 0, 0.1, .., 6.3; that they are within 1 of 5 + 1000 cos (q PI/2) is in [C117_case]. *)
Example C119_case_sinusoid : exists d : @dstruct BB, let row := ints wave_values : list b64 in
  accepted d /\ (forall x : b64, In x (timeseries d) -> is_finite x = true) /\ length (timeseries d) = 64 /\
  (forall q, q < 64 -> B2R (nth q (timeseries d : list b64) (b64_ofZ 0)) = round radix2 (FLT_exp (-1074) 53) ZnearestE (0 + INR q * (1 / 10))) /\
  (forall q, q < 64 -> (Rabs (0 + INR q * (1 / 10)) <= 63 / 10)%R) /\
  (bpow radix2 (-1000) <= 1 / 10)%R /\ (63 / 10 <= bpow radix2 1019)%R /\ (4 * (32 * INR 64 * (63 / 10) * bpow radix2 (-53)) <= 1 / 10)%R /\
  p_abs clang = AbsFloat /\ p_checked clang = false /\ data_2d d = Ok [row] /\
  (forall x : b64, In x row -> is_finite x = true /\ (Rabs (B2R x) <= bpow radix2 10)%R) /\ map B2R row = wave /\
  (bpow radix2 (-700) <= sq_dev wave)%R /\ ((INR 64 + 1) * (INR 64 * (bpow radix2 10 * bpow radix2 10) / sq_dev wave) <= bpow radix2 48)%R.
Proof.
  destruct C117_case_binary64 as [_ [_ [_ [_ [_ [_ [_ [_ [W1 [W2 [W3 W4]]]]]]]]]]].
  destruct (ok_with_ok (SACF_1d (A := BB) (map tenth wave_times) (ints wave_values) None)
    (fun d => sames (map tenth wave_times) (timeseries d) && ok_with (data_2d d) (fun r => sames2 [ints wave_values] r))) as [d [E H]]; [vm_compute; reflexivity|].
  apply andb_prop in H. destruct H as [H1 H2]. apply sames_eq in H1. destruct (ok_with_ok (data_2d d) _ H2) as [r [Er H2']]. apply sames2_eq in H2'. subst r.
  assert (R : forall z, (0 <= z <= 63)%Z -> is_finite (tenth z) = true /\ B2R (tenth z) = round radix2 (FLT_exp (-1074) 53) ZnearestE (IZR z / 10)).
  { intros z Hz. destruct (E_fin _ _ (toE_ofZ_small z ltac:(lia))) as [Fz Vz]. destruct (E_fin _ _ (toE_ofZ_small 10 ltac:(lia))) as [F10 V10].
    pose proof (Bdiv_correct 53 1024 _ _ mode_NE (b64_ofZ z) (b64_ofZ 10) ltac:(rewrite V10; lra)) as D. rewrite V10 in D. rewrite Vz in D.
    change (SpecFloat.fexp 53 1024) with (FLT_exp (-1074) 53) in D. cbn [round_mode] in D. rewrite Rlt_bool_true in D; [split; [rewrite (proj1 (proj2 D)) at 1; exact Fz|exact (proj1 D)]|].
    apply Rle_lt_trans with (bpow radix2 3); [|apply bpow_lt; lia]. apply abs_round_le_generic; [apply FLT_exp_valid; reflexivity|apply valid_rnd_N|apply generic_format_bpow; unfold FLT_exp; lia|].
    assert (0 <= IZR z <= 63)%R by (split; apply IZR_le; lia). change (bpow radix2 3) with 8%R. apply Rabs_le. lra. }
  assert (R64 : INR 64 = 64%R) by (rewrite INR_IZR_INZ; reflexivity).
  exists d. cbv zeta. rewrite <- H1. split; [left; eauto|]. split.
  { intros x Hx. apply in_map_iff in Hx. destruct Hx as [z [<- Hz]]. unfold wave_times in Hz. apply in_map_iff in Hz. destruct Hz as [q [<- Hq]]. apply in_seq in Hq. apply R. lia. }
  split; [reflexivity|]. split.
  { intros q Hq. replace (nth q (map tenth wave_times) (b64_ofZ 0)) with (tenth (Z.of_nat q)).
    - rewrite (proj2 (R (Z.of_nat q) ltac:(lia))), <- INR_IZR_INZ. f_equal. lra.
    - symmetry. apply nth_error_nth. unfold wave_times. rewrite !nth_error_map, (nth_error_nth' (seq 0 64) 0) by (rewrite seq_length; exact Hq). rewrite seq_nth by exact Hq. reflexivity. }
  split.
  { intros q Hq. pose proof (pos_INR q). assert (INR q <= 63)%R by (replace 63%R with (INR 63) by (rewrite INR_IZR_INZ; reflexivity); apply le_INR; lia). apply Rabs_le. lra. }
  split; [apply Rle_trans with (bpow radix2 (-4)); [apply bpow_le; lia|change (bpow radix2 (-4)) with (/ 16)%R; lra]|].
  split; [apply Rle_trans with (bpow radix2 3); [change (bpow radix2 3) with 8%R; lra|apply bpow_le; lia]|].
  split; [rewrite R64; change (bpow radix2 (-53)) with (/ 9007199254740992)%R; lra|].
  split; [reflexivity|]. split; [reflexivity|]. split; [exact Er|]. split; [exact W1|]. split; [exact W2|]. split; [exact W3|exact W4].
Qed.
