(** Theorems: straight lines and repeating values at decimal time stamps (C121). *)
From Coq Require Import String.
From Coq Require Import ZArith Reals List Bool Arith Lia Lra.
From Flocq Require Import Core BinarySingleNaN.
From Verif Require Import Num Mem MemFacts XR B64 Spec SpecR SpecTime SpecEven DataStructure Correlator Sacf Api Examples B64Facts ExactFacts SignalFacts Laws2 WeightAcc AccFacts AccThms FixedFacts FixedThms AccExact GridVals ValThms EvenFacts EvenSine EvenExample EvenFloat AnyTimes DecimalFacts DecimalRound DecimalPlain DecimalReturns DecimalSine DecimalLine Props01_Construction Props48_Sine Props49_NearlyEven Props50_Decimal.
Import ListNotations.
Local Open Scope list_scope.
Local Open Scope R_scope.

(** Values on a straight line [b + s q], single-precision numbers, at the doubles nearest to [t0 + q dd], no options. The call returns; the correlation at [m] steps is the formula of [C90_line]. *)
Theorem C121_line (exp64 : b64 -> b64) (p : platform) (d : @dstruct (B64 exp64)) (wgt : string) (rows : list (list b64)) (t0 dd Tm : R) :
  accepted d -> (forall x : b64, In x (timeseries d) -> is_finite x = true) ->
  let M := length (timeseries d) in
  (2 <= M)%nat ->
  (forall q, (q < M)%nat -> B2R (nth q (timeseries d : list b64) (b64_ofZ 0)) = round radix2 (FLT_exp (-1074) 53) ZnearestE (t0 + INR q * dd)) ->
  (forall q, (q < M)%nat -> (Rabs (t0 + INR q * dd) <= Tm)%R) ->
  (bpow radix2 (-1000) <= dd)%R -> (Tm <= bpow radix2 1019)%R ->
  let G := (32 * INR M * Tm * bpow radix2 (-53))%R in
  (4 * G <= dd)%R ->
  p_abs p = AbsFloat -> p_checked p = false -> wgt = "fractional"%string \/ wgt = "fractional_squared"%string -> data_2d d = Ok rows ->
  exists (lags : list b64) corr c, autocorrelation (A := B64 exp64) p d None None None None "natural" wgt = Ok (lags, corr, c) /\
  forall (j : nat) (row : list b64) (k : Z) (s b : R), nth_error rows j = Some row ->
    (-149 <= k <= 100)%Z -> (forall x : b64, In x row -> is_finite x = true /\ (Rabs (B2R x) <= bpow radix2 k)%R) ->
    map B2R row = map (fun q => b + s * INR q) (seq 0 M) -> Forall single (map B2R row) -> s <> 0 ->
    let x := INR M in
    let N := s * s * (x * (x * x - 1) / 12) in
    let K := (x * (bpow radix2 k * bpow radix2 k) / N)%R in
    (bpow radix2 (-700) <= N)%R -> ((x + 1) * K <= bpow radix2 48)%R ->
    forall m, (m <= M - 2)%nat -> exists i (kk v : b64), (i = M - 1 + m \/ i = M + m)%nat /\
      nth_error lags i = Some kk /\ (Rabs (B2R kk - INR m * dd) <= G)%R /\
      corr_at corr j i = Some v /\ is_finite v = true /\
      (Rabs (B2R v - (x - INR m) * ((x - INR m) * (x - INR m) - 1 - 3 * INR m * INR m) / (x * (x * x - 1))) <=
        3 / x + 512 * Tm * bpow radix2 (-53) / dd +
        (50 * (x + 10) * bpow radix2 (-53) * (K * K + K) + 35 * bpow radix2 (-53) * K + bpow radix2 (-110)))%R.
Proof. exact (rounded_line exp64 p d wgt rows t0 dd Tm). Qed.
Print Assumptions C121_line.

(** [n] periods of values that repeat after [P] points: at [l] periods the correlation is near [1 - l/n] ([C89_periods]). *)
Theorem C121_repeating (exp64 : b64 -> b64) (p : platform) (d : @dstruct (B64 exp64)) (wgt : string) (rows : list (list b64)) (t0 dd Tm : R) :
  accepted d -> (forall x : b64, In x (timeseries d) -> is_finite x = true) ->
  let M := length (timeseries d) in
  (2 <= M)%nat ->
  (forall q, (q < M)%nat -> B2R (nth q (timeseries d : list b64) (b64_ofZ 0)) = round radix2 (FLT_exp (-1074) 53) ZnearestE (t0 + INR q * dd)) ->
  (forall q, (q < M)%nat -> (Rabs (t0 + INR q * dd) <= Tm)%R) ->
  (bpow radix2 (-1000) <= dd)%R -> (Tm <= bpow radix2 1019)%R ->
  let G := (32 * INR M * Tm * bpow radix2 (-53))%R in
  (4 * G <= dd)%R ->
  p_abs p = AbsFloat -> p_checked p = false -> wgt = "fractional"%string \/ wgt = "fractional_squared"%string -> data_2d d = Ok rows ->
  exists (lags : list b64) corr c, autocorrelation (A := B64 exp64) p d None None None None "natural" wgt = Ok (lags, corr, c) /\
  forall (j : nat) (row : list b64) (k : Z) (n P : nat), nth_error rows j = Some row ->
    (-149 <= k <= 100)%Z -> (forall x : b64, In x row -> is_finite x = true /\ (Rabs (B2R x) <= bpow radix2 k)%R) ->
    let rs := map B2R row in
    length rs = M -> M = (n * P)%nat -> (2 <= P)%nat -> Forall single rs -> (forall q, (q + P < M)%nat -> nth (q + P) rs 0 = nth q rs 0) ->
    let N := sq_dev rs in
    let K := (INR M * (bpow radix2 k * bpow radix2 k) / N)%R in
    (bpow radix2 (-700) <= N)%R -> ((INR M + 1) * K <= bpow radix2 48)%R ->
    forall l, (l < n)%nat -> exists i (kk v : b64), (i = M - 1 + l * P \/ i = M + l * P)%nat /\
      nth_error lags i = Some kk /\ (Rabs (B2R kk - INR (l * P) * dd) <= G)%R /\
      corr_at corr j i = Some v /\ is_finite v = true /\
      (Rabs (B2R v - (1 - INR l / INR n)) <=
        1 / INR n + 512 * Tm * bpow radix2 (-53) / dd +
        (50 * (INR M + 10) * bpow radix2 (-53) * (K * K + K) + 35 * bpow radix2 (-53) * K + bpow radix2 (-110)))%R.
Proof. exact (rounded_repeat exp64 p d wgt rows t0 dd Tm). Qed.
Print Assumptions C121_repeating.

(** The values 0, 1, .., 63 at the doubles nearest to 0, 0.1, .., 6.3. *)
Example C121_case_line : exists d : @dstruct BB, let row := ints wave_times : list b64 in
  accepted d /\ (forall x : b64, In x (timeseries d) -> is_finite x = true) /\ length (timeseries d) = 64%nat /\
  (forall q, (q < 64)%nat -> B2R (nth q (timeseries d : list b64) (b64_ofZ 0)) = round radix2 (FLT_exp (-1074) 53) ZnearestE (0 + INR q * (1 / 10))) /\
  (forall q, (q < 64)%nat -> (Rabs (0 + INR q * (1 / 10)) <= 63 / 10)%R) /\
  (bpow radix2 (-1000) <= 1 / 10)%R /\ (63 / 10 <= bpow radix2 1019)%R /\ (4 * (32 * INR 64 * (63 / 10) * bpow radix2 (-53)) <= 1 / 10)%R /\
  p_abs clang = AbsFloat /\ p_checked clang = false /\ data_2d d = Ok [row] /\
  (forall x : b64, In x row -> is_finite x = true /\ (Rabs (B2R x) <= bpow radix2 6)%R) /\
  map B2R row = map (fun q => 0 + 1 * INR q) (seq 0 64) /\ Forall single (map B2R row) /\
  let N := 1 * 1 * (INR 64 * (INR 64 * INR 64 - 1) / 12) in
  bpow radix2 (-700) <= N /\ (INR 64 + 1) * (INR 64 * (bpow radix2 6 * bpow radix2 6) / N) <= bpow radix2 48.
Proof.
  destruct (ok_with_ok (SACF_1d (A := BB) (map tenth wave_times) (ints wave_times) None)
    (fun d => sames (map tenth wave_times) (timeseries d) && ok_with (data_2d d) (fun r => sames2 [ints wave_times] r))) as [d [E H]]; [vm_compute; reflexivity|].
  apply andb_prop in H. destruct H as [H1 H2]. apply sames_eq in H1. destruct (ok_with_ok (data_2d d) _ H2) as [r [Er H2']]. apply sames2_eq in H2'. subst r.
  assert (R : forall z, (0 <= z <= 63)%Z -> is_finite (tenth z) = true /\ B2R (tenth z) = round radix2 (FLT_exp (-1074) 53) ZnearestE (IZR z / 10)).
  { intros z Hz. destruct (E_fin _ _ (toE_ofZ_small z ltac:(lia))) as [Fz Vz]. destruct (E_fin _ _ (toE_ofZ_small 10 ltac:(lia))) as [F10 V10].
    pose proof (Bdiv_correct 53 1024 _ _ mode_NE (b64_ofZ z) (b64_ofZ 10) ltac:(rewrite V10; lra)) as D. rewrite V10 in D. rewrite Vz in D.
    change (SpecFloat.fexp 53 1024) with (FLT_exp (-1074) 53) in D. cbn [round_mode] in D. rewrite Rlt_bool_true in D; [split; [rewrite (proj1 (proj2 D)) at 1; exact Fz|exact (proj1 D)]|].
    apply Rle_lt_trans with (bpow radix2 3); [|apply bpow_lt; lia]. apply abs_round_le_generic; [apply FLT_exp_valid; reflexivity|apply valid_rnd_N|apply generic_format_bpow; unfold FLT_exp; lia|].
    assert (0 <= IZR z <= 63)%R by (split; apply IZR_le; lia). change (bpow radix2 3) with 8%R. apply Rabs_le. lra. }
  assert (R64 : INR 64 = 64%R) by (rewrite INR_IZR_INZ; reflexivity).
  exists d. cbv zeta. rewrite <- H1. split; [left; eauto|]. split.
  { intros x Hx. apply in_map_iff in Hx. destruct Hx as [z [<- Hz]]. unfold wave_times in Hz. apply in_map_iff in Hz. destruct Hz as [q [<- Hq]]. apply in_seq in Hq. apply R. lia. }
  split; [reflexivity|]. split.
  { intros q Hq. replace (nth q (map tenth wave_times) (b64_ofZ 0)) with (tenth (Z.of_nat q)).
    - rewrite (proj2 (R (Z.of_nat q) ltac:(lia))), <- INR_IZR_INZ. f_equal. lra.
    - symmetry. apply nth_error_nth. unfold wave_times. rewrite !nth_error_map, (nth_error_nth' (seq 0 64) 0%nat) by (rewrite seq_length; exact Hq). rewrite seq_nth by exact Hq. reflexivity. }
  split.
  { intros q Hq. pose proof (pos_INR q). assert (INR q <= 63)%R by (replace 63%R with (INR 63) by (rewrite INR_IZR_INZ; reflexivity); apply le_INR; lia). apply Rabs_le. lra. }
  split; [apply Rle_trans with (bpow radix2 (-4)); [apply bpow_le; lia|change (bpow radix2 (-4)) with (/ 16)%R; lra]|].
  split; [apply Rle_trans with (bpow radix2 3); [change (bpow radix2 3) with 8%R; lra|apply bpow_le; lia]|].
  split; [rewrite R64; change (bpow radix2 (-53)) with (/ 9007199254740992)%R; lra|].
  split; [reflexivity|]. split; [reflexivity|]. split; [exact Er|].
  assert (Gz : forall z, (0 <= z <= 63)%Z -> is_finite (b64_ofZ z) = true /\ B2R (b64_ofZ z) = IZR z) by (intros z Hz; apply (E_fin _ _ (toE_ofZ_small z ltac:(lia)))).
  assert (EV : map B2R (ints wave_times : list b64) = map (fun q => 0 + 1 * INR q) (seq 0 64)).
  { unfold ints, wave_times. rewrite !map_map. apply map_ext_in. intros q Hq. apply in_seq in Hq. rewrite (proj2 (Gz (Z.of_nat q) ltac:(lia))), INR_IZR_INZ. ring. }
  split.
  { intros x Hx. unfold ints, wave_times in Hx. rewrite map_map in Hx. apply in_map_iff in Hx. destruct Hx as [q [<- Hq]]. apply in_seq in Hq. destruct (Gz (Z.of_nat q) ltac:(lia)) as [F V].
    split; [exact F|]. rewrite V, <- abs_IZR. change (bpow radix2 6) with 64. apply IZR_le. lia. }
  split; [exact EV|]. split.
  { rewrite EV. apply Forall_forall. intros x Hx. apply in_map_iff in Hx. destruct Hx as [q [<- Hq]]. apply in_seq in Hq. replace (0 + 1 * INR q) with (IZR (Z.of_nat q)) by (rewrite INR_IZR_INZ; ring). apply single_int. lia. }
  rewrite R64. change (bpow radix2 6) with 64. change (bpow radix2 48) with 281474976710656. cbv zeta. split; [|lra].
  apply Rle_trans with (bpow radix2 0); [apply bpow_le; lia|change (bpow radix2 0) with 1; lra].
Qed.

(** The values of [C119_case_sinusoid] repeat after 4 points, 16 times; the other hypotheses are met there. *)
Example C121_case_repeating : 64%nat = (16 * 4)%nat /\ Forall single wave /\ (forall q, (q + 4 < 64)%nat -> nth (q + 4) wave 0 = nth q wave 0).
Proof.
  split; [reflexivity|]. split; [destruct C117_case as [d [corr [c H]]]; cbv zeta in H; apply H|].
  assert (Wn : forall q, (q < 64)%nat -> nth q wave 0 = IZR (wave_at (q mod 4))).
  { intros q Hq. apply nth_error_nth. unfold wave. rewrite nth_error_map, (nth_error_nth' (seq 0 64) 0%nat) by (rewrite seq_length; exact Hq). rewrite seq_nth by exact Hq. reflexivity. }
  intros q Hq. rewrite !Wn by lia. replace (q + 4)%nat with (q + 1 * 4)%nat by lia. rewrite Nat.mod_add by lia. reflexivity.
Qed.
