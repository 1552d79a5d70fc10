(** Theorems: values close to a sinusoid (C117). *)
From Coq Require Import String.
From Coq Require Import ZArith Reals List Bool Arith Lia Lra.
From Flocq Require Import Core BinarySingleNaN.
From Verif Require Import Num Mem MemFacts XR B64 Spec SpecR DataStructure Correlator Sacf Api Examples B64Facts Laws2 WeightAcc AccFacts AccThms ExactFacts GridVals FixedFacts FixedThms AccExact SignalFacts ValThms OutlierFacts
  SineFacts SineFloat Props01_Construction.
Import ListNotations.
Local Open Scope list_scope.

(** [M] evenly spaced values within [e] of [b + A cos (w q + ph)]: at [m] steps the correlation is close to [(1 - m/M) cos (w m)]. *)
Theorem C117_sinusoid (p : platform) (d : @dstruct XR) mi ma re al wgt lags corr c rows j i (rs : list R) (t0 dd a b A w ph e : R) (M m : nat) :
  accepted d -> autocorrelation (A := XR) p d mi ma re al "natural" wgt = Ok (lags, corr, c) -> data_2d d = Ok rows ->
  nth_error rows j = Some (map Fin rs) -> timeseries d = map Fin (grid t0 dd M) -> (0 < dd)%R ->
  opt_or (A := XR) al (median_time d) = Fin a -> (0 < a)%R -> Forall single rs -> nth_error lags i = Some (Fin (INR m * dd)) -> m <= M ->
  (forall q, q < M -> (Rabs (nth q rs 0 - (b + A * cos (w * INR q + ph))) <= e)%R) -> (0 < A)%R -> (0 <= e)%R -> (128 * e <= A)%R -> (32 <= INR M * Rabs (sin w))%R ->
  exists r, corr_at corr j i = Some (Fin r) /\ (Rabs (r - (1 - INR m / INR M) * cos (w * INR m)) <= 6 / (INR M * Rabs (sin w)) + 96 * (e / A))%R.
Proof. exact (sine_call p d mi ma re al wgt lags corr c rows j i rs t0 dd a b A w ph e M m). Qed.
Print Assumptions C117_sinusoid.

(** So the period shows: after [k] half periods the correlation is [1 - m/M], with alternating sign, up to the same error. *)
Theorem C117_half_periods (p : platform) (d : @dstruct XR) mi ma re al wgt lags corr c rows j i (rs : list R) (t0 dd a b A w ph e : R) (M m k : nat) :
  accepted d -> autocorrelation (A := XR) p d mi ma re al "natural" wgt = Ok (lags, corr, c) -> data_2d d = Ok rows ->
  nth_error rows j = Some (map Fin rs) -> timeseries d = map Fin (grid t0 dd M) -> (0 < dd)%R ->
  opt_or (A := XR) al (median_time d) = Fin a -> (0 < a)%R -> Forall single rs -> nth_error lags i = Some (Fin (INR m * dd)) -> m <= M ->
  (forall q, q < M -> (Rabs (nth q rs 0 - (b + A * cos (w * INR q + ph))) <= e)%R) -> (0 < A)%R -> (0 <= e)%R -> (128 * e <= A)%R -> (32 <= INR M * Rabs (sin w))%R ->
  (w * INR m = INR k * PI)%R ->
  exists r, corr_at corr j i = Some (Fin r) /\ (Rabs (r - (-1) ^ k * (1 - INR m / INR M)) <= 6 / (INR M * Rabs (sin w)) + 96 * (e / A))%R.
Proof.
  intros Ha E Hd Hj Ht Hdd Hal Hpos Hs Hi Hm H HA He HeA HM Hk.
  destruct (sine_call p d mi ma re al wgt lags corr c rows j i rs t0 dd a b A w ph e M m Ha E Hd Hj Ht Hdd Hal Hpos Hs Hi Hm H HA He HeA HM) as [r [V B]].
  exists r. split; [exact V|]. rewrite Hk, cos_whole in B. rewrite (Rmult_comm ((-1) ^ k)). exact B.
Qed.
Print Assumptions C117_half_periods.

(** 64 values 1006, 5, -995, 5, 1006, ..: within 1 of 5 + 1000 cos (q PI/2). At lag 4 (two half periods) the correlation is within 0.19 of 15/16. *)
Definition wave_at (r : nat) : Z := match r with 0%nat => 1006 | 2%nat => -995 | _ => 5 end.
Definition wave : list R := map (fun q => IZR (wave_at (q mod 4))) (seq 0 64).
Example C117_case : exists (d : @dstruct XR) corr c, let lags := map (fun i => Fin ((INR i - INR 63) * 1)) (seq 0 127) in
  accepted d /\ autocorrelation (A := XR) gcc d None None None None "natural" "fractional" = Ok (lags, corr, c) /\ data_2d d = Ok [map Fin wave] /\
  timeseries d = map Fin (grid 0 1 64) /\ opt_or (A := XR) None (median_time d) = Fin (63 / 2) /\ Forall single wave /\
  nth_error lags 67 = Some (Fin (INR 4 * 1)) /\
  (forall q, q < 64 -> (Rabs (nth q wave 0 - (5 + 1000 * cos (PI / 2 * INR q + 0))) <= 1)%R) /\ (128 * 1 <= 1000)%R /\
  (32 <= INR 64 * Rabs (sin (PI / 2)))%R /\ (PI / 2 * INR 4 = INR 2 * PI)%R /\
  (6 / (INR 64 * Rabs (sin (PI / 2))) + 96 * (1 / 1000) <= 19 / 100)%R.
Proof.
  assert (Lw : length wave = 64) by reflexivity.
  destruct (grid_example wave gcc "fractional") as [d [corr [c [Ha [Ht [Hd [E [Hm HL]]]]]]]]; [rewrite Lw; lia|rewrite Lw; lia|reflexivity|left; reflexivity|].
  rewrite Lw in *. change (64 - 1) with 63 in *. change (2 * 64 - 1) with 127 in *.
  assert (R63 : INR 63 = 63%R) by (rewrite INR_IZR_INZ; reflexivity). assert (R64 : INR 64 = 64%R) by (rewrite INR_IZR_INZ; reflexivity).
  exists d, corr, c. cbv zeta. split; [exact Ha|]. split; [exact E|]. split; [exact Hd|]. split; [exact Ht|].
  split; [rewrite Hm; f_equal; rewrite R63; lra|].
  split; [apply Forall_forall; intros x Hx; apply in_map_iff in Hx; destruct Hx as [q [<- _]]; apply single_int; destruct (q mod 4) as [|[|[|r]]]; cbn; lia|].
  split; [exact (HL 4 ltac:(lia))|]. split.
  - intros q Hq. assert (En : nth q wave 0%R = IZR (wave_at (q mod 4))).
    { apply nth_error_nth. unfold wave. rewrite nth_error_map, (nth_error_nth' (seq 0 64) 0) by (rewrite seq_length; exact Hq). rewrite seq_nth by exact Hq. reflexivity. }
    rewrite En, Rplus_0_r. pose proof (Nat.div_mod q 4 ltac:(lia)) as Dq. pose proof (Nat.mod_upper_bound q 4 ltac:(lia)) as Mq.
    set (k := q / 4) in *. set (r := q mod 4) in *.
    replace (PI / 2 * INR q)%R with (INR r * (PI / 2) + 2 * INR k * PI)%R by (rewrite Dq, plus_INR, mult_INR; cbn [INR]; lra).
    rewrite cos_period. destruct r as [|[|[|[|r]]]]; [| | | |lia]; cbn [INR wave_at].
    + rewrite Rmult_0_l, cos_0. apply Rabs_le. lra.
    + rewrite Rmult_1_l, cos_PI2. apply Rabs_le. lra.
    + replace ((1 + 1) * (PI / 2))%R with PI by lra. rewrite cos_PI. apply Rabs_le. lra.
    + replace ((1 + 1 + 1) * (PI / 2))%R with (3 * (PI / 2))%R by lra. rewrite cos_3PI2. apply Rabs_le. lra.
  - rewrite sin_PI2, R64, Rabs_R1. cbn [INR]. repeat split; lra.
Qed.

(** ** In binary64, time stamps on a binary grid, all settings at their defaults *)
Theorem C117_binary64 (exp64 : b64 -> b64) (p : platform) (d : @dstruct (B64 exp64)) (wgt : string) (g : Z) (t0 dd : R) (M : nat) (rows : list (list b64)) :
  (-1073 <= g <= 960)%Z -> accepted d -> (forall t : b64, In t (timeseries d) -> fixed_point g 50 t) -> map B2R (timeseries d) = grid t0 dd M ->
  2 <= M -> (0 < dd)%R -> (2 * Z.of_nat M + 1 <= INT_MAX)%Z -> p_checked p = false -> known_weight wgt ->
  (p_abs p = AbsInt -> (2 * (INR (M - 1) * dd) <= IZR INT_MAX)%R) -> data_2d d = Ok rows ->
  let a : b64 := median_time d in
  proper_alpha (A := B64 exp64) wgt a ->
  finite (A := B64 exp64) (if String.eqb wgt "gaussian" then nmul (nmul (nofZ 2) a) a else a) ->
  exists (lags : list b64) corr c,
    autocorrelation (A := B64 exp64) p d None None None None "natural" wgt = Ok (lags, corr, c) /\
    map B2R lags = map (fun i => ((INR i - INR (M - 1)) * dd)%R) (seq 0 (2 * M - 1)) /\
    forall (j : nat) (row : list b64) (k : Z) (om b A w ph e : R), nth_error rows j = Some row -> weight_error exp64 wgt (B2R a) om ->
      (-149 <= k <= 100)%Z -> (forall x : b64, In x row -> is_finite x = true /\ (Rabs (B2R x) <= bpow radix2 k)%R) ->
      let rs := map B2R row in
      length rs = M -> Forall single rs ->
      (forall q, q < M -> (Rabs (nth q rs 0 - (b + A * cos (w * INR q + ph))) <= e)%R) -> (0 < A)%R -> (0 <= e)%R -> (128 * e <= A)%R -> (32 <= INR M * Rabs (sin w))%R ->
      let n := INR M in
      let N := sq_dev rs in
      let K := (n * (bpow radix2 k * bpow radix2 k) / N)%R in
      (bpow radix2 (-700) <= N)%R -> ((n + 1) * K <= bpow radix2 48)%R ->
      forall m, m < M -> exists v : b64, corr_at corr j (M - 1 + m) = Some v /\ is_finite v = true /\
        (Rabs (B2R v - (1 - INR m / n) * cos (w * INR m)) <=
          6 / (n * Rabs (sin w)) + 96 * (e / A) + (50 * (n + 10) * bpow radix2 (-53) * (K * K + K) + 5 * om * K + bpow radix2 (-110)))%R.
Proof. exact (sine64 exp64 p d wgt g t0 dd M rows). Qed.
Print Assumptions C117_binary64.

(** the values of [C117_case] as doubles *)
Definition wave_times : list Z := map Z.of_nat (seq 0 64).
Definition wave_values : list Z := map (fun q => wave_at (q mod 4)) (seq 0 64).
Example C117_case_binary64 : exists d : @dstruct BB, let row := ints wave_values : list b64 in
  accepted d /\ (forall t : b64, In t (timeseries d) -> fixed_point 0 50 t) /\ map B2R (timeseries d) = grid 0 1 64 /\ data_2d d = Ok [row] /\
  proper_alpha (A := BB) "fractional" (median_time d) /\ finite (A := BB) (median_time d) /\ weight_error (fun x => x) "fractional" (B2R (median_time d : b64)) (7 * bpow radix2 (-53)) /\
  (forall x : b64, In x row -> is_finite x = true /\ (Rabs (B2R x) <= bpow radix2 10)%R) /\ map B2R row = wave /\
  (bpow radix2 (-700) <= sq_dev wave)%R /\ ((INR 64 + 1) * (INR 64 * (bpow radix2 10 * bpow radix2 10) / sq_dev wave) <= bpow radix2 48)%R.
Proof.
  destruct (ok_with_ok (SACF_1d (A := BB) (ints wave_times) (ints wave_values) None)
    (fun d => sames (ints wave_times) (timeseries d) && ok_with (data_2d d) (fun r => sames2 [ints wave_values] r) && same (half 63) (median_time d))) as [d [E H]]; [vm_compute; reflexivity|].
  apply andb_prop in H. destruct H as [H H3]. apply andb_prop in H. destruct H as [H1 H2].
  apply sames_eq in H1. destruct (ok_with_ok (data_2d d) _ H2) as [r [Er H2']]. apply sames2_eq in H2'. subst r. apply same_eq in H3.
  assert (G : forall z, (Z.abs z <= 1024)%Z -> is_finite (b64_ofZ z) = true /\ B2R (b64_ofZ z) = IZR z) by (intros z Hz; apply (E_fin _ _ (toE_ofZ_small z ltac:(lia)))).
  exists d. cbv zeta. rewrite <- H1, <- H3. split; [left; eauto|]. split.
  { intros t Ht. unfold ints in Ht. apply in_map_iff in Ht. destruct Ht as [z [<- Hz]]. unfold wave_times in Hz. apply in_map_iff in Hz. destruct Hz as [q [<- Hq]]. apply in_seq in Hq.
    destruct (G (Z.of_nat q) ltac:(lia)) as [F V]. split; [exact F|]. exists (Z.of_nat q). split; [change (2 ^ 50)%Z with 1125899906842624%Z; lia|rewrite V; cbn [bpow]; lra]. }
  split.
  { unfold ints, wave_times, grid. rewrite !map_map. apply map_ext_in. intros q Hq. apply in_seq in Hq. rewrite (proj2 (G (Z.of_nat q) ltac:(lia))), INR_IZR_INZ. ring. }
  split; [exact Er|]. split; [left; split; [left; reflexivity|vm_compute; reflexivity]|]. split; [vm_compute; discriminate|].
  split; [left; split; [left; reflexivity|reflexivity]|]. split.
  { intros x Hx. unfold ints in Hx. apply in_map_iff in Hx. destruct Hx as [z [<- Hz]]. unfold wave_values in Hz. apply in_map_iff in Hz. destruct Hz as [q [<- _]].
    assert (Hz : (Z.abs (wave_at (q mod 4)) <= 1024)%Z) by (destruct (q mod 4) as [|[|[|r]]]; cbn; lia). destruct (G _ Hz) as [F ->]. split; [exact F|].
    rewrite <- abs_IZR. change (bpow radix2 10) with 1024%R. apply IZR_le. exact Hz. }
  split.
  { unfold ints, wave_values, wave. rewrite !map_map. apply map_ext_in. intros q Hq. apply (G (wave_at (q mod 4))). destruct (q mod 4) as [|[|[|r]]]; cbn; lia. }
  assert (HN : (2000000 <= sq_dev wave)%R).
  { rewrite sq_dev_n. change (length wave) with 64. eapply Rle_trans; [|apply (rsum_n_prefix 3 64); [lia|intros q; apply Rle_0_sqr]].
    unfold rsum_n, rsum. cbn [map seq fold_right]. unfold dev. change (nth 0 wave 0%R) with (IZR 1006). change (nth 1 wave 0%R) with (IZR 5). change (nth 2 wave 0%R) with (IZR (-995)).
    set (m := rmean wave). pose proof (Rle_0_sqr (m - 11/2)) as Q1. pose proof (Rle_0_sqr (5 - m)) as Q2. unfold Rsqr in *. lra. }
  assert (R64 : INR 64 = 64%R) by (rewrite INR_IZR_INZ; reflexivity).
  split; [apply Rle_trans with 1%R; [change 1%R with (bpow radix2 0); apply bpow_le; lia|lra]|].
  rewrite R64. change (bpow radix2 10) with 1024%R. change (bpow radix2 48) with 281474976710656%R.
  apply Rmult_le_reg_r with (sq_dev wave); [lra|]. replace ((64 + 1) * (64 * (1024 * 1024) / sq_dev wave) * sq_dev wave)%R with ((64 + 1) * (64 * (1024 * 1024)))%R by (field; lra). lra.
Qed.
