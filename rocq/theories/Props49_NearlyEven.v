(** Theorems: time stamps close to an even grid (C118). *)
From Coq Require Import String.
From Coq Require Import ZArith Reals List Bool Arith Lia Lra.
From Flocq Require Import Core BinarySingleNaN.
From Verif Require Import Num Mem MemFacts XR B64 Spec SpecR SpecTime SpecEven DataStructure Correlator Sacf Api Examples B64Facts Laws2 WeightAcc AccFacts AccThms FixedFacts FixedThms AccExact GridVals ValThms
  ExactFacts SignalFacts EvenFacts EvenSine EvenExample EvenFloat Props01_Construction.
Import ListNotations.
Local Open Scope list_scope.

(** Each time within [h] of [t0 + q dd], a lag within [g] of [m dd], [2h + g] below half a step: point [q] is paired with point [q + m],
    for every [q] up to the last possible one, which may be missing; the offsets are at most [2h + g]. *)
Theorem C118_pairs (p : platform) (d : @dstruct XR) kk n s os (ts : list R) (t0 dd h g : R) (m : nat) :
  accepted d -> p_abs p = AbsFloat -> timeseries d = map Fin ts ->
  nearly_even ts t0 dd h -> (Rabs (kk - INR m * dd) <= g)%R -> (2 * (2 * h + g) < dd)%R -> m < length ts ->
  pairs_by (A := XR) p d (naturalSelectionFunctionIdx (A := XR) p d) (Fin kk) n = Ok (s, map Fin os) ->
  (length s = length ts - m \/ S (length s) = length ts - m) /\
  (forall q, q < length s -> nth q s 0 = q + m /\ (0 <= nth q os 0 <= 2 * h + g)%R).
Proof. exact (even_pairs p d kk n s os ts t0 dd h g m). Qed.
Print Assumptions C118_pairs.

(** So the correlation is that of the same values on the even grid up to [(2h + g)/alpha] and one term. *)
Theorem C118_value (p : platform) (d : @dstruct XR) mi ma re al wgt lags corr c rows j i (rs ts : list R) (t0 dd h g kk a : R) (m : nat) :
  accepted d -> autocorrelation (A := XR) p d mi ma re al "natural" wgt = Ok (lags, corr, c) -> p_abs p = AbsFloat ->
  data_2d d = Ok rows -> nth_error rows j = Some (map Fin rs) -> nth_error lags i = Some (Fin kk) -> timeseries d = map Fin ts ->
  opt_or (A := XR) al (median_time d) = Fin a -> (0 < a)%R -> (0 < sq_dev32 rs)%R ->
  nearly_even ts t0 dd h -> (Rabs (kk - INR m * dd) <= g)%R -> (2 * (2 * h + g) < dd)%R -> m < length ts ->
  let M := length ts in
  exists r, corr_at corr j i = Some (Fin r) /\
    (Rabs (r - rsum_n (M - m) (fun q => dev rs q * dev rs (q + m)%nat) / sq_dev32 rs) <=
      ((2 * h + g) / a * sq_dev rs + Rabs (dev rs (M - 1 - m) * dev rs (M - 1))) / sq_dev32 rs)%R.
Proof. exact (even_close p d mi ma re al wgt lags corr c rows j i rs ts t0 dd h g kk a m). Qed.
Print Assumptions C118_value.

(** A sinusoid sampled at such times still shows its period. *)
Theorem C118_sinusoid (p : platform) (d : @dstruct XR) mi ma re al wgt lags corr c rows j i (rs ts : list R) (t0 dd h g kk a b A om ph e : R) (m : nat) :
  accepted d -> autocorrelation (A := XR) p d mi ma re al "natural" wgt = Ok (lags, corr, c) -> p_abs p = AbsFloat ->
  data_2d d = Ok rows -> nth_error rows j = Some (map Fin rs) -> nth_error lags i = Some (Fin kk) -> timeseries d = map Fin ts ->
  opt_or (A := XR) al (median_time d) = Fin a -> (0 < a)%R -> Forall single rs ->
  nearly_even ts t0 dd h -> (Rabs (kk - INR m * dd) <= g)%R -> (2 * (2 * h + g) < dd)%R -> m < length ts ->
  let M := length ts in
  (forall q, q < M -> (Rabs (nth q rs 0 - (b + A * cos (om * nth q ts 0 + ph))) <= e)%R) ->
  (0 < A)%R -> (128 * (e / A + Rabs om * h) <= 1)%R -> (32 <= INR M * Rabs (sin (om * dd)))%R ->
  exists r, corr_at corr j i = Some (Fin r) /\
    (Rabs (r - (1 - INR m / INR M) * cos (om * kk)) <=
      6 / (INR M * Rabs (sin (om * dd))) + 13 / INR M + 96 * (e / A + Rabs om * h) + (2 * h + g) / a + Rabs om * g)%R.
Proof. exact (even_sine p d mi ma re al wgt lags corr c rows j i rs ts t0 dd h g kk a b A om ph e m). Qed.
Print Assumptions C118_sinusoid.

(** 64 times near 0, 1, .., 63, the odd ones late by 1/10000, and the values 1005, 5, -995, 5, 1005, ..: within 1/5 of 5 + 1000 cos (t PI/2).
    At lag 4 the correlation is within 0.36 of 15/16. *)
Definition swing_at (r : nat) : Z := match r with 0%nat => 1005 | 2%nat => -995 | _ => 5 end.
Definition swing : list R := map (fun q => IZR (swing_at (q mod 4))) (seq 0 64).
Example C118_case : exists (d : @dstruct XR) corr c,
  accepted d /\ autocorrelation (A := XR) clang d (Some (Fin 4)) (Some (Fin 4)) (Some (Fin 1)) (Some (Fin 10)) "natural" "fractional" = Ok (map Fin [0; 4]%R, corr, c) /\
  p_abs clang = AbsFloat /\ data_2d d = Ok [map Fin swing] /\ timeseries d = map Fin late /\ Forall single swing /\ (0 < sq_dev32 swing)%R /\
  nearly_even late 0 1 (1 / 10000) /\ (Rabs (4 - INR 4 * 1) <= 0)%R /\ (2 * (2 * (1 / 10000) + 0) < 1)%R /\ 4 < length late /\
  (forall q, q < 64 -> (Rabs (nth q swing 0 - (5 + 1000 * cos (PI / 2 * nth q late 0 + 0))) <= 1 / 5)%R) /\
  (128 * (1 / 5 / 1000 + Rabs (PI / 2) * (1 / 10000)) <= 1)%R /\ (32 <= INR 64 * Rabs (sin (PI / 2 * 1)))%R /\ cos (PI / 2 * 4) = 1%R /\
  (6 / (INR 64 * Rabs (sin (PI / 2 * 1))) + 13 / INR 64 + 96 * (1 / 5 / 1000 + Rabs (PI / 2) * (1 / 10000)) + (2 * (1 / 10000) + 0) / 10 + Rabs (PI / 2) * 0 <= 36 / 100)%R.
Proof.
  assert (Lw : length swing = 64) by reflexivity.
  destruct (late_built swing clang "fractional" Lw eq_refl eq_refl) as [d [corr [c [Ha [Ht [Hd E]]]]]]; [left; reflexivity|].
  assert (R64 : INR 64 = 64%R) by (rewrite INR_IZR_INZ; reflexivity).
  assert (HS : Forall single swing) by (apply Forall_forall; intros x Hx; apply in_map_iff in Hx; destruct Hx as [q [<- _]]; apply single_int; destruct (q mod 4) as [|[|[|r]]]; cbn; lia).
  assert (P4 : (0 < PI / 2 <= 2)%R) by (pose proof PI_4; pose proof PI_RGT_0; lra).
  assert (PA : Rabs (PI / 2) = (PI / 2)%R) by (apply Rabs_pos_eq; lra).
  exists d, corr, c. split; [exact Ha|]. split; [exact E|]. split; [reflexivity|]. split; [exact Hd|]. split; [exact Ht|]. split; [exact HS|]. split.
  { rewrite sq_dev_single by exact HS. rewrite sq_dev_n. change (length swing) with 64. apply Rlt_le_trans with (rsum_n 3 (fun q => dev swing q * dev swing q)%R).
    - unfold rsum_n, rsum. cbn [map seq fold_right]. unfold dev. change (nth 0 swing 0%R) with (IZR 1005). change (nth 1 swing 0%R) with (IZR 5). change (nth 2 swing 0%R) with (IZR (-995)).
      set (mu := rmean swing). pose proof (Rle_0_sqr (mu - 5)) as Q1. unfold Rsqr in *. lra.
    - apply OutlierFacts.rsum_n_prefix; [lia|intros q; apply Rle_0_sqr]. }
  split; [exact late_even|]. split; [replace (4 - INR 4 * 1)%R with 0%R by (cbn [INR]; ring); rewrite Rabs_R0; lra|]. split; [lra|]. split; [rewrite late_length; lia|]. split.
  - intros q Hq. assert (En : nth q swing 0%R = IZR (swing_at (q mod 4))).
    { apply nth_error_nth. unfold swing. rewrite nth_error_map, (nth_error_nth' (seq 0 64) 0) by (rewrite seq_length; exact Hq). rewrite seq_nth by exact Hq. reflexivity. }
    rewrite En, late_nth, Rplus_0_r by exact Hq.
    assert (C : (Rabs (cos (PI / 2 * late_at q) - cos (PI / 2 * INR q)) <= 2 / 10000)%R).
    { eapply Rle_trans; [apply cos_lip|]. unfold late_at. replace (PI / 2 * (INR q + (if Nat.odd q then 1 / 10000 else 0)) - PI / 2 * INR q)%R with (PI / 2 * (if Nat.odd q then 1 / 10000 else 0))%R by ring.
      destruct (Nat.odd q); rewrite Rabs_pos_eq by lra; lra. }
    assert (G : IZR (swing_at (q mod 4)) = (5 + 1000 * cos (PI / 2 * INR q))%R).
    { pose proof (Nat.div_mod q 4 ltac:(lia)) as Dq. pose proof (Nat.mod_upper_bound q 4 ltac:(lia)) as Mq.
      set (k := q / 4) in *. set (r := q mod 4) in *.
      replace (PI / 2 * INR q)%R with (INR r * (PI / 2) + 2 * INR k * PI)%R by (rewrite Dq, plus_INR, mult_INR; cbn [INR]; lra).
      rewrite cos_period. destruct r as [|[|[|[|r]]]]; [| | | |lia]; cbn [INR swing_at].
      + rewrite Rmult_0_l, cos_0. lra.
      + rewrite Rmult_1_l, cos_PI2. lra.
      + replace ((1 + 1) * (PI / 2))%R with PI by lra. rewrite cos_PI. lra.
      + replace ((1 + 1 + 1) * (PI / 2))%R with (3 * (PI / 2))%R by lra. rewrite cos_3PI2. lra. }
    rewrite G. apply Rabs_le_inv in C. apply Rabs_le. lra.
  - rewrite Rmult_1_r, sin_PI2, R64, Rabs_R1, PA. split; [lra|]. split; [lra|]. split; [replace (PI / 2 * 4)%R with (2 * PI)%R by lra; apply cos_2PI|lra].
Qed.

(** ** In binary64: doubles that are close to an even grid, such as multiples of a decimal fraction *)
Theorem C118_rounded (l : list b64) (t0 dd Tm : R) : (forall q, q < length l -> (Rabs (t0 + INR q * dd) <= Tm)%R) ->
  (forall q, q < length l -> B2R (nth q l (b64_ofZ 0)) = round radix2 (FLT_exp (-1074) 53) ZnearestE (t0 + INR q * dd)) ->
  nearly_even (map B2R l) t0 dd (bpow radix2 (-53) * Tm + bpow radix2 (-1075)).
Proof. exact (rounded_even l t0 dd Tm). Qed.
Print Assumptions C118_rounded.

Theorem C118_pairs_binary64 (exp64 : b64 -> b64) (p : platform) (d : @dstruct (B64 exp64)) (kk : b64) n (s : list nat) (os : list b64) (t0 dd h g : R) (m : nat) :
  accepted d -> times_ok (A := B64 exp64) d -> is_finite kk = true -> p_abs p = AbsFloat ->
  let ts := map B2R (timeseries d) in
  let T := (nth (length ts - 1) ts 0 - nth 0 ts 0)%R in
  let er := (bpow radix2 (-53) * (5 * T + 3 * Rabs (B2R kk)))%R in
  (T <= bpow radix2 1021)%R -> (Rabs (B2R kk) <= bpow radix2 1021)%R ->
  nearly_even ts t0 dd h -> (Rabs (B2R kk - INR m * dd) <= g)%R -> (2 * (2 * h + g + er) < dd)%R -> m < length ts ->
  pairs_by (A := B64 exp64) p d (naturalSelectionFunctionIdx (A := B64 exp64) p d) kk n = Ok (s, os) ->
  (length s = length ts - m \/ S (length s) = length ts - m) /\
  (forall q, q < length s -> nth q s 0 = q + m /\ is_finite (nth q os (b64_ofZ 0)) = true /\ (0 <= B2R (nth q os (b64_ofZ 0)) <= 2 * h + g + er)%R).
Proof. exact (even_pairs64 exp64 p d kk n s os t0 dd h g m). Qed.
Print Assumptions C118_pairs_binary64.

Theorem C118_binary64 (exp64 : b64 -> b64) (p : platform) (d : @dstruct (B64 exp64)) (mi ma re al : option b64) (wgt : string) (lags : list b64) corr c
  (rows : list (list b64)) (j i : nat) (row : list b64) (kk : b64) (b : Z) (om t0 dd h g : R) (m : nat) :
  accepted d -> times_ok (A := B64 exp64) d -> p_abs p = AbsFloat ->
  autocorrelation (A := B64 exp64) p d mi ma re al "natural" wgt = Ok (lags, corr, c) ->
  data_2d d = Ok rows -> nth_error rows j = Some row -> nth_error lags i = Some kk -> is_finite kk = true ->
  let ts := map B2R (timeseries d) in
  let T := (nth (length ts - 1) ts 0 - nth 0 ts 0)%R in
  let er := (bpow radix2 (-53) * (5 * T + 3 * Rabs (B2R kk)))%R in
  (T <= bpow radix2 1021)%R -> (Rabs (B2R kk) <= bpow radix2 1021)%R ->
  nearly_even ts t0 dd h -> (Rabs (B2R kk - INR m * dd) <= g)%R -> (2 * (2 * h + g + er) < dd)%R -> m < length ts ->
  let a : b64 := opt_or (A := B64 exp64) al (median_time d) in
  is_finite a = true -> (0 < B2R a)%R -> proper_alpha (A := B64 exp64) wgt a ->
  finite (A := B64 exp64) (if String.eqb wgt "gaussian" then nmul (nmul (nofZ 2) a) a else a) ->
  weight_error exp64 wgt (B2R a) om ->
  (-149 <= b <= 100)%Z -> (forall x : b64, In x row -> is_finite x = true /\ (Rabs (B2R x) <= bpow radix2 b)%R) ->
  let rs := map B2R row in
  let M := length ts in
  length rs = M ->
  let N := sq_dev32 rs in
  let K := (INR M * (bpow radix2 b * bpow radix2 b) / N)%R in
  (bpow radix2 (-700) <= N)%R -> ((INR M + 1) * K <= bpow radix2 48)%R ->
  exists v : b64, corr_at corr j i = Some v /\ is_finite v = true /\
    (Rabs (B2R v - rsum_n (M - m) (fun q => dev rs q * dev rs (q + m)%nat) / N) <=
      50 * (INR M + 10) * bpow radix2 (-53) * (K * K + K) + 5 * om * K + bpow radix2 (-110) +
      ((2 * h + g + er) / B2R a * sq_dev rs + Rabs (dev rs (M - 1 - m) * dev rs (M - 1))) / N)%R.
Proof. exact (even_value64 exp64 p d mi ma re al wgt lags corr c rows j i row kk b om t0 dd h g m). Qed.
Print Assumptions C118_binary64.

(** The times 0, 0.1, 0.2, 0.3 as doubles and all settings at their defaults, as in C107_decimal_refuted: the lag near 0.1 is 6 units in the last place too small. *)
Definition tenth (z : Z) : b64 := Bdiv mode_NE (b64_ofZ z) (b64_ofZ 10).
Definition lag_tenth : b64 := Bldexp mode_NE (b64_ofZ 7205759403792788) (-56)%Z.
Definition alpha_tenth : b64 := Bldexp mode_NE (b64_ofZ 5404319552844596) (-55)%Z.
Lemma val_of (x : b64) m e : B2SF x = SpecFloat.S754_finite false m e -> is_finite x = true /\ B2R x = (IZR (Zpos m) * bpow radix2 e)%R.
Proof. intros E. split; [rewrite <- is_finite_SF_B2SF, E; reflexivity|]. rewrite <- SF2R_B2SF, E. unfold SF2R, F2R. reflexivity. Qed.

Example C118_case_binary64 : exists (d : @dstruct BB) lags corr c, let row := ints [1; 2; 4; 8]%Z : list b64 in
  accepted d /\ times_ok (A := BB) d /\ p_abs clang = AbsFloat /\
  autocorrelation (A := BB) clang d None None None None "natural" "fractional" = Ok (lags, corr, c) /\ data_2d d = Ok [row] /\
  nth_error lags 5 = Some lag_tenth /\ is_finite lag_tenth = true /\
  let ts := map B2R (timeseries d) in
  let T := (nth (length ts - 1) ts 0 - nth 0 ts 0)%R in
  let er := (bpow radix2 (-53) * (5 * T + 3 * Rabs (B2R lag_tenth)))%R in
  (T <= bpow radix2 1021)%R /\ (Rabs (B2R lag_tenth) <= bpow radix2 1021)%R /\
  (forall q, q < length (timeseries d) -> B2R (nth q (timeseries d : list b64) (b64_ofZ 0)) = round radix2 (FLT_exp (-1074) 53) ZnearestE (0 + INR q * (1 / 10))) /\
  nearly_even ts 0 (1 / 10) (bpow radix2 (-53)) /\ (Rabs (B2R lag_tenth - INR 1 * (1 / 10)) <= bpow radix2 (-53))%R /\
  (2 * (2 * bpow radix2 (-53) + bpow radix2 (-53) + er) < 1 / 10)%R /\ 1 < length ts /\
  median_time d = alpha_tenth /\ is_finite alpha_tenth = true /\ (0 < B2R alpha_tenth)%R /\ proper_alpha (A := BB) "fractional" alpha_tenth /\ finite (A := BB) alpha_tenth /\
  weight_error (fun x => x) "fractional" (B2R alpha_tenth) (7 * bpow radix2 (-53)) /\
  (forall x : b64, In x row -> is_finite x = true /\ (Rabs (B2R x) <= bpow radix2 3)%R) /\ map B2R row = [1; 2; 4; 8]%R /\ length ts = 4 /\
  sq_dev32 [1; 2; 4; 8]%R = (115 / 4)%R.
Proof.
  destruct (ok_with_ok (SACF_1d (A := BB) (map tenth [0; 1; 2; 3]%Z) (ints [1; 2; 4; 8]%Z) None)
    (fun d => sames (map tenth [0; 1; 2; 3]%Z) (timeseries d) && ok_with (data_2d d) (fun r => sames2 [ints [1; 2; 4; 8]%Z] r) &&
      sames (map tenth [0; 1; 2; 3]%Z) (normalised_timeseries d) && same alpha_tenth (median_time d) &&
      ok_with (autocorrelation clang d None None None None "natural" "fractional") (fun r => match nth_error (fst (fst r)) 5 with Some x => same x lag_tenth | None => false end))) as [d [E H]]; [vm_compute; reflexivity|].
  apply andb_prop in H. destruct H as [H H5]. apply andb_prop in H. destruct H as [H H4]. apply andb_prop in H. destruct H as [H H3]. apply andb_prop in H. destruct H as [H1 H2].
  apply sames_eq in H1. apply sames_eq in H3. apply same_eq in H4. destruct (ok_with_ok (data_2d d) _ H2) as [r [Er H2']]. apply sames2_eq in H2'. subst r.
  destruct (ok_with_ok _ _ H5) as [[[lags corr] c] [Ec H6]]. cbn [fst] in H6.
  destruct (val_of (tenth 1) 7205759403792794 (-56) ltac:(vm_compute; reflexivity)) as [F1 V1].
  destruct (val_of (tenth 2) 7205759403792794 (-55) ltac:(vm_compute; reflexivity)) as [F2 V2].
  destruct (val_of (tenth 3) 5404319552844595 (-54) ltac:(vm_compute; reflexivity)) as [F3 V3].
  destruct (val_of lag_tenth 7205759403792788 (-56) ltac:(vm_compute; reflexivity)) as [FL VL].
  destruct (val_of alpha_tenth 5404319552844596 (-55) ltac:(vm_compute; reflexivity)) as [FA VA].
  assert (V0 : B2R (tenth 0) = 0%R) by (rewrite <- SF2R_B2SF; replace (B2SF (tenth 0)) with (SpecFloat.S754_zero false) by (vm_compute; reflexivity); reflexivity).
  change (bpow radix2 (-56)) with (/ 72057594037927936)%R in *. change (bpow radix2 (-55)) with (/ 36028797018963968)%R in *. change (bpow radix2 (-54)) with (/ 18014398509481984)%R in *.
  exists d, lags, corr, c. cbv zeta. split; [left; eauto|]. split.
  { split; [rewrite <- H1; apply orderedb_ok; vm_compute; reflexivity|]. split; [rewrite <- H1|rewrite <- H3]; intros x [<-|[<-|[<-|[<-|[]]]]]; vm_compute; discriminate. }
  split; [reflexivity|]. split; [exact Ec|]. split; [exact Er|].
  split; [destruct (nth_error lags 5); [rewrite (same_eq _ _ H6); reflexivity|discriminate H6]|]. split; [exact FL|].
  rewrite <- H1, <- H4. cbn [map length nth Nat.sub]. rewrite V0, V1, V2, V3, VL, VA.
  assert (B : (4 <= bpow radix2 1021)%R) by (change 4%R with (bpow radix2 2); apply bpow_le; lia).
  rewrite (Rabs_pos_eq (7205759403792788 * / 72057594037927936)) by lra.
  split; [lra|]. split; [lra|]. split.
  { assert (R : forall z, (0 <= z <= 3)%Z -> B2R (tenth z) = round radix2 (FLT_exp (-1074) 53) ZnearestE (IZR z / 10)).
    { intros z Hz. destruct (E_fin _ _ (toE_ofZ_small z ltac:(lia))) as [Fz Vz]. destruct (E_fin _ _ (toE_ofZ_small 10 ltac:(lia))) as [F10 V10].
      pose proof (Bdiv_correct 53 1024 _ _ mode_NE (b64_ofZ z) (b64_ofZ 10) ltac:(rewrite V10; lra)) as D. rewrite V10 in D. rewrite Vz in D.
      change (SpecFloat.fexp 53 1024) with (FLT_exp (-1074) 53) in D. cbn [round_mode] in D. rewrite Rlt_bool_true in D; [exact (proj1 D)|].
      apply Rle_lt_trans with (bpow radix2 0); [|apply bpow_lt; lia]. apply abs_round_le_generic; [apply FLT_exp_valid; reflexivity|apply valid_rnd_N|apply generic_format_bpow; unfold FLT_exp; lia|].
      assert (0 <= IZR z <= 3)%R by (split; apply IZR_le; lia). change (bpow radix2 0) with 1%R. apply Rabs_le. lra. }
    intros [|[|[|[|q]]]] Hq; [| | | |lia]; cbn [nth INR]; rewrite R by lia; f_equal; lra. }
  change (bpow radix2 (-53)) with (/ 9007199254740992)%R. split.
  { intros [|[|[|[|q]]]] Hq; cbn [length] in Hq; [| | | |lia]; cbn [nth INR]; apply Rabs_le; lra. }
  split; [cbn [INR]; apply Rabs_le; lra|]. split; [lra|]. split; [lia|]. split; [reflexivity|]. split; [exact FA|]. split; [lra|].
  split; [left; split; [left; reflexivity|vm_compute; reflexivity]|]. split; [vm_compute; discriminate|].
  split; [left; split; [left; reflexivity|change (bpow radix2 (-53)) with (/ 9007199254740992)%R; reflexivity]|].
  assert (G : forall z, (Z.abs z <= 1024)%Z -> is_finite (b64_ofZ z) = true /\ B2R (b64_ofZ z) = IZR z) by (intros z Hz; apply (E_fin _ _ (toE_ofZ_small z ltac:(lia)))).
  split.
  { intros x Hx. unfold ints in Hx. apply in_map_iff in Hx. destruct Hx as [z [<- Hz]]. assert (Q : (Z.abs z <= 8)%Z) by (cbn [In] in Hz; lia).
    destruct (G z ltac:(lia)) as [F ->]. split; [exact F|]. rewrite <- abs_IZR. change (bpow radix2 3) with 8%R. apply IZR_le. exact Q. }
  split.
  { change ([1; 2; 4; 8]%R) with (map IZR [1; 2; 4; 8]%Z). unfold ints. rewrite map_map. apply map_ext_in. intros z Hz. apply (G z). cbn [In] in Hz. lia. }
  split; [reflexivity|].
  assert (SI : forall z, (Z.abs z <= 16)%Z -> single (IZR z)) by (intros z Hz; apply single_int; lia).
  rewrite sq_dev_single by (repeat constructor; apply SI; lia). unfold sq_dev, rmean, rsum, dev. cbn. lra.
Qed.
