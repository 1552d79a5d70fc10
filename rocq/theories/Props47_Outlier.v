(** Theorems: one value far from all others (C116). *)
From Coq Require Import String.
From Coq Require Import ZArith Reals List Bool Arith Lia Lra.
From Flocq Require Import Core BinarySingleNaN.
From Verif Require Import Num Mem MemFacts XR B64 Spec SpecR SpecOutlier DataStructure Correlator Sacf Api Examples B64Facts Laws2 WeightAcc AccFacts AccThms ExactFacts GridVals FixedFacts FixedThms AccExact SignalFacts SignalFacts2 PairBounds ValThms OutlierFacts
  OutlierFloat Props01_Construction.
Import ListNotations.
Local Open Scope list_scope.

(** The correlation is close to that of a lone spike, which is given by the pairs alone: any times, any selection. *)
Theorem C116_any (p : platform) (d : @dstruct XR) mi ma re al sel wgt lags corr c rows j i (rs ts os : list R) (kk a : R) f n s u (b h e : R) :
  accepted d -> autocorrelation (A := XR) p d mi ma re al sel wgt = Ok (lags, corr, c) -> data_2d d = Ok rows ->
  nth_error rows j = Some (map Fin rs) -> nth_error lags i = Some (Fin kk) ->
  timeseries d = map Fin ts -> opt_or (A := XR) al (median_time d) = Fin a -> (0 < a)%R ->
  selection_function p sel d = Some f -> pairs_by (A := XR) p d f (Fin kk) n = Ok (s, map Fin os) -> Forall single rs ->
  let M := length rs in
  outlier rs u b h e -> 2 <= M -> (0 <= e)%R -> h <> 0%R -> (32 * INR M * e <= Rabs h)%R ->
  exists r, corr_at corr j i = Some (Fin r) /\
    (Rabs (r - rsum_n (length s) (fun q => rweight wgt a (nth q os 0) * (mark u M q * mark u M (nth q s 0%nat))) / (1 - / INR M)) <= 96 * INR M * e / Rabs h)%R.
Proof. intros Ha E Hd. exact (outlier_any p d mi ma re al sel wgt lags corr c rows Ha E Hd j i rs ts os kk a f n s u b h e). Qed.
Print Assumptions C116_any.

(** So two datasets with such a value at the same place have nearly the same correlations, whatever their other values. *)
Theorem C116_rest (p : platform) (d : @dstruct XR) mi ma re al sel wgt lags corr c rows j j' i (rs rs' ts : list R) (kk a : R) u (b h e b' h' e' : R) :
  accepted d -> autocorrelation (A := XR) p d mi ma re al sel wgt = Ok (lags, corr, c) -> data_2d d = Ok rows ->
  nth_error rows j = Some (map Fin rs) -> nth_error rows j' = Some (map Fin rs') -> nth_error lags i = Some (Fin kk) ->
  timeseries d = map Fin ts -> opt_or (A := XR) al (median_time d) = Fin a -> (0 < a)%R -> Forall single rs -> Forall single rs' ->
  let M := length ts in
  outlier rs u b h e -> outlier rs' u b' h' e' -> 2 <= M -> (0 <= e)%R -> (0 <= e')%R -> h <> 0%R -> h' <> 0%R ->
  (32 * INR M * e <= Rabs h)%R -> (32 * INR M * e' <= Rabs h')%R ->
  exists r r', corr_at corr j i = Some (Fin r) /\ corr_at corr j' i = Some (Fin r') /\ (Rabs (r - r') <= 96 * INR M * (e / Rabs h + e' / Rabs h'))%R.
Proof. exact (outlier_rest p d mi ma re al sel wgt lags corr c rows j j' i rs rs' ts kk a u b h e b' h' e'). Qed.
Print Assumptions C116_rest.

(** Evenly spaced times, natural selection, lag of [m] steps: the number of pairs and how many of them contain the point. *)
Theorem C116_grid (p : platform) (d : @dstruct XR) mi ma re al wgt lags corr c rows j i (rs : list R) (t0 dd a b h e : R) (M m u : nat) :
  accepted d -> autocorrelation (A := XR) p d mi ma re al "natural" wgt = Ok (lags, corr, c) -> data_2d d = Ok rows ->
  nth_error rows j = Some (map Fin rs) -> timeseries d = map Fin (grid t0 dd M) -> (0 < dd)%R ->
  opt_or (A := XR) al (median_time d) = Fin a -> (0 < a)%R -> Forall single rs -> nth_error lags i = Some (Fin (INR m * dd)) -> 0 < m <= M ->
  outlier rs u b h e -> 2 <= M -> (0 <= e)%R -> h <> 0%R -> (32 * INR M * e <= Rabs h)%R ->
  let containing := ((if u <? M - m then 1 else 0) + (if m <=? u then 1 else 0))%R in
  exists r, corr_at corr j i = Some (Fin r) /\ (Rabs (r - (INR (M - m) / INR M - containing) / (INR M - 1)) <= 96 * INR M * e / Rabs h)%R.
Proof. exact (outlier_grid p d mi ma re al wgt lags corr c rows j i rs t0 dd a b h e M m u). Qed.
Print Assumptions C116_grid.

(** 1, 2, 1001 and 3, 2, -897 at the times 0, 1, 2; lag 1. The lone spike has -1/6 there. *)
Example C116_case : exists (d : @dstruct XR) corr c f s os, let rs := [1; 2; 1001]%R in let rs' := [3; 2; -897]%R in let lags := map (fun i => Fin ((INR i - INR 2) * 1)) (seq 0 5) in
  accepted d /\ autocorrelation (A := XR) gcc d None None None None "natural" "fractional" = Ok (lags, corr, c) /\ data_2d d = Ok [map Fin rs; map Fin rs'] /\
  nth_error lags 3 = Some (Fin (INR 1 * 1)) /\
  timeseries d = map Fin (grid 0 1 3) /\ opt_or (A := XR) None (median_time d) = Fin 1 /\ Forall single rs /\ Forall single rs' /\
  selection_function gcc "natural" d = Some f /\ pairs_by (A := XR) gcc d f (Fin (INR 1 * 1)) 2 = Ok (s, map Fin os) /\
  outlier rs 2 1 1000 1 /\ outlier rs' 2 3 (-900) 1 /\ (32 * INR 3 * 1 <= Rabs 1000)%R /\ (32 * INR 3 * 1 <= Rabs (-900))%R.
Proof.
  destruct (grid_example_rows [[1; 2; 1001]; [3; 2; -897]]%R 3 gcc "fractional") as (d & corr & c & Ha & Ht & Hd & E & Hm & HL); [lia|lia|discriminate| |reflexivity|left; reflexivity|].
  { intros rs [<-|[<-|[]]]; reflexivity. }
  change (3 - 1) with 2 in *. change (2 * 3 - 1) with 5 in *.
  destruct (call_pairs gcc d None None None None "natural" "fractional" _ corr c _ 0 3 [1; 2; 1001]%R (grid 0 1 3) (INR 1 * 1) Ha E Hd eq_refl (HL 1 ltac:(lia)) Ht) as [f [s [os [Hf [HP _]]]]].
  exists d, corr, c, f, s, os. cbv zeta. split; [exact Ha|]. split; [exact E|]. split; [exact Hd|]. split; [exact (HL 1 ltac:(lia))|]. split; [exact Ht|].
  split; [rewrite Hm; f_equal; cbn [INR]; lra|].
  assert (I : forall z, (Z.abs z <= 2000)%Z -> single (IZR z)) by (intros z Hz; apply single_int; lia).
  split; [repeat constructor; apply I; lia|]. split; [repeat constructor; apply I; lia|].
  split; [exact Hf|]. split; [exact HP|].
  split; [split; [cbn; lia|split; [cbn; lra|]]; intros [|[|[|q]]] Hq Hn; cbn in Hq |- *; try lia; unfold Rabs; destruct Rcase_abs; lra|].
  split; [split; [cbn; lia|split; [cbn; lra|]]; intros [|[|[|q]]] Hq Hn; cbn in Hq |- *; try lia; unfold Rabs; destruct Rcase_abs; lra|].
  cbn [INR]. split; unfold Rabs; destruct Rcase_abs; lra.
Qed.

(** ** In binary64, time stamps on a binary grid, all settings at their defaults *)
Theorem C116_binary64 (exp64 : b64 -> b64) (p : platform) (d : @dstruct (B64 exp64)) (wgt : string) (g : Z) (t0 dd : R) (M : nat) (rows : list (list b64)) :
  (-1073 <= g <= 960)%Z -> accepted d -> (forall t : b64, In t (timeseries d) -> fixed_point g 50 t) -> map B2R (timeseries d) = grid t0 dd M ->
  2 <= M -> (0 < dd)%R -> (2 * Z.of_nat M + 1 <= INT_MAX)%Z -> p_checked p = false -> known_weight wgt ->
  (p_abs p = AbsInt -> (2 * (INR (M - 1) * dd) <= IZR INT_MAX)%R) -> data_2d d = Ok rows ->
  let a : b64 := median_time d in
  proper_alpha (A := B64 exp64) wgt a ->
  finite (A := B64 exp64) (if String.eqb wgt "gaussian" then nmul (nmul (nofZ 2) a) a else a) ->
  exists (lags : list b64) corr c,
    autocorrelation (A := B64 exp64) p d None None None None "natural" wgt = Ok (lags, corr, c) /\
    map B2R lags = map (fun i => ((INR i - INR (M - 1)) * dd)%R) (seq 0 (2 * M - 1)) /\
    forall (j : nat) (row : list b64) (k : Z) (om : R) (u : nat) (b h e : R), nth_error rows j = Some row -> weight_error exp64 wgt (B2R a) om ->
      (-149 <= k <= 100)%Z -> (forall x : b64, In x row -> is_finite x = true /\ (Rabs (B2R x) <= bpow radix2 k)%R) ->
      let rs := map B2R row in
      length rs = M -> Forall single rs ->
      outlier rs u b h e -> (0 <= e)%R -> h <> 0%R -> (32 * INR M * e <= Rabs h)%R ->
      let n := INR M in
      let N := sq_dev rs in
      let K := (n * (bpow radix2 k * bpow radix2 k) / N)%R in
      (bpow radix2 (-700) <= N)%R -> ((n + 1) * K <= bpow radix2 48)%R ->
      forall m, 0 < m < M ->
        let containing := ((if u <? M - m then 1 else 0) + (if m <=? u then 1 else 0))%R in
        exists v : b64, corr_at corr j (M - 1 + m) = Some v /\ is_finite v = true /\
        (Rabs (B2R v - (INR (M - m) / n - containing) / (n - 1)) <=
          96 * n * e / Rabs h + (50 * (n + 10) * bpow radix2 (-53) * (K * K + K) + 5 * om * K + bpow radix2 (-110)))%R.
Proof. exact (outlier64 exp64 p d wgt g t0 dd M rows). Qed.
Print Assumptions C116_binary64.

Example C116_case_binary64 : exists d : @dstruct BB, let row := ints [1; 2; 1001]%Z : list b64 in
  accepted d /\ (forall t : b64, In t (timeseries d) -> fixed_point 0 50 t) /\ map B2R (timeseries d) = grid 0 1 3 /\ data_2d d = Ok [row] /\
  proper_alpha (A := BB) "fractional" (median_time d) /\ finite (A := BB) (median_time d) /\ weight_error (fun x => x) "fractional" (B2R (median_time d : b64)) (7 * bpow radix2 (-53)) /\
  (forall x : b64, In x row -> is_finite x = true /\ (Rabs (B2R x) <= bpow radix2 10)%R) /\ map B2R row = [1; 2; 1001]%R /\
  (bpow radix2 (-700) <= sq_dev [1; 2; 1001])%R /\ ((INR 3 + 1) * (INR 3 * (bpow radix2 10 * bpow radix2 10) / sq_dev [1; 2; 1001]) <= bpow radix2 48)%R.
Proof.
  destruct (ok_with_ok (SACF_1d (A := BB) (ints [0; 1; 2]%Z) (ints [1; 2; 1001]%Z) None)
    (fun d => sames (ints [0; 1; 2]%Z) (timeseries d) && ok_with (data_2d d) (fun r => sames2 [ints [1; 2; 1001]%Z] r) && same (fl 1) (median_time d))) as [d [E H]]; [vm_compute; reflexivity|].
  apply andb_prop in H. destruct H as [H H3]. apply andb_prop in H. destruct H as [H1 H2].
  apply sames_eq in H1. destruct (ok_with_ok (data_2d d) _ H2) as [r [Er H2']]. apply sames2_eq in H2'. subst r. apply same_eq in H3.
  assert (G : forall z, (Z.abs z <= 1024)%Z -> is_finite (b64_ofZ z) = true /\ B2R (b64_ofZ z) = IZR z) by (intros z Hz; apply (E_fin _ _ (toE_ofZ_small z ltac:(lia)))).
  exists d. cbv zeta. rewrite <- H1, <- H3. split; [left; eauto|]. split.
  { intros t Ht. unfold ints in Ht. apply in_map_iff in Ht. destruct Ht as [z [<- Hz]]. assert (Q : (0 <= z <= 2)%Z) by (cbn [In] in Hz; lia).
    destruct (G z ltac:(lia)) as [F V]. split; [exact F|]. exists z. split; [change (2 ^ 50)%Z with 1125899906842624%Z; lia|rewrite V; cbn [bpow]; lra]. }
  split.
  { change (grid 0 1 3) with (map (fun i => 0 + INR i * 1)%R [0; 1; 2]). change (ints [0; 1; 2]%Z) with (map b64_ofZ (map Z.of_nat [0; 1; 2])). rewrite !map_map. apply map_ext_in. intros q Hq.
    assert (q <= 2) by (cbn [In] in Hq; lia). rewrite (proj2 (G (Z.of_nat q) ltac:(lia))), INR_IZR_INZ. ring. }
  split; [exact Er|]. split; [left; split; [left; reflexivity|vm_compute; reflexivity]|]. split; [vm_compute; discriminate|].
  split; [left; split; [left; reflexivity|reflexivity]|]. split.
  { intros x Hx. unfold ints in Hx. apply in_map_iff in Hx. destruct Hx as [z [<- Hz]]. assert (Q : (Z.abs z <= 1024)%Z) by (cbn [In] in Hz; lia).
    destruct (G z Q) as [F ->]. split; [exact F|]. rewrite <- abs_IZR. change (bpow radix2 10) with 1024%R. apply IZR_le. exact Q. }
  split.
  { change ([1; 2; 1001]%R) with (map IZR [1; 2; 1001]%Z). unfold ints. rewrite map_map. apply map_ext_in. intros z Hz. apply (G z). cbn [In] in Hz. lia. }
  assert (HN : (100000 <= sq_dev [1; 2; 1001])%R) by (unfold sq_dev, rmean, rsum, dev; cbn; lra).
  split; [apply Rle_trans with 1%R; [change 1%R with (bpow radix2 0); apply bpow_le; lia|lra]|].
  change (bpow radix2 10) with 1024%R. change (bpow radix2 48) with 281474976710656%R. replace (INR 3) with 3%R by (cbn [INR]; lra).
  set (N := sq_dev _) in *. apply Rmult_le_reg_r with N; [lra|]. replace ((3 + 1) * (3 * (1024 * 1024) / N) * N)%R with ((3 + 1) * (3 * (1024 * 1024)))%R by (field; lra). lra.
Qed.
