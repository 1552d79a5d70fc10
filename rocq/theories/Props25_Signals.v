(** Theorems: periodic and alternating signals (C89), a straight line (C90), the effect of single precision in the normalisation (C91). *)
From Coq Require Import String.
From Coq Require Import ZArith Reals List Bool Arith Lia Lra.
From Flocq Require Import Core.
From Verif Require Import Num Mem XR B64 Spec SpecR DataStructure Correlator Sacf Api Examples GridVals ValThms PairBounds SignalFacts Laws
  Props01_Construction.
Import ListNotations.
Local Open Scope list_scope.

(** ** C89: evenly sampled values that repeat after m points: the correlation at that lag is not exceeded at any later lag *)
Theorem C89_repeating (p : platform) (d : @dstruct XR) (mi ma re al : option xr) (wgt : string)
  (lags : list xr) (corr : @py_corr XR) (c : @correlator XR) (rows : list (list xr)) (j i i' : nat) (rs : list R) (t0 dd a v w : R) (M m m' : nat) :
  accepted d -> autocorrelation (A := XR) p d mi ma re al "natural" wgt = Ok (lags, corr, c) -> data_2d d = Ok rows ->
  nth_error rows j = Some (map Fin rs) -> timeseries d = map Fin (grid t0 dd M) -> (0 < dd)%R ->
  opt_or (A := XR) al (median_time d) = Fin a -> (0 < a)%R -> Forall single rs -> In v rs -> In w rs -> v <> w ->
  (forall q, q + m < M -> nth (q + m) rs 0%R = nth q rs 0%R) -> m <= m' ->
  nth_error lags i = Some (Fin (INR m * dd)) -> nth_error lags i' = Some (Fin (INR m' * dd)) ->
  exists r r', corr_at corr j i = Some (Fin r) /\ corr_at corr j i' = Some (Fin r') /\ (Rabs r' <= r)%R.
Proof.
  intros Ha E Hd Hj Ht Hdd Hal Hpos Hs Hv Hw Hne H Hm Hi Hi'.
  assert (HN : (0 < sq_dev32 rs)%R) by (rewrite sq_dev_single by exact Hs; exact (sq_dev_pos rs v w Hv Hw Hne)).
  destruct (signal_period p d mi ma re al wgt lags corr c rows j rs t0 dd a M Ha E Hd Hj Ht Hdd Hal Hpos 1 i i' m m') as [r [r' [V [V' [_ B]]]]]; auto; [lra| |].
  - intros q Hq. unfold dev. rewrite H by exact Hq. ring.
  - exists r, r'. rewrite Rmult_1_l in V. auto.
Qed.
Print Assumptions C89_repeating.

(** n whole periods of P points: the correlation at k periods is 1 - k/n *)
Theorem C89_periods (p : platform) (d : @dstruct XR) (mi ma re al : option xr) (wgt : string)
  (lags : list xr) (corr : @py_corr XR) (c : @correlator XR) (rows : list (list xr)) (j i : nat) (rs : list R) (t0 dd a v w : R) (n k P : nat) :
  accepted d -> autocorrelation (A := XR) p d mi ma re al "natural" wgt = Ok (lags, corr, c) -> data_2d d = Ok rows ->
  nth_error rows j = Some (map Fin rs) -> timeseries d = map Fin (grid t0 dd (n * P)) -> (0 < dd)%R ->
  opt_or (A := XR) al (median_time d) = Fin a -> (0 < a)%R -> Forall single rs -> In v rs -> In w rs -> v <> w ->
  (forall q, q + P < n * P -> nth (q + P) rs 0%R = nth q rs 0%R) -> k <= n ->
  nth_error lags i = Some (Fin (INR (k * P) * dd)) ->
  corr_at corr j i = Some (Fin (1 - INR k / INR n)).
Proof.
  intros Ha E Hd Hj Ht Hdd Hal Hpos Hs Hv Hw Hne H Hk Hi. pose proof (sq_dev_pos rs v w Hv Hw Hne) as HN. pose proof (sq_dev_single rs Hs) as ES.
  rewrite (signal_multiple p d mi ma re al wgt lags corr c rows j rs t0 dd a (n * P) Ha E Hd Hj Ht Hdd Hal Hpos i n k P eq_refl Hk H Hi) by lra.
  rewrite ES. do 2 f_equal. unfold Rdiv. rewrite Rinv_r by lra. ring.
Qed.
Print Assumptions C89_periods.

(** values that are mirrored at their mean after h points, n times over: the correlation at k*h points is 1 - k/n with alternating sign *)
Theorem C89_alternating (p : platform) (d : @dstruct XR) (mi ma re al : option xr) (wgt : string)
  (lags : list xr) (corr : @py_corr XR) (c : @correlator XR) (rows : list (list xr)) (j i : nat) (rs : list R) (t0 dd a v w : R) (n k h : nat) :
  accepted d -> autocorrelation (A := XR) p d mi ma re al "natural" wgt = Ok (lags, corr, c) -> data_2d d = Ok rows ->
  nth_error rows j = Some (map Fin rs) -> timeseries d = map Fin (grid t0 dd (n * h)) -> (0 < dd)%R ->
  opt_or (A := XR) al (median_time d) = Fin a -> (0 < a)%R -> Forall single rs -> In v rs -> In w rs -> v <> w ->
  (forall q, q + h < n * h -> (nth (q + h) rs 0 - rmean rs = rmean rs - nth q rs 0)%R) -> k <= n ->
  nth_error lags i = Some (Fin (INR (k * h) * dd)) ->
  corr_at corr j i = Some (Fin ((-1) ^ k * (1 - INR k / INR n))).
Proof.
  intros Ha E Hd Hj Ht Hdd Hal Hpos Hs Hv Hw Hne H Hk Hi. pose proof (sq_dev_pos rs v w Hv Hw Hne) as HN. pose proof (sq_dev_single rs Hs) as ES.
  rewrite (signal_alternate p d mi ma re al wgt lags corr c rows j rs t0 dd a (n * h) Ha E Hd Hj Ht Hdd Hal Hpos i n k h _ eq_refl Hk) by first [exact Hi|reflexivity|lra|intros q Hq; specialize (H q Hq); lra].
  rewrite ES. do 2 f_equal. assert (S : (if Nat.even k then 1 else -1)%R = ((-1) ^ k)%R).
  { clear. induction k as [|k IH]; [reflexivity|]. rewrite Nat.even_succ, <- Nat.negb_even. cbn [pow]. rewrite <- IH. destruct (Nat.even k); cbn [negb]; lra. }
  rewrite S. unfold Rdiv. rewrite Rinv_r by lra. ring.
Qed.
Print Assumptions C89_alternating.

(** 1, 2, 1, 2 at the times 0, 1, 2, 3: repeating after two points, mirrored after one *)
Example C89_case : exists (d : @dstruct XR) corr c, let rs := [1; 2; 1; 2]%R in let lags := map (fun i => Fin ((INR i - INR 3) * 1)) (seq 0 7) in
  accepted d /\ autocorrelation (A := XR) gcc d None None None None "natural" "fractional" = Ok (lags, corr, c) /\ data_2d d = Ok [map Fin rs] /\
  timeseries d = map Fin (grid 0 1 (2 * 2)) /\ timeseries d = map Fin (grid 0 1 (4 * 1)) /\
  opt_or (A := XR) None (median_time d) = Fin (3 / 2) /\ Forall single rs /\ In 1%R rs /\ In 2%R rs /\ (1 <> 2)%R /\
  (forall q, q + 2 < 4 -> nth (q + 2) rs 0%R = nth q rs 0%R) /\ (forall q, q + 1 < 4 -> (nth (q + 1) rs 0 - rmean rs = rmean rs - nth q rs 0)%R) /\
  (forall m, m < 4 -> nth_error lags (3 + m) = Some (Fin (INR m * 1))) /\
  corr_at corr 0 5 = Some (Fin (1 / 2)) /\ corr_at corr 0 4 = Some (Fin (- (3 / 4))).
Proof.
  destruct (grid_example [1; 2; 1; 2]%R gcc "fractional") as [d [corr [c [Ha [Ht [Hd [E [Hm HL]]]]]]]]; [cbn; lia|cbn; lia|reflexivity|left; reflexivity|].
  change (length [1; 2; 1; 2]%R) with 4 in *. change (4 - 1) with 3 in *.
  assert (Hs : Forall single [1; 2; 1; 2]%R) by (repeat constructor; apply (single_int 1) || apply (single_int 2); lia).
  assert (Hm' : opt_or (A := XR) None (median_time d) = Fin (3 / 2)) by (rewrite Hm; f_equal; cbn [INR]; lra).
  assert (P2 : forall q, q + 2 < 2 * 2 -> nth (q + 2) [1; 2; 1; 2]%R 0%R = nth q [1; 2; 1; 2]%R 0%R) by (intros [|[|q]] Hq; [reflexivity|reflexivity|lia]).
  assert (P1 : forall q, q + 1 < 4 * 1 -> (nth (q + 1) [1; 2; 1; 2] 0 - rmean [1; 2; 1; 2] = rmean [1; 2; 1; 2] - nth q [1; 2; 1; 2] 0)%R)
    by (unfold rmean, rsum; intros [|[|[|q]]] Hq; cbn; try lra; lia).
  exists d, corr, c. cbv zeta. do 13 (split; [first [assumption|lra|cbn; auto; fail]|]). split.
  - rewrite (C89_periods gcc d None None None None "fractional" _ corr c _ 0 5 [1; 2; 1; 2]%R 0 1 (3 / 2) 1 2 2 1 2 Ha E Hd eq_refl Ht Rlt_0_1 Hm' ltac:(lra) Hs); try (cbn; auto; fail); try lra; auto.
    + do 2 f_equal. cbn [INR]. lra.
    + exact (HL 2 ltac:(lia)).
  - rewrite (C89_alternating gcc d None None None None "fractional" _ corr c _ 0 4 [1; 2; 1; 2]%R 0 1 (3 / 2) 1 2 4 1 1 Ha E Hd eq_refl Ht Rlt_0_1 Hm' ltac:(lra) Hs); try (cbn; auto; fail); try lra; auto.
    + do 2 f_equal. cbn [INR pow]. lra.
    + exact (HL 1 ltac:(lia)).
Qed.

(** ** C90: M >= 2 values on a straight line: the correlation at m points depends on M and m only *)
Theorem C90_line (p : platform) (d : @dstruct XR) (mi ma re al : option xr) (wgt : string)
  (lags : list xr) (corr : @py_corr XR) (c : @correlator XR) (rows : list (list xr)) (j i : nat) (t0 dd a s b : R) (M m : nat) :
  accepted d -> autocorrelation (A := XR) p d mi ma re al "natural" wgt = Ok (lags, corr, c) -> data_2d d = Ok rows ->
  let rs := map (fun q => b + s * INR q)%R (seq 0 M) in
  nth_error rows j = Some (map Fin rs) -> timeseries d = map Fin (grid t0 dd M) -> (0 < dd)%R ->
  opt_or (A := XR) al (median_time d) = Fin a -> (0 < a)%R -> Forall single rs -> s <> 0%R -> 2 <= M -> m <= M ->
  nth_error lags i = Some (Fin (INR m * dd)) ->
  let n := INR (M - m) in
  corr_at corr j i = Some (Fin (n * (n * n - 1 - 3 * INR m * INR m) / (INR M * (INR M * INR M - 1)))).
Proof.
  intros Ha E Hd rs Hj Ht Hdd Hal Hpos Hs Hne HM Hm Hi n. pose proof (sq_dev_single rs Hs) as ES.
  assert (HN : (0 < sq_dev rs)%R).
  { apply (sq_dev_pos rs (b + s * INR 0) (b + s * INR 1)).
    - apply in_map_iff. exists 0. split; [reflexivity|apply in_seq; lia].
    - apply in_map_iff. exists 1. split; [reflexivity|apply in_seq; lia].
    - cbn [INR]. intros C. apply Hne. lra. }
  destruct (signal_line p d mi ma re al wgt lags corr c rows j rs t0 dd a M Ha E Hd Hj Ht Hdd Hal Hpos i m s b eq_refl Hm Hi) as [V|[V|V]]; [lra| |lia|contradiction].
  rewrite V, ES. do 2 f_equal. unfold Rdiv at 2. rewrite Rinv_r by lra. apply Rmult_1_r.
Qed.
Print Assumptions C90_line.

(** it is negative from about 0.37*M points on (3*m*m > n*n - 1): 1, 3, 5, 7 at two points: -3/10 *)
Example C90_case : exists (d : @dstruct XR) corr c, let rs := map (fun q => 1 + 2 * INR q)%R (seq 0 4) in let lags := map (fun i => Fin ((INR i - INR 3) * 1)) (seq 0 7) in
  accepted d /\ autocorrelation (A := XR) gcc d None None None None "natural" "fractional" = Ok (lags, corr, c) /\ data_2d d = Ok [map Fin rs] /\
  timeseries d = map Fin (grid 0 1 4) /\ opt_or (A := XR) None (median_time d) = Fin (3 / 2) /\ Forall single rs /\
  nth_error lags 5 = Some (Fin (INR 2 * 1)) /\ corr_at corr 0 5 = Some (Fin (- (3 / 10))).
Proof.
  destruct (grid_example (map (fun q => 1 + 2 * INR q)%R (seq 0 4)) gcc "fractional") as [d [corr [c [Ha [Ht [Hd [E [Hm HL]]]]]]]]; [cbn; lia|cbn; lia|reflexivity|left; reflexivity|].
  change (length (map (fun q => 1 + 2 * INR q)%R (seq 0 4))) with 4 in *. change (4 - 1) with 3 in *.
  assert (Hs : Forall single (map (fun q => 1 + 2 * INR q)%R (seq 0 4))).
  { apply Forall_forall. intros x Hx. apply in_map_iff in Hx. destruct Hx as [q [<- Hq]]. apply in_seq in Hq.
    replace (1 + 2 * INR q)%R with (IZR (1 + 2 * Z.of_nat q)) by (rewrite plus_IZR, mult_IZR, <- INR_IZR_INZ; ring). apply single_int. lia. }
  assert (Hm' : opt_or (A := XR) None (median_time d) = Fin (3 / 2)) by (rewrite Hm; f_equal; cbn [INR]; lra).
  exists d, corr, c. cbv zeta. repeat (split; [assumption|]). split; [exact (HL 2 ltac:(lia))|].
  rewrite (C90_line gcc d None None None None "fractional" _ corr c _ 0 5 0 1 (3 / 2) 2 1 4 2 Ha E Hd eq_refl Ht Rlt_0_1 Hm'); try lra; try lia; auto.
  - do 2 f_equal. cbn [INR Nat.sub]. lra.
  - exact (HL 2 ltac:(lia)).
Qed.

(** ** C91: the values enter the normalisation in single precision. With K bounding the ratio of their root mean square and
    standard deviation, each correlation is the one normalised with the exact values times a factor between 1/(1 + K*2^-24)^2 and
    1/(1 - K*2^-24)^2. Values below 2^-126 in size other than zero are left out (subnormal in single precision). *)
Theorem C91_factor (p : platform) (d : @dstruct XR) (mi ma re al : option xr) (sel wgt : string)
  (lags : list xr) (corr : @py_corr XR) (c : @correlator XR) (rows : list (list xr)) (j i : nat) (rs ts os : list R) (kk a K : R)
  (f : @cor_it XR -> meth (@cor_it XR) unit) (n : nat) (s : list nat) :
  accepted d -> autocorrelation (A := XR) p d mi ma re al sel wgt = Ok (lags, corr, c) ->
  data_2d d = Ok rows -> nth_error rows j = Some (map Fin rs) -> nth_error lags i = Some (Fin kk) ->
  timeseries d = map Fin ts -> opt_or (A := XR) al (median_time d) = Fin a -> (0 < a)%R ->
  selection_function p sel d = Some f -> pairs_by (A := XR) p d f (Fin kk) n = Ok (s, map Fin os) ->
  (0 < sq_dev rs)%R -> (0 <= K < bpow radix2 24)%R -> (forall x, In x rs -> x = 0 \/ bpow radix2 (-126) <= Rabs x)%R ->
  (rsum (map (fun x => x * x) rs) <= K * K * sq_dev rs)%R ->
  let u := (rsum_n (length s) (fun q => rweight wgt a (nth q os 0) * (dev rs q * dev rs (nth q s 0%nat))) / sq_dev rs)%R in
  exists g, corr_at corr j i = Some (Fin (u * g)) /\
    (/ ((1 + K * bpow radix2 (-24)) * (1 + K * bpow radix2 (-24))) <= g <= / ((1 - K * bpow radix2 (-24)) * (1 - K * bpow radix2 (-24))))%R.
Proof. exact (single_effect p d mi ma re al sel wgt lags corr c rows j i rs ts os kk a K f n s). Qed.
Print Assumptions C91_factor.

(** in particular at lag zero, where it would be 1 *)
Theorem C91_zero_lag (p : platform) (d : @dstruct XR) (mi ma re al : option xr) (wgt : string)
  (lags : list xr) (corr : @py_corr XR) (c : @correlator XR) (rows : list (list xr)) (j i : nat) (rs ts : list R) (a K : R) :
  accepted d -> autocorrelation (A := XR) p d mi ma re al "natural" wgt = Ok (lags, corr, c) ->
  data_2d d = Ok rows -> nth_error rows j = Some (map Fin rs) -> nth_error lags i = Some (Fin 0) ->
  timeseries d = map Fin ts -> increasing (A := XR) (timeseries d) -> opt_or (A := XR) al (median_time d) = Fin a -> (0 < a)%R ->
  (0 < sq_dev rs)%R -> (0 <= K < bpow radix2 24)%R -> (forall x, In x rs -> x = 0 \/ bpow radix2 (-126) <= Rabs x)%R ->
  (rsum (map (fun x => x * x) rs) <= K * K * sq_dev rs)%R ->
  exists g, corr_at corr j i = Some (Fin g) /\
    (/ ((1 + K * bpow radix2 (-24)) * (1 + K * bpow radix2 (-24))) <= g <= / ((1 - K * bpow radix2 (-24)) * (1 - K * bpow radix2 (-24))))%R.
Proof. exact (single_zero_lag p d mi ma re al wgt lags corr c rows j i rs ts a K). Qed.
Print Assumptions C91_zero_lag.

(** the values 1/3 and 5/3, which are not representable (mean 1, K = 2) *)
Example C91_case : exists (d : @dstruct XR) corr c f s os, let rs := [1 / 3; 5 / 3]%R in let lags := map (fun i => Fin ((INR i - INR 1) * 1)) (seq 0 3) in
  accepted d /\ autocorrelation (A := XR) gcc d None None None None "natural" "fractional" = Ok (lags, corr, c) /\ data_2d d = Ok [map Fin rs] /\
  nth_error lags 1 = Some (Fin 0) /\ timeseries d = map Fin (grid 0 1 2) /\ increasing (A := XR) (timeseries d) /\
  opt_or (A := XR) None (median_time d) = Fin (1 / 2) /\ selection_function gcc "natural" d = Some f /\
  pairs_by (A := XR) gcc d f (Fin 0) 1 = Ok (s, map Fin os) /\ (0 < sq_dev rs)%R /\ (0 <= 2 < bpow radix2 24)%R /\
  (forall x, In x rs -> x = 0 \/ bpow radix2 (-126) <= Rabs x)%R /\ (rsum (map (fun x => x * x) rs) <= 2 * 2 * sq_dev rs)%R.
Proof.
  destruct (grid_example [1 / 3; 5 / 3]%R gcc "fractional") as [d [corr [c [Ha [Ht [Hd [E [Hm HL]]]]]]]]; [cbn; lia|cbn; lia|reflexivity|left; reflexivity|].
  change (length [1 / 3; 5 / 3]%R) with 2 in *. change (2 - 1) with 1 in *.
  assert (H0 : nth_error (map (fun i => Fin ((INR i - INR 1) * 1)) (seq 0 3)) 1 = Some (Fin 0)) by (etransitivity; [exact (HL 0 ltac:(lia))|]; do 2 f_equal; cbn [INR]; ring).
  destruct (call_pairs gcc d None None None None "natural" "fractional" _ corr c _ 0 1 [1 / 3; 5 / 3]%R (grid 0 1 2) 0 Ha E Hd eq_refl H0 Ht) as [f [s [os [Hf [HP _]]]]].
  exists d, corr, c, f, s, os. cbv zeta. split; [exact Ha|]. split; [exact E|]. split; [exact Hd|]. split; [exact H0|]. split; [exact Ht|].
  split; [rewrite Ht; exact (grid_increasing 0 1 2 Rlt_0_1)|]. split; [rewrite Hm; f_equal; cbn [INR]; lra|]. split; [exact Hf|]. split; [exact HP|].
  assert (ES : (sq_dev [1 / 3; 5 / 3] = 8 / 9)%R) by (unfold sq_dev, rmean, rsum; cbn; lra). rewrite ES.
  split; [lra|]. split; [split; [lra|]; change (bpow radix2 24) with (IZR 16777216); apply IZR_lt; lia|]. split.
  - assert (B : (bpow radix2 (-126) <= bpow radix2 (-2))%R) by (apply bpow_le; lia). change (bpow radix2 (-2)) with (/ 4)%R in B.
    intros x [<-|[<-|[]]]; right; rewrite Rabs_pos_eq; lra.
  - unfold rsum. cbn. lra.
Qed.
