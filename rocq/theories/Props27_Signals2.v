(** Theorems: a lone spike (C93), sum and difference of two signals (C94), values that differ by little (C95). *)
From Coq Require Import String.
From Coq Require Import ZArith Reals List Bool Arith Lia Lra.
From Flocq Require Import Core.
From Verif Require Import Num Mem XR B64 Spec SpecR DataStructure Correlator Sacf Api Examples GridVals ValThms SignalFacts SignalFacts2 Laws
  Props01_Construction.
Import ListNotations.
Local Open Scope list_scope.

(** ** C93: all M >= 2 evenly sampled values equal but one: the correlation at m >= 1 points depends on M, m and on how many of the pairs
    contain the one, not on the values *)
Theorem C93_spike (p : platform) (d : @dstruct XR) (mi ma re al : option xr) (wgt : string)
  (lags : list xr) (corr : @py_corr XR) (c : @correlator XR) (rows : list (list xr)) (j i : nat) (t0 dd a b h : R) (M m u : nat) :
  accepted d -> autocorrelation (A := XR) p d mi ma re al "natural" wgt = Ok (lags, corr, c) -> data_2d d = Ok rows ->
  let rs := map (fun q => if q =? u then b + h else b)%R (seq 0 M) in
  nth_error rows j = Some (map Fin rs) -> timeseries d = map Fin (grid t0 dd M) -> (0 < dd)%R ->
  opt_or (A := XR) al (median_time d) = Fin a -> (0 < a)%R -> Forall single rs -> h <> 0%R -> 2 <= M -> u < M -> 0 < m <= M ->
  nth_error lags i = Some (Fin (INR m * dd)) ->
  let containing := ((if u <? M - m then 1 else 0) + (if m <=? u then 1 else 0))%R in
  corr_at corr j i = Some (Fin ((INR (M - m) / INR M - containing) / (INR M - 1))).
Proof.
  intros Ha E Hd rs Hj Ht Hdd Hal Hpos Hs Hne HM Hu Hm Hi n. pose proof (sq_dev_single rs Hs) as ES. change rs with (spike b h u M) in *.
  assert (HM1 : (1 < INR M)%R) by (apply (lt_INR 1 M); lia).
  assert (HN : (0 < sq_dev (spike b h u M))%R).
  { rewrite spike_sq by exact Hu. apply Rmult_lt_0_compat; [|lra]. apply Rdiv_lt_0_compat; [|lra]. destruct (Rdichotomy h 0 Hne); nra. }
  destruct (lag_value p d mi ma re al wgt lags corr c rows j (spike b h u M) t0 dd a M Ha E Hd Hj Ht Hdd Hal Hpos i m Hi) as [_ [_ V]]; [lra|].
  rewrite V, ES, spike_sq by exact Hu. rewrite spike_lagged by (exact Hu || exact Hm). fold n. do 2 f_equal. field. repeat split; lra.
Qed.
Print Assumptions C93_spike.

(** 5, 5, 9, 5 at the times 0, 1, 2, 3: two of the three pairs at distance one contain the 9, one of the two at distance two *)
Example C93_case : exists (d : @dstruct XR) corr c, let rs := map (fun q => if q =? 2 then 5 + 4 else 5)%R (seq 0 4) in let lags := map (fun i => Fin ((INR i - INR 3) * 1)) (seq 0 7) in
  accepted d /\ autocorrelation (A := XR) gcc d None None None None "natural" "fractional" = Ok (lags, corr, c) /\ data_2d d = Ok [map Fin rs] /\
  timeseries d = map Fin (grid 0 1 4) /\ opt_or (A := XR) None (median_time d) = Fin (3 / 2) /\ Forall single rs /\
  (forall m, m < 4 -> nth_error lags (3 + m) = Some (Fin (INR m * 1))) /\
  corr_at corr 0 4 = Some (Fin (- (5 / 12))) /\ corr_at corr 0 5 = Some (Fin (- (1 / 6))).
Proof.
  destruct (grid_example (map (fun q => if q =? 2 then 5 + 4 else 5)%R (seq 0 4)) gcc "fractional") as [d [corr [c [Ha [Ht [Hd [E [Hm HL]]]]]]]]; [cbn; lia|cbn; lia|reflexivity|left; reflexivity|].
  change (length (map (fun q => if q =? 2 then 5 + 4 else 5)%R (seq 0 4))) with 4 in *. change (4 - 1) with 3 in *.
  assert (Hs : Forall single (map (fun q => if q =? 2 then 5 + 4 else 5)%R (seq 0 4))).
  { assert (H9 : single (5 + 4)) by (replace (5 + 4)%R with 9%R by lra; apply (single_int 9); lia). cbn. repeat constructor; try exact H9; apply (single_int 5); lia. }
  assert (Hm' : opt_or (A := XR) None (median_time d) = Fin (3 / 2)) by (rewrite Hm; f_equal; cbn [INR]; lra).
  exists d, corr, c. cbv zeta. do 6 (split; [assumption|]). split; [exact HL|]. split.
  - rewrite (C93_spike gcc d None None None None "fractional" _ corr c _ 0 4 0 1 (3 / 2) 5 4 4 1 2 Ha E Hd eq_refl Ht Rlt_0_1 Hm'); try lra; try lia; auto.
    + do 2 f_equal. cbn [INR Nat.sub Nat.ltb Nat.leb]. lra.
    + exact (HL 1 ltac:(lia)).
  - rewrite (C93_spike gcc d None None None None "fractional" _ corr c _ 0 5 0 1 (3 / 2) 5 4 4 2 2 Ha E Hd eq_refl Ht Rlt_0_1 Hm'); try lra; try lia; auto.
    + do 2 f_equal. cbn [INR Nat.sub Nat.ltb Nat.leb]. lra.
    + exact (HL 2 ltac:(lia)).
Qed.

(** ** C94: the correlations of the sum and of the difference of two signals, each times its normalisation, add up to twice those of the two *)
Theorem C94_sum_and_difference (p : platform) (d : @dstruct XR) (mi ma re al : option xr) (sel wgt : string)
  (lags : list xr) (corr : @py_corr XR) (c : @correlator XR) (rows : list (list xr)) (jx jy jp jm i : nat) (xs ys ps ms ts : list R) (kk a : R) :
  accepted d -> autocorrelation (A := XR) p d mi ma re al sel wgt = Ok (lags, corr, c) -> data_2d d = Ok rows ->
  nth_error lags i = Some (Fin kk) -> timeseries d = map Fin ts -> opt_or (A := XR) al (median_time d) = Fin a -> (0 < a)%R ->
  nth_error rows jx = Some (map Fin xs) -> nth_error rows jy = Some (map Fin ys) ->
  nth_error rows jp = Some (map Fin ps) -> nth_error rows jm = Some (map Fin ms) ->
  (forall q : nat, (q < length ts)%nat -> nth q ps 0 = nth q xs 0 + nth q ys 0)%R -> (forall q : nat, (q < length ts)%nat -> nth q ms 0 = nth q xs 0 - nth q ys 0)%R ->
  (0 < sq_dev32 xs)%R -> (0 < sq_dev32 ys)%R -> (0 < sq_dev32 ps)%R -> (0 < sq_dev32 ms)%R ->
  exists rx ry rp rm, corr_at corr jx i = Some (Fin rx) /\ corr_at corr jy i = Some (Fin ry) /\
    corr_at corr jp i = Some (Fin rp) /\ corr_at corr jm i = Some (Fin rm) /\
    (sq_dev32 ps * rp + sq_dev32 ms * rm = 2 * (sq_dev32 xs * rx + sq_dev32 ys * ry))%R.
Proof.
  intros Ha E Hd Hi Ht Hal Hpos.
  exact (signal_parallelogram p d mi ma re al sel wgt lags corr c rows i ts kk a Ha E Hd Hi Ht Hal Hpos jx jy jp jm xs ys ps ms).
Qed.
Print Assumptions C94_sum_and_difference.

(** ** C95: two datasets of one call with values up to B in size that differ by at most e *)
Theorem C95_values_close (p : platform) (d : @dstruct XR) (mi ma re al : option xr) (sel wgt : string)
  (lags : list xr) (corr : @py_corr XR) (c : @correlator XR) (rows : list (list xr)) (jx jy i : nat) (xs ys ts : list R) (kk a B e : R) :
  accepted d -> autocorrelation (A := XR) p d mi ma re al sel wgt = Ok (lags, corr, c) -> data_2d d = Ok rows ->
  nth_error lags i = Some (Fin kk) -> timeseries d = map Fin ts -> opt_or (A := XR) al (median_time d) = Fin a -> (0 < a)%R ->
  nth_error rows jx = Some (map Fin xs) -> nth_error rows jy = Some (map Fin ys) -> Forall single xs -> Forall single ys ->
  (forall v, In v xs -> Rabs v <= B)%R -> (forall v, In v ys -> Rabs v <= B)%R ->
  (forall q : nat, (q < length ts)%nat -> Rabs (nth q xs 0 - nth q ys 0) <= e)%R -> (0 < sq_dev xs)%R -> (0 < sq_dev ys)%R ->
  exists rx ry, corr_at corr jx i = Some (Fin rx) /\ corr_at corr jy i = Some (Fin ry) /\
    (Rabs (rx - ry) <= 8 * e * B * INR (length ts) * (1 + Rabs ry) / sq_dev xs)%R.
Proof.
  intros Ha E Hd Hi Ht Hal Hpos.
  exact (signal_close p d mi ma re al sel wgt lags corr c rows i ts kk a Ha E Hd Hi Ht Hal Hpos jx jy xs ys B e).
Qed.
Print Assumptions C95_values_close.

(** 1, 2, 4 and 3, 1, 2 with their sum 4, 3, 6 and difference -2, 1, 2; they differ by at most 2 *)
Example C94_C95_case : exists (d : @dstruct XR) corr c, let xs := [1; 2; 4]%R in let ys := [3; 1; 2]%R in let ps := [4; 3; 6]%R in let ms := [-2; 1; 2]%R in
  let lags := map (fun i => Fin ((INR i - INR 2) * 1)) (seq 0 5) in let ts := grid 0 1 3 in
  accepted d /\ autocorrelation (A := XR) gcc d None None None None "natural" "fractional" = Ok (lags, corr, c) /\
  data_2d d = Ok [map Fin xs; map Fin ys; map Fin ps; map Fin ms] /\ nth_error lags 3 = Some (Fin (INR 1 * 1)) /\
  timeseries d = map Fin ts /\ opt_or (A := XR) None (median_time d) = Fin 1 /\
  (forall q : nat, (q < length ts)%nat -> nth q ps 0 = nth q xs 0 + nth q ys 0)%R /\ (forall q : nat, (q < length ts)%nat -> nth q ms 0 = nth q xs 0 - nth q ys 0)%R /\
  (forall rs, In rs [xs; ys; ps; ms] -> Forall single rs /\ (0 < sq_dev rs)%R /\ (0 < sq_dev32 rs)%R) /\
  (forall v, In v xs -> Rabs v <= 4)%R /\ (forall v, In v ys -> Rabs v <= 4)%R /\ (forall q : nat, (q < length ts)%nat -> Rabs (nth q xs 0 - nth q ys 0) <= 2)%R.
Proof.
  destruct (grid_example_rows [[1; 2; 4]; [3; 1; 2]; [4; 3; 6]; [-2; 1; 2]]%R 3 gcc "fractional") as [d [corr [c [Ha [Ht [Hd [E [Hm HL]]]]]]]];
    [lia|lia|discriminate|intros rs [<-|[<-|[<-|[<-|[]]]]]; reflexivity|reflexivity|left; reflexivity|].
  change (3 - 1) with 2 in *. exists d, corr, c. cbv zeta. split; [exact Ha|]. split; [exact E|]. split; [exact Hd|]. split; [exact (HL 1 ltac:(lia))|].
  split; [exact Ht|]. split; [rewrite Hm; f_equal; cbn [INR]; lra|]. rewrite grid_length.
  split; [intros [|[|[|q]]] Hq; [cbn; lra|cbn; lra|cbn; lra|lia]|]. split; [intros [|[|[|q]]] Hq; [cbn; lra|cbn; lra|cbn; lra|lia]|]. split.
  - assert (S : forall rs, Forall single rs -> (0 < sq_dev rs)%R -> Forall single rs /\ (0 < sq_dev rs)%R /\ (0 < sq_dev32 rs)%R).
    { intros rs H1 H2. split; [exact H1|]. split; [exact H2|]. rewrite sq_dev_single by exact H1. exact H2. }
    assert (I : forall z, (Z.abs z <= 100)%Z -> single (IZR z)) by (intros z Hz; apply single_int; lia).
    intros rs [<-|[<-|[<-|[<-|[]]]]]; apply S; try (repeat constructor; apply I; lia); unfold sq_dev, rmean, rsum; cbn; lra.
  - split; [intros v [<-|[<-|[<-|[]]]]; apply Rabs_le; lra|]. split; [intros v [<-|[<-|[<-|[]]]]; apply Rabs_le; lra|].
    intros [|[|[|q]]] Hq; [| | |lia]; apply Rabs_le; cbn; lra.
Qed.
