(** Theorems: the values moved round the times (C114). *)
From Coq Require Import String.
From Coq Require Import ZArith Reals List Bool Arith Lia Lra Permutation.
From Verif Require Import Num Mem XR B64 Spec SpecR DataStructure Correlator Sacf Api SpecRotate ShuffleFacts ShuffleMain RotateFacts SignalFacts ExactFacts MainFacts SelFacts ValThms GridVals PairBounds Examples Props20_Series.
Import ListNotations.
Local Open Scope list_scope.

(** The correlation of the values rotated by [r] is [g r]; the mean of [g] is a weighted sum of circular autocovariances. *)
Theorem C114_mean (p : platform) (d : @dstruct XR) mi ma re al sel wgt lags corr c rows j i (rs ts os : list R) (kk a : R) f n s :
  accepted d -> autocorrelation (A := XR) p d mi ma re al sel wgt = Ok (lags, corr, c) ->
  data_2d d = Ok rows -> nth_error rows j = Some (map Fin rs) -> nth_error lags i = Some (Fin kk) ->
  timeseries d = map Fin ts -> opt_or (A := XR) al (median_time d) = Fin a -> (0 < a)%R ->
  selection_function p sel d = Some f -> pairs_by (A := XR) p d f (Fin kk) n = Ok (s, map Fin os) ->
  (0 < sq_dev32 rs)%R ->
  let M := length rs in
  exists g : nat -> R,
  (forall r (d' : @dstruct XR) rows' j', r < M -> accepted d' -> timeseries d' = timeseries d ->
     data_2d d' = Ok rows' -> nth_error rows' j' = Some (map Fin (rotated rs r)) ->
     exists corr' c', autocorrelation (A := XR) p d' mi ma re al sel wgt = Ok (lags, corr', c') /\ corr_at corr' j' i = Some (Fin (g r))) /\
  rmean (map g (seq 0 M)) =
    (rsum_n (length s) (fun q => rweight wgt a (nth q os 0) * circular rs (nth q s 0%nat + M - q)) / (INR M * sq_dev32 rs))%R.
Proof.
  intros Ha E Hd Hj Hi Ht Hal Hpos Hf HP HD M. exists (fun r => shuffled_value wgt rs os a s (rotated rs r)). split.
  - intros r d' rows' j' Hr. exact (shuffled_call p d mi ma re al sel wgt lags corr c i rs ts os kk a f n s Ha E Hi Ht Hal Hpos Hf HP HD _ d' rows' j'
      (perm_orderings rs _ (rotated_perm rs r))).
  - exact (rotated_mean p d mi ma re al sel wgt lags corr c rows j i rs ts os kk a f n s Ha E Hd Hj Hi Ht Hal Hpos Hf HP HD).
Qed.
Print Assumptions C114_mean.

(** Evenly spaced times, natural selection, lag of [m] steps. *)
Theorem C114_grid (p : platform) (d : @dstruct XR) mi ma re al wgt lags corr c rows j i (rs : list R) (t0 dd a : R) (M m : nat) :
  accepted d -> autocorrelation (A := XR) p d mi ma re al "natural" wgt = Ok (lags, corr, c) ->
  data_2d d = Ok rows -> nth_error rows j = Some (map Fin rs) -> nth_error lags i = Some (Fin (INR m * dd)) ->
  timeseries d = map Fin (grid t0 dd M) -> (0 < dd)%R -> opt_or (A := XR) al (median_time d) = Fin a -> (0 < a)%R -> (0 < sq_dev32 rs)%R ->
  m < M ->
  exists g : nat -> R,
  (forall r (d' : @dstruct XR) rows' j', r < M -> accepted d' -> timeseries d' = timeseries d ->
     data_2d d' = Ok rows' -> nth_error rows' j' = Some (map Fin (rotated rs r)) ->
     exists corr' c', autocorrelation (A := XR) p d' mi ma re al "natural" wgt = Ok (lags, corr', c') /\ corr_at corr' j' i = Some (Fin (g r))) /\
  rmean (map g (seq 0 M)) = (INR (M - m) / INR M * (circular rs m / sq_dev32 rs))%R.
Proof. exact (rotated_grid p d mi ma re al wgt lags corr c rows j i rs t0 dd a M m). Qed.
Print Assumptions C114_grid.

(** The circular autocovariance never exceeds the squared deviation, and equals it at a period of the values. *)
Theorem C114_circular (rs : list R) (m : nat) :
  (Rabs (circular rs m) <= sq_dev rs)%R /\ (m < length rs -> rotated rs m = rs -> circular rs m = sq_dev rs).
Proof. split; [exact (circular_bound rs m)|exact (circular_period rs m)]. Qed.
Print Assumptions C114_circular.

(** 1, 2, 4 at times 0, 1, 2 and 2, 4, 1, the same values rotated by one: at lag 1 the rotations have mean correlation -1/3 *)
Example C114_case : exists (d d' : @dstruct XR) corr c f s os, let lags := map (fun i => Fin ((INR i - INR 2) * 1)) (seq 0 5) in
  let rs := [1; 2; 4]%R in
  accepted d /\ autocorrelation (A := XR) gcc d None None None None "natural" "fractional" = Ok (lags, corr, c) /\ data_2d d = Ok [map Fin rs] /\
  nth_error lags 3 = Some (Fin (INR 1 * 1)) /\
  timeseries d = map Fin (grid 0 1 3) /\ opt_or (A := XR) None (median_time d) = Fin 1 /\
  selection_function gcc "natural" d = Some f /\ pairs_by (A := XR) gcc d f (Fin (INR 1 * 1)) 1 = Ok (s, map Fin os) /\
  sq_dev32 rs = (14 / 3)%R /\ circular rs 1 = (- (7 / 3))%R /\ rotated rs 1 = [2; 4; 1]%R /\
  accepted d' /\ timeseries d' = timeseries d /\ data_2d d' = Ok [map Fin [2; 4; 1]%R] /\
  (INR (3 - 1) / INR 3 * (circular rs 1 / sq_dev32 rs) = - (1 / 3))%R.
Proof.
  destruct (three_call 1 2 4 gcc "fractional") as [d [corr [c [H1 [H2 [H3 [H4 H5]]]]]]]; [reflexivity|left; reflexivity|].
  destruct (three_call 2 4 1 gcc "fractional") as [d' [_ [_ [G1 [G2 [G3 _]]]]]]; [reflexivity|left; reflexivity|].
  assert (HL : nth_error (map (fun i => Fin ((INR i - INR 2) * 1)) (seq 0 5)) 3 = Some (Fin (INR 1 * 1))) by (cbn [nth_error map seq]; do 2 f_equal; cbn [INR]; ring).
  destruct (call_pairs gcc d None None None None "natural" "fractional" _ corr c _ 0 3 [1; 2; 4]%R (grid 0 1 3) _ H1 H4 H3 eq_refl HL H2) as [f [s [os [Hf [HP _]]]]].
  assert (S32 : sq_dev32 [1; 2; 4]%R = sq_dev [1; 2; 4]%R) 
    by (apply sq_dev_single; apply Forall_cons; [apply (single_int 1); lia|]; apply Forall_cons; [apply (single_int 2); lia|]; apply Forall_cons; [apply (single_int 4); lia|constructor]).
  assert (EN : sq_dev [1; 2; 4]%R = (14 / 3)%R) by (unfold sq_dev, rmean, rsum; cbn; lra).
  assert (EC : circular [1; 2; 4]%R 1 = (- (7 / 3))%R) by (unfold circular, rmean, rsum_n, rsum; cbn; lra).
  exists d, d', corr, c, f, s, os. cbv zeta. split; [exact H1|]. split; [exact H4|]. split; [exact H3|]. split; [exact HL|]. split; [exact H2|]. split; [exact H5|].
  split; [exact Hf|]. split; [exact HP|].
  split; [rewrite S32; exact EN|]. split; [exact EC|]. split; [reflexivity|].
  split; [exact G1|]. split; [rewrite G2, H2; reflexivity|]. split; [exact G3|]. rewrite S32, EN, EC. cbn [INR Nat.sub]. lra.
Qed.

(** 1, 2, 1, 2 repeats after two places *)
Example C114_case_period : rotated [1; 2; 1; 2]%R 2 = [1; 2; 1; 2]%R /\ circular [1; 2; 1; 2]%R 2 = 1%R /\ circular [1; 2; 1; 2]%R 1 = (-1)%R.
Proof. split; [reflexivity|]. unfold circular, rmean, rsum_n, rsum; cbn. split; lra. Qed.
