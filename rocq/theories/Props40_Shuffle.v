(** Theorems: the values in every order at the same times (C109). *)
From Coq Require Import String.
From Coq Require Import ZArith Reals List Bool Arith Lia Lra Permutation.
From Verif Require Import Num Mem XR B64 Spec SpecR DataStructure Correlator Sacf Api SpecShuffle ShuffleFacts ShuffleMain SignalFacts ExactFacts MainFacts SelFacts ValThms GridVals PairBounds Examples Props20_Series.
Import ListNotations.
Local Open Scope list_scope.

(** [orderings rs] holds the list in every order and nothing else. *)
Theorem C109_orderings (rs xs : list R) : In xs (orderings rs) <-> Permutation rs xs.
Proof. split; [exact (orderings_perm rs xs)|exact (perm_orderings rs xs)]. Qed.
Print Assumptions C109_orderings.

(** The correlation of each ordering is [g] of it; the mean of [g] is given by the pairs alone. *)
Theorem C109_mean (p : platform) (d : @dstruct XR) mi ma re al sel wgt lags corr c rows j i (rs ts os : list R) (kk a : R) f n s :
  accepted d -> autocorrelation (A := XR) p d mi ma re al sel wgt = Ok (lags, corr, c) ->
  data_2d d = Ok rows -> nth_error rows j = Some (map Fin rs) -> nth_error lags i = Some (Fin kk) ->
  timeseries d = map Fin ts -> opt_or (A := XR) al (median_time d) = Fin a -> (0 < a)%R ->
  selection_function p sel d = Some f -> pairs_by (A := XR) p d f (Fin kk) n = Ok (s, map Fin os) ->
  (0 < sq_dev32 rs)%R ->
  let M := length rs in
  exists g : list R -> R,
  (forall xs (d' : @dstruct XR) rows' j', In xs (orderings rs) -> accepted d' -> timeseries d' = timeseries d ->
     data_2d d' = Ok rows' -> nth_error rows' j' = Some (map Fin xs) ->
     exists corr' c', autocorrelation (A := XR) p d' mi ma re al sel wgt = Ok (lags, corr', c') /\ corr_at corr' j' i = Some (Fin (g xs))) /\
  rmean (map g (orderings rs)) =
    (rsum_n (length s) (fun q => rweight wgt a (nth q os 0) * (if (q =? nth q s 0)%nat then / INR M else - / (INR M * (INR M - 1)))) *
     (sq_dev rs / sq_dev32 rs))%R /\
  (2 <= M -> (forall q, q < length s -> nth q s 0 <> q) ->
   (- / (INR M - 1) * (sq_dev rs / sq_dev32 rs) <= rmean (map g (orderings rs)) <= 0)%R).
Proof.
  intros Ha E Hd Hj Hi Ht Hal Hpos Hf HP HD M. exists (shuffled_value wgt rs os a s).
  pose proof (shuffled_mean p d mi ma re al sel wgt lags corr c rows j i rs ts os kk a f n s Ha E Hd Hj Hi Ht Hal Hpos Hf HP) as HM.
  split; [|split; [exact HM|]].
  - intros xs d' rows' j'. exact (shuffled_call p d mi ma re al sel wgt lags corr c i rs ts os kk a f n s Ha E Hi Ht Hal Hpos Hf HP HD xs d' rows' j').
  - exact (shuffled_bounds p d mi ma re al sel wgt lags corr c rows j i rs ts os kk a f n s Ha E Hd Hj Hi Ht Hal Hpos Hf HP HD).
Qed.
Print Assumptions C109_mean.

(** Evenly spaced times, natural selection, lag of [m] steps. *)
Theorem C109_grid (p : platform) (d : @dstruct XR) mi ma re al wgt lags corr c rows j i (rs : list R) (t0 dd a : R) (M m : nat) :
  accepted d -> autocorrelation (A := XR) p d mi ma re al "natural" wgt = Ok (lags, corr, c) ->
  data_2d d = Ok rows -> nth_error rows j = Some (map Fin rs) -> nth_error lags i = Some (Fin (INR m * dd)) ->
  timeseries d = map Fin (grid t0 dd M) -> (0 < dd)%R -> opt_or (A := XR) al (median_time d) = Fin a -> (0 < a)%R -> (0 < sq_dev32 rs)%R ->
  0 < m -> m < M ->
  exists g : list R -> R,
  (forall xs (d' : @dstruct XR) rows' j', In xs (orderings rs) -> accepted d' -> timeseries d' = timeseries d ->
     data_2d d' = Ok rows' -> nth_error rows' j' = Some (map Fin xs) ->
     exists corr' c', autocorrelation (A := XR) p d' mi ma re al "natural" wgt = Ok (lags, corr', c') /\ corr_at corr' j' i = Some (Fin (g xs))) /\
  rmean (map g (orderings rs)) = (- (INR (M - m) / (INR M * (INR M - 1))) * (sq_dev rs / sq_dev32 rs))%R.
Proof. exact (shuffled_grid p d mi ma re al wgt lags corr c rows j i rs t0 dd a M m). Qed.
Print Assumptions C109_grid.

(** 1, 2, 4 at times 0, 1, 2, lag 1: the six orderings have mean correlation -1/3 *)
Example C109_case : exists (d d' : @dstruct XR) corr c f s os, let lags := map (fun i => Fin ((INR i - INR 2) * 1)) (seq 0 5) in
  let rs := [1; 2; 4]%R in
  accepted d /\ autocorrelation (A := XR) gcc d None None None None "natural" "fractional" = Ok (lags, corr, c) /\ data_2d d = Ok [map Fin rs] /\
  nth_error lags 3 = Some (Fin (INR 1 * 1)) /\
  timeseries d = map Fin (grid 0 1 3) /\ opt_or (A := XR) None (median_time d) = Fin 1 /\
  selection_function gcc "natural" d = Some f /\ pairs_by (A := XR) gcc d f (Fin (INR 1 * 1)) 1 = Ok (s, map Fin os) /\
  (forall q, q < length s -> nth q s 0 <> q) /\
  sq_dev32 rs = (14 / 3)%R /\ sq_dev rs = (14 / 3)%R /\
  length (orderings rs) = 6 /\ In [4; 1; 2]%R (orderings rs) /\
  accepted d' /\ timeseries d' = timeseries d /\ data_2d d' = Ok [map Fin [4; 1; 2]%R] /\
  (- (INR (3 - 1) / (INR 3 * (INR 3 - 1))) * (sq_dev rs / sq_dev32 rs) = - (1 / 3))%R.
Proof.
  destruct (three_call 1 2 4 gcc "fractional") as [d [corr [c [H1 [H2 [H3 [H4 H5]]]]]]]; [reflexivity|left; reflexivity|].
  destruct (three_call 4 1 2 gcc "fractional") as [d' [_ [_ [G1 [G2 [G3 _]]]]]]; [reflexivity|left; reflexivity|].
  assert (HL : nth_error (map (fun i => Fin ((INR i - INR 2) * 1)) (seq 0 5)) 3 = Some (Fin (INR 1 * 1))) by (cbn [nth_error map seq]; do 2 f_equal; cbn [INR]; ring).
  destruct (call_pairs gcc d None None None None "natural" "fractional" _ corr c _ 0 3 [1; 2; 4]%R (grid 0 1 3) _ H1 H4 H3 eq_refl HL H2) as [f [s [os [Hf [HP _]]]]].
  assert (S32 : sq_dev32 [1; 2; 4]%R = sq_dev [1; 2; 4]%R) 
    by (apply sq_dev_single; apply Forall_cons; [apply (single_int 1); lia|]; apply Forall_cons; [apply (single_int 2); lia|]; apply Forall_cons; [apply (single_int 4); lia|constructor]).
  assert (EN : sq_dev [1; 2; 4]%R = (14 / 3)%R) by (unfold sq_dev, rmean, rsum; cbn; lra).
  exists d, d', corr, c, f, s, os. cbv zeta. split; [exact H1|]. split; [exact H4|]. split; [exact H3|]. split; [exact HL|]. split; [exact H2|]. split; [exact H5|].
  split; [exact Hf|]. split; [exact HP|]. split.
  { destruct (pairs_exact gcc d "natural" f _ _ s _ (grid 0 1 3) H1 H2 Hf HP) as [(sf & Sv & Hs & HS) _]. injection Hs as <-.
    destruct (accepted_times d H1) as [tx [data [er [N [Ed [_ [Ent _]]]]]]]. assert (Etx : tx = map Fin (grid 0 1 3)) by (rewrite <- H2, Ed; reflexivity).
    rewrite Ent, Etx, rel_times_Fin, grid_rel in HS. apply grid_sel_pos in HS; [|lra|lia]. rewrite HS.
    intros q Hq. rewrite seq_length in Hq. rewrite seq_nth by exact Hq. lia. }
  split; [rewrite S32; exact EN|]. split; [exact EN|]. split; [unfold orderings; rewrite map_length; change (length (orders 3) = 6); vm_compute; reflexivity|].
  split; [apply C109_orderings; apply Permutation_sym; exact (Permutation_cons_append [1; 2]%R 4%R)|].
  split; [exact G1|]. split; [rewrite G2, H2; reflexivity|]. split; [exact G3|]. rewrite S32, EN. cbn [INR Nat.sub]. lra.
Qed.
