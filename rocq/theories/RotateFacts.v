(** The mean over all rotations of the values. *)
From Coq Require Import String.
From Coq Require Import ZArith Reals List Bool Arith Lia Lra Permutation.
From Verif Require Import Num Mem MemFacts XR B64 Spec SpecR DataStructure DSFacts Correlator Sacf Api CorrFacts LoopFacts MainFacts
  Laws Laws2 ConstrFacts SelFacts SelThms FastFacts TimeFacts WeightFacts ValFacts ExactFacts GridVals FixedThms GridSums ItThms PairBounds GridSums GridVals MainFacts SpecShuffle ShuffleFacts ShuffleMain SpecRotate.
Import ListNotations.
Local Open Scope list_scope.
Local Open Scope R_scope.

Lemma rotated_perm rs r : Permutation rs (rotated rs r).
Proof. unfold rotated. rewrite <- (firstn_skipn r rs) at 1. apply Permutation_app_comm. Qed.

Lemma nth_rot {X} (l : list X) r i x : (r <= length l)%nat -> (i < length l)%nat ->
  nth i (skipn r l ++ firstn r l) x = nth ((i + r) mod length l) l x.
Proof.
  intros Hr Hi. destruct (Nat.lt_ge_cases i (length l - r)) as [H|H].
  - rewrite app_nth1 by (rewrite skipn_length; exact H). rewrite Nat.mod_small by lia.
    transitivity (nth (i + r) (firstn r l ++ skipn r l) x); [|rewrite firstn_skipn; reflexivity]. rewrite (app_nth2 (firstn r l)) by (rewrite firstn_length; lia). f_equal. rewrite firstn_length. lia.
  - rewrite app_nth2 by (rewrite skipn_length; exact H). rewrite skipn_length.
    replace ((i + r) mod length l)%nat with (i + r - length l)%nat.
    + transitivity (nth (i + r - length l) (firstn r l ++ skipn r l) x); [|rewrite firstn_skipn; reflexivity]. rewrite (app_nth1 (firstn r l)) by (rewrite firstn_length; lia). f_equal. lia.
    + replace (i + r)%nat with ((i + r - length l) + 1 * length l)%nat at 2 by lia. rewrite Nat.mod_add by lia. symmetry. apply Nat.mod_small. lia.
Qed.

Lemma dev_rotated rs r q : (r <= length rs)%nat -> (q < length rs)%nat -> dev (rotated rs r) q = dev rs ((q + r) mod length rs).
Proof. intros Hr Hq. unfold dev. rewrite (rmean_perm rs) by apply rotated_perm. unfold rotated. rewrite nth_rot by assumption. reflexivity. Qed.

Lemma sum_rot M (f : nat -> R) q : (q <= M)%nat -> rsum_n M (fun r => f ((q + r) mod M)) = rsum_n M f.
Proof.
  intros Hq. unfold rsum_n. apply rsum_perm.
  replace (map (fun r => f ((q + r) mod M)) (seq 0 M)) with (map f (skipn q (seq 0 M) ++ firstn q (seq 0 M))).
  - apply Permutation_map. rewrite <- (firstn_skipn q (seq 0 M)) at 3. apply Permutation_app_comm.
  - apply nth_ext with (d := f 0%nat) (d' := f ((q + 0) mod M)).
    + rewrite !map_length, app_length, skipn_length, firstn_length, seq_length. lia.
    + intros i Hi. rewrite map_length, app_length, skipn_length, firstn_length, seq_length in Hi.
      rewrite map_nth. rewrite (map_nth (fun r => f ((q + r) mod M))). rewrite nth_rot by (rewrite seq_length; lia). rewrite seq_length.
      rewrite !seq_nth by (try apply Nat.mod_upper_bound; lia). cbn [Nat.add]. f_equal. f_equal. lia.
Qed.

Lemma pair_rot rs q s : (q < length rs)%nat -> (s < length rs)%nat ->
  rsum_n (length rs) (fun r => dev (rotated rs r) q * dev (rotated rs r) s) = circular rs (s + length rs - q).
Proof.
  intros Hq Hs. set (M := length rs) in *.
  transitivity (rsum_n M (fun r => (fun x => dev rs x * dev rs ((x + (s + M - q)) mod M)) ((q + r) mod M))).
  - apply rsum_n_ext. intros r Hr. rewrite !dev_rotated by (fold M; lia). fold M. f_equal. f_equal.
    rewrite Nat.add_mod_idemp_l by lia. replace (q + r + (s + M - q))%nat with (s + r + 1 * M)%nat by lia. rewrite Nat.mod_add by lia. reflexivity.
  - rewrite (sum_rot M (fun x => dev rs x * dev rs ((x + (s + M - q)) mod M)) q) by lia. reflexivity.
Qed.

Lemma circular_more rs h : circular rs (h + length rs) = circular rs h.
Proof.
  unfold circular. apply rsum_n_ext. intros r Hr. replace (r + (h + length rs))%nat with (r + h + 1 * length rs)%nat by lia.
  rewrite Nat.mod_add by lia. reflexivity.
Qed.

(** the sum over the rotations of a weighted sum over pairs *)
Lemma mean_over_rotations rs m (w : nat -> R) (s : nat -> nat) D : (0 < length rs)%nat ->
  (forall q, (q < m)%nat -> (q < length rs)%nat /\ (s q < length rs)%nat) ->
  rmean (map (fun r => rsum_n m (fun q => w q * (dev (rotated rs r) q * dev (rotated rs r) (s q))) / D) (seq 0 (length rs))) =
  rsum_n m (fun q => w q * circular rs (s q + length rs - q)) / (INR (length rs) * D).
Proof.
  intros HM H. unfold rmean. rewrite map_length, seq_length.
  change (rsum (map ?g (seq 0 (length rs)))) with (rsum_n (length rs) g).
  rewrite (rsum_n_ext _ _ (fun r => / D * rsum_n m (fun q => w q * (dev (rotated rs r) q * dev (rotated rs r) (s q))))) by (intros; unfold Rdiv; ring).
  rewrite rsum_n_scal, rsum_n_swap.
  rewrite (rsum_n_ext m _ (fun q => w q * circular rs (s q + length rs - q))).
  - unfold Rdiv. rewrite Rinv_mult. ring.
  - intros q Hq. destruct (H q Hq) as [H1 H2]. rewrite rsum_n_scal, pair_rot by assumption. reflexivity.
Qed.

Section Rotated.
Variables (p : platform) (d : @dstruct XR) (mi ma re al : option (@num XR)) (sel wgt : string) (lags : list xr)
  (corr : @py_corr XR) (c : @correlator XR) (rows : list (list xr)) (j i : nat) (rs ts os : list R) (kk a : R)
  (f : @cor_it XR -> meth (@cor_it XR) unit) (n : nat) (s : list nat).
Hypotheses (Ha : accepted d) (E : autocorrelation (A := XR) p d mi ma re al sel wgt = Ok (lags, corr, c))
  (Hd : data_2d d = Ok rows) (Hj : nth_error rows j = Some (map Fin rs)) (Hi : nth_error lags i = Some (Fin kk))
  (Ht : timeseries d = map Fin ts) (Hal : opt_or (A := XR) al (median_time d) = Fin a) (Hpos : 0 < a)
  (Hf : selection_function p sel d = Some f) (HP : pairs_by (A := XR) p d f (Fin kk) n = Ok (s, map Fin os))
  (HD : 0 < sq_dev32 rs).

Lemma rotated_mean : rmean (map (fun r => shuffled_value wgt rs os a s (rotated rs r)) (seq 0 (length rs))) =
  rsum_n (length s) (fun q => rweight wgt a (nth q os 0) * circular rs (nth q s 0%nat + length rs - q)) / (INR (length rs) * sq_dev32 rs).
Proof.
  destruct (value_exact_pairs p d mi ma re al sel wgt lags corr c rows j i rs ts os kk a _ _ s Ha E Hd Hj Hi Ht Hal Hpos Hf HP)
    as [_ [L [L1 [L2 _]]]].
  apply (mean_over_rotations rs (length s) (fun q => rweight wgt a (nth q os 0)) (fun q => nth q s 0%nat)).
  - destruct rs; [|cbn; lia]. exfalso. unfold sq_dev32 in HD. cbn in HD. lra.
  - intros q Hq. rewrite L. split; [lia|]. apply L2, nth_In, Hq.
Qed.
End Rotated.

Lemma rotated_grid p d mi ma re al wgt lags corr c rows j i (rs : list R) (t0 dd a : R) (M m : nat) :
  accepted d -> autocorrelation (A := XR) p d mi ma re al "natural" wgt = Ok (lags, corr, c) ->
  data_2d d = Ok rows -> nth_error rows j = Some (map Fin rs) -> nth_error lags i = Some (Fin (INR m * dd)) ->
  timeseries d = map Fin (grid t0 dd M) -> 0 < dd -> opt_or (A := XR) al (median_time d) = Fin a -> 0 < a -> 0 < sq_dev32 rs ->
  (m < M)%nat ->
  exists g : nat -> R,
  (forall r (d' : @dstruct XR) rows' j', (r < M)%nat -> accepted d' -> timeseries d' = timeseries d ->
     data_2d d' = Ok rows' -> nth_error rows' j' = Some (map Fin (rotated rs r)) ->
     exists corr' c', autocorrelation (A := XR) p d' mi ma re al "natural" wgt = Ok (lags, corr', c') /\ corr_at corr' j' i = Some (Fin (g r))) /\
  rmean (map g (seq 0 M)) = INR (M - m) / INR M * (circular rs m / sq_dev32 rs).
Proof.
  intros Ha E Hd Hj Hi Ht Hdd Hal Hpos HD Hm.
  exists (fun r => rsum_n (M - m) (fun q => 1 * (dev (rotated rs r) q * dev (rotated rs r) (q + m))) / sq_dev32 rs). split.
  - intros r d' rows' j' Hx Ha' Ht' Hd' Hj'.
    destruct (same_times_call p d d' mi ma re al "natural" wgt lags corr c Ha Ha' Ht' E) as [[corr' [c' E']] [Hmt _]].
    exists corr', c'. split; [exact E'|]. rewrite Ht in Ht'. assert (Hal' : opt_or (A := XR) al (median_time d') = Fin a) by (rewrite Hmt; exact Hal).
    destruct (grid_value_pos p d' mi ma re al wgt lags corr' c' rows' j' i (rotated rs r) t0 dd a M m Ha' E' Hd' Hj' Hi Ht' Hdd Hal' Hpos) as [_ [_ HV]].
    rewrite HV, (sq_dev32_perm rs (rotated rs r)) by apply rotated_perm. cbn. unfold Reqb. destruct (Req_EM_T (sq_dev32 rs) 0); [lra|].
    do 3 f_equal. apply rsum_n_ext. intros q _. lra.
  - destruct (grid_value_pos p d mi ma re al wgt lags corr c rows j i rs t0 dd a M m Ha E Hd Hj Hi Ht Hdd Hal Hpos) as [L _].
    rewrite <- L. rewrite (mean_over_rotations rs (length rs - m) (fun _ => 1) (fun q => (q + m)%nat)) by (intros; lia).
    rewrite (rsum_n_ext _ _ (fun _ => circular rs m)).
    + rewrite rsum_n_same. unfold Rdiv. rewrite Rinv_mult. ring.
    + intros q Hq. rewrite <- (circular_more rs m). replace (q + m + length rs - q)%nat with (m + length rs)%nat by lia. ring.
Qed.

Lemma circular_bound rs h : Rabs (circular rs h) <= sq_dev rs.
Proof.
  destruct rs as [|x l]; [unfold circular, sq_dev; cbn; rewrite Rabs_R0; lra|]. set (rs := x :: l). set (M := length rs).
  assert (HM : (0 < M)%nat) by (unfold M, rs; cbn; lia).
  assert (H2 : rsum_n M (fun r => dev rs ((r + h) mod M) * dev rs ((r + h) mod M)) = sq_dev rs).
  { rewrite (rsum_n_ext M _ (fun r => (fun z => dev rs z * dev rs z) ((h mod M + r) mod M))).
    - rewrite (sum_rot M (fun z => dev rs z * dev rs z) (h mod M)); [rewrite sq_dev_n; reflexivity|]. apply Nat.lt_le_incl, Nat.mod_upper_bound. lia.
    - intros r Hr. cbv beta. rewrite Nat.add_mod_idemp_l by lia. rewrite (Nat.add_comm h r). reflexivity. }
  assert (H1 : rsum_n M (fun r => dev rs r * dev rs r) = sq_dev rs) by (rewrite sq_dev_n; reflexivity).
  assert (H3 : circular rs h = rsum_n M (fun r => dev rs r * dev rs ((r + h) mod M))) by reflexivity.
  rewrite H3. apply Rabs_le. split.
  - assert (G : 0 <= rsum_n M (fun r => Rsqr (dev rs r + dev rs ((r + h) mod M)))) by (apply rsum_n_nonneg; intros; apply Rle_0_sqr).
    rewrite (rsum_n_ext M _ (fun r => (dev rs r * dev rs r + dev rs ((r + h) mod M) * dev rs ((r + h) mod M)) + 2 * (dev rs r * dev rs ((r + h) mod M)))) in G
      by (intros; unfold Rsqr; ring).
    rewrite rsum_n_plus, rsum_n_plus, rsum_n_scal, H1, H2 in G. lra.
  - assert (G : 0 <= rsum_n M (fun r => Rsqr (dev rs r - dev rs ((r + h) mod M)))) by (apply rsum_n_nonneg; intros; apply Rle_0_sqr).
    rewrite (rsum_n_ext M _ (fun r => (dev rs r * dev rs r + dev rs ((r + h) mod M) * dev rs ((r + h) mod M)) + (-2) * (dev rs r * dev rs ((r + h) mod M)))) in G
      by (intros; unfold Rsqr; ring).
    rewrite rsum_n_plus, rsum_n_plus, rsum_n_scal, H1, H2 in G. lra.
Qed.

Lemma circular_period rs m : (m < length rs)%nat -> rotated rs m = rs -> circular rs m = sq_dev rs.
Proof.
  intros Hm H. rewrite sq_dev_n. unfold circular. apply rsum_n_ext. intros r Hr. fold (dev rs r). fold (dev rs ((r + m) mod length rs)).
  rewrite <- dev_rotated by lia. rewrite H. reflexivity.
Qed.
