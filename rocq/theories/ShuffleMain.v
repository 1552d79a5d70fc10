(** A call on the same times with the values in another order. *)
From Coq Require Import String.
From Coq Require Import ZArith Reals List Bool Arith Lia Lra Permutation.
From Verif Require Import Num Mem MemFacts XR B64 Spec SpecR DataStructure DSFacts Correlator Sacf Api CorrFacts LoopFacts MainFacts
  Laws Laws2 ConstrFacts SelFacts SelThms FastFacts TimeFacts WeightFacts ValFacts ExactFacts GridVals FixedThms GridSums ItThms PairBounds GridSums GridVals MainFacts SpecShuffle ShuffleFacts.
Import ListNotations.
Local Open Scope list_scope.
Local Open Scope R_scope.

Lemma same_times_call {A : Num} (p : platform) (d d' : dstruct) mi ma re al sel wgt lags corr c :
  accepted d -> accepted d' -> timeseries d' = timeseries d ->
  autocorrelation p d mi ma re al sel wgt = Ok (lags, corr, c) ->
  (exists corr' c', autocorrelation p d' mi ma re al sel wgt = Ok (lags, corr', c')) /\
  median_time d' = median_time d /\ normalised_timeseries d' = normalised_timeseries d.
Proof.
  intros Ha Ha' Ht E.
  destruct (accepted_setUp d Ha) as [ts [data [er [N [-> [H1 [H2 [H3 [H4 H5]]]]]]]]].
  destruct (accepted_setUp d' Ha') as [ts' [data' [er' [N' [-> [H1' [H2' [H3' [H4' H5']]]]]]]]].
  cbn in Ht. assert (Et : ts' = ts) by exact Ht. subst ts'. split; [|split; reflexivity].
  rewrite auto_core in * by assumption. destruct (acf_core p ts mi ma re al sel wgt) as [[g Fs]|x|x|]; try discriminate E. cbn [bind] in *.
  destruct (allot (rel_times ts)); try discriminate E. cbn [bind fst snd] in *. injection E as <- _ _. eauto.
Qed.

Section Shuffled.
Variables (p : platform) (d : @dstruct XR) (mi ma re al : option (@num XR)) (sel wgt : string) (lags : list xr)
  (corr : @py_corr XR) (c : @correlator XR) (rows : list (list xr)) (j i : nat) (rs ts os : list R) (kk a : R)
  (f : @cor_it XR -> meth (@cor_it XR) unit) (n : nat) (s : list nat).
Hypotheses (Ha : accepted d) (E : autocorrelation (A := XR) p d mi ma re al sel wgt = Ok (lags, corr, c))
  (Hd : data_2d d = Ok rows) (Hj : nth_error rows j = Some (map Fin rs)) (Hi : nth_error lags i = Some (Fin kk))
  (Ht : timeseries d = map Fin ts) (Hal : opt_or (A := XR) al (median_time d) = Fin a) (Hpos : 0 < a)
  (Hf : selection_function p sel d = Some f) (HP : pairs_by (A := XR) p d f (Fin kk) n = Ok (s, map Fin os))
  (HD : 0 < sq_dev32 rs).

Definition shuffled_value (xs : list R) : R :=
  rsum_n (length s) (fun q => rweight wgt a (nth q os 0) * (dev xs q * dev xs (nth q s 0%nat))) / sq_dev32 rs.

Lemma map_Fin_inj (l m : list R) : map Fin l = map Fin m -> l = m.
Proof. revert m. induction l as [|x l IH]; intros [|y m] H; try discriminate; [reflexivity|]. injection H as -> H. f_equal. apply IH, H. Qed.

Lemma shuffled_call xs (d' : @dstruct XR) rows' j' : In xs (orderings rs) -> accepted d' -> timeseries d' = timeseries d ->
  data_2d d' = Ok rows' -> nth_error rows' j' = Some (map Fin xs) ->
  exists corr' c', autocorrelation (A := XR) p d' mi ma re al sel wgt = Ok (lags, corr', c') /\ corr_at corr' j' i = Some (Fin (shuffled_value xs)).
Proof.
  intros Hx Ha' Ht' Hd' Hj'. destruct (same_times_call p d d' mi ma re al sel wgt lags corr c Ha Ha' Ht' E) as [[corr' [c' E']] [Hm Hnt]].
  exists corr', c'. split; [exact E'|]. rewrite Ht in Ht'.
  destruct (call_pairs p d' mi ma re al sel wgt lags corr' c' rows' j' i xs ts kk Ha' E' Hd' Hj' Hi Ht') as [f' [s' [os' [Hf' [HP' _]]]]].
  destruct (pairs_exact p d sel f kk n s (map Fin os) ts Ha Ht Hf HP) as [(sf & Sv & Hs & HS) [_ [_ Eo]]].
  destruct (pairs_exact p d' sel f' kk _ s' (map Fin os') ts Ha' Ht' Hf' HP') as [(sf' & Sv' & Hs' & HS') [_ [_ Eo']]].
  rewrite Hs in Hs'. injection Hs' as <-. rewrite Hnt, HS in HS'. injection HS' as <- <-. rewrite <- Eo in Eo'. apply map_Fin_inj in Eo'. subst os'.
  assert (Hal' : opt_or (A := XR) al (median_time d') = Fin a) by (rewrite Hm; exact Hal).
  destruct (value_exact_pairs p d' mi ma re al sel wgt lags corr' c' rows' j' i xs ts os kk a _ _ s Ha' E' Hd' Hj' Hi Ht' Hal' Hpos Hf' HP')
    as [_ [_ [_ [_ [_ [_ HV]]]]]].
  rewrite HV. rewrite (sq_dev32_perm rs xs) by (apply orderings_perm, Hx). unfold shuffled_value. cbn. unfold Reqb.
  destruct (Req_EM_T (sq_dev32 rs) 0); [lra|reflexivity].
Qed.

Lemma shuffled_mean : rmean (map shuffled_value (orderings rs)) =
  rsum_n (length s) (fun q => rweight wgt a (nth q os 0) * expect (length rs) q (nth q s 0%nat)) * (sq_dev rs / sq_dev32 rs).
Proof.
  destruct (value_exact_pairs p d mi ma re al sel wgt lags corr c rows j i rs ts os kk a _ _ s Ha E Hd Hj Hi Ht Hal Hpos Hf HP)
    as [_ [L [L1 [L2 _]]]].
  apply (mean_over_orderings rs (length s) (fun q => rweight wgt a (nth q os 0)) (fun q => nth q s 0%nat)).
  intros q Hq. rewrite L. split; [lia|]. apply L2, nth_In, Hq.
Qed.
End Shuffled.

Lemma ratio_nonneg rs : 0 < sq_dev32 rs -> 0 <= sq_dev rs / sq_dev32 rs.
Proof.
  intros H. apply Rmult_le_pos; [|left; apply Rinv_0_lt_compat, H]. rewrite sq_dev_n. apply rsum_n_nonneg. intros. apply Rle_0_sqr.
Qed.

Lemma mean_bounds M m (w : nat -> R) (s : nat -> nat) : (2 <= M)%nat -> (m <= M)%nat -> (forall q, (q < m)%nat -> s q <> q /\ 0 <= w q <= 1) ->
  - / (INR M - 1) <= rsum_n m (fun q => w q * expect M q (s q)) <= 0.
Proof.
  intros HM Hm H. assert (H1 : 1 < INR M) by (change 1 with (INR 1); apply lt_INR; lia).
  assert (HI : 0 < / (INR M * (INR M - 1))) by (apply Rinv_0_lt_compat, Rmult_lt_0_compat; lra).
  assert (HB : forall q, (q < m)%nat -> - / (INR M * (INR M - 1)) <= w q * expect M q (s q) <= 0).
  { intros q Hq. destruct (H q Hq) as [G1 G2]. unfold expect. destruct (Nat.eqb_spec q (s q)); [congruence|]. split; nra. }
  split.
  - apply Rle_trans with (rsum_n m (fun _ => - / (INR M * (INR M - 1)))).
    + rewrite rsum_n_same. apply Rle_trans with (INR M * - / (INR M * (INR M - 1))).
      * right. field. split; lra.
      * apply le_INR in Hm. nra.
    + apply rsum_n_le. intros q Hq. apply HB, Hq.
  - rewrite <- (Rmult_0_r (INR m)), <- rsum_n_same. apply rsum_n_le. intros q Hq. apply HB, Hq.
Qed.

Lemma shuffled_bounds p d mi ma re al sel wgt lags corr c rows j i (rs ts os : list R) (kk a : R) f n s :
  accepted d -> autocorrelation (A := XR) p d mi ma re al sel wgt = Ok (lags, corr, c) ->
  data_2d d = Ok rows -> nth_error rows j = Some (map Fin rs) -> nth_error lags i = Some (Fin kk) ->
  timeseries d = map Fin ts -> opt_or (A := XR) al (median_time d) = Fin a -> 0 < a ->
  selection_function p sel d = Some f -> pairs_by (A := XR) p d f (Fin kk) n = Ok (s, map Fin os) ->
  0 < sq_dev32 rs -> (2 <= length rs)%nat -> (forall q, (q < length s)%nat -> nth q s 0%nat <> q) ->
  - / (INR (length rs) - 1) * (sq_dev rs / sq_dev32 rs) <= rmean (map (shuffled_value wgt rs os a s) (orderings rs)) <= 0.
Proof.
  intros Ha E Hd Hj Hi Ht Hal Hpos Hf HP HD HM HN.
  rewrite (shuffled_mean p d mi ma re al sel wgt lags corr c rows j i rs ts os kk a f n s) by assumption.
  destruct (value_exact_pairs p d mi ma re al sel wgt lags corr c rows j i rs ts os kk a _ _ s Ha E Hd Hj Hi Ht Hal Hpos Hf HP)
    as [_ [L [L1 [L2 [_ [Po _]]]]]].
  pose proof (mean_bounds (length rs) (length s) (fun q => rweight wgt a (nth q os 0)) (fun q => nth q s 0%nat) HM ltac:(lia)) as B.
  cbv beta in B. destruct B as [B1 B2].
  - intros q Hq. split; [apply HN, Hq|]. apply rweight_range; [exact Hpos|apply Po].
  - pose proof (ratio_nonneg rs HD). split; [apply Rmult_le_compat_r; assumption|]. nra.
Qed.

Lemma shuffled_grid p d mi ma re al wgt lags corr c rows j i (rs : list R) (t0 dd a : R) (M m : nat) :
  accepted d -> autocorrelation (A := XR) p d mi ma re al "natural" wgt = Ok (lags, corr, c) ->
  data_2d d = Ok rows -> nth_error rows j = Some (map Fin rs) -> nth_error lags i = Some (Fin (INR m * dd)) ->
  timeseries d = map Fin (grid t0 dd M) -> 0 < dd -> opt_or (A := XR) al (median_time d) = Fin a -> 0 < a -> 0 < sq_dev32 rs ->
  (0 < m)%nat -> (m < M)%nat ->
  exists g : list R -> R,
  (forall xs (d' : @dstruct XR) rows' j', In xs (orderings rs) -> accepted d' -> timeseries d' = timeseries d ->
     data_2d d' = Ok rows' -> nth_error rows' j' = Some (map Fin xs) ->
     exists corr' c', autocorrelation (A := XR) p d' mi ma re al "natural" wgt = Ok (lags, corr', c') /\ corr_at corr' j' i = Some (Fin (g xs))) /\
  rmean (map g (orderings rs)) = - (INR (M - m) / (INR M * (INR M - 1))) * (sq_dev rs / sq_dev32 rs).
Proof.
  intros Ha E Hd Hj Hi Ht Hdd Hal Hpos HD H0 Hm.
  exists (fun xs => rsum_n (M - m) (fun q => 1 * (dev xs q * dev xs (q + m))) / sq_dev32 rs). split.
  - intros xs d' rows' j' Hx Ha' Ht' Hd' Hj'.
    destruct (same_times_call p d d' mi ma re al "natural" wgt lags corr c Ha Ha' Ht' E) as [[corr' [c' E']] [Hmt _]].
    exists corr', c'. split; [exact E'|]. rewrite Ht in Ht'. assert (Hal' : opt_or (A := XR) al (median_time d') = Fin a) by (rewrite Hmt; exact Hal).
    destruct (grid_value_pos p d' mi ma re al wgt lags corr' c' rows' j' i xs t0 dd a M m Ha' E' Hd' Hj' Hi Ht' Hdd Hal' Hpos) as [_ [_ HV]].
    rewrite HV, (sq_dev32_perm rs xs) by (apply orderings_perm, Hx). cbn. unfold Reqb. destruct (Req_EM_T (sq_dev32 rs) 0); [lra|].
    do 3 f_equal. apply rsum_n_ext. intros q _. lra.
  - destruct (grid_value_pos p d mi ma re al wgt lags corr c rows j i rs t0 dd a M m Ha E Hd Hj Hi Ht Hdd Hal Hpos) as [L _].
    rewrite (mean_over_orderings rs (M - m) (fun _ => 1) (fun q => (q + m)%nat)) by (intros q Hq; lia). f_equal. rewrite L.
    rewrite (rsum_n_ext _ _ (fun _ => - / (INR M * (INR M - 1)))).
    + rewrite rsum_n_same. unfold Rdiv. ring.
    + intros q Hq. unfold expect. destruct (Nat.eqb_spec q (q + m)); [lia|]. ring.
Qed.
