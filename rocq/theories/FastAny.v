(** The fast selection on any ordered times, in exact arithmetic (C113). *)
From Coq Require Import String.
From Coq Require Import ZArith Reals List Bool Arith Lia Lra.
From Flocq Require Import Core.
From Verif Require Import Num Mem MemFacts XR B64 Spec SpecR SpecTime SpecFast DataStructure DSFacts Correlator Sacf Api CorrFacts LoopFacts MainFacts
  Laws Laws2 ConstrFacts SelFacts SelThms FastFacts TimeFacts WeightFacts ValFacts ExactFacts GridVals FixedThms GridSums ItThms PairBounds TimeCloseFacts LagNumber NearFacts.
Import ListNotations.
Local Open Scope list_scope.
Local Open Scope R_scope.

Lemma below_split ts x m : (m <= length ts)%nat -> (forall i, (i < m)%nat -> nth i ts 0 < x) -> (forall i, (m <= i < length ts)%nat -> ~ nth i ts 0 < x) -> below ts x = m.
Proof.
  unfold below. revert m. induction ts as [|t ts IH]; intros m Hm H1 H2; cbn [filter length] in *; [lia|].
  destruct m as [|m].
  - destruct (Rlt_dec t x) as [C|_]; [exfalso; exact (H2 0%nat ltac:(lia) C)|]. apply IH; [lia|lia|]. intros i Hi. exact (H2 (S i) ltac:(lia)).
  - destruct (Rlt_dec t x) as [_|C]; [|exfalso; exact (C (H1 0%nat ltac:(lia)))]. cbn [length]. f_equal.
    apply IH; [lia|intros i Hi; exact (H1 (S i) ltac:(lia))|intros i Hi; exact (H2 (S i) ltac:(lia))].
Qed.

Lemma fast_pairs_run {A : Num} p (d : dstruct) kk n s offs : accepted d ->
  pairs_by p d (fastSelectionFunctionIdx p d) kk n = Ok (s, offs) ->
  exists it, fastSelectionFunctionIdx p d (CorrelationIterator kk n) = (it, Ok tt) /\ selection it = s.
Proof.
  intros Ha HP. destruct (pairs_by_closed p d "fast" (fastSelectionFunctionIdx p d) kk n Ha eq_refl) as [sf [Hs C]].
  injection Hs as <-. rewrite HP in C. pose proof (fast_closed p d kk n) as N. change (norm_t d) with (normalised_timeseries d) in N.
  destruct (fast_sel p (normalised_timeseries d) kk) as [[s' Sv]|x|x|] eqn:HS; cbn [bind same_outcome] in C; try contradiction.
  cbn [fst snd] in C. destruct (deltas p (normalised_timeseries d) s' Sv) as [dts|x|x|]; cbn [bind same_outcome] in C; try contradiction.
  injection C as -> _. destruct N as [it [E Hit]]. exists it. split; [exact E|]. destruct Hit as [_ [_ [_ [O1 _]]]]. exact O1.
Qed.

Lemma fast_exact p (d : @dstruct XR) kk n s os ts : accepted d -> times_ok (A := XR) d -> timeseries d = map Fin ts ->
  pairs_by (A := XR) p d (fastSelectionFunctionIdx (A := XR) p d) (Fin kk) n = Ok (s, os) ->
  s = map (fast_partner ts kk) (seq 0 (kept ts kk)) /\
  os = map (fun q => Fin (dist p (gap ts kk q (fast_partner ts kk q)))) (seq 0 (kept ts kk)).
Proof.
  intros Ha Hok Ht HP. pose proof (real_order d ts Ht Hok) as HO. pose proof (norm_real d ts Ha Ht) as En.
  destruct (pairs_exact p d "fast" _ kk n s os ts Ha Ht eq_refl HP) as [_ [_ [_ Eo]]].
  destruct (fast_pairs_run p d (Fin kk) n s os Ha HP) as [it [Hrun Hsel]].
  pose proof (@fast_selection XR XR_laws XR_laws2 p d (Fin kk) n Ha Hok) as F. cbv zeta in F. rewrite En in F.
  destruct F as [back [m [Hb [Hm [_ [_ F]]]]]]. rewrite Hrun in F. specialize (F eq_refl). cbn [fst] in F. rewrite Hsel in F.
  assert (Lt : (0 < length ts)%nat). { destruct ts; [discriminate Hb|cbn; lia]. }
  assert (Hnth : forall i, (i < length ts)%nat -> nth_error (map Fin (map (fun x => x - nth 0 ts 0) ts)) i = Some (Fin (nth i ts 0 - nth 0 ts 0))).
  { intros i Hi. rewrite !nth_error_map, (nth_error_nth' ts 0 Hi). reflexivity. }
  assert (Eb : back = Fin (nth (length ts - 1) ts 0 - nth 0 ts 0)).
  { destruct (back_In _ _ Hb) as [_ K]. rewrite !map_length, Hnth in K by lia. injection K as <-. reflexivity. }
  subst back.
  assert (Em : kept ts kk = m).
  { destruct Hm as [M1 [M2 M3]]. rewrite !map_length in M1. apply below_split; [exact M1| |].
    - intros i Hi. pose proof (M2 i _ Hi (Hnth i ltac:(lia))) as K.
      destruct (Rlt_dec (nth i ts 0) (nth (length ts - 1) ts 0 - kk)) as [G|G]; [exact G|exfalso].
      assert (@nle XR (Fin (nth (length ts - 1) ts 0 - nth 0 ts 0)) (@nadd XR (Fin (nth i ts 0 - nth 0 ts 0)) (Fin kk)) = true); [|congruence].
      apply nle_Fin. lra.
    - intros i Hi. pose proof (M3 _ (Hnth m ltac:(lia))) as K. cbn [nadd XR xadd] in K. apply nle_Fin in K. pose proof (HO m i ltac:(lia) ltac:(lia)). lra. }
  assert (Ei : length (filter (fun x => @nlt XR x (@nadd XR nzero (Fin kk))) (map Fin (map (fun x => x - nth 0 ts 0) ts))) = places ts kk).
  { unfold places, below. generalize (nth 0 ts 0). intros t0. clear. induction ts as [|t ts IH]; [reflexivity|]. cbn [map filter].
    assert (E : @nlt XR (Fin (t - t0)) (@nadd XR nzero (Fin kk)) = if Rlt_dec t (t0 + kk) then true else false).
    { change (@nadd XR nzero (Fin kk)) with (Fin (0 + kk)). destruct (Rlt_dec t (t0 + kk)) as [G|G]; [apply nlt_Fin; lra|].
      apply not_true_is_false. intros C. apply nlt_Fin in C. lra. }
    rewrite E. destruct (Rlt_dec t (t0 + kk)); cbn [length]; rewrite IH; reflexivity. }
  rewrite Ei in F. rewrite <- Em in F. split; [exact F|]. rewrite Eo, F, map_length, seq_length, map_map. apply map_ext_in. intros q Hq. apply in_seq in Hq.
  unfold off_of, gap. do 3 f_equal. f_equal. rewrite (nth_indep _ 0%nat (fast_partner ts kk 0)) by (rewrite map_length, seq_length; lia).
  change (fun i : nat => if (places ts kk + i <? kept ts kk)%nat then (places ts kk + i)%nat else 0%nat) with (fast_partner ts kk).
  rewrite map_nth, seq_nth by lia. reflexivity.
Qed.

Lemma fast_value p (d : @dstruct XR) mi ma re al wgt lags corr c rows j i (rs ts : list R) (kk a : R) :
  accepted d -> times_ok (A := XR) d -> autocorrelation (A := XR) p d mi ma re al "fast" wgt = Ok (lags, corr, c) ->
  data_2d d = Ok rows -> nth_error rows j = Some (map Fin rs) -> nth_error lags i = Some (Fin kk) ->
  timeseries d = map Fin ts -> opt_or al (median_time d) = Fin a -> 0 < a ->
  corr_at corr j i = Some (xdiv (Fin (rsum_n (kept ts kk) (fun q =>
     rweight wgt a (dist p (gap ts kk q (fast_partner ts kk q))) * (dev rs q * dev rs (fast_partner ts kk q))))) (Fin (sq_dev32 rs))).
Proof.
  intros Ha Hok E Hd Hj Hi Ht Hal Hpos.
  destruct (call_pairs p d mi ma re al "fast" wgt lags corr c rows j i rs ts kk Ha E Hd Hj Hi Ht) as [f [s [os [Hf [HP HL]]]]].
  pose proof Hf as Hg. injection Hf as <-.
  destruct (fast_exact p d kk _ s _ ts Ha Hok Ht HP) as [Es Eo].
  destruct (value_exact_pairs p d mi ma re al "fast" wgt lags corr c rows j i rs ts os kk a _ _ s Ha E Hd Hj Hi Ht Hal Hpos Hg HP)
    as [_ [_ [_ [_ [_ [_ HV]]]]]].
  rewrite HV. do 3 f_equal. subst s. rewrite map_length, seq_length. unfold rsum_n. f_equal. apply map_ext_in. intros q Hq. apply in_seq in Hq.
  assert (N1 : nth q (map (fast_partner ts kk) (seq 0 (kept ts kk))) 0%nat = fast_partner ts kk q).
  { rewrite (nth_indep _ 0%nat (fast_partner ts kk 0)) by (rewrite map_length, seq_length; lia). rewrite map_nth, seq_nth by lia. reflexivity. }
  assert (N2 : nth q os 0 = dist p (gap ts kk q (fast_partner ts kk q))).
  { apply (f_equal (fun l => nth_error l q)) in Eo. rewrite !nth_error_map, nth_error_seq in Eo.
    destruct (Nat.ltb_spec q (kept ts kk)) as [_|C]; [|lia]. cbn [option_map Nat.add] in Eo.
    destruct (nth_error os q) as [o|] eqn:Eq; [|discriminate Eo]. cbn [option_map] in Eo. injection Eo as ->. exact (nth_error_nth _ _ _ Eq). }
  rewrite N1, N2. reflexivity.
Qed.

(** how many points are paired with the first one for want of a partner *)
Lemma fast_wrapped ts kk : length (filter (fun q => negb (places ts kk + q <? kept ts kk)%nat) (seq 0 (kept ts kk))) = Nat.min (places ts kk) (kept ts kk).
Proof.
  generalize (places ts kk) (kept ts kk). intros f m.
  assert (G : forall n b, length (filter (fun q => negb (f + q <? m)%nat) (seq b n)) = Nat.min n (b + n - (m - f))).
  { induction n as [|n IH]; intros b; [reflexivity|]. cbn [seq filter]. destruct (Nat.ltb_spec (f + b) m) as [K|K]; cbn [negb length]; rewrite IH; lia. }
  rewrite G. lia.
Qed.

Lemma places_pos ts kk : ts <> [] -> 0 < kk -> (0 < places ts kk)%nat.
Proof.
  intros Hn Hk. destruct ts as [|t ts]; [congruence|]. unfold places, below. cbn [nth filter].
  destruct (Rlt_dec t (t + kk)) as [_|C]; [cbn [length]; lia|lra].
Qed.

Lemma below_mono ts x y : x <= y -> (below ts x <= below ts y)%nat.
Proof.
  intros H. unfold below. induction ts as [|t ts IH]; [reflexivity|]. cbn [filter]. destruct (Rlt_dec t x), (Rlt_dec t y); cbn [length]; lia || lra.
Qed.

Lemma fast_half p (d : @dstruct XR) mi ma re al wgt lags corr c rows j i (rs ts : list R) (kk a : R) :
  accepted d -> times_ok (A := XR) d -> autocorrelation (A := XR) p d mi ma re al "fast" wgt = Ok (lags, corr, c) ->
  data_2d d = Ok rows -> nth_error rows j = Some (map Fin rs) -> nth_error lags i = Some (Fin kk) ->
  timeseries d = map Fin ts -> opt_or al (median_time d) = Fin a -> 0 < a -> nth (length ts - 1) ts 0 - nth 0 ts 0 <= 2 * kk ->
  corr_at corr j i = Some (xdiv (Fin (dev rs 0 * rsum_n (kept ts kk) (fun q => rweight wgt a (dist p (gap ts kk q 0)) * dev rs q))) (Fin (sq_dev32 rs))).
Proof.
  intros Ha Hok E Hd Hj Hi Ht Hal Hpos Hh. rewrite (fast_value p d mi ma re al wgt lags corr c rows j i rs ts kk a Ha Hok E Hd Hj Hi Ht Hal Hpos).
  do 3 f_equal. assert (K : (kept ts kk <= places ts kk)%nat) by (apply below_mono; lra).
  assert (P : forall q, fast_partner ts kk q = 0%nat).
  { intros q. unfold fast_partner. destruct (Nat.ltb_spec (places ts kk + q) (kept ts kk)); [lia|reflexivity]. }
  unfold rsum_n, rsum. induction (seq 0 (kept ts kk)) as [|q l IH]; cbn [map fold_right]; [ring|]. rewrite IH, P. ring.
Qed.
