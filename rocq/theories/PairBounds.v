(** Bounds on offsets, numbers of pairs and correlations; the dependence on alpha. *)
From Coq Require Import String.
From Coq Require Import ZArith Reals List Bool Arith Lia Lra.
From Flocq Require Import Core.
From Verif Require Import Num Mem MemFacts XR B64 Spec SpecR DataStructure DSFacts Correlator Sacf Api CorrFacts LoopFacts MainFacts
  Laws Laws2 ConstrFacts SelFacts SelThms FastFacts TimeFacts WeightFacts ValFacts ExactFacts GridVals FixedThms GridSums ItThms.
Import ListNotations.
Local Open Scope list_scope.
Local Open Scope R_scope.

(** ** The pairs in exact arithmetic *)
Definition off_of (p : platform) (ts : list R) (kk : R) (s : list nat) (q : nat) : R :=
  dist p (nth (nth q s 0%nat) ts 0 - (nth q ts 0 + kk)).

Lemma pairs_exact p (d : @dstruct XR) sel f kk n s offs ts : accepted d -> timeseries d = map Fin ts ->
  selection_function p sel d = Some f -> pairs_by (A := XR) p d f (Fin kk) n = Ok (s, offs) ->
  (exists sf Sv, sel_named sel = Some sf /\ sf p (normalised_timeseries d) (Fin kk) = Ok (s, Sv)) /\
  (length s <= length ts)%nat /\ (forall x, In x s -> (x < length ts)%nat) /\
  offs = map Fin (map (off_of p ts kk s) (seq 0 (length s))).
Proof.
  intros Ha Ht Hf HP. destruct (accepted_times d Ha) as [tx [data [er [N [Ed [Hnil [Ent [_ [_ _]]]]]]]]].
  assert (Etx : tx = map Fin ts) by (rewrite <- Ht, Ed; reflexivity). rewrite Etx, rel_times_Fin in Ent.
  assert (Hts : ts <> []) by (intros ->; apply Hnil; exact Etx).
  destruct (pairs_by_closed p d sel f (Fin kk) n Ha Hf) as [sf [Hs C]]. rewrite HP in C.
  destruct (sf p (normalised_timeseries d) (Fin kk)) as [[sidx Sv]|x|x|] eqn:HS; cbn [bind same_outcome] in C; try contradiction.
  cbn [fst snd] in C. destruct (deltas p (normalised_timeseries d) sidx Sv) as [dts|x|x|] eqn:HD; cbn [bind same_outcome] in C; try contradiction.
  injection C as -> ->.
  assert (H0 : (0 < length (normalised_timeseries d))%nat).
  { rewrite Ent, !map_length. destruct ts; [congruence|cbn; lia]. }
  destruct (sel_named_ok sel sf Hs p _ _ s Sv H0 HS) as [K1 [K2 K3]].
  rewrite Ent, !map_length in K2, K3. split; [exists sf, Sv; auto|]. split; [exact K2|]. split; [exact K3|].
  rewrite Ent in HS, HD.
  destruct (deltas_exact p (map (fun x => x - nth 0 ts 0) ts) kk s Sv offs) as [D1 D2].
  { intros x Hin. rewrite map_length. apply K3. exact Hin. }
  { exact (sel_shifted sel sf p _ _ s Sv Hs HS). }
  { exact K1. }
  { exact HD. }
  apply list_ext. intros q. rewrite !nth_error_map, nth_error_seq.
  destruct (Nat.ltb_spec q (length s)) as [Hq|Hq].
  - rewrite D2 by exact Hq. cbn [option_map Nat.add]. do 2 f_equal. unfold off_of. f_equal.
    assert (Hn : forall x, (x < length ts)%nat -> nth x (map (fun x => x - nth 0 ts 0) ts) 0 = nth x ts 0 - nth 0 ts 0).
    { intros x Hx. apply nth_error_nth. rewrite nth_error_map, (nth_error_nth' ts 0 Hx). reflexivity. }
    rewrite (Hn q) by (clear - Hq K2; lia). rewrite Hn by (apply K3; apply nth_In; exact Hq). ring.
  - replace (nth_error offs q) with (@None xr); [reflexivity|]. symmetry. apply nth_error_None.
    change (@length (@num XR) offs <= q)%nat. rewrite D1. exact Hq.
Qed.

(** the value by the pairs *)
Lemma value_exact_pairs p d mi ma re al sel wgt lags corr c rows j i (rs ts os : list R) (kk a : R) f n s :
  accepted d -> autocorrelation (A := XR) p d mi ma re al sel wgt = Ok (lags, corr, c) ->
  data_2d d = Ok rows -> nth_error rows j = Some (map Fin rs) -> nth_error lags i = Some (Fin kk) ->
  timeseries d = map Fin ts -> opt_or al (median_time d) = Fin a -> 0 < a ->
  selection_function p sel d = Some f -> pairs_by (A := XR) p d f (Fin kk) n = Ok (s, map Fin os) ->
  weight_named (A := XR) wgt (Fin a) <> None /\
  length rs = length ts /\ (length s <= length ts)%nat /\ (forall x, In x s -> (x < length ts)%nat) /\
  length os = length s /\ (forall q, 0 <= nth q os 0) /\
  corr_at corr j i = Some (xdiv (Fin (rsum_n (length s) (fun q => rweight wgt a (nth q os 0) * (dev rs q * dev rs (nth q s 0%nat)))))
      (Fin (sq_dev32 rs))).
Proof.
  intros Ha E Hd Hj Hi Ht Hal Hpos Hf HP.
  destruct (exact_value p d mi ma re al _ wgt lags corr c rows j i rs ts kk a Ha E Hd Hj Hi Ht Hal Hpos)
    as [sf [sidx [Sv [Hs [Hw [En [HS [Hn [HL [K1 [K2 HV]]]]]]]]]]].
  destruct (pairs_exact p d sel f kk n s (map Fin os) ts Ha Ht Hf HP) as [(sf' & Sv' & Hs' & HS') [L1 [L2 Eo]]].
  rewrite Hs in Hs'. injection Hs' as <-. rewrite HS in HS'. injection HS' as -> ->.
  assert (Eo' : os = map (off_of p ts kk s) (seq 0 (length s))).
  { clear -Eo. set (m := map (off_of p ts kk s) (seq 0 (length s))) in *. clearbody m. revert m Eo.
    induction os as [|o os IH]; intros [|x m] H; try discriminate; [reflexivity|]. injection H as -> H. f_equal. apply IH, H. }
  assert (Hlo : length os = length s) by (rewrite Eo', map_length, seq_length; reflexivity).
  split; [exact Hw|]. split; [exact HL|]. split; [exact L1|]. split; [exact L2|]. split; [exact Hlo|]. split.
  - intros q. destruct (Nat.lt_ge_cases q (length os)) as [Hq|Hq]; [|rewrite nth_overflow by exact Hq; lra].
    apply nth_In with (d := 0) in Hq. rewrite Eo' in Hq at 2. apply in_map_iff in Hq. destruct Hq as [x [<- _]]. apply dist_pos.
  - rewrite HV. do 3 f_equal. apply rsum_n_ext. intros q Hq. rewrite Rmult_assoc. f_equal. f_equal.
    rewrite Eo'. symmetry. apply nth_error_nth. rewrite nth_error_map, nth_error_seq. destruct (Nat.ltb_spec q (length s)); [reflexivity|lia].
Qed.

(** ** A bound by the multiplicity of the selected points *)
Lemma sum_mult (N : nat) (g : nat -> R) : (forall q, 0 <= g q) -> forall s m, (forall x, In x s -> (x < N)%nat) ->
  (forall q, (count_occ Nat.eq_dec s q <= m)%nat) ->
  rsum_n (length s) (fun q => g (nth q s 0%nat)) <= INR m * rsum_n N g.
Proof.
  intros Hg s m Hs Hm.
  assert (E : rsum_n (length s) (fun q => g (nth q s 0%nat)) = rsum_n N (fun x => INR (count_occ Nat.eq_dec s x) * g x)).
  { clear Hm. induction s as [|a s IH].
    - symmetry. apply rsum_n_const0. intros. cbn. lra.
    - cbn [length]. rewrite rsum_n_first. cbn [nth]. rewrite IH by (intros x Hx; apply Hs; right; exact Hx).
      assert (Ha : (a < N)%nat) by (apply Hs; left; reflexivity).
      assert (K : rsum_n N (fun x => if Nat.eq_dec a x then g x else 0) = g a).
      { clear -Ha. induction N as [|N IH]; [lia|]. rewrite rsum_n_S. destruct (Nat.eq_dec a N) as [->|Hne].
        - rewrite rsum_n_const0; [lra|]. intros i Hi. destruct (Nat.eq_dec N i); [lia|reflexivity].
        - rewrite IH by lia. lra. }
      rewrite <- K, <- rsum_n_plus. apply rsum_n_ext. intros x _. cbn [count_occ]. destruct (Nat.eq_dec a x); [rewrite S_INR|]; lra. }
  rewrite E, <- rsum_n_scal. apply rsum_n_le. intros x _. apply Rmult_le_compat_r; [apply Hg|]. apply le_INR, Hm.
Qed.

Lemma multiplicity_bound n N m (w f : nat -> R) (s : list nat) : n = length s -> (n <= N)%nat -> (forall q, 0 <= w q <= 1) ->
  (forall x, In x s -> (x < N)%nat) -> (forall q, (count_occ Nat.eq_dec s q <= m)%nat) ->
  let P := rsum_n n (fun q => w q * (f q * f (nth q s 0%nat))) in let D := rsum_n N (fun q => f q * f q) in
  P * P <= INR m * (D * D).
Proof.
  intros -> Hn Hw Hs Hm P D.
  assert (HD : 0 <= D) by (apply rsum_n_nonneg; intros; apply Rle_0_sqr).
  pose proof (cauchy (length s) f (fun q => w q * f (nth q s 0%nat))) as C. cbv beta in C.
  rewrite (rsum_n_ext (length s) (fun q => f q * (w q * f (nth q s 0%nat))) (fun q => w q * (f q * f (nth q s 0%nat)))) in C by (intros; ring).
  fold P in C. eapply Rle_trans; [exact C|].
  assert (H1 : rsum_n (length s) (fun q => f q * f q) <= D).
  { unfold D. replace N with (length s + (N - length s))%nat by lia. rewrite rsum_n_split.
    pose proof (rsum_n_nonneg (N - length s) (fun i => f (length s + i)%nat * f (length s + i)%nat) (fun i _ => Rle_0_sqr _)). lra. }
  assert (H2 : rsum_n (length s) (fun q => w q * f (nth q s 0%nat) * (w q * f (nth q s 0%nat))) <= INR m * D).
  { apply Rle_trans with (rsum_n (length s) (fun q => f (nth q s 0%nat) * f (nth q s 0%nat))).
    - apply rsum_n_le. intros q Hq. destruct (Hw q) as [W0 W1].
      replace (w q * f (nth q s 0%nat) * (w q * f (nth q s 0%nat))) with ((w q * w q) * (f (nth q s 0%nat) * f (nth q s 0%nat))) by ring.
      rewrite <- (Rmult_1_l (f (nth q s 0%nat) * f (nth q s 0%nat))) at 2. apply Rmult_le_compat_r; [apply Rle_0_sqr|].
      rewrite <- (Rmult_1_l 1). apply Rmult_le_compat; lra.
    - apply (sum_mult N (fun x => f x * f x) (fun q => Rle_0_sqr (f q)) s m Hs Hm). }
  assert (H0 : 0 <= rsum_n (length s) (fun q => f q * f q)) by (apply rsum_n_nonneg; intros; apply Rle_0_sqr).
  assert (H3 : 0 <= rsum_n (length s) (fun q => w q * f (nth q s 0%nat) * (w q * f (nth q s 0%nat)))) by (apply rsum_n_nonneg; intros; apply Rle_0_sqr).
  replace (INR m * (D * D)) with (D * (INR m * D)) by ring. apply Rmult_le_compat; assumption.
Qed.

Lemma mult_bound p d mi ma re al sel wgt lags corr c rows j i (rs ts os : list R) (kk a v w : R) f n s (m : nat) :
  accepted d -> autocorrelation (A := XR) p d mi ma re al sel wgt = Ok (lags, corr, c) ->
  data_2d d = Ok rows -> nth_error rows j = Some (map Fin rs) -> nth_error lags i = Some (Fin kk) ->
  timeseries d = map Fin ts -> opt_or al (median_time d) = Fin a -> 0 < a ->
  selection_function p sel d = Some f -> pairs_by (A := XR) p d f (Fin kk) n = Ok (s, map Fin os) ->
  Forall single rs -> In v rs -> In w rs -> v <> w -> (forall q, (count_occ Nat.eq_dec s q <= m)%nat) ->
  exists r, corr_at corr j i = Some (Fin r) /\ r * r <= INR m.
Proof.
  intros Ha E Hd Hj Hi Ht Hal Hpos Hf HP Hs Hv Hw Hne Hm.
  destruct (value_exact_pairs p d mi ma re al sel wgt lags corr c rows j i rs ts os kk a f n s Ha E Hd Hj Hi Ht Hal Hpos Hf HP)
    as [_ [HL [L1 [L2 [Lo [Po HV]]]]]].
  rewrite (sq_dev_single rs Hs) in HV. pose proof (sq_dev_pos rs v w Hv Hw Hne) as HD. rewrite HV.
  match goal with |- context [Fin (rsum_n ?N ?F)] => set (P := rsum_n N F) end.
  destruct (quotient_bound P (sq_dev rs) (INR m) HD (pos_INR _)) as [r [-> Hr]]; [|exists r; auto].
  rewrite sq_dev_n, HL. unfold P.
  apply (multiplicity_bound (length s) (length ts) m (fun q => rweight wgt a (nth q os 0)) (dev rs) s eq_refl L1); [|exact L2|exact Hm].
  intros q. apply rweight_range; [exact Hpos|apply Po].
Qed.

(** ** Wide and narrow weights *)
Lemma rweight_wide wgt a x D : 0 < a -> 0 <= x <= D ->
  0 <= 1 - rweight wgt a x <= (if String.eqb wgt "fractional" then D / a else (D / a) * (D / a)).
Proof.
  intros Ha [Hx HD]. destruct (rweight_range wgt a x Ha Hx) as [W0 W1]. split; [lra|].
  assert (Ia : 0 < / a) by (apply Rinv_0_lt_compat; exact Ha).
  assert (Hy : 0 <= x / a <= D / a) by (unfold Rdiv; split; [apply Rmult_le_pos; lra|apply Rmult_le_compat_r; lra]).
  set (y := x / a) in *. set (Y := D / a) in *. assert (Hyy : y * y <= Y * Y) by (apply Rmult_le_compat; lra).
  assert (G : forall z, 0 <= z -> 1 - / (1 + z) <= z).
  { intros z Hz. replace (1 - / (1 + z)) with (z * / (1 + z)) by (field; lra).
    rewrite <- (Rmult_1_r z) at 3. apply Rmult_le_compat_l; [exact Hz|]. rewrite <- Rinv_1. apply Rinv_le_contravar; lra. }
  unfold rweight. fold y. destruct (String.eqb wgt "fractional"); [specialize (G y ltac:(lra)); lra|].
  assert (0 <= y * y) by (apply Rle_0_sqr).
  destruct (String.eqb wgt "fractional_squared"); [specialize (G (y * y) ltac:(lra)); lra|].
  replace (- (x * x) / (2 * a * a)) with (- (y * y / 2)) by (unfold y; field; lra).
  pose proof (exp_ineq1_le (- (y * y / 2))). lra.
Qed.

Lemma rweight_narrow wgt a x dl : 0 < a -> 0 < dl -> dl <= x ->
  0 <= rweight wgt a x <= (if String.eqb wgt "fractional" then a / dl else 2 * ((a / dl) * (a / dl))).
Proof.
  intros Ha Hdl Hx. destruct (rweight_range wgt a x Ha ltac:(lra)) as [W0 _]. split; [exact W0|].
  assert (Ia : 0 < / a) by (apply Rinv_0_lt_compat; exact Ha). assert (Id : 0 < / dl) by (apply Rinv_0_lt_compat; exact Hdl).
  assert (Hy : dl / a <= x / a) by (unfold Rdiv; apply Rmult_le_compat_r; lra).
  assert (Hd0 : 0 < dl / a) by (apply Rmult_lt_0_compat; assumption).
  set (y := x / a) in *. set (Y := dl / a) in *. assert (Hyy : Y * Y <= y * y) by (apply Rmult_le_compat; lra).
  assert (EY : a / dl = / Y) by (unfold Y; field; lra). rewrite EY.
  assert (HYY : 0 < Y * Y) by (apply Rmult_lt_0_compat; exact Hd0).
  assert (IYY : / Y * / Y = / (Y * Y)) by (field; lra).
  assert (PYY : 0 < / (Y * Y)) by (apply Rinv_0_lt_compat; exact HYY).
  unfold rweight. fold y. destruct (String.eqb wgt "fractional"); [apply Rinv_le_contravar; lra|]. rewrite IYY.
  destruct (String.eqb wgt "fractional_squared").
  - apply Rle_trans with (/ (Y * Y)); [apply Rinv_le_contravar; lra|lra].
  - replace (- (x * x) / (2 * a * a)) with (- (y * y / 2)) by (unfold y; field; lra). rewrite exp_Ropp.
    replace (2 * / (Y * Y)) with (/ (Y * Y / 2)) by (field; lra). apply Rinv_le_contravar; [lra|].
    pose proof (exp_ineq1_le (y * y / 2)). lra.
Qed.

Lemma rsum_n_abs n f : Rabs (rsum_n n f) <= rsum_n n (fun q => Rabs (f q)).
Proof.
  induction n as [|n IH]; [rewrite !rsum_n_0, Rabs_R0; lra|]. rewrite !rsum_n_S. eapply Rle_trans; [apply Rabs_triang|]. lra.
Qed.

Lemma sum_close n (w w' g : nat -> R) e : (forall q, (q < n)%nat -> Rabs (w q - w' q) <= e) ->
  Rabs (rsum_n n (fun q => w q * g q) - rsum_n n (fun q => w' q * g q)) <= e * rsum_n n (fun q => Rabs (g q)).
Proof.
  intros H. replace (rsum_n n (fun q => w q * g q) - rsum_n n (fun q => w' q * g q)) with (rsum_n n (fun q => (w q - w' q) * g q)).
  - eapply Rle_trans; [apply rsum_n_abs|]. rewrite <- rsum_n_scal. apply rsum_n_le. intros q Hq. rewrite Rabs_mult.
    apply Rmult_le_compat_r; [apply Rabs_pos|apply H, Hq].
  - replace (rsum_n n (fun q => w q * g q) - rsum_n n (fun q => w' q * g q)) with (rsum_n n (fun q => w q * g q) + (-1) * rsum_n n (fun q => w' q * g q)) by ring.
    rewrite <- rsum_n_scal, <- rsum_n_plus. apply rsum_n_ext. intros. ring.
Qed.

Lemma value_close p d mi ma re al sel wgt lags corr c rows j i (rs ts os : list R) (kk a e : R) f n s (w' : nat -> R) :
  accepted d -> autocorrelation (A := XR) p d mi ma re al sel wgt = Ok (lags, corr, c) ->
  data_2d d = Ok rows -> nth_error rows j = Some (map Fin rs) -> nth_error lags i = Some (Fin kk) ->
  timeseries d = map Fin ts -> opt_or al (median_time d) = Fin a -> 0 < a ->
  selection_function p sel d = Some f -> pairs_by (A := XR) p d f (Fin kk) n = Ok (s, map Fin os) ->
  0 < sq_dev32 rs -> (forall q, (q < length s)%nat -> Rabs (rweight wgt a (nth q os 0) - w' q) <= e) ->
  exists r, corr_at corr j i = Some (Fin r) /\
    Rabs (r - rsum_n (length s) (fun q => w' q * (dev rs q * dev rs (nth q s 0%nat))) / sq_dev32 rs)
      <= e * (rsum_n (length s) (fun q => Rabs (dev rs q * dev rs (nth q s 0%nat))) / sq_dev32 rs).
Proof.
  intros Ha E Hd Hj Hi Ht Hal Hpos Hf HP HD He.
  destruct (value_exact_pairs p d mi ma re al sel wgt lags corr c rows j i rs ts os kk a f n s Ha E Hd Hj Hi Ht Hal Hpos Hf HP)
    as [_ [HL [L1 [L2 [Lo [Po HV]]]]]].
  rewrite HV. cbn. unfold Reqb. destruct (Req_EM_T (sq_dev32 rs) 0); [lra|]. eexists. split; [reflexivity|].
  pose proof (sum_close (length s) (fun q => rweight wgt a (nth q os 0)) w' (fun q => dev rs q * dev rs (nth q s 0%nat)) e He) as C. cbv beta in C.
  assert (I : 0 < / sq_dev32 rs) by (apply Rinv_0_lt_compat; exact HD).
  unfold Rdiv. rewrite <- Rmult_minus_distr_r, Rabs_mult, (Rabs_right (/ sq_dev32 rs)), <- Rmult_assoc by lra.
  apply Rmult_le_compat_r; [lra|exact C].
Qed.

(** ** Offsets of the natural selection *)
Lemma natural_pairs_run {A : Num} p (d : dstruct) kk n s offs : accepted d ->
  pairs_by p d (naturalSelectionFunctionIdx p d) kk n = Ok (s, offs) ->
  exists it, naturalSelectionFunctionIdx p d (CorrelationIterator kk n) = (it, Ok tt) /\ selection it = s.
Proof.
  intros Ha HP. destruct (pairs_by_closed p d "natural" (naturalSelectionFunctionIdx p d) kk n Ha eq_refl) as [sf [Hs C]].
  injection Hs as <-. rewrite HP in C. pose proof (natural_closed p d kk n) as N. change (norm_t d) with (normalised_timeseries d) in N.
  destruct (natural_sel p (normalised_timeseries d) kk) as [[s' Sv]|x|x|] eqn:HS; cbn [bind same_outcome] in C; try contradiction.
  cbn [fst snd] in C. destruct (deltas p (normalised_timeseries d) s' Sv) as [dts|x|x|]; cbn [bind same_outcome] in C; try contradiction.
  injection C as -> _. destruct N as [it [E Hit]]. exists it. split; [exact E|]. destruct Hit as [_ [_ [_ [O1 _]]]]. exact O1.
Qed.

(** between the first and the last of a list of numbers there is a neighbouring pair around every number *)
Lemma bracket (ts : list R) x : ts <> [] -> nth 0 ts 0 <= x -> x <= nth (length ts - 1) ts 0 ->
  x = nth 0 ts 0 \/ exists q, (S q < length ts)%nat /\ nth q ts 0 <= x <= nth (S q) ts 0.
Proof.
  intros Hne H0 H1. assert (G : forall m, (m < length ts)%nat -> x <= nth m ts 0 ->
     x = nth 0 ts 0 \/ exists q, (S q < length ts)%nat /\ nth q ts 0 <= x <= nth (S q) ts 0).
  { induction m as [|m IH]; intros Hm Hx; [left; lra|]. destruct (Rle_lt_dec x (nth m ts 0)) as [L|L]; [apply IH; [lia|exact L]|].
    right. exists m. split; [exact Hm|lra]. }
  apply (G (length ts - 1)%nat); [|exact H1]. destruct ts; [congruence|cbn; lia].
Qed.

Lemma natural_offsets p (d : @dstruct XR) kk n s os ts g : accepted d -> times_ok (A := XR) d -> p_abs p = AbsFloat -> timeseries d = map Fin ts ->
  pairs_by (A := XR) p d (naturalSelectionFunctionIdx (A := XR) p d) (Fin kk) n = Ok (s, map Fin os) ->
  0 <= g -> (forall q, (S q < length ts)%nat -> nth (S q) ts 0 - nth q ts 0 <= g) ->
  forall q, (q < length s)%nat ->
  (nth 0 ts 0 <= nth q ts 0 + kk -> nth q os 0 <= g / 2) /\
  (nth q ts 0 + kk < nth 0 ts 0 -> nth q os 0 = nth 0 ts 0 - (nth q ts 0 + kk) /\ nth (nth q s 0%nat) ts 0 = nth 0 ts 0).
Proof.
  intros Ha Hok Hp Ht HP Hg Hgap q Hq.
  destruct (pairs_exact p d "natural" _ kk n s (map Fin os) ts Ha Ht eq_refl HP) as [_ [L1 [L2 Eo]]].
  assert (Eo' : nth q os 0 = Rabs (nth (nth q s 0%nat) ts 0 - (nth q ts 0 + kk))).
  { apply (f_equal (fun l => nth_error l q)) in Eo. rewrite !nth_error_map, nth_error_seq in Eo.
    destruct (Nat.ltb_spec q (length s)); [|lia]. cbn [option_map Nat.add] in Eo.
    destruct (nth_error os q) as [o|] eqn:E; [|discriminate]. cbn [option_map] in Eo. injection Eo as ->.
    rewrite (nth_error_nth _ _ _ E). unfold off_of, dist. rewrite Hp. reflexivity. }
  destruct (accepted_times d Ha) as [tx [data [er [N [Ed [Hnil [Ent _]]]]]]].
  assert (Etx : tx = map Fin ts) by (rewrite <- Ht, Ed; reflexivity). rewrite Etx, rel_times_Fin in Ent.
  assert (Hts : ts <> []) by (intros ->; apply Hnil; exact Etx).
  assert (Lt : (0 < length ts)%nat) by (destruct ts; [congruence|cbn; lia]).
  assert (Hnt : forall x, (x < length ts)%nat -> nth_error (normalised_timeseries d) x = Some (Fin (nth x ts 0 - nth 0 ts 0))).
  { intros x Hx. rewrite Ent, !nth_error_map, (nth_error_nth' ts 0 Hx). reflexivity. }
  destruct (natural_pairs_run p d (Fin kk) n s (map Fin os) Ha HP) as [it [Hrun Hsel]].
  assert (Hi : nth_error (selection it) q = Some (nth q s 0%nat)) by (rewrite Hsel; apply nth_error_nth'; exact Hq).
  destruct (@natural_nearest XR XR_laws XR_laws2 p d (Fin kk) n it Ha Hok Hp eq_refl Hrun q _ Hi) as [x [y [Ex [Ey Hmin]]]].
  rewrite Hnt in Ex by lia. rewrite Hnt in Ey by (apply L2, nth_In, Hq). injection Ex as <-. injection Ey as <-.
  assert (Hm : forall z, (z < length ts)%nat -> nth q os 0 <= Rabs (nth z ts 0 - (nth q ts 0 + kk))).
  { intros z Hz. specialize (Hmin _ (nth_error_In _ _ (Hnt z Hz))). cbn in Hmin. apply Rleb_true in Hmin. rewrite Eo'.
    rewrite Rabs_minus_sym, (Rabs_minus_sym (nth z ts 0)).
    match goal with |- Rabs ?a <= Rabs ?b => match type of Hmin with Rabs ?c <= Rabs ?e => replace a with c by ring; replace b with e by ring end end. exact Hmin. }
  assert (Hb : nth_error (normalised_timeseries d) (length (normalised_timeseries d) - 1) = Some (Fin (nth (length ts - 1) ts 0 - nth 0 ts 0))).
  { replace (length (normalised_timeseries d)) with (length ts) by (rewrite Ent, !map_length; reflexivity). apply Hnt. lia. }
  assert (Hlast : nth q ts 0 + kk <= nth (length ts - 1) ts 0).
  { destruct (natural_selection_count p d (Fin kk) n Ha) as [back' [m [Hb' [Hmm [_ [_ H]]]]]].
    pose proof (proj2 (back_In _ _ Hb')) as Hb2. rewrite Hb in Hb2. injection Hb2 as <-.
    rewrite Hrun in H. destruct (H eq_refl) as [HL _]. cbn [fst] in HL. change (length (selection it) = m) in HL. rewrite Hsel in HL.
    assert (Hq' : (q < m)%nat) by lia.
    apply (natural_retained d (Fin kk) _ m Ha Hok eq_refl Hb' Hmm q _ (Hnt q ltac:(lia))) in Hq'. cbn in Hq'. apply Rleb_true in Hq'. lra. }
  split.
  - intros H0. destruct (bracket ts (nth q ts 0 + kk) Hts H0 Hlast) as [E|[z [Hz [B1 B2]]]].
    + specialize (Hm 0%nat Lt). rewrite E, Rminus_diag_eq, Rabs_R0 in Hm by reflexivity. lra.
    + pose proof (Hm z ltac:(lia)) as M1. pose proof (Hm (S z) Hz) as M2. specialize (Hgap z Hz).
      rewrite Rabs_left1 in M1 by lra. rewrite Rabs_right in M2 by lra. lra.
  - intros H0. pose proof (Hm 0%nat Lt) as M0. rewrite Rabs_right in M0 by lra.
    assert (Hord : nth 0 ts 0 <= nth (nth q s 0%nat) ts 0).
    { destruct (times_ok_norm d Ha Hok) as [_ [_ [_ Hpos]]].
      specialize (Hpos _ (nth_error_In _ _ (Hnt (nth q s 0%nat) ltac:(apply L2, nth_In, Hq)))). cbn in Hpos. apply Rleb_true in Hpos. lra. }
    rewrite Eo' in M0 |- *. rewrite Rabs_right in M0 |- * by lra. split; lra.
Qed.

(** ** The number of pairs of the natural selection *)
Section Count.
Context {A : Num} {L : NumLaws A} {L2 : NumLaws2 A}.
Local Open Scope nat_scope.

Lemma retained_iff p d kk back n it : accepted d -> times_ok d -> nisnan kk = false ->
  nth_error (normalised_timeseries d) (length (normalised_timeseries d) - 1) = Some back ->
  naturalSelectionFunctionIdx p d (CorrelationIterator kk n) = (it, Ok tt) ->
  length (selection it) <= length (normalised_timeseries d) /\
  forall i x, nth_error (normalised_timeseries d) i = Some x -> (i < length (selection it) <-> nle (nadd x kk) back = true).
Proof.
  intros Ha Ht Hk Hb Hrun. destruct (natural_selection_count p d kk n Ha) as [back' [m [Hb' [Hm [_ [_ H]]]]]].
  pose proof (proj2 (back_In _ _ Hb')) as Hb2. rewrite Hb in Hb2. injection Hb2 as <-.
  rewrite Hrun in H. destruct (H eq_refl) as [HL _]. cbn [fst] in HL. unfold selection. rewrite HL.
  split; [apply Hm|]. apply (natural_retained d kk back m); assumption.
Qed.

Lemma last_time d : accepted d -> exists back, nth_error (normalised_timeseries d) (length (normalised_timeseries d) - 1) = Some back.
Proof. intros Ha. destruct (natural_selection_count {| p_abs := AbsFloat; p_checked := false |} d nzero 0 Ha) as [b [_ [Hb _]]]. exists b. apply (back_In _ _ Hb). Qed.

Lemma count_mono p p' d kk kk' n n' it it' : accepted d -> times_ok d -> nle kk kk' = true ->
  naturalSelectionFunctionIdx p d (CorrelationIterator kk n) = (it, Ok tt) ->
  naturalSelectionFunctionIdx p' d (CorrelationIterator kk' n') = (it', Ok tt) ->
  length (selection it') <= length (selection it).
Proof.
  intros Ha Ht Hk E E'. destruct (last_time d Ha) as [back Hb]. destruct (l_le_nan _ _ Hk) as [K K'].
  destruct (times_ok_norm d Ha Ht) as [_ [Kf _]].
  destruct (retained_iff p d kk back n it Ha Ht K Hb E) as [_ H]. destruct (retained_iff p' d kk' back n' it' Ha Ht K' Hb E') as [M' H'].
  destruct (Nat.le_gt_cases (length (selection it')) (length (selection it))) as [G|G]; [exact G|exfalso].
  destruct (nth_error (normalised_timeseries d) (length (selection it))) as [x|] eqn:Hx; [|apply nth_error_None in Hx; lia].
  assert (F := Kf x (nth_error_In _ _ Hx)). apply (H' _ _ Hx) in G.
  apply (Nat.lt_irrefl (length (selection it))). apply (H _ _ Hx). apply l_le_trans with (nadd x kk'); [|exact G].
  apply l_add_mono_r; [exact Hk| |]; apply l_add_fin_nan; assumption.
Qed.

Lemma count_all p d kk n it : accepted d -> times_ok d -> nle kk nzero = true ->
  naturalSelectionFunctionIdx p d (CorrelationIterator kk n) = (it, Ok tt) ->
  length (selection it) = length (normalised_timeseries d).
Proof.
  intros Ha Ht Hk E. destruct (last_time d Ha) as [back Hb]. destruct (l_le_nan _ _ Hk) as [K _].
  destruct (times_ok_norm d Ha Ht) as [Ko [Kf _]]. destruct (retained_iff p d kk back n it Ha Ht K Hb E) as [M H].
  destruct (Nat.eq_dec (length (selection it)) (length (normalised_timeseries d))) as [G|G]; [exact G|exfalso].
  destruct (nth_error (normalised_timeseries d) (length (selection it))) as [x|] eqn:Hx; [|apply nth_error_None in Hx; lia].
  assert (F := Kf x (nth_error_In _ _ Hx)). apply (Nat.lt_irrefl (length (selection it))). apply (H _ _ Hx).
  apply l_le_trans with (nadd x nzero).
  - apply l_add_mono_r; [exact Hk| |]; apply l_add_fin_nan; try assumption. apply zero_nan.
  - apply l_le_trans with x; [exact (proj1 (eq_le _ _ (l_add_0_r x (l_fin_nan x F))))|]. apply (Ko (length (selection it)) (length (normalised_timeseries d) - 1)); try assumption. lia.
Qed.

Lemma count_none p d kk back n it : accepted d -> times_ok d ->
  nth_error (normalised_timeseries d) (length (normalised_timeseries d) - 1) = Some back -> nlt back kk = true ->
  naturalSelectionFunctionIdx p d (CorrelationIterator kk n) = (it, Ok tt) -> selection it = [].
Proof.
  intros Ha Ht Hb Hk E. destruct (lt_nan _ _ Hk) as [_ K]. destruct (times_ok_norm d Ha Ht) as [_ [_ [H0 _]]].
  destruct (retained_iff p d kk back n it Ha Ht K Hb E) as [_ H]. specialize (H 0 nzero H0).
  destruct (selection it) as [|a l]; [reflexivity|exfalso]. destruct H as [H _]. specialize (H ltac:(cbn; lia)).
  pose proof (l_le_trans _ _ _ (proj2 (eq_le _ _ (l_add_0_l kk K))) H) as G. rewrite (lt_nle _ _ Hk) in G. discriminate.
Qed.

End Count.

Lemma value_none A (HA : arith A) p (d : @dstruct A) mi ma re al wgt lags corr c rows j i row kk back :
  accepted d -> times_ok d -> autocorrelation p d mi ma re al "natural" wgt = Ok (lags, corr, c) ->
  data_2d d = Ok rows -> nth_error rows j = Some row -> nth_error lags i = Some kk ->
  nth_error (normalised_timeseries d) (length (normalised_timeseries d) - 1) = Some back -> nlt back kk = true ->
  corr_at corr j i = Some (nmul nzero (ndiv none_ (sum_sq32 row))).
Proof.
  intros Ha Ht E Hd Hj Hi Hb Hk. pose proof (arith_laws A HA) as L1. pose proof (arith_laws2 A HA) as L2.
  destruct (value_by_iterator p d mi ma re al "natural" wgt lags corr c rows j i row kk Ha E Hd Hj Hi)
    as [f' [w' [it0 [it' [Hf' [Hw' [Hrun [Hdt [Ho [Hl [Hs HV]]]]]]]]]]]. cbv zeta in HV. rewrite norm_of_sum_sq in HV.
  injection Hf' as <-. rewrite (count_none p d kk back _ it0 Ha Ht Hb Hk Hrun) in HV. exact HV.
Qed.

Lemma wide p d mi ma re al sel wgt lags corr c rows j i (rs ts os : list R) (kk a D : R) f n s :
  accepted d -> autocorrelation (A := XR) p d mi ma re al sel wgt = Ok (lags, corr, c) ->
  data_2d d = Ok rows -> nth_error rows j = Some (map Fin rs) -> nth_error lags i = Some (Fin kk) ->
  timeseries d = map Fin ts -> opt_or al (median_time d) = Fin a -> 0 < a ->
  selection_function p sel d = Some f -> pairs_by (A := XR) p d f (Fin kk) n = Ok (s, map Fin os) ->
  0 < sq_dev32 rs -> (forall q, (q < length s)%nat -> nth q os 0 <= D) ->
  let B := rsum_n (length s) (fun q => Rabs (dev rs q * dev rs (nth q s 0%nat))) / sq_dev32 rs in
  let u := rsum_n (length s) (fun q => dev rs q * dev rs (nth q s 0%nat)) / sq_dev32 rs in
  exists r, corr_at corr j i = Some (Fin r) /\
    Rabs (r - u) <= (if String.eqb wgt "fractional" then D / a else (D / a) * (D / a)) * B.
Proof.
  intros Ha E Hd Hj Hi Ht Hal Hpos Hf HP HD Ho B u.
  destruct (value_exact_pairs p d mi ma re al sel wgt lags corr c rows j i rs ts os kk a f n s Ha E Hd Hj Hi Ht Hal Hpos Hf HP)
    as [_ [_ [_ [_ [_ [Po _]]]]]].
  destruct (value_close p d mi ma re al sel wgt lags corr c rows j i rs ts os kk a
     (if String.eqb wgt "fractional" then D / a else (D / a) * (D / a)) f n s (fun _ => 1) Ha E Hd Hj Hi Ht Hal Hpos Hf HP HD) as [r [Hr C]].
  - intros q Hq. pose proof (rweight_wide wgt a (nth q os 0) D Hpos (conj (Po q) (Ho q Hq))) as W.
    rewrite Rabs_left1 by lra. lra.
  - exists r. split; [exact Hr|]. unfold u, B. rewrite (rsum_n_ext (length s) (fun q => dev rs q * dev rs (nth q s 0%nat)) (fun q => 1 * (dev rs q * dev rs (nth q s 0%nat)))) by (intros; ring).
    exact C.
Qed.

Lemma narrow p d mi ma re al sel wgt lags corr c rows j i (rs ts os : list R) (kk a dl : R) f n s :
  accepted d -> autocorrelation (A := XR) p d mi ma re al sel wgt = Ok (lags, corr, c) ->
  data_2d d = Ok rows -> nth_error rows j = Some (map Fin rs) -> nth_error lags i = Some (Fin kk) ->
  timeseries d = map Fin ts -> opt_or al (median_time d) = Fin a -> 0 < a ->
  selection_function p sel d = Some f -> pairs_by (A := XR) p d f (Fin kk) n = Ok (s, map Fin os) ->
  0 < sq_dev32 rs -> 0 < dl -> (forall q, (q < length s)%nat -> nth q os 0 = 0 \/ dl <= nth q os 0) ->
  let B := rsum_n (length s) (fun q => Rabs (dev rs q * dev rs (nth q s 0%nat))) / sq_dev32 rs in
  let u := rsum_n (length s) (fun q => if Req_EM_T (nth q os 0) 0 then dev rs q * dev rs (nth q s 0%nat) else 0) / sq_dev32 rs in
  exists r, corr_at corr j i = Some (Fin r) /\
    Rabs (r - u) <= (if String.eqb wgt "fractional" then a / dl else 2 * ((a / dl) * (a / dl))) * B.
Proof.
  intros Ha E Hd Hj Hi Ht Hal Hpos Hf HP HD Hdl Ho B u.
  destruct (value_close p d mi ma re al sel wgt lags corr c rows j i rs ts os kk a
     (if String.eqb wgt "fractional" then a / dl else 2 * ((a / dl) * (a / dl))) f n s (fun q => if Req_EM_T (nth q os 0) 0 then 1 else 0) Ha E Hd Hj Hi Ht Hal Hpos Hf HP HD) as [r [Hr C]].
  - intros q Hq. cbv beta. destruct (Req_EM_T (nth q os 0) 0) as [E0|E0].
    + rewrite E0, rweight_0 by exact Hpos. rewrite Rminus_diag_eq, Rabs_R0 by reflexivity.
      assert (Q : 0 < a / dl) by (apply Rmult_lt_0_compat; [exact Hpos|apply Rinv_0_lt_compat; exact Hdl]).
      destruct (String.eqb wgt "fractional"); [lra|]. pose proof (Rmult_lt_0_compat _ _ Q Q). lra.
    + destruct (Ho q Hq) as [|Hx]; [contradiction|]. pose proof (rweight_narrow wgt a (nth q os 0) dl Hpos Hdl Hx) as W.
      rewrite Rminus_0_r, Rabs_right by lra. lra.
  - exists r. split; [exact Hr|]. unfold u, B.
    rewrite (rsum_n_ext (length s) (fun q => if Req_EM_T (nth q os 0) 0 then dev rs q * dev rs (nth q s 0%nat) else 0)
      (fun q => (if Req_EM_T (nth q os 0) 0 then 1 else 0) * (dev rs q * dev rs (nth q s 0%nat)))) by (intros q _; destruct (Req_EM_T (nth q os 0) 0); ring).
    exact C.
Qed.

(** the call by itself gives the pairs *)
Lemma call_pairs p d mi ma re al sel wgt lags corr c rows j i (rs ts : list R) (kk : R) :
  accepted d -> autocorrelation (A := XR) p d mi ma re al sel wgt = Ok (lags, corr, c) ->
  data_2d d = Ok rows -> nth_error rows j = Some (map Fin rs) -> nth_error lags i = Some (Fin kk) -> timeseries d = map Fin ts ->
  exists f s os, selection_function p sel d = Some f /\ pairs_by (A := XR) p d f (Fin kk) (length rows) = Ok (s, map Fin os) /\ length s = length os.
Proof.
  intros Ha E Hd Hj Hi Ht.
  destruct (value_by_iterator p d mi ma re al sel wgt lags corr c rows j i (map Fin rs) (Fin kk) Ha E Hd Hj Hi)
    as [f [w' [it0 [it' [Hf [Hw' [Hrun [Hdt _]]]]]]]].
  assert (P : pairs_by (A := XR) p d f (Fin kk) (length rows) = Ok (selection it', offsets it')).
  { unfold pairs_by. rewrite Hrun. cbn [bind]. rewrite Hdt. reflexivity. }
  destruct (pairs_exact p d sel f kk _ _ _ ts Ha Ht Hf P) as [_ [_ [_ Eo]]].
  exists f, (selection it'), (map (off_of p ts kk (selection it')) (seq 0 (length (selection it')))).
  split; [exact Hf|]. split; [rewrite <- Eo; exact P|rewrite map_length, seq_length; reflexivity].
Qed.

Lemma natural_wide p d mi ma re al wgt lags corr c rows j i (rs ts : list R) (kk a g : R) :
  accepted d -> times_ok (A := XR) d -> p_abs p = AbsFloat -> autocorrelation (A := XR) p d mi ma re al "natural" wgt = Ok (lags, corr, c) ->
  data_2d d = Ok rows -> nth_error rows j = Some (map Fin rs) -> nth_error lags i = Some (Fin kk) -> 0 <= kk ->
  timeseries d = map Fin ts -> opt_or al (median_time d) = Fin a -> 0 < a -> 0 < sq_dev32 rs ->
  0 <= g -> (forall q, (S q < length ts)%nat -> nth (S q) ts 0 - nth q ts 0 <= g) ->
  exists s r, (length s <= length ts)%nat /\ (forall x, In x s -> (x < length ts)%nat) /\
    (forall q, (q < length s)%nat -> Rabs (nth (nth q s 0%nat) ts 0 - (nth q ts 0 + kk)) <= g / 2) /\
    corr_at corr j i = Some (Fin r) /\
    Rabs (r - rsum_n (length s) (fun q => dev rs q * dev rs (nth q s 0%nat)) / sq_dev32 rs) <=
      (if String.eqb wgt "fractional" then g / 2 / a else (g / 2 / a) * (g / 2 / a)) *
      (rsum_n (length s) (fun q => Rabs (dev rs q * dev rs (nth q s 0%nat))) / sq_dev32 rs).
Proof.
  intros Ha Hok Hp E Hd Hj Hi Hk Ht Hal Hpos HD Hg Hgap.
  destruct (call_pairs p d mi ma re al "natural" wgt lags corr c rows j i rs ts kk Ha E Hd Hj Hi Ht) as [f [s [os [Hf [HP HL]]]]].
  pose proof Hf as Hf'. injection Hf as <-.
  destruct (pairs_exact p d "natural" _ kk _ s _ ts Ha Ht Hf' HP) as [_ [L1 [L2 Eo]]].
  assert (Hts : forall q, (q < length ts)%nat -> nth 0 ts 0 <= nth q ts 0).
  { intros q Hq. destruct (accepted_times d Ha) as [tx [data [er [N [Ed [_ [Ent _]]]]]]].
    assert (Etx : tx = map Fin ts) by (rewrite <- Ht, Ed; reflexivity). rewrite Etx, rel_times_Fin in Ent.
    destruct (times_ok_norm d Ha Hok) as [_ [_ [_ Hpos0]]].
    assert (Hn : nth_error (normalised_timeseries d) q = Some (Fin (nth q ts 0 - nth 0 ts 0))) by (rewrite Ent, !nth_error_map, (nth_error_nth' ts 0 Hq); reflexivity).
    specialize (Hpos0 _ (nth_error_In _ _ Hn)). cbn in Hpos0. apply Rleb_true in Hpos0. lra. }
  assert (HO : forall q, (q < length s)%nat -> nth q os 0 <= g / 2).
  { intros q Hq. apply (natural_offsets p d kk _ s os ts g Ha Hok Hp Ht HP Hg Hgap q Hq). specialize (Hts q ltac:(lia)). lra. }
  destruct (wide p d mi ma re al "natural" wgt lags corr c rows j i rs ts os kk a (g / 2) _ _ s Ha E Hd Hj Hi Ht Hal Hpos Hf' HP HD HO) as [r [Hr C]].
  exists s, r. split; [exact L1|]. split; [exact L2|]. split; [|split; [exact Hr|exact C]].
  intros q Hq. specialize (HO q Hq). apply (f_equal (fun l => nth_error l q)) in Eo. rewrite !nth_error_map, nth_error_seq in Eo.
  destruct (Nat.ltb_spec q (length s)); [|lia]. cbn [option_map Nat.add] in Eo.
  destruct (nth_error os q) as [o|] eqn:Eq; [|discriminate]. cbn [option_map] in Eo. injection Eo as Eo.
  rewrite (nth_error_nth _ _ _ Eq) in HO. unfold off_of, dist in Eo. rewrite Hp in Eo. lra.
Qed.
