(** Time stamps, or lags, that differ by little: the same pairs, and correlations that differ by little; a jump where two times are equally near. *)
From Coq Require Import String.
From Coq Require Import ZArith Reals List Bool Arith Lia Lra Psatz.
From Flocq Require Import Core.
From Verif Require Import Num Mem MemFacts XR B64 Spec SpecR SpecTime DataStructure DSFacts Correlator Sacf Api CorrFacts LoopFacts MainFacts
  Laws Laws2 ConstrFacts SelFacts SelThms FastFacts TimeFacts WeightFacts ValFacts ExactFacts GridVals FixedThms GridSums ItThms PairBounds.
Import ListNotations.
Local Open Scope list_scope.
Local Open Scope R_scope.

(** ** The natural selection in exact arithmetic, by real numbers *)
Lemma natural_exact p (d : @dstruct XR) kk n s os ts : accepted d -> times_ok (A := XR) d -> p_abs p = AbsFloat -> timeseries d = map Fin ts ->
  pairs_by (A := XR) p d (naturalSelectionFunctionIdx (A := XR) p d) (Fin kk) n = Ok (s, map Fin os) ->
  (length s <= length ts)%nat /\
  (forall q, (q < length ts)%nat -> ((q < length s)%nat <-> 0 <= gap ts kk q (length ts - 1))) /\
  (forall q, (q < length s)%nat -> (nth q s 0 < length ts)%nat /\ nth q os 0 = Rabs (gap ts kk q (nth q s 0%nat)) /\
     forall z, (z < length ts)%nat -> Rabs (gap ts kk q (nth q s 0%nat)) <= Rabs (gap ts kk q z)).
Proof.
  intros Ha Hok Hp Ht HP.
  destruct (pairs_exact p d "natural" _ kk n s (map Fin os) ts Ha Ht eq_refl HP) as [_ [L1 [L2 Eo]]].
  destruct (accepted_times d Ha) as [tx [data [er [N [Ed [Hnil [Ent _]]]]]]].
  assert (Etx : tx = map Fin ts) by (rewrite <- Ht, Ed; reflexivity). rewrite Etx, rel_times_Fin in Ent.
  assert (Hts : ts <> []) by (intros ->; apply Hnil; exact Etx).
  assert (Lt : (0 < length ts)%nat) by (destruct ts; [congruence|cbn; lia]).
  assert (Hnt : forall x, (x < length ts)%nat -> nth_error (normalised_timeseries d) x = Some (Fin (nth x ts 0 - nth 0 ts 0))).
  { intros x Hx. rewrite Ent, !nth_error_map, (nth_error_nth' ts 0 Hx). reflexivity. }
  destruct (natural_pairs_run p d (Fin kk) n s (map Fin os) Ha HP) as [it [Hrun Hsel]].
  assert (Hb : nth_error (normalised_timeseries d) (length (normalised_timeseries d) - 1) = Some (Fin (nth (length ts - 1) ts 0 - nth 0 ts 0))).
  { replace (length (normalised_timeseries d)) with (length ts) by (rewrite Ent, !map_length; reflexivity). apply Hnt. lia. }
  split; [exact L1|]. split.
  - intros q Hq. destruct (@retained_iff XR XR_laws XR_laws2 p d (Fin kk) _ n it Ha Hok eq_refl Hb Hrun) as [_ H].
    specialize (H q _ (Hnt q Hq)). rewrite Hsel in H. rewrite H. unfold gap. split.
    + intros K. cbn in K. apply Rleb_true in K. lra.
    + intros K. cbn. apply Rleb_true. lra.
  - intros q Hq. assert (Hs : (nth q s 0 < length ts)%nat) by (apply L2, nth_In, Hq). split; [exact Hs|]. split.
    + apply (f_equal (fun l => nth_error l q)) in Eo. rewrite !nth_error_map, nth_error_seq in Eo.
      destruct (Nat.ltb_spec q (length s)); [|lia]. cbn [option_map Nat.add] in Eo.
      destruct (nth_error os q) as [o|] eqn:E; [|discriminate]. cbn [option_map] in Eo. injection Eo as ->.
      rewrite (nth_error_nth _ _ _ E). unfold off_of, dist. rewrite Hp. reflexivity.
    + assert (Hi : nth_error (selection it) q = Some (nth q s 0%nat)) by (rewrite Hsel; apply nth_error_nth'; exact Hq).
      destruct (@natural_nearest XR XR_laws XR_laws2 p d (Fin kk) n it Ha Hok Hp eq_refl Hrun q _ Hi) as [x [y [Ex [Ey Hmin]]]].
      rewrite Hnt in Ex by lia. rewrite Hnt in Ey by exact Hs. injection Ex as <-. injection Ey as <-.
      intros z Hz. specialize (Hmin _ (nth_error_In _ _ (Hnt z Hz))). cbn in Hmin. apply Rleb_true in Hmin. unfold gap.
      rewrite Rabs_minus_sym, (Rabs_minus_sym (nth z ts 0)).
      match goal with |- Rabs ?a <= Rabs ?b => match type of Hmin with Rabs ?c <= Rabs ?e => replace a with c by ring; replace b with e by ring end end. exact Hmin.
Qed.

(** ** The same pairs *)
Lemma abs_near x y e : Rabs (x - y) <= e -> Rabs x <= Rabs y + e /\ Rabs y <= Rabs x + e.
Proof.
  intros H. split.
  - replace x with (y + (x - y)) by ring. eapply Rle_trans; [apply Rabs_triang|]. lra.
  - replace y with (x - (x - y)) by ring. eapply Rle_trans; [apply (Rabs_triang x (- (x - y)))|]. rewrite Rabs_Ropp. lra.
Qed.

Lemma same_sign x y e : Rabs (x - y) <= e -> e < Rabs x -> 0 <= x <-> 0 <= y.
Proof. intros H K. unfold Rabs in *. repeat destruct Rcase_abs; split; lra. Qed.

Lemma same_pairs p (d d' : @dstruct XR) kk kk' n n' s s' os os' ts ts' e :
  accepted d -> times_ok (A := XR) d -> accepted d' -> times_ok (A := XR) d' -> p_abs p = AbsFloat ->
  timeseries d = map Fin ts -> timeseries d' = map Fin ts' -> close_times ts ts' kk kk' e -> clear_choice ts kk e ->
  pairs_by (A := XR) p d (naturalSelectionFunctionIdx (A := XR) p d) (Fin kk) n = Ok (s, map Fin os) ->
  pairs_by (A := XR) p d' (naturalSelectionFunctionIdx (A := XR) p d') (Fin kk') n' = Ok (s', map Fin os') ->
  s' = s /\ forall q, (q < length s)%nat -> Rabs (nth q os 0 - nth q os' 0) <= e.
Proof.
  intros Ha Hok Ha' Hok' Hp Ht Ht' [CL [CG CK]] [Q1 Q2] HP HP'.
  destruct (natural_exact p d kk n s os ts Ha Hok Hp Ht HP) as [A1 [A2 A3]].
  destruct (natural_exact p d' kk' n' s' os' ts' Ha' Hok' Hp Ht' HP') as [B1 [B2 B3]]. rewrite CL in *.
  assert (SG : forall q, (q < length ts)%nat -> (0 <= gap ts kk q (length ts - 1) <-> 0 <= gap ts' kk' q (length ts - 1))).
  { intros q Hq. destruct (Nat.eq_dec (S q) (length ts)) as [E|E].
    - replace (length ts - 1)%nat with q by lia. unfold gap. replace (nth q ts 0 - (nth q ts 0 + kk)) with (- kk) by ring.
      replace (nth q ts' 0 - (nth q ts' 0 + kk')) with (- kk') by ring. destruct CK as [->|CK]; [reflexivity|].
      apply (same_sign _ _ e); [|rewrite Rabs_Ropp; exact CK]. specialize (CG q q Hq Hq). unfold gap in CG.
      replace (- kk - - kk') with (nth q ts 0 - (nth q ts 0 + kk) - (nth q ts' 0 - (nth q ts' 0 + kk'))) by ring. exact CG.
    - apply (same_sign _ _ e); [apply CG; lia|apply Q1; lia]. }
  assert (IFF : forall q, (q < length ts)%nat -> ((q < length s)%nat <-> (q < length s')%nat)).
  { intros q Hq. rewrite (A2 q Hq), (B2 q Hq). apply SG, Hq. }
  assert (EL : length s' = length s).
  { destruct (Nat.lt_trichotomy (length s') (length s)) as [K|[K|K]]; [exfalso|exact K|exfalso].
    - pose proof (proj1 (IFF (length s') ltac:(lia)) K). lia.
    - pose proof (proj2 (IFF (length s) ltac:(lia)) K). lia. }
  assert (PQ : forall q, (q < length s)%nat -> nth q s' 0%nat = nth q s 0%nat).
  { intros q Hq. destruct (A3 q Hq) as [S1 [_ S2]]. destruct (B3 q ltac:(lia)) as [T1 [_ T2]]. rewrite ?CL in T1, T2.
    destruct (Q2 q ltac:(lia) (proj1 (A2 q ltac:(lia)) Hq)) as [x0 [X1 X2]].
    assert (nth q s 0%nat = x0) as ->.
    { destruct (Nat.eq_dec (nth q s 0%nat) x0) as [E|E]; [exact E|exfalso]. pose proof (X2 _ S1 E) as K1. pose proof (S2 x0 X1) as K2.
      pose proof (CG q q ltac:(lia) ltac:(lia)) as K3. pose proof (Rabs_pos (gap ts kk q q - gap ts' kk' q q)). lra. }
    destruct (Nat.eq_dec (nth q s' 0%nat) x0) as [E|E]; [exact E|exfalso]. pose proof (X2 _ T1 E) as K1. pose proof (T2 x0 X1) as K2.
    pose proof (proj1 (abs_near _ _ _ (CG q _ ltac:(lia) T1))). pose proof (proj2 (abs_near _ _ _ (CG q x0 ltac:(lia) X1))). lra. }
  split.
  - apply (nth_ext _ _ 0%nat 0%nat); [exact EL|]. intros q Hq. apply PQ. lia.
  - intros q Hq. destruct (A3 q Hq) as [S1 [-> _]]. destruct (B3 q ltac:(lia)) as [_ [-> _]]. rewrite (PQ q Hq).
    pose proof (abs_near _ _ _ (CG q (nth q s 0%nat) ltac:(lia) S1)) as [K1 K2]. apply Rabs_le. lra.
Qed.

(** ** Each weight changes by at most the change of the offset over alpha *)
Lemma one_sided (f : R -> R) : (forall u v, 0 <= u -> u <= v -> 0 <= f u - f v <= v - u) ->
  forall u v, 0 <= u -> 0 <= v -> Rabs (f u - f v) <= Rabs (u - v).
Proof.
  intros H u v Hu Hv. destruct (Rle_lt_dec u v) as [L|L].
  - specialize (H u v Hu L). rewrite (Rabs_right (f u - f v)), (Rabs_minus_sym u v), (Rabs_right (v - u)) by lra. lra.
  - specialize (H v u Hv ltac:(lra)). rewrite (Rabs_minus_sym (f u)), (Rabs_right (f v - f u)), (Rabs_right (u - v)) by lra. lra.
Qed.

Lemma frac_lip u v : 0 <= u -> u <= v -> 0 <= / (1 + u) - / (1 + v) <= v - u.
Proof.
  intros Hu Hv. replace (/ (1 + u) - / (1 + v)) with ((v - u) * / ((1 + u) * (1 + v))) by (field; split; lra).
  assert (1 <= (1 + u) * (1 + v)) by nra. assert (0 < / ((1 + u) * (1 + v)) <= 1).
  { split; [apply Rinv_0_lt_compat; lra|]. rewrite <- Rinv_1. apply Rinv_le; lra. }
  split; nra.
Qed.

Lemma frac2_lip u v : 0 <= u -> u <= v -> 0 <= / (1 + u * u) - / (1 + v * v) <= v - u.
Proof.
  intros Hu Hv. assert (0 <= u * u) by nra. assert (0 <= v * v) by nra.
  replace (/ (1 + u * u) - / (1 + v * v)) with ((v - u) * ((v + u) * / ((1 + u * u) * (1 + v * v)))) by (field; split; lra).
  assert (P : v + u <= (1 + u * u) * (1 + v * v)).
  { assert (0 <= (u * u) * (v * v)) by nra. pose proof (Rle_0_sqr (u - 1)) as Z1; unfold Rsqr in Z1. pose proof (Rle_0_sqr (v - 1)) as Z2; unfold Rsqr in Z2. nra. }
  assert (0 <= (v + u) * / ((1 + u * u) * (1 + v * v)) <= 1).
  { assert (0 < (1 + u * u) * (1 + v * v)) by nra. assert (I : 0 < / ((1 + u * u) * (1 + v * v))) by (apply Rinv_0_lt_compat; lra).
    split; [apply Rmult_le_pos; lra|]. apply Rle_trans with ((1 + u * u) * (1 + v * v) * / ((1 + u * u) * (1 + v * v))); [apply Rmult_le_compat_r; lra|rewrite Rinv_r; lra]. }
  split; nra.
Qed.

Lemma gauss_lip u v : 0 <= u -> u <= v -> 0 <= exp (- (u * u) / 2) - exp (- (v * v) / 2) <= v - u.
Proof.
  intros Hu Hv. assert (Huv : u * u <= v * v) by nra. split.
  - destruct (Req_dec (u * u) (v * v)) as [E|E]; [rewrite E; lra|].
    assert (exp (- (v * v) / 2) < exp (- (u * u) / 2)) by (apply exp_increasing; lra). lra.
  - assert (E1 : exp (- (u * u) / 2) <= 1).
    { rewrite <- exp_0. destruct (Req_dec (u * u) 0) as [E|E]; [rewrite E; right; f_equal; lra|]. left. apply exp_increasing. nra. }
    pose proof (exp_pos (- (v * v) / 2)) as P1. destruct (Rle_lt_dec (v - u) 1) as [L|L]; [|lra].
    replace (- (v * v) / 2) with (- (u * u) / 2 + - ((v - u) * (v + u) / 2)) by field. rewrite exp_plus.
    set (z := (v - u) * (v + u) / 2). pose proof (exp_pos (- (u * u) / 2)) as P2.
    assert (Hz : 1 - z <= exp (- z)).
    { destruct (Req_dec z 0) as [->|Hz]; [rewrite Ropp_0, exp_0; lra|]. pose proof (exp_ineq1 (- z) ltac:(lra)). lra. }
    assert (Hu2 : exp (- (u * u) / 2) * (1 + u * u / 2) <= 1).
    { assert (K : 1 + u * u / 2 <= exp (u * u / 2)).
      { destruct (Req_dec (u * u / 2) 0) as [->|Hn]; [rewrite exp_0; lra|]. pose proof (exp_ineq1 (u * u / 2) ltac:(lra)). lra. }
      apply Rle_trans with (exp (- (u * u) / 2) * exp (u * u / 2)); [apply Rmult_le_compat_l; lra|]. rewrite <- exp_plus.
      replace (- (u * u) / 2 + u * u / 2) with 0 by field. rewrite exp_0. lra. }
    apply Rle_trans with (exp (- (u * u) / 2) * z); [nra|].
    assert (Hz2 : z <= (v - u) * (1 + u * u / 2)).
    { unfold z. pose proof (Rle_0_sqr (u - 1)) as Z1; unfold Rsqr in Z1. nra. }
    apply Rle_trans with (exp (- (u * u) / 2) * ((v - u) * (1 + u * u / 2))); [apply Rmult_le_compat_l; lra|].
    replace (exp (- (u * u) / 2) * ((v - u) * (1 + u * u / 2))) with ((v - u) * (exp (- (u * u) / 2) * (1 + u * u / 2))) by ring. nra.
Qed.

Lemma rweight_lip wgt a x y : 0 < a -> 0 <= x -> 0 <= y -> Rabs (rweight wgt a x - rweight wgt a y) <= Rabs (x - y) / a.
Proof.
  intros Ha Hx Hy. assert (I : 0 < / a) by (apply Rinv_0_lt_compat; exact Ha).
  assert (U : 0 <= x / a) by (apply Rmult_le_pos; lra). assert (V : 0 <= y / a) by (apply Rmult_le_pos; lra).
  replace (Rabs (x - y) / a) with (Rabs (x / a - y / a)).
  2:{ replace (x / a - y / a) with ((x - y) * / a) by (field; lra). rewrite Rabs_mult, (Rabs_right (/ a)) by lra. reflexivity. }
  unfold rweight. destruct (String.eqb wgt "fractional"); [|destruct (String.eqb wgt "fractional_squared")].
  - exact (one_sided (fun u => / (1 + u)) frac_lip _ _ U V).
  - exact (one_sided (fun u => / (1 + u * u)) frac2_lip _ _ U V).
  - replace (- (x * x) / (2 * a * a)) with (- (x / a * (x / a)) / 2) by (field; lra).
    replace (- (y * y) / (2 * a * a)) with (- (y / a * (y / a)) / 2) by (field; lra).
    exact (one_sided (fun u => exp (- (u * u) / 2)) gauss_lip _ _ U V).
Qed.

(** ** Correlations that differ by little *)
Lemma close_values p (d d' : @dstruct XR) mi ma re al mi' ma' re' al' wgt lags corr c lags' corr' c' rows rows' j j' i i' (rs ts ts' : list R) (kk kk' a e : R) :
  accepted d -> times_ok (A := XR) d -> accepted d' -> times_ok (A := XR) d' -> p_abs p = AbsFloat ->
  autocorrelation (A := XR) p d mi ma re al "natural" wgt = Ok (lags, corr, c) ->
  autocorrelation (A := XR) p d' mi' ma' re' al' "natural" wgt = Ok (lags', corr', c') ->
  data_2d d = Ok rows -> nth_error rows j = Some (map Fin rs) -> data_2d d' = Ok rows' -> nth_error rows' j' = Some (map Fin rs) ->
  timeseries d = map Fin ts -> timeseries d' = map Fin ts' ->
  nth_error lags i = Some (Fin kk) -> nth_error lags' i' = Some (Fin kk') ->
  opt_or al (median_time d) = Fin a -> opt_or al' (median_time d') = Fin a -> 0 < a -> 0 < sq_dev32 rs ->
  close_times ts ts' kk kk' e -> clear_choice ts kk e ->
  exists s r r', (length s <= length ts)%nat /\ (forall x, In x s -> (x < length ts)%nat) /\
    pairs_by (A := XR) p d (naturalSelectionFunctionIdx (A := XR) p d) (Fin kk) (length rows) = Ok (s, map (fun q => Fin (Rabs (gap ts kk q (nth q s 0%nat)))) (seq 0 (length s))) /\
    pairs_by (A := XR) p d' (naturalSelectionFunctionIdx (A := XR) p d') (Fin kk') (length rows') = Ok (s, map (fun q => Fin (Rabs (gap ts' kk' q (nth q s 0%nat)))) (seq 0 (length s))) /\
    corr_at corr j i = Some (Fin r) /\ corr_at corr' j' i' = Some (Fin r') /\
    Rabs (r - r') <= e / a * (rsum_n (length s) (fun q => Rabs (dev rs q * dev rs (nth q s 0%nat))) / sq_dev32 rs).
Proof.
  intros Ha Hok Ha' Hok' Hp E E' Hd Hj Hd' Hj' Ht Ht' Hi Hi' Hal Hal' Hpos HD HC HQ.
  destruct (call_pairs p d mi ma re al "natural" wgt lags corr c rows j i rs ts kk Ha E Hd Hj Hi Ht) as [f [s [os [Hf [HP HL]]]]].
  destruct (call_pairs p d' mi' ma' re' al' "natural" wgt lags' corr' c' rows' j' i' rs ts' kk' Ha' E' Hd' Hj' Hi' Ht') as [f' [s' [os' [Hf' [HP' HL']]]]].
  pose proof Hf as Hg. pose proof Hf' as Hg'. injection Hf as <-. injection Hf' as <-.
  destruct (same_pairs p d d' kk kk' _ _ s s' os os' ts ts' e Ha Hok Ha' Hok' Hp Ht Ht' HC HQ HP HP') as [-> HO].
  destruct (value_exact_pairs p d' mi' ma' re' al' "natural" wgt lags' corr' c' rows' j' i' rs ts' os' kk' a _ _ s Ha' E' Hd' Hj' Hi' Ht' Hal' Hpos Hg' HP')
    as [_ [_ [_ [_ [_ [Po' HV']]]]]].
  destruct (value_exact_pairs p d mi ma re al "natural" wgt lags corr c rows j i rs ts os kk a _ _ s Ha E Hd Hj Hi Ht Hal Hpos Hg HP)
    as [_ [_ [L1 [L2 [_ [Po HV]]]]]].
  destruct (value_close p d mi ma re al "natural" wgt lags corr c rows j i rs ts os kk a (e / a) _ _ s (fun q => rweight wgt a (nth q os' 0))
    Ha E Hd Hj Hi Ht Hal Hpos Hg HP HD) as [r [Er Hr]].
  { intros q Hq. eapply Rle_trans; [apply rweight_lip; [exact Hpos|apply Po|apply Po']|].
    apply Rmult_le_compat_r; [left; apply Rinv_0_lt_compat; exact Hpos|apply HO, Hq]. }
  assert (OS : forall d0 kk0 n0 os0 ts0, accepted d0 -> times_ok (A := XR) d0 -> timeseries d0 = map Fin ts0 -> length s = length os0 ->
    pairs_by (A := XR) p d0 (naturalSelectionFunctionIdx (A := XR) p d0) (Fin kk0) n0 = Ok (s, map Fin os0) ->
    map Fin os0 = map (fun q => Fin (Rabs (gap ts0 kk0 q (nth q s 0%nat)))) (seq 0 (length s))).
  { intros d0 kk0 n0 os0 ts0 G1 G2 G3 G4 G5. destruct (natural_exact p d0 kk0 n0 s os0 ts0 G1 G2 Hp G3 G5) as [_ [_ G6]].
    apply list_ext. intros q. rewrite !nth_error_map, nth_error_seq. destruct (Nat.ltb_spec q (length s)) as [Hq|Hq].
    - destruct (G6 q Hq) as [_ [G7 _]]. rewrite (nth_error_nth' os0 0) by lia. cbn [option_map Nat.add]. rewrite G7. reflexivity.
    - replace (nth_error os0 q) with (@None R); [reflexivity|]. symmetry. apply nth_error_None. lia. }
  exists s, r. eexists. split; [exact L1|]. split; [exact L2|].
  split; [rewrite <- (OS d kk (length rows) os ts Ha Hok Ht HL HP); exact HP|].
  split; [rewrite <- (OS d' kk' (length rows') os' ts' Ha' Hok' Ht' HL' HP'); exact HP'|].
  split; [exact Er|]. split; [|exact Hr]. rewrite HV'. cbn. unfold Reqb. destruct (Req_EM_T (sq_dev32 rs) 0); [lra|reflexivity].
Qed.
