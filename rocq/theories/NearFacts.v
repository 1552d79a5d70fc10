(** The partner of a time is unique and is the one selected (C111); only distances up to twice the lag matter (C112). *)
From Coq Require Import String.
From Coq Require Import ZArith Reals List Bool Arith Lia Lra.
From Flocq Require Import Core.
From Verif Require Import Num Mem MemFacts XR B64 Spec SpecR SpecTime SpecNear DataStructure DSFacts Correlator Sacf Api CorrFacts LoopFacts MainFacts
  Laws Laws2 ConstrFacts SelFacts SelThms FastFacts TimeFacts WeightFacts ValFacts ExactFacts GridVals FixedThms GridSums ItThms PairBounds TimeCloseFacts.
Import ListNotations.
Local Open Scope list_scope.
Local Open Scope R_scope.

Lemma partner_unique ts kk q z y : partner ts kk q z -> partner ts kk q y -> z = y.
Proof.
  intros [Z1 Z2] [Y1 Y2]. destruct (Nat.eq_dec z y) as [E|E]; [exact E|exfalso].
  pose proof (Z2 y Y1 (not_eq_sym E)) as A. pose proof (Y2 z Z1 E) as B. unfold preferred in *. intuition (lra || lia).
Qed.

(** ** The rule in either arithmetic *)
Lemma natural_rule {A : Num} (HA : arith A) p (d : dstruct) kk n it : accepted d -> times_ok d -> p_abs p = AbsFloat -> nisnan kk = false ->
  naturalSelectionFunctionIdx p d (CorrelationIterator kk n) = (it, Ok tt) ->
  let nt := normalised_timeseries d in
  forall q z, nth_error (selection it) q = Some z ->
  exists x i, nth_error nt q = Some x /\ (i < length nt)%nat /\
    (forall y t, (y < i)%nat -> nth_error nt y = Some t -> nlt t (nadd x kk) = true) /\
    (forall y t, (i <= y)%nat -> nth_error nt y = Some t -> nlt t (nadd x kk) = false) /\
    ((i = 0%nat /\ z = 0%nat) \/
     exists j a b, i = S j /\ nth_error nt j = Some a /\ nth_error nt i = Some b /\
       z = if nlt (nabs (nsub (nadd x kk) a)) (nabs (nsub (nadd x kk) b)) then j else i).
Proof.
  intros Ha Ht Hp Hk Hrun nt q z Hq. subst nt. pose proof (arith_laws A HA) as L1. pose proof (arith_laws2 A HA) as L2.
  destruct (times_ok_norm d Ha Ht) as [Ko [Kf _]].
  destruct (natural_run_inv p d kk n it Ha Hrun) as [m [back [Hb [_ [_ [_ [_ Hn]]]]]]].
  destruct (Hn q z Hq) as [x [Hx [Hbx Hidx]]].
  destruct (natural_index_cases p _ _ _ Hidx) as [i [Hsp Hc]].
  exists x, i. split; [exact Hx|]. split; [exact (split_inside _ _ _ _ Hb Hbx Hsp)|].
  split; [intros y t Hy Hyt; eapply split_below; eassumption|]. split; [intros y t Hy Hyt; eapply split_above; eassumption|].
  destruct Hc as [Hc|[H0 [a [b [da [db [E1 [E2 [E3 [E4 ->]]]]]]]]]]; [left; exact Hc|right].
  rewrite cabs_float in E3, E4 by exact Hp. injection E3 as <-. injection E4 as <-.
  exists (i - 1)%nat, a, b. split; [lia|]. split; [exact E1|]. split; [exact E2|]. reflexivity.
Qed.

Lemma real_order (d : @dstruct XR) ts : timeseries d = map Fin ts -> times_ok (A := XR) d ->
  forall x y, (x <= y)%nat -> (y < length ts)%nat -> nth x ts 0 <= nth y ts 0.
Proof.
  intros Ht [Ho _] x y Hxy Hy. rewrite Ht in Ho.
  assert (K : @nle XR (Fin (nth x ts 0)) (Fin (nth y ts 0)) = true).
  { apply (Ho x y); [lia| |]; rewrite nth_error_map; [rewrite (nth_error_nth' ts 0 (n := x)) by lia|rewrite (nth_error_nth' ts 0 (n := y)) by lia]; reflexivity. }
  apply nle_Fin in K. exact K.
Qed.

(** ** The selected index is the partner *)
Lemma natural_partner p (d : @dstruct XR) kk n s os ts : accepted d -> times_ok (A := XR) d -> p_abs p = AbsFloat -> timeseries d = map Fin ts ->
  pairs_by (A := XR) p d (naturalSelectionFunctionIdx (A := XR) p d) (Fin kk) n = Ok (s, os) ->
  forall q, (q < length s)%nat -> partner ts kk q (nth q s 0%nat).
Proof.
  intros Ha Hok Hp Ht HP q Hq.
  destruct (pairs_exact p d "natural" _ kk n s os ts Ha Ht eq_refl HP) as [_ [L1 [L2 _]]].
  pose proof (real_order d ts Ht Hok) as HO.
  assert (Hnt : forall x, (x < length ts)%nat -> nth_error (normalised_timeseries d) x = Some (Fin (nth x ts 0 - nth 0 ts 0))).
  { intros x Hx. destruct (accepted_times d Ha) as [tx [data [er [N [Ed [Hnil [Ent _]]]]]]].
    assert (Etx : tx = map Fin ts) by (rewrite <- Ht, Ed; reflexivity). rewrite Etx, rel_times_Fin in Ent.
    rewrite Ent, !nth_error_map, (nth_error_nth' ts 0 Hx). reflexivity. }
  assert (HL : length (normalised_timeseries d) = length ts).
  { destruct (accepted_times d Ha) as [tx [data [er [N [Ed [Hnil [Ent _]]]]]]].
    assert (Etx : tx = map Fin ts) by (rewrite <- Ht, Ed; reflexivity). rewrite Etx, rel_times_Fin in Ent. rewrite Ent, !map_length. reflexivity. }
  destruct (natural_pairs_run p d (Fin kk) n s os Ha HP) as [it [Hrun Hsel]].
  assert (Hz : nth_error (selection it) q = Some (nth q s 0%nat)) by (rewrite Hsel; apply nth_error_nth'; exact Hq).
  assert (Hs : (nth q s 0 < length ts)%nat) by (apply L2, nth_In, Hq).
  destruct (natural_rule (A := XR) arith_exact p d (Fin kk) n it Ha Hok Hp eq_refl Hrun q _ Hz) as [x [i [Ex [Hi [Hb [Hab Hc]]]]]].
  rewrite Hnt in Ex by lia. injection Ex as <-. rewrite HL in Hi. generalize dependent (nth q s 0%nat). intros z _ Hz Hc.
  assert (Hlow : forall y, (y < i)%nat -> gap ts kk q y < 0).
  { intros y Hy. pose proof (Hb y _ Hy (Hnt y ltac:(lia))) as K. cbn [nadd XR xadd] in K. apply nlt_Fin in K. unfold gap. lra. }
  assert (Hhigh : forall y, (i <= y < length ts)%nat -> 0 <= gap ts kk q y).
  { intros y [Hy Hy']. pose proof (Hab y _ Hy (Hnt y Hy')) as K. unfold gap.
    destruct (Rle_dec 0 (nth y ts 0 - (nth q ts 0 + kk))) as [G|G]; [exact G|exfalso].
    assert (@nlt XR (Fin (nth y ts 0 - nth 0 ts 0)) (@nadd XR (Fin (nth q ts 0 - nth 0 ts 0)) (Fin kk)) = true); [|congruence].
    apply nlt_Fin. lra. }
  assert (Hmono : forall x y, (x <= y)%nat -> (y < length ts)%nat -> gap ts kk q x <= gap ts kk q y).
  { intros x y H1 H2. unfold gap. pose proof (HO x y H1 H2). lra. }
  assert (Hup : forall y, (i <= y < length ts)%nat -> Rabs (gap ts kk q i) <= Rabs (gap ts kk q y)).
  { intros y Hy. rewrite !Rabs_pos_eq by (apply Hhigh; lia). apply Hmono; lia. }
  assert (Hdown : forall j y, i = S j -> (y <= j)%nat -> Rabs (gap ts kk q j) <= Rabs (gap ts kk q y)).
  { intros j y -> Hy. rewrite !Rabs_left by (apply Hlow; lia). pose proof (Hmono y j Hy ltac:(lia)). lra. }
  destruct Hc as [[-> ->]|(j & a & b & -> & E1 & E2 & Ez)].
  - split.
    + split; [lia|]. intros y Hy. apply Hup. lia.
    + intros y [Hy _] Hn. left. split; [apply Hhigh; lia|right; lia].
  - rewrite Hnt in E1, E2 by lia. injection E1 as <-. injection E2 as <-.
    assert (EA : forall y, @nabs XR (@nsub XR (@nadd XR (Fin (nth q ts 0 - nth 0 ts 0)) (Fin kk)) (Fin (nth y ts 0 - nth 0 ts 0))) = Fin (Rabs (gap ts kk q y))).
    { intros y. cbn. f_equal. unfold gap. rewrite (Rabs_minus_sym (nth y ts 0)). f_equal. ring. }
    rewrite !EA in Ez. destruct (@nlt XR (Fin (Rabs (gap ts kk q j))) (Fin (Rabs (gap ts kk q (S j))))) eqn:E.
    + subst z. apply nlt_Fin in E. split.
      * split; [lia|]. intros y Hy. destruct (Nat.le_gt_cases y j) as [G|G]; [apply Hdown; [reflexivity|exact G]|].
        pose proof (Hup y ltac:(lia)). lra.
      * intros y [Hy Hmin] Hn. right. split; [apply Hlow; lia|].
        assert (y <= j)%nat. { destruct (Nat.le_gt_cases y j) as [G|G]; [exact G|exfalso]. pose proof (Hup y ltac:(lia)). pose proof (Hmin j ltac:(lia)). lra. }
        split; [apply Hlow; lia|lia].
    + subst z. assert (E' : Rabs (gap ts kk q (S j)) <= Rabs (gap ts kk q j)).
      { destruct (Rle_dec (Rabs (gap ts kk q (S j))) (Rabs (gap ts kk q j))) as [G|G]; [exact G|exfalso].
        assert (@nlt XR (Fin (Rabs (gap ts kk q j))) (Fin (Rabs (gap ts kk q (S j)))) = true) by (apply nlt_Fin; lra). congruence. }
      split.
      * split; [lia|]. intros y Hy. destruct (Nat.le_gt_cases (S j) y) as [G|G]; [apply Hup; lia|].
        pose proof (Hdown j y eq_refl ltac:(lia)). lra.
      * intros y [Hy _] Hn. left. split; [apply Hhigh; lia|].
        destruct (Nat.le_gt_cases (S j) y) as [G|G]; [right; lia|left; apply Hlow; lia].
Qed.

(** ** Only distances up to twice the lag matter *)
Lemma near_gap ts ts' kk q z : same_near ts ts' (2 * Rabs kk) -> (q < length ts)%nat -> (z < length ts)%nat ->
  gap ts' kk q z = gap ts kk q z \/
  ((q < z)%nat /\ Rabs kk < gap ts kk q z /\ Rabs kk < gap ts' kk q z) \/
  ((z < q)%nat /\ gap ts kk q z < - Rabs kk /\ gap ts' kk q z < - Rabs kk).
Proof.
  intros [_ H] Hq Hz. unfold gap. pose proof (Rle_abs kk). pose proof (Rle_abs (- kk)). rewrite Rabs_Ropp in *.
  destruct (Nat.lt_trichotomy q z) as [E|[->|E]].
  - destruct (H q z ltac:(lia) Hz) as [K|[K1 K2]]; [left; lra|right; left; repeat split; (lia || lra)].
  - left. ring.
  - destruct (H z q ltac:(lia) Hq) as [K|[K1 K2]]; [left; lra|right; right; repeat split; (lia || lra)].
Qed.

Lemma same_near_sym ts ts' w : same_near ts ts' w -> same_near ts' ts w.
Proof. intros [L H]. split; [symmetry; exact L|]. intros x y Hx Hy. rewrite L in Hy. destruct (H x y Hx Hy) as [K|[K1 K2]]; [left; lra|right; lra]. Qed.

Lemma nearest_near ts ts' kk q z : same_near ts ts' (2 * Rabs kk) -> (q < length ts)%nat -> nearest_to ts kk q z ->
  gap ts' kk q z = gap ts kk q z /\ nearest_to ts' kk q z.
Proof.
  intros HN Hq [Hz Hmin]. pose proof (Hmin q Hq) as K. assert (Eq : forall t, Rabs (gap t kk q q) = Rabs kk).
  { intros t. unfold gap. rewrite <- (Rabs_Ropp kk). f_equal. ring. }
  rewrite Eq in K. assert (E : gap ts' kk q z = gap ts kk q z).
  { destruct (near_gap ts ts' kk q z HN Hq Hz) as [E|[[_ [E _]]|[_ [E _]]]]; [exact E|exfalso|exfalso].
    - pose proof (Rle_abs (gap ts kk q z)). lra.
    - pose proof (Rle_abs (- gap ts kk q z)). rewrite Rabs_Ropp in *. lra. }
  split; [exact E|]. destruct HN as [L HN]. split; [lia|]. rewrite L, E. intros y Hy. pose proof (Hmin y Hy).
  destruct (near_gap ts ts' kk q y (conj L HN) Hq Hy) as [->|[[_ [_ G]]|[_ [_ G]]]]; [assumption| |].
  - pose proof (Rle_abs (gap ts' kk q y)). lra.
  - pose proof (Rle_abs (- gap ts' kk q y)). rewrite Rabs_Ropp in *. lra.
Qed.

Lemma partner_near ts ts' kk q z : same_near ts ts' (2 * Rabs kk) -> (q < length ts)%nat -> partner ts kk q z -> partner ts' kk q z.
Proof.
  intros HN Hq [H1 H2]. destruct (nearest_near _ _ _ _ _ HN Hq H1) as [E1 N1]. split; [exact N1|]. intros y Hy Hn.
  assert (L : length ts' = length ts) by apply HN.
  destruct (nearest_near ts' ts kk q y (same_near_sym _ _ _ HN) ltac:(lia) Hy) as [E2 N2].
  pose proof (H2 y N2 Hn) as P. unfold preferred in *. rewrite E1, <- E2. exact P.
Qed.

Lemma near_pairs p (d d' : @dstruct XR) kk n n' s s' os os' ts ts' :
  accepted d -> times_ok (A := XR) d -> accepted d' -> times_ok (A := XR) d' -> p_abs p = AbsFloat ->
  timeseries d = map Fin ts -> timeseries d' = map Fin ts' -> same_near ts ts' (2 * Rabs kk) ->
  pairs_by (A := XR) p d (naturalSelectionFunctionIdx (A := XR) p d) (Fin kk) n = Ok (s, map Fin os) ->
  pairs_by (A := XR) p d' (naturalSelectionFunctionIdx (A := XR) p d') (Fin kk) n' = Ok (s', map Fin os') ->
  length s = length os -> length s' = length os' -> s' = s /\ os' = os.
Proof.
  intros Ha Hok Ha' Hok' Hp Ht Ht' HN HP HP' Ho Ho'. pose proof (proj1 HN) as CL.
  destruct (natural_exact p d kk n s os ts Ha Hok Hp Ht HP) as [A1 [A2 A3]].
  destruct (natural_exact p d' kk n' s' os' ts' Ha' Hok' Hp Ht' HP') as [B1 [B2 B3]]. rewrite CL in *.
  assert (IFF : forall q, (q < length ts)%nat -> ((q < length s)%nat <-> (q < length s')%nat)).
  { intros q Hq. rewrite (A2 q Hq), (B2 q Hq). pose proof (Rabs_pos kk).
    destruct (near_gap ts ts' kk q (length ts - 1) HN Hq ltac:(lia)) as [->|[K|[K _]]]; [reflexivity|lra|lia]. }
  assert (EL : length s' = length s).
  { destruct (Nat.lt_trichotomy (length s') (length s)) as [K|[K|K]]; [exfalso|exact K|exfalso].
    - pose proof (proj1 (IFF (length s') ltac:(lia)) K). lia.
    - pose proof (proj2 (IFF (length s) ltac:(lia)) K). lia. }
  assert (PQ : forall q, (q < length s)%nat -> nth q s' 0%nat = nth q s 0%nat).
  { intros q Hq. apply (partner_unique ts' kk q).
    - apply (natural_partner p d' kk n' s' _ ts' Ha' Hok' Hp Ht' HP'). lia.
    - apply (partner_near ts ts' kk q _ HN); [lia|]. apply (natural_partner p d kk n s _ ts Ha Hok Hp Ht HP q Hq). }
  split.
  - apply (nth_ext _ _ 0%nat 0%nat); [exact EL|]. intros q Hq. apply PQ. lia.
  - apply (nth_ext _ _ 0 0); [lia|]. intros q Hq. assert (Hq' : (q < length s)%nat) by lia.
    destruct (A3 q Hq') as [S1 [-> S2]]. destruct (B3 q ltac:(lia)) as [_ [-> _]]. rewrite (PQ q Hq'). f_equal.
    destruct (nearest_near ts ts' kk q (nth q s 0%nat) HN ltac:(lia)) as [E _]; [split; assumption|exact E].
Qed.

Lemma near_values p (d d' : @dstruct XR) mi ma re al mi' ma' re' al' wgt lags corr c lags' corr' c' rows rows' j j' i i' (rs ts ts' : list R) (kk a : R) :
  accepted d -> times_ok (A := XR) d -> accepted d' -> times_ok (A := XR) d' -> p_abs p = AbsFloat ->
  autocorrelation (A := XR) p d mi ma re al "natural" wgt = Ok (lags, corr, c) ->
  autocorrelation (A := XR) p d' mi' ma' re' al' "natural" wgt = Ok (lags', corr', c') ->
  data_2d d = Ok rows -> nth_error rows j = Some (map Fin rs) -> data_2d d' = Ok rows' -> nth_error rows' j' = Some (map Fin rs) ->
  timeseries d = map Fin ts -> timeseries d' = map Fin ts' ->
  nth_error lags i = Some (Fin kk) -> nth_error lags' i' = Some (Fin kk) ->
  opt_or al (median_time d) = Fin a -> opt_or al' (median_time d') = Fin a -> 0 < a ->
  same_near ts ts' (2 * Rabs kk) ->
  exists r, corr_at corr j i = Some r /\ corr_at corr' j' i' = Some r.
Proof.
  intros Ha Hok Ha' Hok' Hp E E' Hd Hj Hd' Hj' Ht Ht' Hi Hi' Hal Hal' Hpos HN.
  destruct (call_pairs p d mi ma re al "natural" wgt lags corr c rows j i rs ts kk Ha E Hd Hj Hi Ht) as [f [s [os [Hf [HP HL]]]]].
  destruct (call_pairs p d' mi' ma' re' al' "natural" wgt lags' corr' c' rows' j' i' rs ts' kk Ha' E' Hd' Hj' Hi' Ht') as [f' [s' [os' [Hf' [HP' HL']]]]].
  pose proof Hf as Hg. pose proof Hf' as Hg'. injection Hf as <-. injection Hf' as <-.
  destruct (near_pairs p d d' kk _ _ s s' os os' ts ts' Ha Hok Ha' Hok' Hp Ht Ht' HN HP HP' HL HL') as [-> ->].
  destruct (value_exact_pairs p d' mi' ma' re' al' "natural" wgt lags' corr' c' rows' j' i' rs ts' os kk a _ _ s Ha' E' Hd' Hj' Hi' Ht' Hal' Hpos Hg' HP')
    as [_ [_ [_ [_ [_ [_ HV']]]]]].
  destruct (value_exact_pairs p d mi ma re al "natural" wgt lags corr c rows j i rs ts os kk a _ _ s Ha E Hd Hj Hi Ht Hal Hpos Hg HP)
    as [_ [_ [_ [_ [_ [_ HV]]]]]].
  eexists. split; [exact HV|exact HV'].
Qed.

(** ** Moving everything after a gap *)
Lemma gap_same_near l1 l2 sh w : (forall x y, In x l1 -> In y l2 -> w < y - x /\ w < y + sh - x) -> same_near (l1 ++ l2) (l1 ++ map (fun t => t + sh) l2) w.
Proof.
  intros H. split; [rewrite !app_length, map_length; reflexivity|]. intros x y Hxy Hy. rewrite app_length in Hy.
  assert (M : forall z, (z < length l2)%nat -> nth z (map (fun t => t + sh) l2) 0 = nth z l2 0 + sh).
  { intros z Hz. rewrite (nth_indep _ 0 (0 + sh)) by (rewrite map_length; exact Hz). apply (map_nth (fun t => t + sh)). }
  destruct (Nat.lt_ge_cases y (length l1)) as [K|K].
  - left. rewrite !(app_nth1 l1) by lia. reflexivity.
  - rewrite !(app_nth2 l1 _ _ K), M by lia. destruct (Nat.lt_ge_cases x (length l1)) as [G|G].
    + right. rewrite !(app_nth1 l1) by lia. apply H; apply nth_In; lia.
    + left. rewrite !(app_nth2 l1 _ _ G), M by lia. ring.
Qed.
