(** The whole default call on an evenly sampled grid, in exact arithmetic. *)
From Coq Require Import String.
From Coq Require Import ZArith Reals List Bool Arith Lia Lra.
From Flocq Require Import Core.
From Verif Require Import Num Mem MemFacts XR B64 Spec SpecR DataStructure DSFacts Correlator Sacf Api CorrFacts LoopFacts MainFacts
  Laws Laws2 ConstrFacts SelFacts SelThms TimeFacts WeightFacts GridFacts SafeFacts DefaultFacts ExactFacts GridVals.
Import ListNotations.
Local Open Scope list_scope.
Local Open Scope R_scope.

Lemma with_zero_id {A : Num} (l1 l2 : list num) z : neqb z nzero = true ->
  (forall x, In x l1 -> neqb x nzero = false /\ nlt nzero x = false) -> with_zero (l1 ++ z :: l2) = l1 ++ z :: l2.
Proof.
  intros Hz. induction l1 as [|x l1 IH]; intros H; cbn [app with_zero]; [rewrite Hz; reflexivity|].
  destruct (H x (or_introl eq_refl)) as [-> ->]. f_equal. apply IH. intros y Hy. apply H. right. exact Hy.
Qed.

Lemma grid_len dd M : @length (@num XR) (map Fin (grid 0 dd M)) = M.
Proof. etransitivity; [apply map_length|apply grid_length]. Qed.

Lemma grid_at dd M i : (i < M)%nat -> @nth_error (@num XR) (map Fin (grid 0 dd M)) i = Some (Fin (INR i * dd)).
Proof. intros Hi. etransitivity; [apply nth_error_map|]. rewrite grid_nth by exact Hi. cbn [option_map]. rewrite Rplus_0_l. reflexivity. Qed.

Lemma grid_resolution dd M : (2 <= M)%nat -> 0 < dd -> INR (M - 1) * dd <= dbl_max -> findMinDiff (A := XR) (map Fin (grid 0 dd M)) = Fin dd.
Proof.
  intros HM Hdd Hmax.
  destruct (findMinDiff_ordered (A := XR) eq_refl (map Fin (grid 0 dd M))) as [[i [a [b [Hi [Hi' He]]]]] _].
  - exact (proj1 (grid_increasing 0 dd M Hdd)).
  - apply fin_all.
  - rewrite grid_len. exact HM.
  - rewrite grid_at by lia. change (INR 0) with 0. rewrite Rmult_0_l. reflexivity.
  - intros x Hx. apply In_nth_error in Hx. destruct Hx as [i Hi]. pose proof (nth_lt _ _ _ Hi) as Hl. rewrite grid_len in Hl.
    rewrite grid_at in Hi by exact Hl. injection Hi as <-. change (@nle XR (Fin (INR i * dd)) (Fin dbl_max) = true). apply nle_Fin.
    eapply Rle_trans; [|exact Hmax]. apply Rmult_le_compat_r; [lra|]. apply le_INR. lia.
  - pose proof (nth_lt _ _ _ Hi') as Hl. rewrite grid_len in Hl. rewrite grid_at in Hi, Hi' by lia. injection Hi as <-. injection Hi' as <-.
    apply (xeqb_Fin _ (INR (Datatypes.S i) * dd + - (INR i * dd))) in He. rewrite He. apply f_equal. rewrite S_INR. ring.
Qed.

Lemma grid_median (d : @dstruct XR) dd M : accepted d -> times_ok d -> normalised_timeseries d = map Fin (grid 0 dd M) -> (2 <= M)%nat ->
  median_time d = Fin (INR (M - 1) / 2 * dd).
Proof.
  intros Ha [T1 [T2 T3]] En HM. pose proof (median_time_median XR arith_exact d Ha T1 T2) as HR. cbv zeta in HR. specialize (HR T3).
  rewrite En, grid_len in HR. destruct HR as [Hodd [Heven _]]. destruct (Nat.Even_or_Odd M) as [HE|HO].
  - destruct (Heven HE) as [a [b [H1 [H2 ->]]]]. destruct HE as [h Hh].
    assert (Eh : (M / 2 = h)%nat) by (subst M; rewrite Nat.mul_comm; apply Nat.div_mul; lia).
    rewrite Eh in H1, H2. rewrite grid_at in H1, H2 by lia. injection H1 as <-. injection H2 as <-.
    unfold ntwo. cbn [nofZ nadd ndiv XR xadd xdiv]. destruct (Reqb_spec 2 0); [lra|]. f_equal.
    replace (M - 1)%nat with ((h - 1) + h)%nat by lia. rewrite plus_INR. field.
  - specialize (Hodd HO). destruct HO as [h Hh].
    assert (Eh : (M / 2 = h)%nat) by (subst M; rewrite Nat.mul_comm, Nat.div_add_l by lia; cbn; lia).
    rewrite Eh in Hodd. rewrite grid_at in Hodd by lia. injection Hodd as <-. f_equal.
    replace (M - 1)%nat with (h + h)%nat by lia. rewrite plus_INR. field.
Qed.

Lemma grid_defaults (d : @dstruct XR) t0 dd M : accepted d -> timeseries d = map Fin (grid t0 dd M) -> (2 <= M)%nat -> 0 < dd ->
  INR (M - 1) * dd <= dbl_max -> (2 * Z.of_nat M + 1 <= INT_MAX)%Z ->
  exists c0, new_Correlator d = Ok c0 /\
  max_lag c0 = Fin (INR (M - 1) * dd) /\ min_lag c0 = Fin (- (INR (M - 1) * dd)) /\ lag_resolution c0 = Fin dd /\
  median_time d = Fin (INR (M - 1) / 2 * dd) /\ times_ok d /\ normalised_timeseries d = map Fin (grid 0 dd M).
Proof.
  intros Ha Ht HM Hdd Hmax Hint.
  destruct (accepted_setUp d Ha) as [tx [data [er [N [Ed [Hnil [_ [_ [HN _]]]]]]]]].
  assert (Etx : tx = map Fin (grid t0 dd M)) by (rewrite <- Ht, Ed; reflexivity).
  assert (Ert : rel_times (A := XR) tx = map Fin (grid 0 dd M)) by (rewrite Etx, rel_times_Fin, grid_rel; reflexivity).
  assert (Ent : normalised_timeseries d = map Fin (grid 0 dd M)) by (rewrite <- Ert, Ed; reflexivity).
  assert (Hto : times_ok d).
  { split; [rewrite Ht; exact (proj1 (grid_increasing t0 dd M Hdd))|]. split; [rewrite Ht|rewrite Ent]; apply fin_all. }
  assert (Hlast : @last (@num XR) (map Fin (grid 0 dd M)) (@nzero XR) = Fin (INR (M - 1) * dd)).
  { rewrite last_nth. apply nth_error_nth. rewrite grid_len. apply grid_at. lia. }
  assert (Hal : allot (A := XR) (rel_times tx) = Ok (Z.to_nat (2 * Z.of_nat M + 1))).
  { unfold allot. rewrite Ert. rewrite (lback_ok _ (@nzero XR)) by (destruct M; [lia|discriminate]). cbn [bind]. rewrite Hlast.
    rewrite grid_resolution by assumption. cbn [nsub nneg ndiv XR xsub xneg xadd xdiv]. destruct (Reqb_spec dd 0); [lra|].
    cbn [nfloor]. replace ((INR (M - 1) * dd + - - (INR (M - 1) * dd)) / dd) with (IZR (2 * Z.of_nat (M - 1))).
    2:{ rewrite mult_IZR, <- INR_IZR_INZ. field. lra. }
    change (@nfloor XR (Fin (IZR (2 * Z.of_nat (M - 1))))) with (Some (Zfloor (IZR (2 * Z.of_nat (M - 1))))). rewrite Zfloor_IZR. unfold to_int. replace (in_int (2 * Z.of_nat (M - 1))) with true.
    2:{ symmetry. unfold in_int, INT_MIN, INT_MAX in *. apply andb_true_intro. split; apply Z.leb_le; lia. }
    cbn [bind]. unfold int_add. replace (2 * Z.of_nat (M - 1) + 3)%Z with (2 * Z.of_nat M + 1)%Z by lia.
    replace (in_int (2 * Z.of_nat M + 1)) with true.
    2:{ symmetry. unfold in_int, INT_MIN, INT_MAX in *. apply andb_true_intro. split; apply Z.leb_le; lia. }
    cbn [bind]. destruct (Z.ltb_spec (2 * Z.of_nat M + 1) 0); [lia|reflexivity]. }
  pose proof (new_Correlator_closed (A := XR) tx data er N Hnil HN) as Hn. rewrite Hal in Hn. cbn [bind] in Hn. rewrite <- Ed in Hn.
  eexists. split; [exact Hn|]. cbn [max_lag min_lag lag_resolution the_corr]. rewrite Ert, Hlast.
  split; [reflexivity|]. split; [reflexivity|]. split; [apply grid_resolution; assumption|].
  split; [apply grid_median; assumption|]. split; [exact Hto|exact Ent].
Qed.

(** the grid of lags -(M-1)*dd, ..., (M-1)*dd *)
Lemma grid_lags dd K g : 0 < dd -> lag_grid (A := XR) (Fin (- (INR K * dd))) (Fin dd) (Fin (INR K * dd)) g ->
  g = map (fun i => Fin ((INR i - INR K) * dd)) (seq 0 (2 * K + 1)).
Proof.
  intros Hd [n [[H1 H2] ->]].
  assert (En : n = (2 * K + 1)%nat).
  { destruct (Nat.lt_trichotomy n (2 * K + 1)) as [H|[H|H]]; [|exact H|].
    - exfalso. rewrite steps_exact in H2. apply not_true_iff_false in H2. apply H2. apply nle_Fin.
      assert (INR n <= INR (2 * K)) by (apply le_INR; lia). rewrite mult_INR in H0. cbn [INR] in H0.
      assert (INR n * dd <= (1 + 1) * INR K * dd) by (apply Rmult_le_compat_r; lra). lra.
    - exfalso. specialize (H1 _ H). rewrite steps_exact in H1. apply nle_Fin in H1. rewrite plus_INR, mult_INR in H1. cbn [INR] in H1. nra. }
  subst n. assert (Es : map (steps (A := XR) (Fin (- (INR K * dd))) (Fin dd)) (seq 0 (2 * K + 1)) =
                        map (fun i => Fin ((INR i - INR K) * dd)) (seq 0 (2 * K + 1))).
  { apply map_ext. intros i. rewrite steps_exact. f_equal. ring. }
  rewrite Es. replace (2 * K + 1)%nat with (K + (1 + K))%nat by lia. rewrite seq_app, map_app. cbn [Nat.add seq map].
  apply (with_zero_id (A := XR)).
  - cbn. apply Reqb_true. ring.
  - intros x Hx. apply in_map_iff in Hx. destruct Hx as [i [<- Hi]]. apply in_seq in Hi.
    assert (Hneg : (INR i - INR K) * dd < 0).
    { assert (INR i < INR K) by (apply lt_INR; lia). assert ((INR i - INR K) * dd < 0 * dd) by (apply Rmult_lt_compat_r; lra). lra. }
    split.
    + apply not_true_iff_false. intros C. apply xeqb_Fin in C. injection C as C. lra.
    + apply nlt_Fin_false. lra.
Qed.

Lemma grid_call p (d : @dstruct XR) wgt t0 dd M rows : accepted d -> timeseries d = map Fin (grid t0 dd M) -> (2 <= M)%nat -> 0 < dd ->
  INR (M - 1) * dd <= dbl_max -> (2 * Z.of_nat M + 1 <= INT_MAX)%Z ->
  p_checked p = false -> known_weight wgt -> (p_abs p = AbsInt -> 2 * (INR (M - 1) * dd) <= IZR INT_MAX) ->
  data_2d d = Ok rows ->
  exists corr c,
    autocorrelation p d None None None None "natural" wgt = Ok (map (fun i => Fin ((INR i - INR (M - 1)) * dd)) (seq 0 (2 * M - 1)), corr, c) /\
    forall j rs, nth_error rows j = Some (map Fin rs) -> length rs = M /\
      let a := INR (M - 1) / 2 * dd in
      let r := fun m => rsum_n (M - m) (fun q => dev rs q * dev rs (q + m)) in
      forall m, (m < M)%nat ->
        corr_at corr j (M - 1 + m) = Some (xdiv (Fin (r m)) (Fin (sq_dev32 rs))) /\
        corr_at corr j (M - 1 - m) = Some (xdiv (Fin (r m + dev rs 0 * rsum_n m (fun q => rweight wgt a (dist p (INR (m - q) * dd)) * dev rs q)))
                                                (Fin (sq_dev32 rs))).
Proof.
  intros Ha Ht HM Hdd Hmax Hint Hc Hw Hs Hd.
  destruct (grid_defaults d t0 dd M Ha Ht HM Hdd Hmax Hint) as [c0 [Hn [E1 [E2 [E3 [E4 [Hto En]]]]]]].
  destruct (@default_returns XR arith_exact _ _ p d c0 wgt Ha Hto Hn (default_fits_exact d c0 Ha Hto Hn) Hc Hw) as [r E].
  { intros Hp. rewrite E1. change (@nle XR (Fin (INR (M - 1) * dd + INR (M - 1) * dd)) (Fin (IZR INT_MAX)) = true). apply nle_Fin. specialize (Hs Hp). lra. }
  destruct r as [[lags corr] c]. pose proof (proj1 (returned_grid p d c0 None None None None "natural" wgt _ Ha Hn E)) as Hg.
  cbn [fst snd opt_or] in Hg. rewrite E1, E2, E3 in Hg. apply grid_lags in Hg; [|exact Hdd].
  replace (2 * (M - 1) + 1)%nat with (2 * M - 1)%nat in Hg by lia. subst lags.
  exists corr, c. split; [exact E|]. intros j rs Hj.
  assert (Ha0 : 0 < INR (M - 1) / 2 * dd).
  { apply Rmult_lt_0_compat; [|exact Hdd]. assert (0 < INR (M - 1)) by (apply lt_0_INR; lia). lra. }
  assert (Hl : forall i, (i < 2 * M - 1)%nat ->
     nth_error (map (fun i => Fin ((INR i - INR (M - 1)) * dd)) (seq 0 (2 * M - 1))) i = Some (Fin ((INR i - INR (M - 1)) * dd))).
  { intros i Hi. rewrite nth_error_map, nth_error_seq. destruct (Nat.ltb_spec i (2 * M - 1)); [reflexivity|lia]. }
  assert (HL : length rs = M).
  { destruct (exact_value p d None None None None "natural" wgt _ corr c rows j (M - 1) rs _ _ _ Ha E Hd Hj (Hl (M - 1)%nat ltac:(lia)) Ht E4 Ha0)
      as [_ [_ [_ [_ [_ [_ [_ [_ [HL _]]]]]]]]]. rewrite HL. apply grid_length. }
  split; [exact HL|]. intros a r m Hm. split.
  - assert (Hi : nth_error (map (fun i => Fin ((INR i - INR (M - 1)) * dd)) (seq 0 (2 * M - 1))) (M - 1 + m) = Some (Fin (INR m * dd))).
    { rewrite Hl by lia. do 2 f_equal. rewrite plus_INR. ring. }
    exact (proj2 (proj2 (grid_value_pos p d None None None None wgt _ corr c rows j (M - 1 + m) rs t0 dd a M m Ha E Hd Hj Hi Ht Hdd E4 Ha0))).
  - assert (Hi : nth_error (map (fun i => Fin ((INR i - INR (M - 1)) * dd)) (seq 0 (2 * M - 1))) (M - 1 - m) = Some (Fin (- (INR m * dd)))).
    { rewrite Hl by lia. do 2 f_equal. rewrite minus_INR by lia. ring. }
    exact (grid_value_neg p d None None None None wgt _ corr c rows j (M - 1 - m) rs t0 dd a M m Ha E Hd Hj Hi Ht Hdd E4 Ha0 (Nat.lt_le_incl _ _ Hm)).
Qed.
