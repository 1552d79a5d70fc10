(** Construction of a Correlator for any time stamps, and calls on unsorted ones. *)
From Coq Require Import String.
From Coq Require Import ZArith Reals List Bool Arith Lia Lra.
From Flocq Require Import Core BinarySingleNaN.
From Verif Require Import Num Mem MemFacts XR B64 Spec SpecR DataStructure DSFacts Correlator Sacf Api CorrFacts LoopFacts MainFacts
  Laws B64Facts Laws2 WeightFacts ConstrFacts SelFacts SelThms FastFacts TimeFacts GridFacts SafeFacts DefaultFacts ValFacts ExactFacts GridVals RelFacts.
Import ListNotations.
Local Open Scope list_scope.

Lemma new_Correlator_allot {A : Num} d T : accepted d -> nth_error (normalised_timeseries d) (length (normalised_timeseries d) - 1) = Some T ->
  let q := nfloor (ndiv (nsub T (nneg T)) (findMinDiff (normalised_timeseries d))) in
  match q with
  | Some q => if in_int q && (0 <=? q + 3)%Z && (q + 3 <=? INT_MAX)%Z
              then exists c, new_Correlator d = Ok c /\ max_lag c = T /\ min_lag c = nneg T /\ lag_resolution c = findMinDiff (normalised_timeseries d) /\
                     Z.of_nat (length (lag_timeseries c)) = (q + 3)%Z
              else new_Correlator d = UB BadConversion
  | None => new_Correlator d = UB BadConversion
  end.
Proof.
  intros Ha HT q. destruct (accepted_setUp d Ha) as [ts [data [er [N [-> [H1 [H2 [H3 [H4 H5]]]]]]]]].
  rewrite new_Correlator_closed by assumption. unfold normalised_timeseries in *. cbn [norm_t the_ds] in *.
  unfold allot. rewrite (lback_nth _ _ HT). cbn [bind]. subst q. unfold to_int. destruct (nfloor _) as [q|]; [|reflexivity].
  unfold int_add, in_int, INT_MIN, INT_MAX. destruct (Z.leb_spec (-2147483648) q), (Z.leb_spec q 2147483647); try reflexivity. cbn [andb bind].
  destruct (Z.leb_spec 0 (q + 3)), (Z.leb_spec (q + 3) 2147483647), (Z.leb_spec (-2147483648) (q + 3)); cbn [andb bind]; try reflexivity; try lia.
  - destruct (Z.ltb_spec (q + 3) 0); [lia|]. cbn [bind]. eexists. split; [reflexivity|].
    assert (Hb : forall x, lback (rel_times ts) = Ok x -> T = x) by (intros x; rewrite (lback_nth _ _ HT); congruence).
    cbn [max_lag min_lag lag_resolution the_corr lag_timeseries timeseries_].
    pose proof (Hb _ (lback_ok _ nzero (rel_times_nil ts H1))) as <-. split; [reflexivity|]. split; [reflexivity|]. split; [reflexivity|].
    unfold lag_timeseries. cbn [timeseries_ the_corr]. rewrite repeat_length. lia.
  - destruct (Z.ltb_spec (q + 3) 0); [reflexivity|lia].
Qed.

Section Generic.
Context {A : Num} {L : NumLaws A} {L2 : NumLaws2 A}.

Lemma not_rising_res d c0 i x y : accepted d -> new_Correlator d = Ok c0 -> nisnan ndblmax = false ->
  nth_error (normalised_timeseries d) i = Some x -> nth_error (normalised_timeseries d) (S i) = Some y -> finite x -> finite y -> nle y x = true ->
  nle (lag_resolution c0) nzero = true.
Proof.
  intros Ha Hn Hdm Hx Hy Fx Fy Hle.
  assert (Er : lag_resolution c0 = findMinDiff (normalised_timeseries d)).
  { destruct (new_Correlator_accepted d c0 Ha Hn) as [ts [data [er [N [n [-> [H1 [H4 [H5 [Hal ->]]]]]]]]]]. reflexivity. }
  rewrite Er. destruct (findMinDiff_loop_spec (normalised_timeseries d) ndblmax Hdm) as [_ [S2 _]].
  fold (findMinDiff (normalised_timeseries d)) in S2. apply finite_nfin in Fx, Fy.
  assert (Nd : nisnan (nsub y x) = false) by (apply l_sub_fin; assumption).
  apply (l_le_trans _ (nsub y x)); [exact (S2 i x y Hx Hy Nd)|].
  rewrite <- (l_sub_self y Fy). apply l_sub_anti; [exact Hle|apply l_sub_fin; assumption|exact Nd].
Qed.

Lemma opp_le T : nle nzero T = true -> nle (nneg T) T = true.
Proof.
  intros H. apply (l_le_trans _ nzero); [|exact H]. apply (l_le_trans _ (nneg nzero)); [exact (l_neg_anti _ _ H)|].
  apply (eq_le _ _ l_neg_0).
Qed.

Lemma step_stuck a r : nisnan a = false -> nisnan (nadd a r) = false -> nle r nzero = true -> nle (nadd a r) a = true.
Proof.
  intros Na Nr Hr. destruct (eq_le _ _ (l_add_0_r a Na)) as [H1 H2].
  apply (l_le_trans _ (nadd a nzero)); [|exact H1]. apply l_add_mono_r; [exact Hr|exact Nr|].
  apply (l_le_nan _ _ H1).
Qed.

(** a time that does not exceed the one before, and a last time that is not before the first *)
Lemma not_rising_stuck d c0 i x y T : accepted d -> new_Correlator d = Ok c0 -> nisnan ndblmax = false ->
  nth_error (normalised_timeseries d) i = Some x -> nth_error (normalised_timeseries d) (S i) = Some y -> finite x -> finite y -> nle y x = true ->
  nth_error (normalised_timeseries d) (length (normalised_timeseries d) - 1) = Some T -> finite T -> nle nzero T = true ->
  nle (min_lag c0) (max_lag c0) = true /\ nle (nadd (min_lag c0) (lag_resolution c0)) (min_lag c0) = true.
Proof.
  intros Ha Hn Hdm Hx Hy Fx Fy Hle HT FT H0. destruct (default_lags d c0 Ha Hn) as [_ [Hb [Hm _]]]. destruct (back_In _ _ Hb) as [_ Bnth].
  rewrite HT in Bnth. injection Bnth as BE. rewrite Hm, <- BE. split; [exact (opp_le T H0)|].
  apply finite_nfin in FT. pose proof (not_rising_res d c0 i x y Ha Hn Hdm Hx Hy Fx Fy Hle) as Hr.
  assert (Fm : nfin (nneg T) = true) by (rewrite l_neg_fin; exact FT).
  apply step_stuck; [apply l_fin_nan; exact Fm| |exact Hr]. apply l_add_fin_nan; [exact Fm|apply (l_le_nan _ _ Hr)].
Qed.

Lemma not_rising_never p d i x y T al sel wgt res : accepted d -> nisnan ndblmax = false ->
  nth_error (normalised_timeseries d) i = Some x -> nth_error (normalised_timeseries d) (S i) = Some y -> finite x -> finite y -> nle y x = true ->
  nth_error (normalised_timeseries d) (length (normalised_timeseries d) - 1) = Some T -> finite T -> nle nzero T = true ->
  autocorrelation p d None None None al sel wgt <> Ok res.
Proof.
  intros Ha Hdm Hx Hy Fx Fy Hle HT FT H0 E.
  assert (exists c0, new_Correlator d = Ok c0) as [c0 Hn].
  { unfold autocorrelation in E. destruct (new_Correlator d); try discriminate. eauto. }
  destruct (not_rising_stuck d c0 i x y T Ha Hn Hdm Hx Hy Fx Fy Hle HT FT H0) as [K1 K2].
  exact (stuck_no_grid _ _ _ _ K1 K2 (proj1 (returned_grid p d c0 None None None al sel wgt res Ha Hn E))).
Qed.

Lemma not_rising_overrun p d c0 i x y T al wgt : accepted d -> new_Correlator d = Ok c0 -> nisnan ndblmax = false ->
  nth_error (normalised_timeseries d) i = Some x -> nth_error (normalised_timeseries d) (S i) = Some y -> finite x -> finite y -> nle y x = true ->
  nth_error (normalised_timeseries d) (length (normalised_timeseries d) - 1) = Some T -> finite T -> nle nzero T = true ->
  p_abs p = AbsFloat -> p_checked p = false -> known_weight wgt ->
  autocorrelation p d None None None al "natural" wgt = UB OobWrite.
Proof.
  intros Ha Hn Hdm Hx Hy Fx Fy Hle HT FT H0 Hp Hc Hw.
  destruct (not_rising_stuck d c0 i x y T Ha Hn Hdm Hx Hy Fx Fy Hle HT FT H0) as [K1 K2].
  apply (stuck_call p d c0); try assumption; [intros C; congruence|intros n _ _ C; congruence].
Qed.

(** the last time before the first *)
Lemma reversed_call p d c0 T al sel wgt : accepted d -> new_Correlator d = Ok c0 ->
  nth_error (normalised_timeseries d) (length (normalised_timeseries d) - 1) = Some T -> nlt T nzero = true ->
  (sel = "natural"%string /\ wgt = "fractional"%string ->
     exists corr, visible (autocorrelation p d None None None al sel wgt) = Ok ([], corr) /\ rows_of corr = repeat [] (N_datasets d)) /\
  (~ (sel = "natural"%string /\ wgt = "fractional"%string) ->
     autocorrelation p d None None None al sel wgt = Throw PyUnboundLocalError).
Proof.
  intros Ha Hn HT H0. apply (empty_range_call p d c0); try assumption. cbn [opt_or].
  destruct (default_lags d c0 Ha Hn) as [_ [Hb [Hm _]]]. destruct (back_In _ _ Hb) as [_ Bnth].
  rewrite HT in Bnth. injection Bnth as BE. rewrite Hm, <- BE. apply lt_nle.
  apply (lt_le_trans _ nzero); [exact H0|]. apply (l_le_trans _ (nneg nzero)); [apply (eq_le _ _ l_neg_0)|]. apply l_neg_anti, lt_le, H0.
Qed.
End Generic.

(** division by zero *)
Lemma div_zero A (HA : arith A) (x r : @num A) : neqb r nzero = true -> nfloor (ndiv x r) = None.
Proof.
  destruct HA as [e|].
  - cbn [num nzero nofZ ndiv nfloor B64]. intros H.
    assert (Hr : exists s, r = B754_zero s).
    { destruct r as [s|s| |s m ex Hb]; [eauto| | |]; cbn in H; try discriminate; destruct s; discriminate. }
    destruct Hr as [s ->]. destruct x; reflexivity.
  - cbn [num nzero nofZ ndiv nfloor XR]. destruct r as [r| | |]; cbn; try discriminate. intros H. apply Reqb_true in H. subst r.
    destruct x as [x| | |]; cbn; try reflexivity.
    + destruct (Reqb_spec 0 0); [|congruence]. unfold xinf_sign. destruct (Reqb x 0); [reflexivity|]. destruct (xorb _ _); reflexivity.
    + destruct (Rltb _ _); reflexivity.
    + destruct (Rltb _ _); reflexivity.
Qed.

Lemma duplicate_stamps A (HA : arith A) (d : @dstruct A) i x y : accepted d -> times_ok d ->
  nth_error (normalised_timeseries d) i = Some x -> nth_error (normalised_timeseries d) (S i) = Some y -> neqb x y = true ->
  new_Correlator d = UB BadConversion.
Proof.
  intros Ha Ht Hx Hy Hxy. pose proof (arith_laws A HA) as L. pose proof (arith_laws2 A HA) as L2.
  destruct (times_ok_norm d Ha Ht) as [Ko [Kf [K0 Kp]]].
  assert (HT : exists T, nth_error (normalised_timeseries d) (length (normalised_timeseries d) - 1) = Some T).
  { apply nth_error_Some_ex. assert (i < length (normalised_timeseries d)) by (apply nth_error_Some; congruence). lia. }
  destruct HT as [T HT]. pose proof (new_Correlator_allot d T Ha HT) as K. cbv zeta in K.
  rewrite (div_zero A HA) in K; [exact K|].
  pose proof (dblmax_pos A HA) as Hdm. destruct (l_le_nan _ _ Hdm) as [_ Ndm].
  destruct (findMinDiff_loop_spec (normalised_timeseries d) ndblmax Ndm) as [_ [S2 S3]].
  fold (findMinDiff (normalised_timeseries d)) in S2, S3.
  assert (Fx : nfin x = true) by (apply Kf; eapply nth_error_In; exact Hx).
  assert (Fy : nfin y = true) by (apply Kf; eapply nth_error_In; exact Hy).
  rewrite l_eq. apply andb_true_intro. split.
  - assert (Nd : nisnan (nsub y x) = false) by (apply l_sub_fin; assumption).
    apply (l_le_trans _ (nsub y x)); [exact (S2 i x y Hx Hy Nd)|].
    rewrite <- (l_sub_self y Fy). apply l_sub_anti; [apply (eq_le _ _ Hxy)|apply l_sub_fin; assumption|exact Nd].
  - destruct S3 as [->|[k [a [b [Hka [Hkb [-> _]]]]]]]; [exact Hdm|].
    assert (Fa : nfin a = true) by (apply Kf; eapply nth_error_In; exact Hka).
    assert (Fb : nfin b = true) by (apply Kf; eapply nth_error_In; exact Hkb).
    rewrite <- (l_sub_self a Fa). apply l_sub_mono; [|apply l_sub_fin; assumption|apply l_sub_fin; assumption].
    apply (Ko k (S k)); [lia|exact Hka|exact Hkb].
Qed.

(** infinite or missing first or last stamps *)
Lemma nonfinite_div A (HA : arith A) (x r : @num A) : nfloor x = None -> nfloor (ndiv (nsub x (nneg x)) r) = None.
Proof.
  destruct HA as [e|].
  - cbn [num ndiv nsub nneg nfloor B64]. destruct x as [s|s| |s m ex Hb]; cbn; try discriminate; intros _.
    + destruct s, r; reflexivity.
    + destruct r; reflexivity.
  - cbn [num ndiv nsub nneg nfloor XR]. destruct x as [x| | |]; cbn; try discriminate; intros _; destruct r; cbn; try reflexivity;
      destruct (Rltb _ _); reflexivity.
Qed.

Lemma nonfinite_sub A (HA : arith A) (x y : @num A) : nfloor x = None \/ nfloor y = None -> nfloor (nsub x y) = None.
Proof.
  destruct HA as [e|].
  - cbn [num nsub nfloor B64]. destruct x as [s|s| |s m ex Hb], y as [s'|s'| |s' m' ex' Hb']; cbn; intros [H|H]; try discriminate; try reflexivity;
      destruct s, s'; reflexivity.
  - cbn [num nsub nfloor XR]. destruct x as [x| | |], y as [y| | |]; cbn; intros [H|H]; try discriminate; reflexivity.
Qed.

Lemma nonfinite_stamps A (HA : arith A) (d : @dstruct A) x : accepted d ->
  (nth_error (timeseries d) 0 = Some x \/ nth_error (timeseries d) (length (timeseries d) - 1) = Some x) -> ~ finite x ->
  new_Correlator d = UB BadConversion.
Proof.
  intros Ha Hx Fx. assert (Nx : nfloor x = None) by (unfold finite in Fx; destruct (nfloor x); [exfalso; apply Fx; discriminate|reflexivity]).
  pose proof (accepted_setUp d Ha) as [ts [data [er [N [Ed [H1 _]]]]]].
  assert (Et : timeseries d = ts) by (rewrite Ed; reflexivity). assert (En : normalised_timeseries d = rel_times ts) by (rewrite Ed; reflexivity).
  rewrite Et in Hx. destruct ts as [|t0 ts]; [congruence|].
  assert (HT : exists l, nth_error (t0 :: ts) (length (t0 :: ts) - 1) = Some l) by (apply nth_error_Some_ex; cbn; lia). destruct HT as [l Hl].
  assert (HT : nth_error (normalised_timeseries d) (length (normalised_timeseries d) - 1) = Some (nsub l t0)).
  { rewrite En. unfold rel_times. rewrite map_length, nth_error_map, Hl. reflexivity. }
  pose proof (new_Correlator_allot d _ Ha HT) as K. cbv zeta in K. rewrite (nonfinite_div A HA) in K; [exact K|].
  apply (nonfinite_sub A HA). destruct Hx as [Hx|Hx]; [right; cbn in Hx; congruence|left; congruence].
Qed.

(** exact arithmetic *)
Local Open Scope R_scope.
Lemma constructs_exact (d : @dstruct XR) (T r : R) : accepted d ->
  nth_error (normalised_timeseries d) (length (normalised_timeseries d) - 1) = Some (Fin T) ->
  (forall x, In x (normalised_timeseries d) -> finite x) ->
  (forall i x y, nth_error (normalised_timeseries d) i = Some (Fin x) -> nth_error (normalised_timeseries d) (S i) = Some (Fin y) -> r <= y - x) ->
  (exists i x y, nth_error (normalised_timeseries d) i = Some (Fin x) /\ nth_error (normalised_timeseries d) (S i) = Some (Fin y) /\ r = y - x) ->
  r < dbl_max ->
  let q := Zfloor (2 * T / r) in
  (r <> 0 /\ (-3 <= q <= INT_MAX - 3)%Z -> exists c, new_Correlator d = Ok c /\ max_lag c = Fin T /\ min_lag c = Fin (- T) /\
      lag_resolution c = Fin r /\ Z.of_nat (length (lag_timeseries c)) = (q + 3)%Z) /\
  (~ (r <> 0 /\ (-3 <= q <= INT_MAX - 3)%Z) -> new_Correlator d = UB BadConversion).
Proof.
  intros Ha HT Hf Hmin [i [x [y [Hx [Hy Er]]]]] Hr q.
  assert (Em : findMinDiff (normalised_timeseries d) = Fin r).
  { destruct (findMinDiff_loop_spec (normalised_timeseries d) (@ndblmax XR) eq_refl) as [_ [S2 S3]].
    fold (findMinDiff (normalised_timeseries d)) in S2, S3.
    specialize (S2 i _ _ Hx Hy eq_refl). change (@nle XR (findMinDiff (normalised_timeseries d)) (Fin (y + - x)) = true) in S2.
    destruct S3 as [E|[k [a [b [Hka [Hkb [E _]]]]]]]; rewrite E in S2 |- *.
    - exfalso. change (@nle XR (Fin dbl_max) (Fin (y + - x)) = true) in S2. apply nle_Fin in S2. lra.
    - destruct a as [a| | |]; try (exfalso; eapply Hf; [eapply nth_error_In; exact Hka|reflexivity]).
      destruct b as [b| | |]; try (exfalso; eapply Hf; [eapply nth_error_In; exact Hkb|reflexivity]).
      specialize (Hmin k a b Hka Hkb). change (@nle XR (Fin (b + - a)) (Fin (y + - x)) = true) in S2. apply nle_Fin in S2.
      change (Fin (b + - a) = Fin r). f_equal. lra. }
  pose proof (new_Correlator_allot d _ Ha HT) as K. cbv zeta in K. rewrite Em in K.
  change (@nsub XR (Fin T) (@nneg XR (Fin T))) with (Fin (T + - - T)) in K. replace (T + - - T) with (2 * T) in K by ring.
  destruct (Req_dec r 0) as [R0|R0].
  - assert (En : @nfloor XR (@ndiv XR (Fin (2 * T)) (Fin r)) = None).
    { rewrite R0. apply (div_zero XR arith_exact). cbn. apply Reqb_true. reflexivity. }
    rewrite En in K. split; [intros [C _]; contradiction|intros _; exact K].
  - assert (En : @nfloor XR (@ndiv XR (Fin (2 * T)) (Fin r)) = Some q).
    { cbn. destruct (Reqb_spec r 0); [contradiction|]. reflexivity. }
    rewrite En in K. unfold in_int, INT_MIN, INT_MAX in *.
    destruct (Z.leb_spec (-2147483648) q), (Z.leb_spec q 2147483647), (Z.leb_spec 0 (q + 3)), (Z.leb_spec (q + 3) 2147483647); cbn [andb] in K;
      (split; [intros [_ C]; try (exfalso; lia); try exact K|intros C; try (exfalso; apply C; split; [exact R0|lia]); try exact K]).
Qed.
