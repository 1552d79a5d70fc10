(** The values computed by a call. *)
From Coq Require Import String.
From Coq Require Import ZArith List Bool Arith Lia.
From Verif Require Import Num Mem MemFacts XR B64 Spec DataStructure DSFacts Correlator Sacf Api CorrFacts LoopFacts MainFacts
  Laws Laws2 ConstrFacts SelFacts SelThms FastFacts WeightFacts.
Import ListNotations.
Local Open Scope list_scope.

Section Values.
Context {A : Num}.

Lemma acf_core_nth p ts mi ma re al sel wgt g Fs i kk :
  acf_core p ts mi ma re al sel wgt = Ok (g, Fs) -> nth_error g i = Some kk ->
  exists F, nth_error Fs i = Some F /\ named_acf sel wgt (opt_or al (middle (rel_times ts) nzero)) p ts kk = Ok F.
Proof.
  intros E Hin. unfold acf_core in E. apply bind_Ok in E. destruct E as [n [_ E]]. cbv zeta in E.
  set (Lg := fst (lag_list _ _ _ _ _)) in *.
  assert (E2 : (do Fs <- run_room (named_acf sel wgt (opt_or al (middle (rel_times ts) nzero)) p ts) Lg n; Ok (Lg, Fs)) = Ok (g, Fs)).
  { destruct Lg; [destruct (_ && _); [exact E|discriminate]|exact E]. }
  apply bind_Ok in E2. destruct E2 as [Fs' [E2 E3]]. injection E3 as -> ->.
  apply run_room_mapM in E2. destruct (mapM_Ok_inv _ _ _ E2) as [_ Hn]. exact (Hn i kk Hin).
Qed.

Lemma rows_of_pack rows : rows_of (pack rows) = rows.
Proof. destruct rows as [|r [|r' rows]]; reflexivity. Qed.

(** one value of a call that returned *)
Lemma call_value p d mi ma re al sel wgt lags corr c rows j i row kk :
  accepted d -> autocorrelation p d mi ma re al sel wgt = Ok (lags, corr, c) ->
  data_2d d = Ok rows -> nth_error rows j = Some row -> nth_error lags i = Some kk ->
  exists sf w sidx S dts,
    sel_named sel = Some sf /\ weight_named wgt (opt_or al (median_time d)) = Some w /\
    sf p (normalised_timeseries d) kk = Ok (sidx, S) /\ deltas p (normalised_timeseries d) sidx S = Ok dts /\
    corr_at corr j i = Some (corr_value (centred row) sidx (map w dts) (norm_of row)) /\
    length row = length (normalised_timeseries d).
Proof.
  intros Ha E Hd Hj Hi. destruct (accepted_setUp d Ha) as [ts [data [er [N [-> [H1 [H2 [H3 [H4 H5]]]]]]]]].
  rewrite auto_core in E by assumption. apply bind_Ok in E. destruct E as [[g Fs] [E E2]].
  apply bind_Ok in E2. destruct E2 as [n [_ E2]]. cbn [fst snd] in E2. cbv zeta in E2. injection E2 as <- <- <-.
  rewrite the_ds_data in Hd by assumption. injection Hd as <-.
  destruct (acf_core_nth _ _ _ _ _ _ _ _ _ _ _ _ E Hi) as [F [HF HN]].
  unfold named_acf in HN. cbn [median_time t_median the_ds normalised_timeseries norm_t].
  destruct (sel_named sel) as [sf|]; [|discriminate].
  destruct (weight_named wgt _) as [w|].
  2:{ repeat (apply bind_Ok in HN; destruct HN as [? [_ HN]]). discriminate. }
  unfold acf_at in HN. apply bind_Ok in HN. destruct HN as [[sidx S] [HS HN]]. apply bind_Ok in HN. destruct HN as [dts [HD HN]].
  injection HN as HN. exists sf, w, sidx, S, dts. split; [reflexivity|]. split; [reflexivity|]. split; [exact HS|]. split; [exact HD|].
  split.
  - unfold corr_at. rewrite rows_of_pack, nth_error_map, Hj. cbn [option_map snd]. unfold row_fun in *. rewrite nth_error_map, HF. cbn [option_map].
    rewrite <- HN. reflexivity.
  - assert (Hlen : length row = length ts).
    { rewrite nth_error_recut in Hj. destruct (Nat.ltb_spec j N); [|discriminate]. injection Hj as <-. apply piece_length. nia. }
    rewrite Hlen. symmetry. apply rel_times_length.
Qed.

Lemma named_known sel wgt al sf w : sel_named sel = Some sf -> weight_named wgt al = Some w ->
  (sel = "natural"%string \/ sel = "fast"%string) /\ known_weight wgt.
Proof.
  unfold sel_named, weight_named, known_weight.
  destruct (String.eqb_spec sel "fast"); destruct (String.eqb_spec sel "natural"); try discriminate; intros _;
  destruct (String.eqb_spec wgt "gaussian"); destruct (String.eqb_spec wgt "fractional"); destruct (String.eqb_spec wgt "fractional_squared");
    try discriminate; intros _; split; auto.
Qed.

(** the same in terms of the functions on iterators *)
Lemma pair_sum_fold xs : forall sel ws i acc, length sel = length ws ->
  pair_sum xs i sel ws acc =
  fold_left (fun acc q => nadd acc (nmul (nmul (nth q ws nzero) (nth (i + q) xs nzero)) (nth (nth q sel 0) xs nzero)))
    (seq 0 (length sel)) acc.
Proof.
  intros sel. induction sel as [|s sel IH]; intros ws i acc Hl; destruct ws as [|w ws]; try discriminate; [reflexivity|].
  injection Hl as Hl. cbn [pair_sum length seq fold_left nth]. rewrite IH by exact Hl. rewrite Nat.add_0_r.
  rewrite <- seq_shift. generalize (nadd acc (nmul (nmul w (nth i xs nzero)) (nth s xs nzero))). generalize (seq 0 (length sel)).
  intros l. induction l as [|q l IHl]; intros a; cbn [map fold_left]; [reflexivity|].
  rewrite IHl. cbn [nth]. replace (i + Datatypes.S q) with (Datatypes.S i + q) by lia. reflexivity.
Qed.

Lemma weight_names wgt al w : weight_named wgt al = Some w ->
  exists w', weight_function wgt = Some w' /\ w = w' al.
Proof.
  unfold weight_named, weight_function. 
  destruct (String.eqb_spec wgt "gaussian"); [subst; intros E; injection E as <-; eexists; split; reflexivity|].
  destruct (String.eqb_spec wgt "fractional"); [subst; intros E; injection E as <-; eexists; split; reflexivity|].
  destruct (String.eqb_spec wgt "fractional_squared"); [subst; intros E; injection E as <-; eexists; split; reflexivity|discriminate].
Qed.

Lemma fold_left_ext_in {X Y} (f g : X -> Y -> X) l : (forall a y, In y l -> f a y = g a y) ->
  forall a, fold_left f l a = fold_left g l a.
Proof.
  induction l as [|y l IH]; intros H a; cbn; [reflexivity|]. rewrite H by (left; reflexivity). apply IH. intros. apply H. right. assumption.
Qed.

Lemma centred_nth (row : list num) q : q < length row -> nth q (centred row) nzero = nsub (nth q row nzero) (mean row).
Proof.
  intros H. unfold centred. apply nth_error_nth. rewrite nth_error_map, (nth_error_nth' row nzero H). reflexivity.
Qed.

Lemma value_by_iterator p d mi ma re al sel wgt lags corr c rows j i row kk :
  accepted d -> autocorrelation p d mi ma re al sel wgt = Ok (lags, corr, c) ->
  data_2d d = Ok rows -> nth_error rows j = Some row -> nth_error lags i = Some kk ->
  exists f w it it',
    selection_function p sel d = Some f /\ weight_function wgt = Some w /\
    f (CorrelationIterator kk (length rows)) = (it, Ok tt) /\ deltaT p d it = (it', Ok tt) /\
    length (offsets it') = length (selection it) /\ length (selection it) <= length row /\
    (forall s, In s (selection it) -> s < length row) /\
    let a := opt_or al (median_time d) in
    let x := fun q => nsub (nth q row nzero) (mean row) in
    let term := fun q => nmul (nmul (w a (nth q (offsets it') nzero)) (x q)) (x (nth q (selection it) 0)) in
    corr_at corr j i = Some (nmul (fold_left (fun acc q => nadd acc (term q)) (seq 0 (length (selection it))) nzero)
                                  (ndiv none_ (norm_of row))).
Proof.
  intros Ha E Hd Hj Hi.
  destruct (call_value p d mi ma re al sel wgt lags corr c rows j i row kk Ha E Hd Hj Hi) as [sf [w [sidx [S [dts [Hs [Hw [HS [HD [HV HL]]]]]]]]]].
  assert (exists f, selection_function p sel d = Some f /\
    match sf p (norm_t d) kk with
    | Ok (sl, Sv) => exists it, f (CorrelationIterator kk (length rows)) = (it, Ok tt) /\ selected it kk (length rows) sl Sv
    | q => same_failure q (snd (f (CorrelationIterator kk (length rows))))
    end) as [f [Hf Hrun]].
  { unfold sel_named in Hs. unfold selection_function.
    destruct (String.eqb_spec sel "fast"); destruct (String.eqb_spec sel "natural"); subst; try discriminate; injection Hs as <-.
    - eexists; split; [reflexivity|]. exact (fast_closed p d kk (length rows)).
    - eexists; split; [reflexivity|]. exact (natural_closed p d kk (length rows)). }
  change (norm_t d) with (normalised_timeseries d) in Hrun. rewrite HS in Hrun. destruct Hrun as [it [Hit Hsel]].
  assert (0 < length (normalised_timeseries d)) as Hpos.
  { destruct (accepted_times d Ha) as [ts [data [er [N [E1 [H1 [_ [_ [_ Hlen]]]]]]]]]. subst d.
    change (0 < length (rel_times ts)). rewrite Hlen. destruct ts; [congruence|cbn; lia]. }
  assert (Hok : length sidx = length S /\ length sidx <= length (normalised_timeseries d) /\ forall s, In s sidx -> s < length (normalised_timeseries d)).
  { unfold sel_named in Hs. destruct (String.eqb sel "fast"); [injection Hs as <-; apply (fast_sel_ok p _ kk sidx S Hpos HS)|].
    destruct (String.eqb sel "natural"); [injection Hs as <-; apply (natural_sel_ok p _ kk sidx S Hpos HS)|discriminate]. }
  destruct Hok as [K1 [K2 K3]].
  pose proof (deltaT_closed p d it kk (length rows) sidx S Hsel K1) as HDT.
  change (norm_t d) with (normalised_timeseries d) in HDT. rewrite HD in HDT. destruct HDT as [it' [Hit' Hoff]].
  assert (Es : selection it = sidx) by apply Hsel. assert (Eo : offsets it' = dts) by apply Hoff.
  assert (Hdl : length dts = length sidx).
  { destruct (mapM_Ok_inv _ _ _ HD) as [Hdl _]. rewrite Hdl, combine_length. lia. }
  destruct (weight_names wgt (opt_or al (median_time d)) w Hw) as [w' [Hw' Ew]].
  exists f, w', it, it'. rewrite Es, Eo, Hdl, HL. repeat split; try assumption.
  rewrite HV. unfold corr_value. rewrite pair_sum_fold by (rewrite map_length; congruence).
  f_equal. f_equal. apply fold_left_ext_in. intros acc q Hq. apply in_seq in Hq. f_equal.
  rewrite (nth_indep _ nzero (w nzero)) by (rewrite map_length; lia). rewrite map_nth, Ew. cbn [Nat.add].
  rewrite (centred_nth row q) by lia. rewrite (centred_nth row (nth q sidx 0)); [reflexivity|].
  rewrite HL. apply K3. apply nth_In. lia.
Qed.

End Values.

Section Hits.
Context {A : Num} {L : NumLaws A} {L2 : NumLaws2 A}.

Lemma norm_of_sum_sq (row : list num) : norm_of row = sum_sq32 row.
Proof.
  unfold norm_of, sum_sq32, sum, valid. generalize (mean row) as m. intros m. generalize nzero as a.
  induction row as [|x row IH]; intros a; cbn [fold_left filter]; [reflexivity|].
  rewrite l_nan_f32. destruct (nisnan x); cbn [negb map fold_left]; apply IH.
Qed.

(** |0| = 0 whatever [abs] means *)
Lemma cabs_zero p x y : neqb x nzero = true -> cabs p x = Ok y -> neqb y nzero = true.
Proof.
  intros H. destruct (eq_le _ _ H) as [H1 H2]. unfold cabs. destruct (p_abs p).
  - intros E. injection E as <-. pose proof (l_abs_pos x H2) as E. destruct (eq_le _ _ E) as [E1 E2].
    apply le_eq; eapply l_le_trans; eassumption.
  - intros E. apply bind_Ok in E. destruct E as [z [Hz E]]. destruct (z =? INT_MIN)%Z; [discriminate|]. injection E as <-.
    unfold to_int in Hz. destruct (ntrunc x) as [z'|] eqn:Et; [|discriminate]. destruct (in_int z'); [|discriminate]. injection Hz as ->.
    assert (T0 : ntrunc nzero = Some 0%Z) by (apply l_trunc_ofZ; reflexivity).
    pose proof (l_trunc_mono _ _ _ _ H1 Et T0). pose proof (l_trunc_mono _ _ _ _ H2 T0 Et). replace z with 0%Z by lia.
    apply le_eq; apply le_refl; apply l_fin_nan; exact l_fin_Z0.
Qed.

Lemma cabs_pos p x y : nisnan x = false -> cabs p x = Ok y -> nle nzero y = true.
Proof.
  intros Hn. unfold cabs. destruct (p_abs p).
  - intros E. injection E as <-. destruct (l_le_total x nzero Hn (l_fin_nan _ l_fin_Z0)) as [H|H].
    + pose proof (l_abs_neg x H) as E. apply l_le_trans with (nneg x); [|exact (eq_le2 _ _ E)].
      apply l_le_trans with (nneg nzero); [apply eq_le2; apply l_neg_0|]. apply l_neg_anti. exact H.
    + pose proof (l_abs_pos x H) as E. apply l_le_trans with x; [exact H|exact (eq_le2 _ _ E)].
  - intros E. apply bind_Ok in E. destruct E as [z [Hz E]]. destruct (z =? INT_MIN)%Z eqn:EM; [discriminate|]. injection E as <-.
    unfold to_int in Hz. destruct (ntrunc x) as [z'|] eqn:Et; [|discriminate]. destruct (in_int z') eqn:EI; [|discriminate]. injection Hz as ->.
    unfold nzero. rewrite l_ofZ_le; [apply Z.leb_le; lia|reflexivity|].
    apply Z.eqb_neq in EM. revert EI. unfold in_int, INT_MIN, INT_MAX in *. rewrite !andb_true_iff, !Z.leb_le. lia.
Qed.

Lemma sub_eq s y : nfin s = true -> nfin y = true -> neqb s y = true -> neqb (nsub s y) nzero = true.
Proof.
  intros Fs Fy H. destruct (eq_le _ _ H) as [H1 H2]. pose proof (l_sub_fin s y Fs Fy) as N1. pose proof (l_sub_fin y y Fy Fy) as N2.
  pose proof (l_sub_self y Fy) as E. apply le_eq.
  - rewrite <- E. apply l_sub_mono; assumption.
  - rewrite <- E at 1. apply l_sub_mono; assumption.
Qed.

Lemma hit_lower l s y q i : increasing l -> nth_error l q = Some y -> neqb s y = true -> split_at l s i -> i = q.
Proof.
  intros [Ho Hs] Hq Hy Hi. destruct (eq_le _ _ Hy) as [H1 H2]. destruct (Nat.lt_trichotomy i q) as [H|[H|H]]; [|exact H|].
  - exfalso. destruct (nth_error_Some_ex l i) as [x Hx].
    { apply Nat.lt_trans with q; [exact H|]. apply nth_error_Some. congruence. }
    pose proof (split_above l s i i x Ho Hi (Nat.le_refl i) Hx) as Hn.
    pose proof (lt_le_trans x y s (Hs i q x y H Hx Hq) H2). congruence.
  - exfalso. pose proof (split_below l s i q y Ho Hi H Hq) as Hl. apply lt_nle in Hl. congruence.
Qed.

(** a shifted time that coincides with a time point selects that point *)
Lemma hit p nt s y q idx : increasing nt -> nfin y = true -> nfin s = true -> (forall x, In x nt -> nfin x = true) ->
  nth_error nt q = Some y -> neqb s y = true -> natural_index p nt s = Ok idx -> idx = q.
Proof.
  intros Hinc Fy Fs Ff Hq Hy Hn. destruct (natural_index_cases p nt s idx Hn) as [i [Hi Hc]].
  pose proof (hit_lower nt s y q i Hinc Hq Hy Hi). subst i.
  destruct Hc as [[-> ->]|[H0 [a [b [da [db [Ha [Hb [Hda [Hdb ->]]]]]]]]]]; [reflexivity|].
  rewrite Hq in Hb. injection Hb as <-.
  pose proof (cabs_zero p _ _ (sub_eq s y Fs Fy Hy) Hdb) as Zb.
  assert (Nda : nisnan (nsub s a) = false) by (apply l_sub_fin; [exact Fs|apply Ff; eapply nth_error_In; exact Ha]).
  pose proof (cabs_pos p _ _ Nda Hda) as Pa.
  rewrite le_nlt; [reflexivity|]. exact (l_le_trans _ _ _ (eq_le1 _ _ Zb) Pa).
Qed.

Lemma add_zero x kk : nfin x = true -> neqb kk nzero = true -> neqb (nadd x kk) x = true.
Proof.
  intros Fx Hk. destruct (eq_le _ _ Hk) as [Hk1 Hk2]. pose proof (l_le_nan _ _ Hk1) as [Nk _].
  destruct (eq_le _ _ (l_add_0_r x (l_fin_nan _ Fx))) as [E1 E2].
  pose proof (l_add_fin_nan x kk Fx Nk). pose proof (l_add_fin x nzero Fx l_fin_Z0).
  apply le_eq.
  - apply (l_le_trans _ (nadd x nzero)); [|exact E1]. apply l_add_mono_r; assumption.
  - apply (l_le_trans _ (nadd x nzero)); [exact E2|]. apply l_add_mono_r; assumption.
Qed.

Lemma fin_eq a b : neqb a b = true -> nfin b = true -> nfin a = true.
Proof. intros H Fb. destruct (eq_le _ _ H) as [H1 H2]. exact (l_fin_between b a b H2 H1 Fb Fb). Qed.

(** the natural selection as a map *)
Lemma natural_sel_map p nt kk sidx S m : natural_sel p nt kk = Ok (sidx, S) -> nt <> [] ->
  (forall back, lback nt = Ok back -> cut_at (fun x => nlt back (nadd x kk)) nt m) ->
  S = map (fun x => nadd x kk) (firstn m nt) /\ length sidx = m /\
  forall i x, i < m -> nth_error nt i = Some x -> natural_index p nt (nadd x kk) = Ok (nth i sidx 0).
Proof.
  intros E Hnil Hm. unfold natural_sel in E. rewrite (lback_ok nt nzero Hnil) in E. cbn [bind] in E.
  specialize (Hm _ (lback_ok nt nzero Hnil)).
  destruct (shifted_cut (fun s => nlt (last nt nzero) s) nt kk) as [m' [Hm' HS]].
  pose proof (cut_at_unique _ _ _ _ Hm Hm'). subst m'. rewrite HS in E.
  apply bind_Ok in E. destruct E as [sl [E1 E2]]. injection E2 as <- <-.
  split; [reflexivity|]. destruct (mapM_Ok_inv _ _ _ E1) as [H1 H2]. destruct Hm as [M1 _].
  split; [rewrite H1, map_length; apply firstn_length_le; exact M1|].
  intros i x Hi Hx. assert (Hf : nth_error (map (fun x => nadd x kk) (firstn m nt)) i = Some (nadd x kk)).
  { rewrite nth_error_map, nth_error_firstn. destruct (Nat.ltb_spec i m); [|lia]. rewrite Hx. reflexivity. }
  destruct (H2 i _ Hf) as [b [Hb Hn]]. rewrite Hn. f_equal. symmetry. apply nth_error_nth. exact Hb.
Qed.

(** lag zero: every point selects itself *)
Lemma natural_sel_zero p nt kk sidx S : increasing nt -> (forall x, In x nt -> nfin x = true) -> nt <> [] ->
  neqb kk nzero = true -> natural_sel p nt kk = Ok (sidx, S) ->
  sidx = seq 0 (length nt) /\ S = map (fun x => nadd x kk) nt.
Proof.
  intros Hinc Hf Hnil Hk E.
  destruct (natural_sel_map p nt kk sidx S (length nt) E Hnil) as [H1 [H2 H3]].
  { intros back Hb. split; [lia|]. split.
    - intros i x Hi Hx. pose proof (Hf x (nth_error_In _ _ Hx)) as Fx. pose proof (add_zero x kk Fx Hk) as Ex.
      destruct (back_In nt back Hb) as [_ Bn]. apply le_nlt. apply l_le_trans with x; [exact (eq_le1 _ _ Ex)|].
      apply (proj1 Hinc i (length nt - 1)); [lia|assumption|assumption].
    - intros x Hx. assert (length nt < length nt) by (apply nth_error_Some; congruence). lia. }
  rewrite firstn_all in H1. split; [|exact H1]. apply list_ext. intros i.
  rewrite nth_error_seq. destruct (Nat.ltb_spec i (length nt)) as [Hi|Hi].
  - destruct (nth_error_Some_ex nt i Hi) as [x Hx]. specialize (H3 i x Hi Hx).
    pose proof (Hf x (nth_error_In _ _ Hx)) as Fx. pose proof (add_zero x kk Fx Hk) as Ex.
    pose proof (hit p nt (nadd x kk) x i _ Hinc Fx (fin_eq _ _ Ex Fx) Hf Hx Ex H3) as Eq.
    rewrite (nth_error_nth' sidx 0) by lia. f_equal. exact Eq.
  - apply nth_error_None. lia.
Qed.

End Hits.
