(** Relations between calls. *)
From Coq Require Import String.
From Coq Require Import ZArith List Bool Arith Lia.
From Verif Require Import Num Mem MemFacts Spec DataStructure DSFacts Correlator Sacf Api CorrFacts LoopFacts MainFacts Laws Laws2 SafeFacts StateFacts.
From Verif Require Import ConstrFacts.
Import ListNotations.
Local Open Scope list_scope.

Section RelFacts.
Context {A : Num}.

(** ** Recalculation *)
Lemma named_values_ext p c c2 sel wgt kk : ds c2 = ds c -> Nvec c2 = Nvec c -> alpha c2 = alpha c ->
  named_values p c2 sel wgt kk = named_values p c sel wgt kk.
Proof. intros H1 H2 H3. unfold named_values, lag_values. rewrite H1, H2, H3. reflexivity. Qed.

Lemma run_clean_ok c0 c f ks c' : base c0 -> inv c0 c ->
  (forall kk cs, f kk = Ok cs -> length cs = N_datasets (ds c)) ->
  mbind (run_lags f ks 0 c) (fun c1 _ => cleanCorrelationData c1 (length ks)) = (c', Ok tt) ->
  exists vals, mapM f ks = Ok vals /\ length ks <= length (timeseries_ c) /\ length ks <= num_lag_steps c /\
    c' = set_data c ks (concat (by_dataset (N_datasets (ds c)) vals)) (length ks).
Proof.
  intros H0 Hi Hf E. pose proof Hi as [_ [_ [_ [Hb|Hb]]]].
  - destruct (run_lags f ks 0 c) as [c1 r] eqn:E1.
    assert (Hr : snd (run_lags f ks 0 c) = run_res f ks (num_lag_steps c - 0)) by (apply run_lags_res; [exact Hb|lia|exact Hf]).
    rewrite E1, Nat.sub_0_r in Hr. cbn [snd] in Hr.
    destruct r as [[]|e|u|]; cbn [mbind] in E; try discriminate. symmetry in Hr.
    destruct (mapM_run_res _ _ _ Hr) as [vals Hv]. apply run_res_ok in Hr. destruct Hr as [Hl _].
    exists vals. split; [exact Hv|]. split; [destruct Hb as [-> _]; exact Hl|]. split; [exact Hl|].
    destruct (run_clean f ks vals c Hb Hl Hf Hv) as [E2 _]. rewrite E1 in E2. cbn [mbind] in E2. rewrite E in E2.
    injection E2 as ->. reflexivity.
  - destruct (run_lags f ks 0 c) as [c1 r] eqn:E1. pose proof (run_lags_cases _ _ _ _ _ _ E1) as [_ [_ [_ [H4 _]]]].
    destruct r as [[]|e|u|]; cbn [mbind] in E; try discriminate.
    assert (ks = []) as ->.
    { destruct (H4 eq_refl) as [->|H5]; [reflexivity|]. destruct Hb as [Hb _]. rewrite Hb in H5. destruct ks; [reflexivity|cbn in H5; lia]. }
    injection E1 as <-. cbn [length] in *. exists []. split; [reflexivity|]. split; [lia|]. split; [lia|].
    destruct (clean_cases c 0) as [[ts [cs [E' [L1 [L2 _]]]]]|[u Hu]]; [|rewrite E in Hu; discriminate].
    rewrite E in E'. injection E' as ->. rewrite Nat.mul_0_r in L2.
    destruct ts; [|discriminate]. destruct cs; [|discriminate].
    assert (K : concat (by_dataset (N_datasets (ds c)) []) = []).
    { unfold by_dataset. cbn [map]. generalize (seq 0 (N_datasets (ds c))). intros l. induction l; cbn; auto. }
    rewrite K. reflexivity.
Qed.

(** the same calculation from another state with the same settings and enough room *)
Definition same_settings (c c2 : correlator) : Prop :=
  ds c2 = ds c /\ Nvec c2 = Nvec c /\ alpha c2 = alpha c /\ min_lag c2 = min_lag c /\ max_lag c2 = max_lag c /\
  lag_resolution c2 = lag_resolution c.

Lemma set_data_settings c c2 ts cs n : same_settings c c2 -> set_data c2 ts cs n = set_data c ts cs n.
Proof. intros [H1 [H2 [H3 [H4 [H5 H6]]]]]. unfold set_data. rewrite H1, H2, H3, H4, H5, H6. reflexivity. Qed.

Lemma lags_in_settings c c2 : same_settings c c2 -> snd (lags_in c) = true ->
  length (fst (lags_in c)) <= length (timeseries_ c2) -> lags_in c2 = lags_in c.
Proof.
  intros [_ [_ [_ [H4 [H5 H6]]]]] Hs Hl. unfold lags_in at 1. rewrite H4, H5, H6.
  rewrite (grid_lag_list _ _ _ _ (fst (lags_in c))).
  - destruct (lags_in c) as [l b]. cbn in *. subst b. reflexivity.
  - apply lag_list_grid. exact Hs.
  - lia.
Qed.

Lemma rerun c0 c c2 p sel wgt c' : base c0 -> inv c0 c -> ready c2 -> same_settings c c2 ->
  length (timeseries_ c') <= num_lag_steps c2 ->
  snd (lags_in c) = true ->
  mbind (run_lags (named_values p c sel wgt) (fst (lags_in c)) 0 c)
    (fun c1 _ => cleanCorrelationData c1 (length (fst (lags_in c)))) = (c', Ok tt) ->
  lags_in c2 = lags_in c /\
  mbind (run_lags (named_values p c2 sel wgt) (fst (lags_in c)) 0 c2)
    (fun c1 _ => cleanCorrelationData c1 (length (fst (lags_in c)))) = (c', Ok tt).
Proof.
  intros H0 Hi Hr Hs Hl Hb E.
  destruct (run_clean_ok c0 c _ _ c' H0 Hi (named_values_length p c sel wgt) E) as [vals [Hv [L1 [L2 ->]]]].
  cbn [timeseries_ set_data] in Hl. pose proof Hr as [R1 [R2 [R3 R4]]].
  split; [apply lags_in_settings; try assumption; lia|].
  assert (Hd : ds c2 = ds c) by apply Hs.
  destruct (run_clean (named_values p c2 sel wgt) (fst (lags_in c)) vals c2 (conj R3 R4)) as [E2 _].
  - lia.
  - apply named_values_length.
  - rewrite <- Hv. apply mapM_ext. intros kk _. apply named_values_ext; apply Hs.
  - rewrite E2, Hd. f_equal. apply set_data_settings. exact Hs.
Qed.

(** a successful calculation fits *)
Lemma calc_fits c0 c p o c' : base c0 -> inv c0 c -> is_calculation o -> run_op p c o = (c', Ok tt) ->
  inv c0 c' /\ bufs_ok c' /\ same_settings c c' /\ num_lag_steps c' <= num_lag_steps c /\
  lag_timeseries c' = fst (lags_in c) /\ snd (lags_in c) = true.
Proof.
  intros H0 Hi Ho E. pose proof (inv_semi c0 c H0 Hi) as Hse.
  assert (K : exists sel wgt, mbind (run_lags (named_values p c sel wgt) (fst (lags_in c)) 0 c)
    (fun c1 _ => cleanCorrelationData c1 (length (fst (lags_in c)))) = (c', Ok tt) /\ snd (lags_in c) = true).
  { destruct Ho as [->|[sel [wgt ->]]]; cbn [run_op] in E.
    - rewrite calculate_any in E by exact Hse. exists "natural"%string, "fractional"%string.
      change (std_values p c) with (named_values p c "natural" "fractional") in E.
      destruct (run_lags _ _ 0 c) as [c1 [[]|e|u|]]; cbn [mbind] in *; try discriminate.
      destruct (snd (lags_in c)); [auto|discriminate].
    - rewrite find_any in E by exact Hse. exists sel, wgt.
      destruct (fst (lags_in c)) as [|x l] eqn:El; [discriminate|]. rewrite <- El in *.
      destruct (run_lags _ _ 0 c) as [c1 [[]|e|u|]]; cbn [mbind] in *; try discriminate.
      destruct (snd (lags_in c)); [auto|discriminate]. }
  destruct K as [sel [wgt [K Ks]]].
  destruct (step_inv p c0 c o c' (Ok tt) H0 Hi E (or_introl eq_refl)) as [I1 _].
  destruct (run_clean_ok c0 c _ _ c' H0 Hi (named_values_length p c sel wgt) K) as [vals [Hv [L1 [L2 Hc']]]].
  split; [exact I1|].
  assert (Hb : bufs_ok c').
  { assert (Hvl : length vals = length (fst (lags_in c))) by (apply mapM_Ok_inv in Hv; apply Hv).
    rewrite Hc'. split; cbn; [reflexivity|]. rewrite (concat_length (length (fst (lags_in c)))).
    - unfold by_dataset. rewrite map_length, seq_length. reflexivity.
    - intros r Hr. unfold by_dataset in Hr. apply in_map_iff in Hr. destruct Hr as [q [<- _]]. rewrite map_length. exact Hvl. }
  split; [exact Hb|]. rewrite Hc'. split; [repeat split; reflexivity|]. split; [exact L2|]. split; [reflexivity|exact Ks].
Qed.

Lemma calc_again c0 c c2 p o c' : base c0 -> inv c0 c -> is_calculation o -> run_op p c o = (c', Ok tt) ->
  ready c2 -> same_settings c c2 -> num_lag_steps c' <= num_lag_steps c2 -> run_op p c2 o = (c', Ok tt).
Proof.
  intros H0 Hi Ho E Hr Hs Hl. pose proof (inv_semi c0 c H0 Hi) as Hse.
  destruct (calc_fits c0 c p o c' H0 Hi Ho E) as [_ [Hb [_ [_ [_ Hsnd]]]]].
  assert (Hlt : length (timeseries_ c') <= num_lag_steps c2) by (destruct Hb as [-> _]; exact Hl).
  assert (Hse2 : semi c2) by (destruct Hr as [R1 [R2 _]]; split; assumption).
  destruct Ho as [->|[sel [wgt ->]]]; cbn [run_op] in *.
  - rewrite calculate_any in E by exact Hse. rewrite Hsnd in E.
    destruct (rerun c0 c c2 p "natural" "fractional" c' H0 Hi Hr Hs Hlt Hsnd E) as [K1 K2].
    rewrite calculate_any by exact Hse2. rewrite K1, Hsnd. exact K2.
  - rewrite find_any in E by exact Hse. rewrite find_any by exact Hse2.
    destruct (fst (lags_in c)) as [|x l] eqn:El; [discriminate|]. rewrite <- El in *. rewrite Hsnd in E.
    destruct (rerun c0 c c2 p sel wgt c' H0 Hi Hr Hs Hlt Hsnd E) as [K1 K2].
    rewrite K1, El, <- El, Hsnd. exact K2.
Qed.

(** again on the resulting state *)
Lemma recalculate_same p c0 os c o c' : base c0 -> after p c0 os c -> is_calculation o -> run_op p c o = (c', Ok tt) ->
  run_op p c' o = (c', Ok tt).
Proof.
  intros H0 Ha Ho E. destruct (after_inv p c0 os c H0 Ha) as [Hi _].
  destruct (calc_fits c0 c p o c' H0 Hi Ho E) as [I [Hb [Hs [Hl _]]]].
  refine (calc_again c0 c c' p o c' H0 Hi Ho E _ Hs (le_n _)).
  destruct (inv_semi c0 c' H0 I) as [K1 K2]. split; [exact K1|]. split; [exact K2|exact Hb].
Qed.

Lemma recalculate_fresh p c0 os c o c' : base c0 -> after p c0 os c -> is_calculation o -> run_op p c o = (c', Ok tt) ->
  run_op p (set_up_correlation c0 (Some (min_lag c)) (Some (max_lag c)) (Some (lag_resolution c)) (Some (alpha c))) o = (c', Ok tt).
Proof.
  intros H0 Ha Ho E. destruct (after_inv p c0 os c H0 Ha) as [Hi _].
  destruct (calc_fits c0 c p o c' H0 Hi Ho E) as [I [Hb [Hs [Hl _]]]].
  refine (calc_again c0 c _ p o c' H0 Hi Ho E _ _ _).
  - apply set_up_ready. apply H0.
  - destruct Hi as [H3 [H4 _]]. repeat split; cbn; symmetry; assumption.
  - destruct I as [_ [_ [H5 _]]]. exact H5.
Qed.

(** ** Buffers *)
Lemma correlations_consistent c : bufs_ok c ->
  exists rows, correlations c = Ok rows /\ length rows = N_datasets (ds c) /\
    forall row, In row rows -> length row = length (lag_timeseries c).
Proof.
  intros [H1 H2]. exists (recut (N_datasets (ds c)) (num_lag_steps c) (correlations_ c)).
  split; [|split; [apply recut_length|]].
  - transitivity (rows_2d (correlations_ c) (N_datasets (ds c)) (num_lag_steps c)); [reflexivity|].
    apply rows_2d_ok. lia.
  - intros row Hr. unfold recut in Hr. apply in_map_iff in Hr. destruct Hr as [j [<- Hj]]. apply in_seq in Hj.
    unfold lag_timeseries. rewrite H1. apply piece_length. nia.
Qed.

Lemma cleared_correlations c : cleared c -> 0 < N_datasets (ds c) ->
  correlations c = if num_lag_steps c =? 0 then Ok (repeat [] (N_datasets (ds c))) else UB OobRead.
Proof.
  intros [_ Hc] HN. unfold correlations. rewrite Hc. destruct (Nat.eqb_spec (num_lag_steps c) 0) as [->|Hn].
  - cbn [seq mapM]. rewrite (mapM_Ok_map _ (fun _ => [])) by reflexivity. f_equal.
    generalize 0. induction (N_datasets (ds c)) as [|n IH]; intros s; cbn; [reflexivity|]. f_equal.
    destruct n; [reflexivity|]. apply IH. lia.
  - destruct (N_datasets (ds c)) as [|n]; [lia|]. cbn [seq mapM].
    destruct (num_lag_steps c) as [|m]; [lia|]. reflexivity.
Qed.

(** calculating after clear with a lag to visit *)
Lemma cleared_run p c sel wgt (m : correlator -> meth correlator unit) : cleared c -> nle (min_lag c) (max_lag c) = true ->
  let first := if nlt nzero (min_lag c) && negb (neqb (min_lag c) nzero) then nzero else min_lag c in
  snd (mbind (run_lags (named_values p c sel wgt) (fst (lags_in c)) 0 c) (fun c1 _ => m c1)) =
  match named_values p c sel wgt first with
  | Ok _ => UB OobWrite | Throw e => Throw e | UB u => UB u | Diverge => Diverge end.
Proof.
  intros [Hc _] Hle first. destruct (lags_in_first c Hle) as [l ->]. fold first. cbn [run_lags].
  destruct (named_values p c sel wgt first) as [cs|e|u|]; try reflexivity.
  cbn [store_res]. unfold store, addCorrelationData, mlift. cbn [k]. rewrite Hc. reflexivity.
Qed.

(** ** Calls as functions of times and rows *)
Lemma accepted_values d : accepted d ->
  exists ts data er N, d = the_ds ts data er N /\ ts <> [] /\ N * length ts <= length data /\ 0 < N /\
    data_2d d = Ok (recut N (length ts) data).
Proof.
  intros Ha. destruct (accepted_setUp d Ha) as [ts [data [er [N [-> [H1 [H2 [H3 [H4 H5]]]]]]]]].
  exists ts, data, er, N. repeat split; try assumption. apply rows_2d_ok. exact H4.
Qed.

Lemma rows_of_pack rows : rows <> [] -> rows_of (pack rows) = rows.
Proof. destruct rows as [|r [|r' rows]]; [congruence|reflexivity|reflexivity]. Qed.

Lemma recut_nil {X} N M (l : list X) : 0 < N -> recut N M l <> [].
Proof. intros H E. apply (f_equal (@length _)) in E. rewrite recut_length in E. cbn in E. lia. Qed.

Lemma visible_core p ts data er N mi ma re al sel wgt :
  ts <> [] -> N * length ts <= length data -> 0 < N ->
  visible (autocorrelation p (the_ds ts data er N) mi ma re al sel wgt) =
  do gF <- acf_core p ts mi ma re al sel wgt;
  Ok (fst gF, pack (map (fun row => map (fun F => F row) (snd gF)) (recut N (length ts) data))).
Proof.
  intros H1 H2 H3. unfold visible. rewrite auto_core by assumption.
  destruct (acf_core p ts mi ma re al sel wgt) as [gF|e|u|] eqn:E; cbn [bind]; try reflexivity.
  unfold acf_core in E. destruct (allot (rel_times ts)) as [n|e|u|]; try discriminate. reflexivity.
Qed.

Lemma by_rows p d d' rows rows' mi ma re al sel wgt : accepted d -> accepted d' -> timeseries d = timeseries d' ->
  data_2d d = Ok rows -> data_2d d' = Ok rows' ->
  same_outcome (fun x y => fst x = fst y /\
      forall j j' row, nth_error rows j = Some row -> nth_error rows' j' = Some row ->
        exists out, nth_error (rows_of (snd x)) j = Some out /\ nth_error (rows_of (snd y)) j' = Some out)
    (visible (autocorrelation p d mi ma re al sel wgt)) (visible (autocorrelation p d' mi ma re al sel wgt)).
Proof.
  intros Ha Ha' Ht Hr Hr'.
  destruct (accepted_values d Ha) as [ts [data [er [N [-> [H1 [H2 [H3 H4]]]]]]]].
  destruct (accepted_values d' Ha') as [ts' [data' [er' [N' [-> [H1' [H2' [H3' H4']]]]]]]].
  cbn in Ht. subst ts'. rewrite Hr in H4. injection H4 as ->. rewrite Hr' in H4'. injection H4' as ->.
  rewrite !visible_core by assumption.
  destruct (acf_core p ts mi ma re al sel wgt) as [[g Fs]|e|u|]; cbn [bind same_outcome fst snd]; auto.
  split; [reflexivity|]. intros j j' row Hj Hj'. exists (map (fun F => F row) Fs).
  rewrite !rows_of_pack by (intros E; apply map_eq_nil in E; revert E; apply recut_nil; assumption).
  rewrite !nth_error_map, Hj, Hj'. split; reflexivity.
Qed.

Lemma same_values p d d' rows mi ma re al sel wgt : accepted d -> accepted d' -> timeseries d = timeseries d' ->
  data_2d d = Ok rows -> data_2d d' = Ok rows ->
  visible (autocorrelation p d mi ma re al sel wgt) = visible (autocorrelation p d' mi ma re al sel wgt).
Proof.
  intros Ha Ha' Ht Hr Hr'.
  destruct (accepted_values d Ha) as [ts [data [er [N [-> [H1 [H2 [H3 H4]]]]]]]].
  destruct (accepted_values d' Ha') as [ts' [data' [er' [N' [-> [H1' [H2' [H3' H4']]]]]]]].
  cbn in Ht. subst ts'. rewrite Hr in H4. injection H4 as ->. rewrite Hr' in H4'. injection H4' as E.
  rewrite !visible_core by assumption. rewrite E. reflexivity.
Qed.

(** one row as a dataset of its own *)
Lemma alone d rows j row e : accepted d -> data_2d d = Ok rows -> nth_error rows j = Some row ->
  exists dj, SACF_1d (timeseries d) row e = Ok dj /\ timeseries dj = timeseries d /\ data_2d dj = Ok [row].
Proof.
  intros Ha Hr Hj. destruct (accepted_values d Ha) as [ts [data [er [N [-> [H1 [H2 [H3 H4]]]]]]]].
  rewrite Hr in H4. injection H4 as ->. cbn [timeseries t the_ds].
  rewrite nth_error_recut in Hj. destruct (Nat.ltb_spec j N) as [Hn|]; [|discriminate]. injection Hj as <-.
  assert (Hl : length (piece (length ts) data j) = length ts) by (apply piece_length; nia).
  set (row := piece (length ts) data j) in *.
  assert (Hne : row <> []) by (intros E; rewrite E in Hl; destruct ts; [congruence|discriminate]).
  destruct (ConstrFacts.one_dataset ts row e) as [_ [_ K]].
  destruct (K H1 Hne) as [dj [K1 [K2 [K3 _]]]].
  - rewrite Hl. apply Nat.mod_same. destruct ts; [congruence|discriminate].
  - exists dj. change (timeseries (the_ds ts data er N)) with ts. split; [exact K1|]. split; [exact K2|].
    rewrite K3. rewrite <- Hl. rewrite firstn_all. reflexivity.
Qed.

(** ** Shape *)
Lemma shape p d mi ma re al sel wgt lags corr c : accepted d ->
  autocorrelation p d mi ma re al sel wgt = Ok (lags, corr, c) ->
  length (rows_of corr) = N_datasets d /\ (forall row, In row (rows_of corr) -> length row = length lags) /\
  ((exists l, corr = Flat l) <-> N_datasets d = 1) /\
  lag_timeseries c = lags /\ correlations c = Ok (rows_of corr).
Proof.
  intros Ha E. destruct (accepted_values d Ha) as [ts [data [er [N [-> [H1 [H2 [H3 H4]]]]]]]].
  rewrite auto_core in E by assumption. apply bind_Ok in E. destruct E as [[g Fs] [E E2]].
  apply bind_Ok in E2. destruct E2 as [n [En E2]]. cbv zeta in E2. cbn [fst snd] in E2.
  set (rows := map (fun row => map (fun F => F row) Fs) (recut N (length ts) data)) in *.
  injection E2 as <- <- <-.
  assert (Hne : rows <> []) by (intros K; apply map_eq_nil in K; revert K; apply recut_nil; exact H3).
  assert (Hlen : length rows = N) by (unfold rows; rewrite map_length; apply recut_length).
  assert (Hg : length Fs = length g).
  { unfold acf_core in E. rewrite En in E. cbn [bind] in E. destruct (fst (lag_list _ _ _ _ _)) as [|x l].
    - destruct (_ && _); [|discriminate]. cbn in E. injection E as <- <-. reflexivity.
    - apply bind_Ok in E. destruct E as [Fs' [E1 E2]]. injection E2 as <- <-.
      apply run_room_mapM, mapM_Ok_inv in E1. apply E1. }
  assert (Hrow : forall row, In row rows -> length row = length g).
  { intros row Hr. unfold rows in Hr. apply in_map_iff in Hr. destruct Hr as [r [<- _]]. rewrite map_length. exact Hg. }
  rewrite rows_of_pack by exact Hne. cbn [N_datasets the_ds].
  split; [exact Hlen|]. split; [exact Hrow|]. split.
  - rewrite <- Hlen. clear -Hne. destruct rows as [|r [|r' rows]]; [congruence| |]; cbn; split; intros H; try discriminate; eauto.
    destruct H as [l H]. discriminate.
  - split; [reflexivity|]. unfold final_corr.
    apply (clean_correlations _ _ _ _ N); try reflexivity; try assumption.
    destruct (set_up_fields (the_corr ts data er N n) mi ma re al) as [F1 _]. rewrite F1. reflexivity.
Qed.

(** ** The call in terms of the methods *)
Lemma call_is_run p d c0 mi ma re al sel wgt : accepted d -> new_Correlator d = Ok c0 ->
  let c1 := set_up_correlation c0 mi ma re al in
  let o := if String.eqb sel "natural" && String.eqb wgt "fractional" then Calculate else Find sel wgt in
  autocorrelation p d mi ma re al sel wgt =
  do _u <- snd (run_op p c1 o); do r <- result_of (fst (run_op p c1 o)); Ok (fst r, snd r, fst (run_op p c1 o)).
Proof.
  intros Ha Hn c1 o. unfold autocorrelation. rewrite Hn. cbn [bind]. fold c1.
  unfold o. destruct (_ && _); reflexivity.
Qed.

Lemma call_history p d c0 mi ma re al sel wgt lags corr c : accepted d -> new_Correlator d = Ok c0 ->
  autocorrelation p d mi ma re al sel wgt = Ok (lags, corr, c) ->
  let o := if String.eqb sel "natural" && String.eqb wgt "fractional" then Calculate else Find sel wgt in
  run_op p (set_up_correlation c0 mi ma re al) o = (c, Ok tt).
Proof.
  intros Ha Hn E o. rewrite (call_is_run p d c0) in E by assumption. cbv zeta in E. fold o in E.
  destruct (run_op p (set_up_correlation c0 mi ma re al) o) as [c' r]. cbn [fst snd] in E.
  apply bind_Ok in E. destruct E as [[] [-> E]]. apply bind_Ok in E. destruct E as [r0 [_ E]]. injection E as _ _ ->. reflexivity.
Qed.

Lemma set_up_after p c0 mi ma re al : exists os, after p c0 os (set_up_correlation c0 mi ma re al) /\
  forall o, In o os -> (exists x, o = SetMaxLag x) \/ (exists x, o = SetMinLag x) \/ (exists x, o = SetLagResolution x) \/ (exists x, o = SetAlpha x).
Proof.
  assert (K : forall os c o c', after p c0 os c -> run_op p c o = (c', Ok tt) -> after p c0 (os ++ [o]) c').
  { intros os c o c' H E. eapply after_snoc; [exact H|exact E|left; reflexivity]. }
  set (os := match ma with Some x => [SetMaxLag x] | None => [] end ++ match mi with Some x => [SetMinLag x] | None => [] end ++
             match re with Some x => [SetLagResolution x] | None => [] end ++ match al with Some x => [SetAlpha x] | None => [] end).
  exists os. split.
  - unfold os. rewrite !app_assoc. unfold set_up_correlation. cbv zeta.
    set (c1 := match ma with Some x => setMaxLag c0 x | None => c0 end).
    assert (A1 : after p c0 (match ma with Some x => [SetMaxLag x] | None => [] end) c1).
    { unfold c1. destruct ma as [x|]; [|apply after_nil]. apply (K [] c0); [apply after_nil|reflexivity]. }
    set (o1 := match ma with Some x => [SetMaxLag x] | None => [] end) in *. clearbody c1 o1.
    set (c2 := match mi with Some x => setMinLag c1 x | None => c1 end).
    assert (A2 : after p c0 (o1 ++ match mi with Some x => [SetMinLag x] | None => [] end) c2).
    { unfold c2. destruct mi as [x|]; [|rewrite app_nil_r; exact A1]. apply (K _ c1); [exact A1|reflexivity]. }
    set (o2 := o1 ++ match mi with Some x => [SetMinLag x] | None => [] end) in *. clearbody c2 o2.
    set (c3 := match re with Some x => setLagResolution c2 x | None => c2 end).
    assert (A3 : after p c0 (o2 ++ match re with Some x => [SetLagResolution x] | None => [] end) c3).
    { unfold c3. destruct re as [x|]; [|rewrite app_nil_r; exact A2]. apply (K _ c2); [exact A2|reflexivity]. }
    set (o3 := o2 ++ match re with Some x => [SetLagResolution x] | None => [] end) in *. clearbody c3 o3.
    destruct al as [x|]; [|rewrite app_nil_r; exact A3]. apply (K _ c3); [exact A3|reflexivity].
  - intros o Ho. unfold os in Ho. rewrite !in_app_iff in Ho.
    destruct Ho as [Ho|[Ho|[Ho|Ho]]]; [destruct ma|destruct mi|destruct re|destruct al]; cbn in Ho; intuition (subst; eauto 8).
Qed.

(** the correlator handed out by a call, calculating again *)
Lemma call_again p d mi ma re al sel wgt lags corr c : accepted d ->
  autocorrelation p d mi ma re al sel wgt = Ok (lags, corr, c) ->
  let o := if String.eqb sel "natural" && String.eqb wgt "fractional" then Calculate else Find sel wgt in
  run_op p c o = (c, Ok tt).
Proof.
  intros Ha E o. assert (exists c0, new_Correlator d = Ok c0) as [c0 Hn].
  { unfold autocorrelation in E. apply bind_Ok in E. destruct E as [c0 [E _]]. eauto. }
  destruct (new_base d c0 Ha Hn) as [H0 _].
  pose proof (call_history p d c0 mi ma re al sel wgt lags corr c Ha Hn E) as Eo. cbv zeta in Eo. fold o in Eo.
  destruct (set_up_after p c0 mi ma re al) as [os [Hos _]].
  apply (recalculate_same p c0 os _ o c H0 Hos); [|exact Eo].
  unfold o. destruct (_ && _); [left; reflexivity|right; eauto].
Qed.

(** ** Empty range and names *)
Lemma map_const_seq {X} (x : X) n s : map (fun _ => x) (seq s n) = repeat x n.
Proof. revert s. induction n as [|n IH]; intros s; cbn; [reflexivity|]. rewrite IH. reflexivity. Qed.

Lemma empty_call p d c0 mi ma re al sel wgt : accepted d -> new_Correlator d = Ok c0 ->
  nle (opt_or mi (min_lag c0)) (opt_or ma (max_lag c0)) = false ->
  visible (autocorrelation p d mi ma re al sel wgt) =
  if String.eqb sel "natural" && String.eqb wgt "fractional" then Ok ([], pack (repeat [] (N_datasets d)))
  else Throw PyUnboundLocalError.
Proof.
  intros Ha Hn Hle. destruct (new_Correlator_accepted d c0 Ha Hn) as [ts [data [er [N [n [-> [H1 [H2 [H3 [H4 ->]]]]]]]]]].
  rewrite visible_core by assumption. unfold acf_core. rewrite H4. cbn [bind min_lag max_lag the_corr] in *. cbn [lag_list].
  rewrite Hle. cbn [fst]. destruct (_ && _); [|reflexivity]. cbn [run_room bind fst snd N_datasets the_ds]. do 3 f_equal.
  unfold recut. rewrite map_map. exact (map_const_seq [] N 0).
Qed.

Lemma named_acf_unknown sel wgt al p ts kk F : sel_named sel = None \/ weight_named wgt al = None -> named_acf sel wgt al p ts kk <> Ok F.
Proof.
  intros H. unfold named_acf. destruct (sel_named sel) as [sf|]; [|discriminate].
  destruct H as [H|H]; [discriminate|]. rewrite H. intros E. apply bind_Ok in E. destruct E as [sS [_ E]].
  apply bind_Ok in E. destruct E as [dts [_ E]]. discriminate.
Qed.

Lemma sel_unknown sel : sel <> "natural"%string -> sel <> "fast"%string -> sel_named sel = None.
Proof.
  intros H1 H2. unfold sel_named. destruct (String.eqb_spec sel "fast"); [congruence|].
  destruct (String.eqb_spec sel "natural"); [congruence|]. reflexivity.
Qed.

Lemma weight_unknown wgt al : ~ known_weight wgt -> weight_named wgt al = None.
Proof.
  intros H. unfold known_weight in H. unfold weight_named.
  destruct (String.eqb_spec wgt "gaussian"); [tauto|]. destruct (String.eqb_spec wgt "fractional"); [tauto|].
  destruct (String.eqb_spec wgt "fractional_squared"); [tauto|]. reflexivity.
Qed.

(** an unknown name never gives a result *)
Lemma unknown_never p d mi ma re al sel wgt r : accepted d ->
  (sel <> "natural"%string /\ sel <> "fast"%string) \/ ~ known_weight wgt ->
  autocorrelation p d mi ma re al sel wgt <> Ok r.
Proof.
  intros Ha H E. destruct (accepted_values d Ha) as [ts [data [er [N [-> [H1 [H2 [H3 H4]]]]]]]].
  rewrite auto_core in E by assumption. apply bind_Ok in E. destruct E as [gF [E _]].
  unfold acf_core in E. apply bind_Ok in E. destruct E as [n [_ E]]. cbv zeta in E.
  assert (Hf : String.eqb sel "natural" && String.eqb wgt "fractional" = false).
  { destruct H as [[H _]|H].
    - destruct (String.eqb_spec sel "natural"); [congruence|reflexivity].
    - destruct (String.eqb_spec wgt "fractional"); [subst; exfalso; apply H; left; reflexivity|apply andb_false_r]. }
  rewrite Hf in E. destruct (fst (lag_list _ _ _ _ _)) as [|x l]; [discriminate|].
  apply bind_Ok in E. destruct E as [Fs [E _]]. cbn [run_room] in E. apply bind_Ok in E. destruct E as [F [E _]].
  revert E. apply named_acf_unknown. destruct H as [[K1 K2]|K]; [left; apply sel_unknown; assumption|right; apply weight_unknown; exact K].
Qed.

Lemma unknown_selection p d c0 mi ma re al sel wgt : accepted d -> new_Correlator d = Ok c0 ->
  sel <> "natural"%string -> sel <> "fast"%string ->
  nle (opt_or mi (min_lag c0)) (opt_or ma (max_lag c0)) = true ->
  autocorrelation p d mi ma re al sel wgt = Throw PyKeyError.
Proof.
  intros Ha Hn K1 K2 Hle. destruct (new_Correlator_accepted d c0 Ha Hn) as [ts [data [er [N [n [-> [H1 [H2 [H3 [H4 ->]]]]]]]]]].
  rewrite auto_core by assumption. unfold acf_core. rewrite H4. cbn [bind min_lag max_lag the_corr] in *.
  destruct (lag_list _ _ _ _ _) as [l b] eqn:El. cbn [fst].
  assert (Hl : exists x l', l = x :: l').
  { cbn [lag_list] in El. rewrite Hle in El. destruct (_ && _) in El; injection El as <- _; eauto. }
  destruct Hl as [x [l' ->]]. cbn [run_room]. unfold named_acf at 1. rewrite sel_unknown by assumption. reflexivity.
Qed.

Lemma unknown_weight {L1 : NumLaws A} {L2 : NumLaws2 A} p d c0 mi ma re al wgt : accepted d -> new_Correlator d = Ok c0 -> ~ known_weight wgt ->
  p_checked p = false -> abs_defined p d nzero -> abs_defined p d (opt_or mi (min_lag c0)) ->
  nle (opt_or mi (min_lag c0)) (opt_or ma (max_lag c0)) = true ->
  autocorrelation p d mi ma re al "natural" wgt = Throw PyKeyError.
Proof.
  intros Ha Hn Hw Hc A0 A1 Hle. destruct (new_Correlator_accepted d c0 Ha Hn) as [ts [data [er [N [n [-> [H1 [H2 [H3 [H4 ->]]]]]]]]]].
  rewrite auto_core by assumption. unfold acf_core. rewrite H4. cbn [bind min_lag max_lag the_corr] in *.
  destruct (lag_list _ _ _ _ _) as [l b] eqn:El. cbn [fst].
  assert (Hl : exists x l', l = x :: l' /\ abs_defined p (the_ds ts data er N) x).
  { cbn [lag_list] in El. rewrite Hle in El. destruct (_ && _) in El; injection El as <- _; eauto. }
  destruct Hl as [x [l' [-> Hx]]]. cbn [run_room].
  assert (E : forall a, named_acf "natural" wgt a p ts x = Throw PyKeyError).
  { intros a. pose proof (natural_acf_safe "fractional" a p ts x H1 Hc (or_introl eq_refl)) as [F E].
    { exact Hx. }
    unfold named_acf in *. change (sel_named "natural") with (Some (@natural_sel A)) in *. cbv iota in *.
    rewrite weight_unknown by exact Hw. change (weight_named "fractional" a) with (Some (fractionWeightFunction a)) in E.
    cbv iota in E. unfold acf_at in E. apply bind_Ok in E. destruct E as [sS [-> E]]. cbn [bind].
    apply bind_Ok in E. destruct E as [dts [-> _]]. reflexivity. }
  rewrite E. reflexivity.
Qed.

(** ** Clear *)
Lemma natural_values_safe {L1 : NumLaws A} {L2 : NumLaws2 A} c p wgt kk : wf_ds (ds c) -> p_checked p = false -> known_weight wgt ->
  abs_defined p (ds c) kk -> exists cs, named_values p c "natural" wgt kk = Ok cs.
Proof.
  intros [W1 [W2 W3]] Hc Hw Hn. unfold named_values. change (sel_named "natural") with (Some (@natural_sel A)). cbv iota.
  assert (Hnil : norm_t (ds c) <> []) by (intros E; rewrite E in W2; cbn in W2; lia).
  assert (K : exists sS dts, natural_sel p (norm_t (ds c)) kk = Ok sS /\ deltas p (norm_t (ds c)) (fst sS) (snd sS) = Ok dts).
  { destruct (natural_sel_safe p (norm_t (ds c)) kk Hn Hnil) as [[sel S] E]. exists (sel, S).
    destruct (natural_sel_ok p (norm_t (ds c)) kk sel S) as [_ [_ Q3]]; [rewrite W2; exact W1|exact E|].
    destruct (deltas_safe p (norm_t (ds c)) kk sel S Hc Hn Q3) as [dts Ed]; [|eauto].
    intros s Hs. unfold natural_sel in E. apply bind_Ok in E. destruct E as [back [_ E]].
    apply bind_Ok in E. destruct E as [sel' [_ E]]. injection E as _ <-. eapply shifted_map. exact Hs. }
  destruct K as [sS [dts [K1 K2]]].
  assert (Hwn : exists w, weight_named wgt (alpha c) = Some w) by (destruct Hw as [->|[->| ->]]; eexists; reflexivity).
  destruct Hwn as [w ->]. unfold lag_values. rewrite K1. cbn [bind]. rewrite K2. cbn [bind]. eauto.
Qed.

Lemma cleared_calculation {L1 : NumLaws A} {L2 : NumLaws2 A} p c0 os c o : base c0 -> after p c0 os c -> is_calculation o -> nle (min_lag c) (max_lag c) = true ->
  snd (run_op p (clearCorrelation c) o) <> Ok tt /\
  (p_checked p = false -> abs_defined p (ds c0) nzero -> abs_defined p (ds c0) (min_lag c) ->
   (o = Calculate \/ exists wgt, o = Find "natural" wgt /\ known_weight wgt) ->
   snd (run_op p (clearCorrelation c) o) = UB OobWrite).
Proof.
  intros H0 Ha Ho Hle. destruct (after_inv p c0 os c H0 Ha) as [Hi _].
  set (c1 := clearCorrelation c).
  assert (I1 : inv c0 c1).
  { destruct Hi as [H3 [H4 [H5 _]]]. repeat split; cbn; try assumption. right. split; reflexivity. }
  assert (Hcl : cleared c1) by (split; reflexivity).
  pose proof (inv_semi c0 c1 H0 I1) as Hse.
  assert (Hle1 : nle (min_lag c1) (max_lag c1) = true) by exact Hle.
  assert (K : exists sel wgt, snd (run_op p c1 o) =
     match named_values p c1 sel wgt (if nlt nzero (min_lag c1) && negb (neqb (min_lag c1) nzero) then nzero else min_lag c1) with
     | Ok _ => UB OobWrite | Throw e => Throw e | UB u => UB u | Diverge => Diverge end /\
     ((o = Calculate \/ exists wgt, o = Find "natural" wgt /\ known_weight wgt) -> sel = "natural"%string /\ known_weight wgt)).
  { destruct Ho as [->|[sel [wgt ->]]]; cbn [run_op].
    - exists "natural"%string, "fractional"%string. rewrite calculate_any by exact Hse.
      change (std_values p c1) with (named_values p c1 "natural" "fractional").
      split; [|intros _; split; [reflexivity|left; reflexivity]].
      apply (cleared_run p c1 _ _ (fun c2 => if snd (lags_in c1) then cleanCorrelationData c2 (length (fst (lags_in c1))) else (c2, Diverge)) Hcl Hle1).
    - exists sel, wgt. rewrite find_any by exact Hse. split.
      + apply (cleared_run p c1 _ _ (fun c2 => match fst (lags_in c1) with [] => (c2, Throw PyUnboundLocalError) | _ =>
           if snd (lags_in c1) then cleanCorrelationData c2 (length (fst (lags_in c1))) else (c2, Diverge) end) Hcl Hle1).
      + intros [E|[w [E Hw]]]; [discriminate|]. injection E as -> ->. auto. }
  destruct K as [sel [wgt [K Kn]]]. rewrite K. split.
  - destruct (named_values p c1 sel wgt _); discriminate.
  - intros Hc A0 A1 Hn. destruct (Kn Hn) as [-> Hw].
    destruct (natural_values_safe c1 p wgt (if nlt nzero (min_lag c1) && negb (neqb (min_lag c1) nzero) then nzero else min_lag c1)) as [cs ->].
    + apply Hse.
    + exact Hc.
    + exact Hw.
    + destruct Hi as [H3 _]. change (ds c1) with (ds c). rewrite H3. destruct (_ && _); assumption.
    + reflexivity.
Qed.

Lemma after_clear {L1 : NumLaws A} {L2 : NumLaws2 A} p d c0 os c :
  accepted d -> new_Correlator d = Ok c0 -> after p c0 os c -> ~ In Clear os ->
  let c' := clearCorrelation c in
  lag_timeseries c' = [] /\
  (lag_timeseries c <> [] -> correlations c' = UB OobRead) /\
  (lag_timeseries c = [] -> correlations c' = Ok (repeat [] (N_datasets d))) /\
  (nle (min_lag c) (max_lag c) = true -> forall o, is_calculation o ->
     snd (run_op p c' o) <> Ok tt /\
     (p_checked p = false -> abs_defined p d nzero -> abs_defined p d (min_lag c) ->
      (o = Calculate \/ exists wgt, o = Find "natural" wgt /\ known_weight wgt) -> snd (run_op p c' o) = UB OobWrite)).
Proof.
  intros Ha Hn Hh Hc c'. destruct (new_base d c0 Ha Hn) as [H0 Hd]. destruct (after_inv p c0 os c H0 Hh) as [Hi Hb].
  destruct (Hb Hc) as [B1 B2]. assert (HN : N_datasets (ds c') = N_datasets d) by (destruct Hi as [Hi _]; cbn; rewrite Hi, Hd; reflexivity).
  assert (Hpos : 0 < N_datasets (ds c')) by (rewrite HN, <- Hd; apply H0).
  pose proof (cleared_correlations c' (conj eq_refl eq_refl) Hpos) as Hcc. change (num_lag_steps c') with (num_lag_steps c) in Hcc.
  split; [reflexivity|]. unfold lag_timeseries. split; [|split].
  - intros Hne. rewrite Hcc. destruct (Nat.eqb_spec (num_lag_steps c) 0) as [E|]; [|reflexivity].
    rewrite E in B1. destruct (timeseries_ c); [congruence|discriminate].
  - intros E. rewrite Hcc. rewrite E in B1. cbn in B1. rewrite <- B1. cbn [Nat.eqb]. rewrite HN. reflexivity.
  - intros Hle o Ho. rewrite <- Hd. exact (cleared_calculation p c0 os c o H0 Hh Ho Hle).
Qed.

Lemma consistent p d c0 os c : accepted d -> new_Correlator d = Ok c0 -> after p c0 os c -> ~ In Clear os ->
  exists rows, correlations c = Ok rows /\ length rows = N_datasets d /\
    forall row, In row rows -> length row = length (lag_timeseries c).
Proof.
  intros Ha Hn Hh Hc. destruct (new_base d c0 Ha Hn) as [H0 Hd]. destruct (after_inv p c0 os c H0 Hh) as [Hi Hb].
  destruct (correlations_consistent c (Hb Hc)) as [rows [K1 [K2 K3]]]. exists rows. split; [exact K1|]. split; [|exact K3].
  destruct Hi as [Hi _]. rewrite K2, Hi, Hd. reflexivity.
Qed.

Lemma returned_again p d mi ma re al sel wgt lags corr c : accepted d ->
  autocorrelation p d mi ma re al sel wgt = Ok (lags, corr, c) ->
  (sel = "natural"%string /\ wgt = "fractional"%string -> calculateStandardCorrelation p c = (c, Ok tt)) /\
  (lags <> [] -> find_correlation p c sel wgt = (c, Ok tt)).
Proof.
  intros Ha E. pose proof (call_again p d mi ma re al sel wgt lags corr c Ha E) as K. cbv zeta in K.
  assert (exists c0, new_Correlator d = Ok c0) as [c0 Hn].
  { unfold autocorrelation in E. apply bind_Ok in E. destruct E as [c0 [E _]]. eauto. }
  destruct (new_base d c0 Ha Hn) as [H0 _].
  destruct (String.eqb_spec sel "natural") as [->|Hs], (String.eqb_spec wgt "fractional") as [->|Hw]; cbn [andb run_op] in K.
  - split; [intros _; exact K|]. intros Hl. transitivity (calculateStandardCorrelation p c); [|exact K].
    pose proof (call_history p d c0 mi ma re al _ _ lags corr c Ha Hn E) as Eo. cbn in Eo.
    destruct (set_up_after p c0 mi ma re al) as [os [Hos _]].
    destruct (after_inv p c0 os _ H0 Hos) as [Hi _].
    destruct (calc_fits c0 _ p Calculate c H0 Hi (or_introl eq_refl) Eo) as [I [_ [S [_ [Hg _]]]]].
    rewrite (proj1 (proj2 (proj2 (proj2 (shape p d mi ma re al _ _ lags corr c Ha E))))) in Hg.
    apply paths_agree_any; [exact (inv_semi c0 c H0 I)|].
    destruct S as [_ [_ [_ [-> [-> _]]]]].
    destruct (nle _ _) eqn:En; [reflexivity|]. apply lags_in_nil in En. congruence.
  - split; [intros [_ H]; congruence|]. intros _. exact K.
  - split; [intros [H _]; congruence|]. intros _. exact K.
  - split; [intros [H _]; congruence|]. intros _. exact K.
Qed.

Lemma empty_range_call p d c0 mi ma re al sel wgt : accepted d -> new_Correlator d = Ok c0 ->
  nle (opt_or mi (min_lag c0)) (opt_or ma (max_lag c0)) = false ->
  (sel = "natural"%string /\ wgt = "fractional"%string ->
     exists corr, visible (autocorrelation p d mi ma re al sel wgt) = Ok ([], corr) /\ rows_of corr = repeat [] (N_datasets d)) /\
  (~ (sel = "natural"%string /\ wgt = "fractional"%string) ->
     autocorrelation p d mi ma re al sel wgt = Throw PyUnboundLocalError).
Proof.
  intros Ha Hn Hle. pose proof (empty_call p d c0 mi ma re al sel wgt Ha Hn Hle) as K. split.
  - intros [-> ->]. cbn [String.eqb Ascii.eqb Bool.eqb andb] in K. eexists. split; [exact K|].
    apply rows_of_pack. destruct (new_base d c0 Ha Hn) as [[_ HN] Hd]. rewrite Hd in HN.
    destruct (N_datasets d); [lia|discriminate].
  - intros H. assert (E : String.eqb sel "natural" && String.eqb wgt "fractional" = false).
    { destruct (String.eqb_spec sel "natural"), (String.eqb_spec wgt "fractional"); try reflexivity. tauto. }
    rewrite E in K. destruct (autocorrelation p d mi ma re al sel wgt); cbn in K; congruence.
Qed.

Lemma empty_range_methods p d c0 os c sel wgt :
  accepted d -> new_Correlator d = Ok c0 -> after p c0 os c -> nle (min_lag c) (max_lag c) = false ->
  find_correlation p c sel wgt = (c, Throw PyUnboundLocalError) /\
  (~ In Clear os -> exists c', calculateStandardCorrelation p c = (c', Ok tt) /\ lag_timeseries c' = [] /\
     correlations c' = Ok (repeat [] (N_datasets d))).
Proof.
  intros Ha Hn Hh Hle. destruct (new_base d c0 Ha Hn) as [H0 Hd]. destruct (after_inv p c0 os c H0 Hh) as [Hi Hb].
  destruct (empty_range p c sel wgt (inv_semi c0 c H0 Hi) Hle) as [K1 K2]. split; [exact K2|]. intros Hc.
  rewrite K1, (clean_ok c 0 (Hb Hc)) by lia. eexists. split; [reflexivity|]. split; [reflexivity|].
  assert (HN : N_datasets (ds c) = N_datasets d) by (destruct Hi as [Hi _]; rewrite Hi, Hd; reflexivity).
  assert (Hcc : concat (map (fun r => firstn 0 (piece (num_lag_steps c) (correlations_ c) r)) (seq 0 (N_datasets (ds c)))) = []).
  { cbn [firstn]. generalize (seq 0 (N_datasets (ds c))). intros l. induction l; cbn; auto. }
  rewrite Hcc.
  rewrite cleared_correlations; [cbn; rewrite HN; reflexivity|split; reflexivity|].
  cbn. rewrite HN, <- Hd. apply H0.
Qed.

Lemma alone_call p d rows j row e mi ma re al sel wgt : accepted d -> data_2d d = Ok rows -> nth_error rows j = Some row ->
  exists dj, SACF_1d (timeseries d) row e = Ok dj /\
    same_outcome (fun x y => fst x = fst y /\ exists out, nth_error (rows_of (snd x)) j = Some out /\ snd y = Flat out)
      (visible (autocorrelation p d mi ma re al sel wgt)) (visible (autocorrelation p dj mi ma re al sel wgt)).
Proof.
  intros Ha Hr Hj. destruct (alone d rows j row e Ha Hr Hj) as [dj [K1 [K2 K3]]]. exists dj. split; [exact K1|].
  assert (Ha' : accepted dj) by (left; eexists _, _, _; exact K1).
  pose proof (by_rows p d dj rows [row] mi ma re al sel wgt Ha Ha' (Logic.eq_sym K2) Hr K3) as H.
  destruct (autocorrelation p dj mi ma re al sel wgt) as [[[l' r'] c']|e'|u'|] eqn:E';
    destruct (autocorrelation p d mi ma re al sel wgt) as [[[l r] c]|e0|u|]; cbn [visible bind same_outcome fst snd] in *; try exact H.
  destruct H as [H1 H2]. split; [exact H1|]. destruct (H2 j 0 row Hj eq_refl) as [out [O1 O2]]. exists out. split; [exact O1|].
  destruct (shape p dj mi ma re al sel wgt l' r' c' Ha' E') as [S1 [_ [[_ S3] _]]].
  assert (HN : N_datasets dj = 1).
  { destruct (accepted_values dj Ha') as [ts [data [er [N [-> [_ [_ [_ H4]]]]]]]]. rewrite K3 in H4. injection H4 as H4.
    apply (f_equal (@length _)) in H4. rewrite recut_length in H4. exact (Logic.eq_sym H4). }
  destruct (S3 HN) as [l0 ->]. cbn in O2. injection O2 as ->. reflexivity.
Qed.

Lemma with_errors_visible p d er er' mi ma re al sel wgt : accepted (with_errors d er) -> accepted (with_errors d er') ->
  visible (autocorrelation p (with_errors d er) mi ma re al sel wgt) = visible (autocorrelation p (with_errors d er') mi ma re al sel wgt).
Proof.
  intros Ha Ha'. destruct (accepted_values _ Ha) as [ts [data [er0 [N [_ [_ [_ [_ H4]]]]]]]].
  apply (same_values p _ _ _ mi ma re al sel wgt Ha Ha' eq_refl H4). exact H4.
Qed.

Lemma errors_irrelevant_1d p t v e e' mi ma re al sel wgt :
  same_outcome (fun d d' => visible (autocorrelation p d mi ma re al sel wgt) = visible (autocorrelation p d' mi ma re al sel wgt))
    (SACF_1d t v e) (SACF_1d t v e').
Proof.
  assert (K : forall e, exists er, SACF_1d t v e = (do d <- SACF_1d t v None; Ok (with_errors d er))).
  { intros [x|]; [exists x; apply errors_1d|exists []]. cbn [SACF_1d]. unfold ds_1d. apply setUp_errors. }
  destruct (K e) as [er E], (K e') as [er' E']. rewrite E, E'.
  destruct (SACF_1d t v None) as [d|x|u|] eqn:Ed; cbn [bind] in *; cbn [same_outcome]; auto.
  apply with_errors_visible; [left; eauto|left; eauto].
Qed.

Lemma errors_irrelevant_2d p t v e e' mi ma re al sel wgt :
  same_outcome (fun d d' => visible (autocorrelation p d mi ma re al sel wgt) = visible (autocorrelation p d' mi ma re al sel wgt))
    (SACF_2d t v e) (SACF_2d t v e').
Proof.
  assert (K : forall e, exists er, SACF_2d t v e = (do d <- SACF_2d t v None; Ok (with_errors d er))).
  { intros [x|]; [exists (concat x); apply errors_2d|exists []]. cbn [SACF_2d]. unfold ds_2d. apply setUp_errors. }
  destruct (K e) as [er E], (K e') as [er' E']. rewrite E, E'.
  destruct (SACF_2d t v None) as [d|x|u|] eqn:Ed; cbn [bind] in *; cbn [same_outcome]; auto.
  apply with_errors_visible; [right; eauto|right; eauto].
Qed.

End RelFacts.
