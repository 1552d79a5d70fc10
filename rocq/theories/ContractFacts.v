(** Closed form of a call of the contracted program (Contract.v); the lemmas are those of CorrFacts.v, LoopFacts.v, MainFacts.v and ValFacts.v
    for the functions of Contract.v. *)
From Coq Require Import String.
From Coq Require Import ZArith List Bool Arith Lia.
From Verif Require Import Num Mem MemFacts Spec DataStructure DSFacts Correlator Sacf Api CorrFacts LoopFacts MainFacts ConstrFacts SelFacts SelThms ValFacts Contract.
Import ListNotations.
Local Open Scope list_scope.

Section ContractFacts.
Context {A : Num} (K : contraction).

Fixpoint pair_sum_k (xs : list num) (i : nat) (sel : list nat) (ws : list num) (acc : num) : num :=
  match sel, ws with
  | s :: sel', w :: ws' =>
      pair_sum_k xs (S i) sel' ws' (ma_sum K (nmul w (nth i xs nzero)) (nth s xs nzero) acc)
  | _, _ => acc
  end.

Lemma findCorrelation_sum_closed_k p d v j ws i acc M :
  vwf v -> i + length ws = length (vlive v) ->
  M_datapoints d = M -> (j + 1) * M <= length (norm_data d) -> length (vlive v) <= M ->
  (forall s, In s (vlive v) -> s < M) ->
  findCorrelation_sum_k K p d v j ws i acc =
  (pair_sum_k (piece M (norm_data d) j) i (skipn i (vlive v)) ws acc, Ok tt).
Proof.
  intros Hw. revert i acc. induction ws as [|w ws IH]; intros i acc Hi HM Hd Hl Hs.
  - cbn. destruct (skipn i (vlive v)); reflexivity.
  - cbn [length] in Hi. destruct (nth_error_Some_ex (vlive v) i ltac:(lia)) as [s Es].
    assert (Hsk : skipn i (vlive v) = s :: skipn (S i) (vlive v)).
    { apply list_ext. intros m. rewrite nth_error_skipn. destruct m as [|m].
      - rewrite Nat.add_0_r. exact Es.
      - cbn [nth_error]. rewrite nth_error_skipn. f_equal. lia. }
    rewrite Hsk. cbn [findCorrelation_sum_k pair_sum_k]. unfold mlift, getVectorIndex. rewrite HM.
    assert (HsM : s < M) by (apply Hs; eapply nth_error_In; exact Es).
    assert (Hn : forall q, q < M -> lat (norm_data d) (q + j * M) = Ok (nth q (piece M (norm_data d) j) nzero)).
    { intros q Hq. rewrite (lat_ok _ _ nzero) by nia. f_equal.
      assert (E : nth_error (piece M (norm_data d) j) q = nth_error (norm_data d) (q + j * M)).
      { rewrite nth_error_piece. destruct (Nat.ltb_spec q M); [|lia]. f_equal. lia. }
      rewrite (nth_error_nth_eq (norm_data d) _ nzero) in E by nia.
      symmetry. apply nth_error_nth. exact E. }
    rewrite (Hn i) by lia. cbn [mbind].
    rewrite (vget_live p v i s Hw Es). cbn [mbind]. rewrite (Hn s HsM). cbn [mbind].
    rewrite IH; try assumption; try lia. reflexivity.
Qed.

Definition corr_value_k (xs : list num) (sel : list nat) (ws : list num) (Nj : num) : num :=
  nmul (pair_sum_k xs 0 sel ws nzero) (ndiv none_ Nj).

Lemma findCorrelation_loop_closed_k p c n j it kk sel ws :
  wf_ds (ds c) -> length (Nvec c) = N_datasets (ds c) -> j + n = N_datasets (ds c) ->
  k it = kk -> vwf (selection_indices it) -> vlive (selection_indices it) = sel ->
  vlive (weights it) = ws -> length ws = length sel -> length sel <= M_datapoints (ds c) ->
  (forall s, In s sel -> s < M_datapoints (ds c)) ->
  let f := fun j => corr_value_k (piece (M_datapoints (ds c)) (norm_data (ds c)) j) sel ws
                      (nth j (Nvec c) nzero) in
  correlation it = map f (seq 0 j) ++ repeat nzero n ->
  exists it', findCorrelation_loop_k K p c n j it = (it', Ok tt) /\ k it' = kk /\
    correlation it' = map f (seq 0 (N_datasets (ds c))).
Proof.
  intros [HM [Hnt Hnd]] HN. revert j it. induction n as [|n IH]; intros j it Hj Hk Hsw Hsl Hwl Hlen HselM Hsel f Hc.
  - exists it. cbn. repeat split; auto. rewrite Hc. cbn. rewrite app_nil_r. f_equal. f_equal. lia.
  - cbn [findCorrelation_loop_k].
    assert (Hlc : length (correlation it) = N_datasets (ds c)).
    { rewrite Hc, app_length, map_length, seq_length, repeat_length. exact Hj. }
    assert (Hget : lget (correlation it) j = Ok nzero).
    { unfold lget. rewrite Hc. rewrite nth_error_app2 by (rewrite map_length, seq_length; lia).
      rewrite map_length, seq_length, Nat.sub_diag. reflexivity. }
    unfold mlift at 1. rewrite Hget. cbn [mbind].
    rewrite (findCorrelation_sum_closed_k p (ds c) (selection_indices it) j (vlive (weights it)) 0 nzero
               (M_datapoints (ds c))); try assumption; try reflexivity;
      try (rewrite Hsl; assumption); try (rewrite Hwl, Hsl; cbn; lia).
    2:{ nia. }
    rewrite skipn_O, Hsl, Hwl. cbn [fst snd].
    rewrite lset_ok by lia. unfold mlift. cbn [mbind].
    rewrite (lget_ok (Nvec c) j nzero) by lia. cbn [mbind].
    rewrite lset_ok by (rewrite upd_length; lia). cbn [mbind].
    rewrite nth_error_upd_same by lia.
    apply (IH (S j) (set_correlation it (upd (correlation it) j _))); try assumption; try lia.
    cbn [correlation set_correlation]. rewrite Hc. unfold upd.
    rewrite firstn_app, map_length, seq_length, Nat.sub_diag. cbn [firstn]. rewrite app_nil_r.
    rewrite firstn_all2 by (rewrite map_length, seq_length; lia).
    rewrite skipn_app, skipn_all2 by (rewrite map_length, seq_length; lia). cbn [app].
    rewrite map_length, seq_length. replace (S j - j) with 1 by lia. cbn [repeat skipn].
    rewrite seq_S, map_app, <- app_assoc. reflexivity.
Qed.

Definition lag_values_k (sf : sel_fun) (w : num -> num) (p : platform) (c : correlator) (kk : num)
  : res (list num) :=
  do sS <- sf p (norm_t (ds c)) kk;
  do dts <- deltas p (norm_t (ds c)) (fst sS) (snd sS);
  Ok (map (fun j => corr_value_k (piece (M_datapoints (ds c)) (norm_data (ds c)) j) (fst sS) (map w dts)
                      (nth j (Nvec c) nzero))
          (seq 0 (N_datasets (ds c)))).

Section OneLag.
Variables (p : platform) (c : correlator).
Hypothesis Hds : wf_ds (ds c).
Hypothesis HN : length (Nvec c) = N_datasets (ds c).

Lemma one_lag_closed_k (sf : sel_fun) (m : meth cor_it unit) (w : num -> num) kk i :
  sel_ok sf ->
  match sf p (norm_t (ds c)) kk with
  | Ok (sel, sh) => exists it, m = (it, Ok tt) /\ selected it kk (N_datasets (ds c)) sel sh
  | r => same_failure r (snd m)
  end ->
  on_it c m (fun it1 => on_it c (deltaT p (ds c) it1) (fun it2 =>
    on_it c (findCorrelation_k K p c (getWeights w it2)) (fun it4 => addCorrelationData c it4 i))) =
  store_res c kk (lag_values_k sf w p c kk) i.
Proof.
  intros Hok Hm. unfold lag_values_k.
  pose proof (Hok p (norm_t (ds c)) kk) as Hok'.
  destruct (sf p (norm_t (ds c)) kk) as [[sel sh]|e|u|].
  2:{ cbn. destruct m as [it r]. cbn in Hm. destruct r; cbn in *; try contradiction; subst; reflexivity. }
  2:{ cbn. destruct m as [it r]. cbn in Hm. destruct r; cbn in *; try contradiction; subst; reflexivity. }
  2:{ cbn. destruct m as [it r]. cbn in Hm. destruct r; cbn in *; try contradiction; reflexivity. }
  destruct Hm as [it [-> Hit]]. cbn [on_it bind fst snd].
  destruct Hds as [HM [Hnt Hnd]].
  destruct (Hok' sel sh ltac:(lia) eq_refl) as [Hl1 [Hl2 Hl3]].
  pose proof (deltaT_closed p (ds c) it kk _ sel sh Hit Hl1) as HD.
  destruct (deltas p (norm_t (ds c)) sel sh) as [dts|e|u|] eqn:ED.
  2:{ destruct (deltaT p (ds c) it) as [it' r]. cbn in HD. destruct r; cbn in *; try contradiction; subst; reflexivity. }
  2:{ destruct (deltaT p (ds c) it) as [it' r]. cbn in HD. destruct r; cbn in *; try contradiction; subst; reflexivity. }
  2:{ destruct (deltaT p (ds c) it) as [it' r]. cbn in HD. destruct r; cbn in *; try contradiction; reflexivity. }
  destruct HD as [it2 [-> H2]]. cbn [on_it bind store_res].
  apply (getWeights_closed w) in H2. destruct H2 as [Hk [Hc [Hsw [Hsl [Hww Hwl]]]]].
  assert (Hdl : length dts = length sel).
  { unfold deltas in ED. apply mapM_Ok_inv in ED. destruct ED as [ED _]. rewrite ED.
    rewrite combine_length. lia. }
  unfold findCorrelation_k.
  destruct (findCorrelation_loop_closed_k p c (N_datasets (ds c)) 0 (getWeights w it2) kk sel (map w dts))
    as [it4 [E [Hk4 Hc4]]]; try assumption; try reflexivity; try lia.
  { rewrite map_length. exact Hdl. }
  { intros s Hs. rewrite <- Hnt. apply Hl3. exact Hs. }
  rewrite E. cbn [on_it]. unfold store, addCorrelationData. cbn [k correlation].
  rewrite Hk4, Hc4. reflexivity.
Qed.

Lemma calculate_at_closed_k kk i :
  calculateStandardCorrelation_at_k K p c kk i =
  store_res c kk (lag_values_k natural_sel (fractionWeightFunction (alpha c)) p c kk) i.
Proof.
  unfold calculateStandardCorrelation_at_k, getFractionWeights.
  apply (one_lag_closed_k natural_sel); [exact natural_sel_ok|]. apply natural_closed.
Qed.

Definition weight_named_k (name : string) (al : num) : option (num -> num) :=
  if String.eqb name "gaussian"%string then Some (gaussianWeightFunction al)
  else if String.eqb name "fractional"%string then Some (fractionWeightFunction al)
  else if String.eqb name "fractional_squared"%string then Some (fractionSquaredWeightFunction_k K al)
  else None.

Definition named_values_k (sel wgt : string) (kk : num) : res (list num) :=
  match sel_named sel with
  | None => Throw PyKeyError
  | Some sf =>
      match weight_named_k wgt (alpha c) with
      | None => do sS <- sf p (norm_t (ds c)) kk;
                do dts <- deltas p (norm_t (ds c)) (fst sS) (snd sS);
                Throw PyKeyError
      | Some w => lag_values_k sf w p c kk
      end
  end.

Lemma find_at_closed_k sel wgt kk i :
  find_correlation_at_k K p sel wgt c kk i = store_res c kk (named_values_k sel wgt kk) i.
Proof.
  unfold find_correlation_at_k, named_values_k, SELECTION_FUNCTIONS, sel_named, WEIGHT_FUNCTIONS_k, weight_named_k.
  destruct (String.eqb sel "fast").
  - pose proof (fast_closed p (ds c) kk (N_datasets (ds c))) as HC.
    destruct (String.eqb wgt "gaussian"); [apply (one_lag_closed_k fast_sel); [exact fast_sel_ok|exact HC]|].
    destruct (String.eqb wgt "fractional"); [apply (one_lag_closed_k fast_sel); [exact fast_sel_ok|exact HC]|].
    destruct (String.eqb wgt "fractional_squared"); [apply (one_lag_closed_k fast_sel); [exact fast_sel_ok|exact HC]|].
    rewrite (on_it_fail p c Hds HN fast_sel _ kk fast_sel_ok HC).
    destruct (fast_sel p (norm_t (ds c)) kk) as [x|e|u|]; cbn; try reflexivity.
    destruct (deltas p (norm_t (ds c)) (fst x) (snd x)); reflexivity.
  - destruct (String.eqb sel "natural"); [|reflexivity].
    pose proof (natural_closed p (ds c) kk (N_datasets (ds c))) as HC.
    destruct (String.eqb wgt "gaussian"); [apply (one_lag_closed_k natural_sel); [exact natural_sel_ok|exact HC]|].
    destruct (String.eqb wgt "fractional"); [apply (one_lag_closed_k natural_sel); [exact natural_sel_ok|exact HC]|].
    destruct (String.eqb wgt "fractional_squared"); [apply (one_lag_closed_k natural_sel); [exact natural_sel_ok|exact HC]|].
    rewrite (on_it_fail p c Hds HN natural_sel _ kk natural_sel_ok HC).
    destruct (natural_sel p (norm_t (ds c)) kk) as [x|e|u|]; cbn; try reflexivity.
    destruct (deltas p (norm_t (ds c)) (fst x) (snd x)); reflexivity.
Qed.

End OneLag.

Lemma std_loop_run_k p f c0 fuel kk pos i c :
  wf_ds (ds c0) -> length (Nvec c0) = N_datasets (ds c0) -> same_setup c0 c ->
  (forall x, f x = lag_values_k natural_sel (fractionWeightFunction (alpha c0)) p c0 x) ->
  std_loop_k K p fuel kk pos i c =
  let L := lag_list fuel (max_lag c0) (lag_resolution c0) kk pos in
  mbind (run_lags f (fst L) i c) (fun c' _ => (c', if snd L then Ok (i + length (fst L)) else Diverge)).
Proof.
  intros Hds HN Hc Hf. revert kk pos i c Hc. induction fuel as [|fuel IH]; intros kk pos i c Hc; [reflexivity|].
  assert (Hat : forall c' x n, same_setup c0 c' ->
            calculateStandardCorrelation_at_k K p c' x n = store_res c' x (f x) n).
  { intros c' x n Hc'. rewrite calculate_at_closed_k by (destruct Hc' as [ts [cs ->]]; assumption).
    rewrite Hf. destruct Hc' as [ts [cs ->]]. reflexivity. }
  cbn [std_loop_k lag_list].
  assert (Hml : max_lag c = max_lag c0) by (destruct Hc as [ts [cs ->]]; reflexivity).
  assert (Hlr : lag_resolution c = lag_resolution c0) by (destruct Hc as [ts [cs ->]]; reflexivity).
  rewrite Hml, Hlr. destruct (nle kk (max_lag c0)).
  - destruct (nlt nzero kk && negb (if neqb kk nzero then true else pos)); cbn [fst snd run_lags].
    + rewrite Hat by exact Hc. rewrite mbind_assoc. apply mbind_ext. intros c1 [] E1.
      assert (Hc1 : same_setup c0 c1).
      { eapply same_setup_trans; [exact Hc|]. change c1 with (fst (c1, Ok tt)).
        rewrite <- E1. apply store_res_setup. }
      rewrite Hat by exact Hc1. rewrite mbind_assoc. apply mbind_ext. intros c2 [] E2.
      assert (Hc2 : same_setup c0 c2).
      { eapply same_setup_trans; [exact Hc1|]. change c2 with (fst (c2, Ok tt)).
        rewrite <- E2. apply store_res_setup. }
      rewrite IH by exact Hc2. apply mbind_ext. intros c3 _ _. cbn [length].
      destruct (snd _); f_equal. f_equal. lia.
    + rewrite Hat by exact Hc. rewrite mbind_assoc. apply mbind_ext. intros c1 [] E1.
      assert (Hc1 : same_setup c0 c1).
      { eapply same_setup_trans; [exact Hc|]. change c1 with (fst (c1, Ok tt)).
        rewrite <- E1. apply store_res_setup. }
      rewrite IH by exact Hc1. apply mbind_ext. intros c3 _ _. cbn [length].
      destruct (snd _); f_equal. f_equal. lia.
  - cbn. rewrite Nat.add_0_r. reflexivity.
Qed.

Lemma find_loop_run_k p sel wgt f c0 fuel g n last c :
  wf_ds (ds c0) -> length (Nvec c0) = N_datasets (ds c0) -> same_setup c0 c ->
  (forall x, f x = named_values_k p c0 sel wgt x) ->
  find_loop_k K p sel wgt fuel (max_lag c0) (lag_resolution c0) g n last c =
  let L := gen_list fuel (max_lag c0) (lag_resolution c0) g in
  mbind (run_lags f (fst L) n c) (fun c' _ =>
    (c', if snd L then Ok (match fst L with [] => last | _ => Some (n + length (fst L) - 1) end)
         else Diverge)).
Proof.
  intros Hds HN Hc Hf. revert g n last c Hc. induction fuel as [|fuel IH]; intros g n last c Hc; [reflexivity|].
  cbn [find_loop_k gen_list]. destruct (gen_next (max_lag c0) (lag_resolution c0) g) as [[kk g']|]; [|reflexivity].
  assert (Hat : find_correlation_at_k K p sel wgt c kk n = store_res c kk (f kk) n).
  { rewrite find_at_closed_k by (destruct Hc as [ts [cs ->]]; assumption).
    rewrite Hf. destruct Hc as [ts [cs ->]]. reflexivity. }
  rewrite Hat. cbn [fst snd run_lags]. rewrite mbind_assoc. apply mbind_ext. intros c1 [] E1.
  assert (Hc1 : same_setup c0 c1).
  { eapply same_setup_trans; [exact Hc|]. change c1 with (fst (c1, Ok tt)).
    rewrite <- E1. apply store_res_setup. }
  rewrite IH by exact Hc1. apply mbind_ext. intros c3 _ _. cbn [length].
  destruct (snd _); [|reflexivity]. f_equal. f_equal. f_equal.
  destruct (fst (gen_list fuel (max_lag c0) (lag_resolution c0) g')) as [|x l]; cbn [length]; f_equal; lia.
Qed.

Definition std_values_k (p : platform) (c : correlator) : num -> res (list num) :=
  lag_values_k natural_sel (fractionWeightFunction (alpha c)) p c.

Lemma lag_values_length_k sf w p c kk cs : lag_values_k sf w p c kk = Ok cs -> length cs = N_datasets (ds c).
Proof.
  unfold lag_values_k. intros H. apply bind_Ok in H. destruct H as [sS [_ H]].
  apply bind_Ok in H. destruct H as [dts [_ H]]. injection H as <-.
  rewrite map_length, seq_length. reflexivity.
Qed.

Lemma named_values_length_k p c sel wgt kk cs :
  named_values_k p c sel wgt kk = Ok cs -> length cs = N_datasets (ds c).
Proof.
  unfold named_values_k. destruct (sel_named sel) as [sf|]; [|discriminate].
  destruct (weight_named_k wgt (alpha c)) as [w|]; [apply lag_values_length_k|].
  intros H. apply bind_Ok in H. destruct H as [sS [_ H]].
  apply bind_Ok in H. destruct H as [dts [_ H]]. discriminate.
Qed.

Lemma calculate_run_k p c : ready c ->
  calculateStandardCorrelation_k K p c =
  mbind (run_lags (std_values_k p c) (fst (lags_of c)) 0 c) (fun c1 _ =>
    if snd (lags_of c) then cleanCorrelationData c1 (length (fst (lags_of c))) else (c1, Diverge)).
Proof.
  intros [Hds [HN Hb]]. unfold calculateStandardCorrelation_k.
  rewrite (std_loop_run_k p (std_values_k p c) c) by (auto using same_setup_refl).
  destruct Hb as [Hb1 _]. rewrite Hb1. fold (lags_of c). rewrite mbind_assoc.
  apply mbind_ext. intros c1 [] E. destruct (snd (lags_of c)); reflexivity.
Qed.

Lemma find_run_k p c sel wgt : ready c ->
  find_correlation_k K p c sel wgt =
  mbind (run_lags (named_values_k p c sel wgt) (fst (py_lags_of c)) 0 c) (fun c1 _ =>
    if snd (py_lags_of c) then
      match fst (py_lags_of c) with
      | [] => (c1, Throw PyUnboundLocalError)
      | _ => cleanCorrelationData c1 (length (fst (py_lags_of c)))
      end
    else (c1, Diverge)).
Proof.
  intros [Hds [HN Hb]]. unfold find_correlation_k.
  rewrite (find_loop_run_k p sel wgt (named_values_k p c sel wgt) c) by (auto using same_setup_refl).
  destruct Hb as [Hb1 _]. rewrite Hb1. unfold gen_start.
  rewrite (gen_list_lags (S (num_lag_steps c)) (S (num_lag_steps c))) by (try lia; discriminate).
  fold (lags_of c). rewrite mbind_assoc. cbn [fst snd]. unfold py_lags_of. cbn [fst snd].
  apply mbind_ext. intros c1 [] E.
  destruct (snd (lags_of c) && _); [|reflexivity]. cbn [mbind].
  destruct (firstn (S (num_lag_steps c)) (fst (lags_of c))) as [|x l] eqn:El; [reflexivity|].
  cbn [length]. f_equal. lia.
Qed.

Section Outcome.
Variables (p : platform) (c : correlator).
Hypothesis Hc : ready c.

Lemma std_values_length_k kk cs : std_values_k p c kk = Ok cs -> length cs = N_datasets (ds c).
Proof. apply lag_values_length_k. Qed.

Lemma calculate_outcome_k : snd (calculateStandardCorrelation_k K p c) = path_res c (std_values_k p c).
Proof.
  rewrite calculate_run_k by exact Hc.
  destruct (path_res c (std_values_k p c)) as [[]|e|u|] eqn:E.
  - destruct (path_ok c Hc _ std_values_length_k E) as [vals [Hv [Hs [Hl [E1 E2]]]]].
    rewrite Hs, E1. reflexivity.
  - destruct (snd (lags_of c)); rewrite (path_fail c Hc) by (try exact std_values_length_k; congruence); exact E.
  - destruct (snd (lags_of c)); rewrite (path_fail c Hc) by (try exact std_values_length_k; congruence); exact E.
  - destruct (snd (lags_of c)); rewrite (path_fail c Hc) by (try exact std_values_length_k; congruence); exact E.
Qed.

Lemma find_cut_k sel wgt :
  find_correlation_k K p c sel wgt =
  mbind (run_lags (named_values_k p c sel wgt) (fst (lags_of c)) 0 c) (fun c1 _ =>
    match fst (lags_of c) with
    | [] => (c1, Throw PyUnboundLocalError)
    | _ => if snd (lags_of c) then cleanCorrelationData c1 (length (fst (lags_of c))) else (c1, Diverge)
    end).
Proof.
  rewrite find_run_k by exact Hc. destruct Hc as [Hds [HN Hb]].
  destruct (Nat.le_gt_cases (length (fst (lags_of c))) (num_lag_steps c)) as [Hle|Hgt].
  - destruct (py_lags_fit c Hle) as [Hs ->]. rewrite Hs.
    apply mbind_ext. intros c1 [] _. destruct (fst (lags_of c)); reflexivity.
  - destruct (run_lags_cut (named_values_k p c sel wgt) (fst (lags_of c)) c Hb
                (named_values_length_k p c sel wgt) Hgt) as [E Hno].
    unfold py_lags_of at 1. cbn [fst]. rewrite <- E. apply mbind_fail_ext. intros []. exact Hno.
Qed.

Lemma find_outcome_k sel wgt :
  snd (find_correlation_k K p c sel wgt) =
  match fst (lags_of c) with
  | [] => Throw PyUnboundLocalError
  | _ => path_res c (named_values_k p c sel wgt)
  end.
Proof.
  rewrite find_cut_k. destruct (fst (lags_of c)) as [|x l] eqn:El; [reflexivity|].
  rewrite <- El.
  destruct (path_res c (named_values_k p c sel wgt)) as [[]|e|u|] eqn:E.
  - destruct (path_ok c Hc _ (named_values_length_k p c sel wgt) E) as [vals [Hv [Hs [Hl [E1 E2]]]]].
    rewrite Hs, E1. reflexivity.
  - destruct (snd (lags_of c)); rewrite (path_fail c Hc) by (try exact (named_values_length_k p c sel wgt); congruence); exact E.
  - destruct (snd (lags_of c)); rewrite (path_fail c Hc) by (try exact (named_values_length_k p c sel wgt); congruence); exact E.
  - destruct (snd (lags_of c)); rewrite (path_fail c Hc) by (try exact (named_values_length_k p c sel wgt); congruence); exact E.
Qed.

End Outcome.

Definition norm_of_k (xs : list num) : num :=
  fold_left (fun acc x => if nisnan (nf32 x) then acc
                          else ma_norm K (nsub (nf32 x) (mean xs)) (nsub (nf32 x) (mean xs)) acc) xs nzero.

Lemma norm_loop_ok_k d j n i acc xs m :
  nth_error (data_mean d) j = Some m ->
  (forall q, q < n -> nth_error (data_ d) (i + q + j * M_datapoints d) = nth_error xs q) -> length xs = n ->
  norm_loop_k K d j n i acc =
  Ok (fold_left (fun acc x => if nisnan (nf32 x) then acc
                          else ma_norm K (nsub (nf32 x) m) (nsub (nf32 x) m) acc) xs acc).
Proof.
  intros Hm. revert i acc xs. induction n as [|n IH]; intros i acc xs Hx Hl.
  - destruct xs; [reflexivity|discriminate].
  - destruct xs as [|x xs]; [discriminate|]. injection Hl as Hl. cbn [norm_loop_k fold_left].
    unfold lat, getVectorIndex. specialize (Hx 0 ltac:(lia)) as H0. rewrite Nat.add_0_r in H0.
    rewrite H0. cbn [nth_error bind].
    assert (Hx' : forall q, q < n -> nth_error (data_ d) (S i + q + j * M_datapoints d) = nth_error xs q).
    { intros q Hq. specialize (Hx (S q) ltac:(lia)). cbn [nth_error] in Hx. rewrite <- Hx. f_equal. lia. }
    destruct (nisnan (nf32 x)); [apply IH; assumption|].
    unfold lget. rewrite Hm. cbn [bind]. apply IH; assumption.
Qed.

Lemma Nvec_closed_k ts data er N : N * length ts <= length data ->
  mapM (fun j => norm_loop_k K (the_ds ts data er N) j (M_datapoints (the_ds ts data er N)) 0 nzero)
       (seq 0 (N_datasets (the_ds ts data er N))) =
  Ok (map norm_of_k (recut N (length ts) data)).
Proof.
  intros H. unfold recut. rewrite map_map. apply mapM_Ok_map. intros j Hj. apply in_seq in Hj.
  cbn [N_datasets the_ds] in Hj. unfold norm_of_k.
  apply norm_loop_ok_k.
  - cbn. unfold recut. rewrite map_map, nth_error_map, nth_error_seq.
    destruct (Nat.ltb_spec j N); [reflexivity|lia].
  - intros q Hq. cbn [M_datapoints data_ the_ds] in *. rewrite nth_error_piece.
    destruct (Nat.ltb_spec q (length ts)); [|lia]. f_equal. lia.
  - cbn. apply piece_length. nia.
Qed.

Definition the_corr_k (ts data er : list num) (N n : nat) : correlator :=
  let nt := rel_times ts in
  {| ds := the_ds ts data er N;
     correlations_ := repeat nzero (N * n);
     timeseries_ := repeat nzero n;
     Nvec := map norm_of_k (recut N (length ts) data);
     max_lag := last nt nzero; min_lag := nneg (last nt nzero);
     lag_resolution := findMinDiff nt;
     alpha := middle nt nzero; num_lag_steps := n |}.

Lemma new_Correlator_closed_k ts data er N :
  ts <> [] -> N * length ts <= length data ->
  new_Correlator_k K (the_ds ts data er N) =
  do n <- allot (rel_times ts); Ok (the_corr_k ts data er N n).
Proof.
  intros Ht H. unfold new_Correlator_k. rewrite Nvec_closed_k by exact H. cbn [bind].
  unfold allot. cbn [norm_t the_ds].
  rewrite (lback_ok _ nzero (rel_times_nil ts Ht)). cbn [bind].
  destruct (to_int _) as [q|e|u|]; try reflexivity. cbn [bind].
  destruct (int_add q 3) as [nls|e|u|]; try reflexivity. cbn [bind].
  destruct (nls <? 0)%Z; reflexivity.
Qed.

Lemma the_corr_ready_k ts data er N n : ts <> [] -> N * length ts <= length data ->
  ready (the_corr_k ts data er N n).
Proof.
  intros Ht H. split; [|split].
  - split; [|split]; cbn.
    + destruct ts; [congruence|cbn; lia].
    + apply rel_times_length.
    + rewrite app_length, repeat_length, (concat_length (length ts)).
      * rewrite map_length, recut_length. lia.
      * intros r Hr. apply in_map_iff in Hr. destruct Hr as [x [<- Hx]]. unfold centred.
        rewrite map_length. unfold recut in Hx. apply in_map_iff in Hx. destruct Hx as [i [<- Hi]].
        apply in_seq in Hi. apply piece_length. nia.
  - cbn. rewrite map_length, recut_length. reflexivity.
  - split; cbn; rewrite repeat_length; reflexivity.
Qed.

Definition acf_at_k (sf : sel_fun) (w : num -> num) (p : platform) (ts : list num) (kk : num) : res row_fun :=
  do sS <- sf p (rel_times ts) kk;
  do dts <- deltas p (rel_times ts) (fst sS) (snd sS);
  Ok (fun row => corr_value_k (centred row) (fst sS) (map w dts) (norm_of_k row)).

Lemma lag_values_acf_k sf w p ts data er N n c kk :
  ds c = ds (the_corr_k ts data er N n) -> Nvec c = Nvec (the_corr_k ts data er N n) ->
  N * length ts <= length data ->
  lag_values_k sf w p c kk =
  do F <- acf_at_k sf w p ts kk; Ok (map F (recut N (length ts) data)).
Proof.
  intros Hd HN H. unfold lag_values_k, acf_at_k. rewrite Hd, HN. cbn [ds the_corr_k norm_t the_ds N_datasets Nvec M_datapoints].
  destruct (sf p (rel_times ts) kk) as [sS|e|u|]; cbn [bind]; try reflexivity.
  destruct (deltas p (rel_times ts) (fst sS) (snd sS)) as [dts|e|u|]; cbn [bind]; try reflexivity.
  f_equal. unfold recut at 2. rewrite (map_map (piece (length ts) data)). apply map_ext_in. intros j Hj. apply in_seq in Hj.
  change (norm_data _) with (norm_data (the_ds ts data er N)).
  rewrite norm_data_piece by lia. f_equal.
  apply nth_error_nth. rewrite nth_error_map, nth_error_recut.
  destruct (Nat.ltb_spec j N); [reflexivity|lia].
Qed.

Definition named_acf_k (sel wgt : string) (al : num) (p : platform) (ts : list num) (kk : num) : res row_fun :=
  match sel_named sel with
  | None => Throw PyKeyError
  | Some sf =>
      match weight_named_k wgt al with
      | None => do sS <- sf p (rel_times ts) kk;
                do dts <- deltas p (rel_times ts) (fst sS) (snd sS);
                Throw PyKeyError
      | Some w => acf_at_k sf w p ts kk
      end
  end.

Lemma named_values_acf_k sel wgt p ts data er N n c kk :
  ds c = ds (the_corr_k ts data er N n) -> Nvec c = Nvec (the_corr_k ts data er N n) ->
  N * length ts <= length data ->
  named_values_k p c sel wgt kk =
  do F <- named_acf_k sel wgt (alpha c) p ts kk; Ok (map F (recut N (length ts) data)).
Proof.
  intros Hd HN H. unfold named_values_k, named_acf_k.
  destruct (sel_named sel) as [sf|]; [|reflexivity].
  destruct (weight_named_k wgt (alpha c)) as [w|]; [eapply lag_values_acf_k; eassumption|].
  rewrite Hd. cbn [ds the_corr_k norm_t the_ds].
  destruct (sf p (rel_times ts) kk) as [sS|e|u|]; cbn [bind]; try reflexivity.
  destruct (deltas p (rel_times ts) (fst sS) (snd sS)) as [dts|e|u|]; reflexivity.
Qed.

Definition acf_core_k (p : platform) (ts : list num) (mi ma re al : option num) (sel wgt : string)
  : res (list num * list row_fun) :=
  do n <- allot (rel_times ts);
  let nt := rel_times ts in
  let maxl := opt_or ma (last nt nzero) in
  let minl := opt_or mi (nneg (last nt nzero)) in
  let r := opt_or re (findMinDiff nt) in
  let a := opt_or al (middle nt nzero) in
  let L := lag_list (S n) maxl r minl false in
  match fst L, String.eqb sel "natural" && String.eqb wgt "fractional" with
  | [], false => Throw PyUnboundLocalError
  | _, _ => do Fs <- run_room (named_acf_k sel wgt a p ts) (fst L) n; Ok (fst L, Fs)
  end.

Definition final_corr_k (ts data er : list num) (N n : nat) (mi ma re al : option num)
  (g : list num) (rows : list (list num)) : correlator :=
  set_data (set_up_correlation (the_corr_k ts data er N n) mi ma re al) g (concat rows) (length g).

Lemma auto_core_k p ts data er N mi ma re al sel wgt :
  ts <> [] -> N * length ts <= length data -> 0 < N ->
  autocorrelation_k K p (the_ds ts data er N) mi ma re al sel wgt =
  do gF <- acf_core_k p ts mi ma re al sel wgt;
  do n <- allot (rel_times ts);
  let rows := map (fun row => map (fun F => F row) (snd gF)) (recut N (length ts) data) in
  Ok (fst gF, pack rows, final_corr_k ts data er N n mi ma re al (fst gF) rows).
Proof.
  intros Ht HN H0. unfold autocorrelation_k, acf_core_k. rewrite new_Correlator_closed_k by assumption.
  destruct (allot (rel_times ts)) as [n|e|u|] eqn:Ea; cbn [bind]; try reflexivity.
  set (c0 := the_corr_k ts data er N n). set (c1 := set_up_correlation c0 mi ma re al).
  assert (Hr : ready c1) by (apply set_up_ready, the_corr_ready_k; assumption).
  destruct (set_up_fields c0 mi ma re al) as [F1 [F2 [F3 [F4 [F5 [F6 [F7 [F8 F9]]]]]]]]. fold c1 in F1, F2, F3, F4, F5, F6, F7, F8, F9.
  set (L := lag_list (S n) (opt_or ma (last (rel_times ts) nzero)) (opt_or re (findMinDiff (rel_times ts)))
              (opt_or mi (nneg (last (rel_times ts) nzero))) false).
  assert (HL : lags_of c1 = L).
  { unfold lags_of, L. rewrite F3, F6, F7, F8. reflexivity. }
  set (a := opt_or al (middle (rel_times ts) nzero)).
  assert (Ha : alpha c1 = a) by (rewrite F9; reflexivity).
  set (rows0 := recut N (length ts) data).
  assert (Hval : forall kk, named_values_k p c1 sel wgt kk =
            do F <- named_acf_k sel wgt a p ts kk; Ok (map F rows0)).
  { intros kk. rewrite (named_values_acf_k sel wgt p ts data er N n c1) by assumption. rewrite Ha. reflexivity. }
  assert (Hres : path_res c1 (named_values_k p c1 sel wgt) =
            do _vs <- run_room (named_acf_k sel wgt a p ts) (fst L) n; Ok tt).
  { unfold path_res. rewrite HL, F3. change (num_lag_steps c0) with n.
    rewrite <- (run_room_res _ (fun F : row_fun => map F rows0)).
    generalize n. induction (fst L) as [|kk ks IH]; intros m; cbn; [reflexivity|].
    rewrite Hval. destruct (named_acf_k sel wgt a p ts kk); cbn; try reflexivity.
    destruct m; [reflexivity|apply IH]. }
  assert (HNd : N_datasets (ds c1) = N) by (rewrite F1; reflexivity).
  (* common treatment of the two paths *)
  assert (Hmain : forall m : meth correlator unit,
    (snd m = path_res c1 (named_values_k p c1 sel wgt)) ->
    (path_res c1 (named_values_k p c1 sel wgt) = Ok tt ->
       m = mbind (run_lags (named_values_k p c1 sel wgt) (fst (lags_of c1)) 0 c1)
             (fun c2 _ => cleanCorrelationData c2 (length (fst (lags_of c1))))) ->
    (do _u <- snd m; do r <- result_of (fst m); Ok (fst r, snd r, fst m)) =
    do gF <- (do Fs <- run_room (named_acf_k sel wgt a p ts) (fst L) n; Ok (fst L, Fs));
    do n0 <- Ok n;
    let rows := map (fun row => map (fun F => F row) (snd gF)) rows0 in
    Ok (fst gF, pack rows, final_corr_k ts data er N n0 mi ma re al (fst gF) rows)).
  { intros m Hm1 Hm2. rewrite Hm1, Hres.
    destruct (run_room (named_acf_k sel wgt a p ts) (fst L) n) as [Fs|e|u|] eqn:ER; cbn [bind]; try reflexivity.
    rewrite Hres in Hm2. cbn [bind] in Hm2, Hres. specialize (Hm2 eq_refl).
    destruct (path_ok c1 Hr _ (named_values_length_k p c1 sel wgt) Hres) as [vals [Hv [Hs [Hl [E1 E2]]]]].
    rewrite E1 in Hm2. rewrite Hm2. cbn [fst snd].
    assert (Hvals : vals = map (fun F : row_fun => map F rows0) Fs).
    { apply run_room_mapM in ER. rewrite HL in Hv. clear -Hv ER Hval.
      revert vals Fs Hv ER. induction (fst L) as [|kk ks IH]; intros vals Fs Hv ER; cbn in *.
      - injection Hv as <-. injection ER as <-. reflexivity.
      - rewrite Hval in Hv. destruct (named_acf_k sel wgt a p ts kk) as [F|e|u|]; cbn in *; try discriminate.
        apply bind_Ok in Hv. destruct Hv as [vals' [Hv1 Hv2]]. injection Hv2 as <-.
        apply bind_Ok in ER. destruct ER as [Fs' [ER1 ER2]]. injection ER2 as <-.
        cbn. f_equal. apply IH; assumption. }
    rewrite HL, Hvals, HNd in *.
    unfold row_fun in *. rewrite by_dataset_rows in E2 |- * by (unfold rows0; apply recut_length).
    assert (Hlr : 0 < length (map (fun row => map (fun F => F row) Fs) rows0)).
    { rewrite map_length. unfold rows0. rewrite recut_length. exact H0. }
    rewrite (result_of_pack _ _ E2) by exact Hlr. reflexivity. }
  destruct (String.eqb sel "natural") eqn:Es; destruct (String.eqb wgt "fractional") eqn:Ew;
    cbn [andb].
  - apply String.eqb_eq in Es. apply String.eqb_eq in Ew. subst sel wgt.
    rewrite Hmain.
    + destruct (fst L); reflexivity.
    + apply calculate_outcome_k. exact Hr.
    + intros E. rewrite calculate_run_k by exact Hr.
      destruct (path_ok c1 Hr _ (named_values_length_k p c1 "natural" "fractional") E) as [vals [Hv [Hs _]]].
      rewrite Hs. reflexivity.
  - destruct (fst L) as [|x l] eqn:EL.
    { rewrite find_outcome_k by exact Hr. rewrite HL, EL. reflexivity. }
    rewrite <- EL in *. rewrite Hmain; [destruct (fst L); [congruence|reflexivity]| |].
    + rewrite find_outcome_k by exact Hr. rewrite HL, EL. reflexivity.
    + intros E. rewrite find_cut_k by exact Hr.
      destruct (path_ok c1 Hr _ (named_values_length_k p c1 sel wgt) E) as [vals [Hv [Hs _]]].
      rewrite Hs, HL, EL. reflexivity.
  - destruct (fst L) as [|x l] eqn:EL.
    { rewrite find_outcome_k by exact Hr. rewrite HL, EL. reflexivity. }
    rewrite <- EL in *. rewrite Hmain; [destruct (fst L); [congruence|reflexivity]| |].
    + rewrite find_outcome_k by exact Hr. rewrite HL, EL. reflexivity.
    + intros E. rewrite find_cut_k by exact Hr.
      destruct (path_ok c1 Hr _ (named_values_length_k p c1 sel wgt) E) as [vals [Hv [Hs _]]].
      rewrite Hs, HL, EL. reflexivity.
  - destruct (fst L) as [|x l] eqn:EL.
    { rewrite find_outcome_k by exact Hr. rewrite HL, EL. reflexivity. }
    rewrite <- EL in *. rewrite Hmain; [destruct (fst L); [congruence|reflexivity]| |].
    + rewrite find_outcome_k by exact Hr. rewrite HL, EL. reflexivity.
    + intros E. rewrite find_cut_k by exact Hr.
      destruct (path_ok c1 Hr _ (named_values_length_k p c1 sel wgt) E) as [vals [Hv [Hs _]]].
      rewrite Hs, HL, EL. reflexivity.
Qed.

Lemma acf_core_nth_k p ts mi ma re al sel wgt g Fs i kk :
  acf_core_k p ts mi ma re al sel wgt = Ok (g, Fs) -> nth_error g i = Some kk ->
  exists F, nth_error Fs i = Some F /\ named_acf_k sel wgt (opt_or al (middle (rel_times ts) nzero)) p ts kk = Ok F.
Proof.
  intros E Hin. unfold acf_core_k in E. apply bind_Ok in E. destruct E as [n [_ E]]. cbv zeta in E.
  set (Lg := fst (lag_list _ _ _ _ _)) in *.
  assert (E2 : (do Fs <- run_room (named_acf_k sel wgt (opt_or al (middle (rel_times ts) nzero)) p ts) Lg n; Ok (Lg, Fs)) = Ok (g, Fs)).
  { destruct Lg; [destruct (_ && _); [exact E|discriminate]|exact E]. }
  apply bind_Ok in E2. destruct E2 as [Fs' [E2 E3]]. injection E3 as -> ->.
  apply run_room_mapM in E2. destruct (mapM_Ok_inv _ _ _ E2) as [_ Hn]. exact (Hn i kk Hin).
Qed.

Lemma call_value_k p d mi ma re al sel wgt lags corr c rows j i row kk :
  accepted d -> autocorrelation_k K p d mi ma re al sel wgt = Ok (lags, corr, c) ->
  data_2d d = Ok rows -> nth_error rows j = Some row -> nth_error lags i = Some kk ->
  exists sf w sidx S dts,
    sel_named sel = Some sf /\ weight_named_k wgt (opt_or al (median_time d)) = Some w /\
    sf p (normalised_timeseries d) kk = Ok (sidx, S) /\ deltas p (normalised_timeseries d) sidx S = Ok dts /\
    corr_at corr j i = Some (corr_value_k (centred row) sidx (map w dts) (norm_of_k row)) /\
    length row = length (normalised_timeseries d).
Proof.
  intros Ha E Hd Hj Hi. destruct (accepted_setUp d Ha) as [ts [data [er [N [-> [H1 [H2 [H3 [H4 H5]]]]]]]]].
  rewrite auto_core_k in E by assumption. apply bind_Ok in E. destruct E as [[g Fs] [E E2]].
  apply bind_Ok in E2. destruct E2 as [n [_ E2]]. cbn [fst snd] in E2. cbv zeta in E2. injection E2 as <- <- <-.
  rewrite the_ds_data in Hd by assumption. injection Hd as <-.
  destruct (acf_core_nth_k _ _ _ _ _ _ _ _ _ _ _ _ E Hi) as [F [HF HN]].
  unfold named_acf_k in HN. cbn [median_time t_median the_ds normalised_timeseries norm_t].
  destruct (sel_named sel) as [sf|]; [|discriminate].
  destruct (weight_named_k wgt _) as [w|].
  2:{ repeat (apply bind_Ok in HN; destruct HN as [? [_ HN]]). discriminate. }
  unfold acf_at_k in HN. apply bind_Ok in HN. destruct HN as [[sidx S] [HS HN]]. apply bind_Ok in HN. destruct HN as [dts [HD HN]].
  injection HN as HN. exists sf, w, sidx, S, dts. split; [reflexivity|]. split; [reflexivity|]. split; [exact HS|]. split; [exact HD|].
  split.
  - unfold corr_at. rewrite rows_of_pack, nth_error_map, Hj. cbn [option_map snd]. unfold row_fun in *. rewrite nth_error_map, HF. cbn [option_map].
    rewrite <- HN. reflexivity.
  - assert (Hlen : length row = length ts).
    { rewrite nth_error_recut in Hj. destruct (Nat.ltb_spec j N); [|discriminate]. injection Hj as <-. apply piece_length. nia. }
    rewrite Hlen. symmetry. apply rel_times_length.
Qed.

Lemma pair_sum_fold_k xs : forall sel ws i acc, length sel = length ws ->
  pair_sum_k xs i sel ws acc =
  fold_left (fun acc q => ma_sum K (nmul (nth q ws nzero) (nth (i + q) xs nzero)) (nth (nth q sel 0) xs nzero) acc)
    (seq 0 (length sel)) acc.
Proof.
  intros sel. induction sel as [|s sel IH]; intros ws i acc Hl; destruct ws as [|w ws]; try discriminate; [reflexivity|].
  injection Hl as Hl. cbn [pair_sum_k length seq fold_left nth]. rewrite IH by exact Hl. rewrite Nat.add_0_r.
  rewrite <- seq_shift. generalize (ma_sum K (nmul w (nth i xs nzero)) (nth s xs nzero) acc). generalize (seq 0 (length sel)).
  intros l. induction l as [|q l IHl]; intros a; cbn [map fold_left]; [reflexivity|].
  rewrite IHl. cbn [nth]. replace (i + Datatypes.S q) with (Datatypes.S i + q) by lia. reflexivity.
Qed.

End ContractFacts.
