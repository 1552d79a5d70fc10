(** Proofs about [Alloc.v]: the state of a correlator after a failed request. *)
From Coq Require Import String.
From Coq Require Import ZArith List Bool Arith Lia.
From Verif Require Import Num Mem MemFacts Spec DataStructure DSFacts Correlator Sacf Api CorrFacts LoopFacts MainFacts ConstrFacts StateFacts RelFacts Leak LeakFacts Alloc AllocFacts.
Import ListNotations.
Local Open Scope list_scope.

Section AllocState.
Context {A : Num}.

(** ** The buffer of lags does not matter as long as it is long enough *)
Definition with_ts (c : correlator) (ts : list num) : correlator := set_data c ts (correlations_ c) (num_lag_steps c).

Lemma with_ts_own c : with_ts c (timeseries_ c) = c.
Proof. destruct c; reflexivity. Qed.

Lemma lset_cut {X} (l l2 : list X) i x l' : lset l i x = Ok l' -> firstn i l = firstn i l2 -> i < length l2 ->
  exists l2', lset l2 i x = Ok l2' /\ length l2' = length l2 /\ firstn (S i) l' = firstn (S i) l2'.
Proof.
  unfold lset. destruct (Nat.ltb_spec i (length l)) as [H|H]; [|discriminate]. intros E Hf Hi. injection E as <-.
  destruct (Nat.ltb_spec i (length l2)); [|lia]. eexists. split; [reflexivity|].
  split; [rewrite app_length, firstn_length; cbn [length]; rewrite skipn_length; lia|].
  assert (G : forall m : list X, i < length m -> firstn (S i) (firstn i m ++ x :: skipn (S i) m) = firstn i m ++ [x]).
  { intros m Hm. rewrite firstn_app, firstn_firstn, firstn_length_le by lia. replace (S i - i) with 1 by lia.
    replace (Nat.min (S i) i) with i by lia. reflexivity. }
  rewrite !G, Hf by assumption. reflexivity.
Qed.

Lemma run_with_ts f ks : forall i c ts2 c', run_lags f ks i c = (c', Ok tt) -> firstn i (timeseries_ c) = firstn i ts2 ->
  i + length ks <= length ts2 ->
  exists ts2', run_lags f ks i (with_ts c ts2) = (with_ts c' ts2', Ok tt) /\ length ts2' = length ts2 /\
    firstn (i + length ks) (timeseries_ c') = firstn (i + length ks) ts2'.
Proof.
  induction ks as [|kk ks IH]; intros i c ts2 c' E Hf Hl; cbn [run_lags length] in *.
  - injection E as <-. exists ts2. rewrite Nat.add_0_r. auto.
  - destruct (f kk) as [cs|e|u|]; cbn [store_res mbind] in E; try discriminate.
    unfold store, addCorrelationData, mlift in *. cbn [k correlation] in *.
    destruct (lset (timeseries_ c) i kk) as [tsv|e|u|] eqn:E1; cbn [mbind] in E; try discriminate.
    destruct (lset_cut _ ts2 _ _ _ E1 Hf ltac:(lia)) as [tsv2 [E2 [L2 F2]]].
    destruct (add_loop (num_lag_steps c) i cs (N_datasets (ds c)) 0 (correlations_ c)) as [cs'|e|u|] eqn:E3; cbn [mbind] in E; try discriminate.
    destruct (IH (S i) (set_data c tsv cs' (num_lag_steps c)) tsv2 c' E F2 ltac:(lia)) as [ts2' [E4 [L4 F4]]].
    exists ts2'. split; [|split; [lia|rewrite Nat.add_succ_r; exact F4]].
    cbn [store_res with_ts timeseries_ set_data correlations_ num_lag_steps ds]. unfold store, addCorrelationData, mlift. cbn [k correlation timeseries_ set_data correlations_ num_lag_steps ds with_ts].
    rewrite E2. cbn [mbind]. rewrite E3. cbn [mbind]. exact E4.
Qed.

Lemma run_lags_pt f g ks : (forall kk, f kk = g kk) -> forall i c, run_lags f ks i c = run_lags g ks i c.
Proof.
  intros H. induction ks as [|kk ks IH]; intros i c; cbn [run_lags]; [reflexivity|]. rewrite H.
  destruct (store_res c kk (g kk) i) as [c1 [[]|e|u|]]; cbn [mbind]; auto.
Qed.

Lemma clean_with_ts c ts2 i : i <= length (timeseries_ c) -> i <= length ts2 -> firstn i (timeseries_ c) = firstn i ts2 ->
  cleanCorrelationData (with_ts c ts2) i = cleanCorrelationData c i.
Proof.
  intros H1 H2 H3. unfold cleanCorrelationData. cbn [with_ts timeseries_ set_data correlations_ num_lag_steps ds].
  assert (E : lresize nzero ts2 i = lresize nzero (timeseries_ c) i).
  { unfold lresize. rewrite H3. replace (i - length ts2) with 0 by lia. replace (i - length (timeseries_ c)) with 0 by lia. reflexivity. }
  rewrite E. reflexivity.
Qed.

Lemma settings_refl c ts : same_settings c (with_ts c ts).
Proof. repeat split. Qed.

Lemma calc_closed p c o : semi c -> is_calculation o ->
  exists sel wgt, (forall c2, semi c2 -> lags_in c2 = lags_in c -> snd (lags_in c) = true -> (fst (lags_in c) <> [] \/ o = Calculate) ->
    run_op p c2 o = mbind (run_lags (named_values p c2 sel wgt) (fst (lags_in c)) 0 c2) (fun c1 _ => cleanCorrelationData c1 (length (fst (lags_in c))))) /\
   forall c', run_op p c o = (c', Ok tt) -> snd (lags_in c) = true /\ (fst (lags_in c) <> [] \/ o = Calculate).
Proof.
  intros Hs Ho. destruct Ho as [->|[sel [wgt ->]]].
  - exists "natural"%string, "fractional"%string. split.
    + intros c2 H2 Hl Hb _. cbn [run_op]. rewrite calculate_any by exact H2. rewrite Hl, Hb. reflexivity.
    + intros c' E. cbn [run_op] in E. rewrite calculate_any in E by exact Hs. split; [|right; reflexivity].
      destruct (run_lags _ _ 0 c) as [c1 [[]|e|u|]]; cbn [mbind] in *; try discriminate. destruct (snd (lags_in c)); [reflexivity|discriminate].
  - exists sel, wgt. split.
    + intros c2 H2 Hl Hb Hn. cbn [run_op]. rewrite find_any by exact H2. rewrite Hl, Hb.
      destruct (fst (lags_in c)); [destruct Hn; congruence|]. reflexivity.
    + intros c' E. cbn [run_op] in E. rewrite find_any in E by exact Hs.
      destruct (fst (lags_in c)) as [|x l]; [discriminate|]. split; [|left; discriminate].
      destruct (run_lags _ _ 0 c) as [c1 [[]|e|u|]]; cbn [mbind] in *; try discriminate. destruct (snd (lags_in c)); [reflexivity|discriminate].
Qed.

(** a successful calculation: as many lags as entries written *)
Lemma calc_lags p c o c' : semi c -> is_calculation o -> run_op p c o = (c', Ok tt) ->
  snd (lags_in c) = true /\ length (fst (lags_in c)) <= length (timeseries_ c) /\ lag_timeseries c' = lag_timeseries c' /\ num_lag_steps c' = length (fst (lags_in c)).
Proof.
  intros Hs Ho E. destruct (calc_closed p c o Hs Ho) as [sel [wgt [K1 K2]]]. destruct (K2 c' E) as [L1 L2].
  rewrite (K1 c Hs eq_refl L1 L2) in E. split; [exact L1|].
  destruct (run_lags _ _ 0 c) as [c1 r] eqn:Er. pose proof (run_lags_cases _ _ _ _ _ _ Er) as [_ [_ [_ [H _]]]].
  destruct r as [[]|e|u|]; cbn [mbind] in E; try discriminate.
  split; [destruct (H eq_refl) as [H'|H']; [rewrite H'; apply Nat.le_0_l|exact H']|]. split; [reflexivity|].
  destruct (clean_cases c1 (length (fst (lags_in c)))) as [[ts [cs [E' _]]]|[u Hu]]; [|rewrite E in Hu; discriminate].
  rewrite E in E'. injection E' as ->. reflexivity.
Qed.

Lemma calc_with_ts p c o c' ts2 : semi c -> is_calculation o -> run_op p c o = (c', Ok tt) ->
  length (fst (lags_in c)) <= length ts2 -> run_op p (with_ts c ts2) o = (c', Ok tt).
Proof.
  intros Hs Ho E Hl. destruct (calc_lags p c o c' Hs Ho E) as [L1 [L2 _]].
  destruct (calc_closed p c o Hs Ho) as [sel [wgt [K1 K2]]]. destruct (K2 c' E) as [_ K3].
  assert (Hli : lags_in (with_ts c ts2) = lags_in c) by (apply lags_in_settings; [apply settings_refl|exact L1|exact Hl]).
  assert (Hs2 : semi (with_ts c ts2)) by exact Hs.
  rewrite (K1 (with_ts c ts2) Hs2 Hli L1 K3). rewrite (K1 c Hs eq_refl L1 K3) in E.
  destruct (run_lags (named_values p c sel wgt) (fst (lags_in c)) 0 c) as [c1 r] eqn:Er. pose proof (run_lags_cases _ _ _ _ _ _ Er) as [_ [Hlen _]].
  destruct r as [[]|e|u|]; cbn [mbind] in E; try discriminate.
  destruct (run_with_ts _ _ 0 c ts2 c1 Er eq_refl Hl) as [ts2' [E2 [L3 F3]]].
  assert (Ef : run_lags (named_values p (with_ts c ts2) sel wgt) (fst (lags_in c)) 0 (with_ts c ts2) = run_lags (named_values p c sel wgt) (fst (lags_in c)) 0 (with_ts c ts2)).
  { apply run_lags_pt. intros kk. apply named_values_ext; reflexivity. }
  rewrite Ef, E2. cbn [mbind]. rewrite clean_with_ts; [exact E|rewrite Hlen; exact L2|rewrite L3; exact Hl|exact F3].
Qed.

(** ** Invariant of histories in which requests fail *)
Definition inv_a (c0 c : correlator) : Prop :=
  ds c = ds c0 /\ Nvec c = Nvec c0 /\ num_lag_steps c <= num_lag_steps c0 /\
  (length (correlations_ c) = N_datasets (ds c0) * num_lag_steps c \/ correlations_ c = []).

Lemma inv_a_semi c0 c : base c0 -> inv_a c0 c -> semi c.
Proof. intros [[H1 [H2 _]] _] [H3 [H4 _]]. unfold semi. rewrite H3, H4. split; assumption. Qed.

Lemma inv_a_refl c0 : base c0 -> inv_a c0 c0.
Proof. intros [[_ [_ [H1 H2]]] _]. repeat split; auto. Qed.

Lemma inv_a_lengths c0 c c' : same_setup c c' -> length (correlations_ c') = length (correlations_ c) -> inv_a c0 c -> inv_a c0 c'.
Proof.
  intros [ts [cs ->]] H2 [H3 [H4 [H5 H6]]]. cbn in *. repeat split; cbn; auto.
  destruct H6 as [H6|H6]; [left; congruence|right]. rewrite H6 in H2. destruct cs; [reflexivity|discriminate].
Qed.

Lemma clean_inv_a c0 c i c' : base c0 -> inv_a c0 c -> cleanCorrelationData c i = (c', Ok tt) -> inv_a c0 c' /\ i <= num_lag_steps c.
Proof.
  intros [_ HN] [H3 [H4 [H5 H6]]] E. destruct (clean_cases c i) as [[ts [cs [E' [L1 [L2 L3]]]]]|[u Hu]]; [|rewrite E in Hu; discriminate].
  rewrite E in E'. injection E' as ->. rewrite H3 in *. specialize (L3 (N_datasets (ds c0) - 1) ltac:(lia)).
  assert (Hi : i <= num_lag_steps c).
  { destruct H6 as [H6|H6]; rewrite H6 in L3.
    - destruct (N_datasets (ds c0)) as [|m]; [lia|]. cbn [Nat.mul Nat.sub] in L3. rewrite Nat.sub_0_r in L3. lia.
    - cbn [length] in L3. lia. }
  split; [|exact Hi]. repeat split; cbn; auto; lia.
Qed.

(** every lag written is inside *)
Lemma run_inside c0 c f ks c' : base c0 -> inv_a c0 c -> run_lags f ks 0 c = (c', Ok tt) ->
  length ks <= num_lag_steps c /\ (correlations_ c = [] -> ks = []).
Proof.
  intros [_ HN] Hi E. assert (G : forall ks i c, ds c = ds c0 -> run_lags f ks i c = (c', Ok tt) ->
    ks = [] \/ (N_datasets (ds c0) - 1) * num_lag_steps c + i + length ks <= length (correlations_ c)).
  2:{ destruct Hi as [H3 [_ [_ H6]]]. destruct (G ks 0 c H3 E) as [->|G']; [split; [cbn; lia|auto]|].
      destruct H6 as [H6|H6]; rewrite H6 in G'.
      - split; [destruct (N_datasets (ds c0)) as [|m]; [lia|]; cbn [Nat.mul Nat.sub] in G'; rewrite Nat.sub_0_r in G'; lia|].
        intros Hc. rewrite Hc in H6. cbn [length] in H6. destruct ks; [reflexivity|]. rewrite <- H6 in G'. cbn [length] in G'. rewrite Nat.add_succ_r in G'. inversion G'.
      - cbn [length] in G'. destruct ks; [split; [cbn; lia|auto]|]. cbn [length] in G'. rewrite Nat.add_succ_r in G'. inversion G'. }
  clear E Hi ks c. induction ks as [|kk ks IH]; intros i c Hd E; [left; reflexivity|right]. cbn [run_lags length] in *.
  destruct (f kk) as [cs|e|u|]; cbn [store_res mbind] in E; try discriminate. destruct (store c kk cs i) as [c1 r] eqn:Es.
  pose proof Es as Es'. unfold store in Es. apply add_cases in Es. destruct Es as [[ts [cs' ->]] [_ [L3 _]]].
  destruct r as [[]|e|u|]; cbn [mbind] in E; try discriminate. cbn [correlations_ set_data] in L3.
  specialize (IH (S i) (set_data c ts cs' (num_lag_steps c)) Hd E). cbn [num_lag_steps correlations_ set_data] in IH. destruct IH as [->|IH]; [|lia]. cbn [length].
  (* the last write *)
  unfold store, addCorrelationData, mlift in Es'. cbn [k correlation] in Es'. destruct (lset (timeseries_ c) i kk); cbn [mbind] in Es'; try discriminate.
  destruct (add_loop (num_lag_steps c) i cs (N_datasets (ds c)) 0 (correlations_ c)) as [cs2|e|u|] eqn:Ea; cbn [mbind] in Es'; try discriminate.
  rewrite Hd in Ea. clear -Ea HN. assert (G : forall n j l l', 0 < n -> add_loop (num_lag_steps c) i cs n j l = Ok l' -> (n - 1 + j) * num_lag_steps c + i < length l).
  { induction n as [|n IH]; intros j l l' Hn E; [lia|]. cbn [add_loop] in E. destruct (lget cs j) as [x|e|u|]; cbn [bind] in E; try discriminate.
    destruct (lset l (i + num_lag_steps c * j) x) as [l1|e|u|] eqn:El; cbn [bind] in E; try discriminate.
    destruct (lset_length _ _ _ _ El) as [K1 K2]. destruct n as [|n]; [cbn [Nat.sub Nat.add]; lia|].
    specialize (IH (S j) l1 l' ltac:(lia) E). rewrite K2 in IH. replace (S (S n) - 1 + j) with (S n - 1 + S j) by lia. exact IH. }
  specialize (G _ _ _ _ HN Ea). rewrite Nat.add_0_r in G. lia.
Qed.

(** one operation, from a state in which requests may have failed *)
Lemma step_inv_a p c0 c o c' r : base c0 -> inv_a c0 c -> run_op p c o = (c', r) ->
  (r = Ok tt \/ exists e, r = Throw e) -> inv_a c0 c'.
Proof.
  intros H0 Hi E Hr. pose proof (inv_a_semi c0 c H0 Hi) as Hs.
  assert (RC : forall f ks n (b : bool), mbind (run_lags f ks 0 c) (fun c1 _ => if b then cleanCorrelationData c1 n else (c1, Diverge)) = (c', r) -> inv_a c0 c').
  { intros f ks n b Em. destruct (run_lags f ks 0 c) as [c1 r1] eqn:E1. pose proof (run_lags_cases _ _ _ _ _ _ E1) as [S1 [_ [S3 _]]].
    pose proof (inv_a_lengths c0 c c1 S1 S3 Hi) as K.
    destruct r1 as [[]|e|u|]; cbn [mbind] in Em; try (injection Em as <- <-; exact K).
    destruct b; [|injection Em as <- <-; exact K].
    destruct (clean_cases c1 n) as [[ts [cs [Ec _]]]|[u Hu]].
    - apply (clean_inv_a c0 c1 n c' H0 K). rewrite Em in Ec. rewrite Em. f_equal. injection Ec as _ ->. reflexivity.
    - rewrite Em in Hu. cbn in Hu. subst r. destruct Hr as [Hr|[e Hr]]; discriminate. }
  destruct o; cbn [run_op] in E; try (injection E as <- <-; exact Hi).
  - rewrite calculate_any in E by exact Hs. exact (RC _ _ _ _ E).
  - rewrite find_any in E by exact Hs. destruct (fst (lags_in c)) as [|x l].
    + cbn in E. injection E as <- <-. exact Hi.
    + exact (RC _ _ _ _ E).
  - destruct (i <? 0)%Z; [injection E as <- <-; exact Hi|]. apply add_cases in E. destruct E as [S1 [_ [S3 _]]]. exact (inv_a_lengths c0 c c' S1 S3 Hi).
  - destruct (i <? 0)%Z; [injection E as <- <-; exact Hi|]. destruct (clean_cases c (Z.to_nat i)) as [[ts [cs [Ec _]]]|[u Hu]].
    + apply (clean_inv_a c0 c (Z.to_nat i) c' H0 Hi). rewrite E in Ec. rewrite E. f_equal. injection Ec as _ ->. reflexivity.
    + rewrite E in Hu. cbn in Hu. subst r. destruct Hr as [Hr|[e Hr]]; discriminate.
  - injection E as <- <-. destruct Hi as [H3 [H4 [H5 H6]]]. repeat split; cbn; auto.
Qed.

(** a state without failed requests from which the calculation is the same *)
Lemma calc_clean_state p c0 c o c' : base c0 -> inv_a c0 c -> is_calculation o -> run_op p c o = (c', Ok tt) ->
  exists ts2, inv c0 (with_ts c ts2) /\ run_op p (with_ts c ts2) o = (c', Ok tt).
Proof.
  intros H0 Hi Ho E. pose proof (inv_a_semi c0 c H0 Hi) as Hs.
  assert (K : length (fst (lags_in c)) <= num_lag_steps c /\ (correlations_ c = [] -> fst (lags_in c) = [])).
  { destruct (calc_closed p c o Hs Ho) as [sel [wgt [K1 K2]]]. destruct (K2 c' E) as [L1 L2]. rewrite (K1 c Hs eq_refl L1 L2) in E.
    destruct (run_lags (named_values p c sel wgt) (fst (lags_in c)) 0 c) as [c1 [[]|e|u|]] eqn:Er; cbn [mbind] in E; try discriminate.
    exact (run_inside c0 c _ _ c1 H0 Hi Er). }
  destruct K as [K1 K2]. destruct Hi as [H3 [H4 [H5 [H6|H6]]]].
  - exists (repeat nzero (num_lag_steps c)). split.
    + repeat split; cbn; auto. left. split; cbn; [apply repeat_length|]. rewrite H3. exact H6.
    + apply calc_with_ts; try assumption. rewrite repeat_length. exact K1.
  - exists []. split.
    + repeat split; cbn; auto. right. split; cbn; auto.
    + apply calc_with_ts; try assumption. rewrite (K2 H6). cbn. lia.
Qed.

Lemma settings_trans c c1 c2 : same_settings c c1 -> same_settings c1 c2 -> same_settings c c2.
Proof. intros [H1 [H2 [H3 [H4 [H5 H6]]]]] [K1 [K2 [K3 [K4 [K5 K6]]]]]. repeat split; congruence. Qed.
Lemma settings_sym c c1 : same_settings c c1 -> same_settings c1 c.
Proof. intros [H1 [H2 [H3 [H4 [H5 H6]]]]]. repeat split; congruence. Qed.

Lemma calc_as_fresh_a p c0 c o c' : base c0 -> inv_a c0 c -> is_calculation o -> run_op p c o = (c', Ok tt) ->
  run_op p (set_up_correlation c0 (Some (min_lag c)) (Some (max_lag c)) (Some (lag_resolution c)) (Some (alpha c))) o = (c', Ok tt).
Proof.
  intros H0 Hi Ho E. destruct (calc_clean_state p c0 c o c' H0 Hi Ho E) as [ts2 [I E2]].
  destruct (calc_fits c0 _ p o c' H0 I Ho E2) as [I' [Hb [Hst [Hl _]]]].
  refine (calc_again c0 _ _ p o c' H0 I Ho E2 _ _ _).
  - apply set_up_ready. apply H0.
  - destruct Hi as [H3 [H4 _]]. repeat split; cbn; symmetry; assumption.
  - destruct I' as [_ [_ [H5 _]]]. exact H5.
Qed.

(** the same calculation from another state with the same settings *)
Lemma calc_retry p c0 c o c' c2 : base c0 -> inv_a c0 c -> is_calculation o -> run_op p c o = (c', Ok tt) ->
  same_settings c c2 -> num_lag_steps c2 = num_lag_steps c -> length (correlations_ c2) = length (correlations_ c) ->
  length (fst (lags_in c)) <= length (timeseries_ c2) -> run_op p c2 o = (c', Ok tt).
Proof.
  intros H0 Hi Ho E Hst Hn Hc Hl. pose proof (inv_a_semi c0 c H0 Hi) as Hs.
  destruct (calc_clean_state p c0 c o c' H0 Hi Ho E) as [ts2 [I E2]].
  destruct (calc_lags p c o c' Hs Ho E) as [L1 [L2 [_ L3]]].
  assert (Hs2 : semi c2). { destruct Hs as [S1 S2]. destruct Hst as [T1 [T2 _]]. unfold semi. rewrite T1, T2. split; assumption. }
  assert (Hle : length (fst (lags_in c)) <= num_lag_steps c /\ (correlations_ c = [] -> fst (lags_in c) = [])).
  { destruct (calc_closed p c o Hs Ho) as [sel [wgt [K1 K2]]]. destruct (K2 c' E) as [M1 M2]. rewrite (K1 c Hs eq_refl M1 M2) in E.
    destruct (run_lags (named_values p c sel wgt) (fst (lags_in c)) 0 c) as [c1 [[]|e|u|]] eqn:Er; cbn [mbind] in E; try discriminate.
    exact (run_inside c0 c _ _ c1 H0 Hi Er). }
  destruct Hle as [Hle Hnil].
  assert (Q : exists ts3, run_op p (with_ts c2 ts3) o = (c', Ok tt) /\ length (fst (lags_in c)) <= length ts3).
  { destruct Hi as [H3 [H4 [H5 [H6|H6]]]].
    - exists (repeat nzero (num_lag_steps c2)). rewrite repeat_length. split; [|lia].
      refine (calc_again c0 _ _ p o c' H0 I Ho E2 _ _ _).
      + destruct Hs2 as [S1 S2]. split; [exact S1|]. split; [exact S2|]. split; cbn; [apply repeat_length|].
        destruct Hst as [T1 _]. rewrite T1, Hc, H6, Hn, H3. reflexivity.
      + apply (settings_trans _ c); [apply settings_sym, settings_refl|]. apply (settings_trans _ c2); [exact Hst|apply settings_refl].
      + cbn. lia.
    - specialize (Hnil H6). exists []. split; [|rewrite Hnil; cbn; lia].
      assert (Hli : lags_in (with_ts c2 []) = lags_in c).
      { apply lags_in_settings; [apply (settings_trans _ c2); [exact Hst|apply settings_refl]|exact L1|rewrite Hnil; cbn; lia]. }
      destruct (calc_closed p c o Hs Ho) as [sel [wgt [K1 K2]]]. destruct (K2 c' E) as [M1 M2].
      rewrite (K1 (with_ts c2 []) Hs2 Hli M1 M2). rewrite (K1 c Hs eq_refl M1 M2) in E. rewrite Hnil in *. cbn [run_lags mbind length] in *.
      assert (Hc2 : correlations_ c2 = []) by (destruct (correlations_ c2); [reflexivity|rewrite H6 in Hc; discriminate]).
      unfold cleanCorrelationData in *. cbn [with_ts timeseries_ set_data correlations_ num_lag_steps ds] in *.
      rewrite Hc2, Hn. rewrite H6 in E. destruct Hst as [T1 T2]. rewrite T1. unfold mlift in *.
      destruct (clean_loop [] (num_lag_steps c) 0 (N_datasets (ds c)) 0 _) as [cp|e|u|]; cbn [mbind] in *; try discriminate.
      injection E as <-. unfold lresize. cbn [firstn app]. destruct T2 as [T2 [T3 [T4 [T5 T6]]]]. unfold set_data. cbn [with_ts ds correlations_ timeseries_ Nvec max_lag min_lag lag_resolution alpha set_data].
      rewrite T1, T2, T3, T4, T5, T6. reflexivity. }
  destruct Q as [ts3 [Q1 Q2]].
  assert (Hs3 : semi (with_ts c2 ts3)) by exact Hs2.
  assert (Hli : lags_in (with_ts c2 ts3) = lags_in c).
  { apply lags_in_settings; [apply (settings_trans _ c2); [exact Hst|apply settings_refl]|exact L1|exact Q2]. }
  pose proof (calc_with_ts p (with_ts c2 ts3) o c' (timeseries_ c2) Hs3 Ho Q1) as Z. rewrite Hli in Z. specialize (Z Hl).
  replace (with_ts (with_ts c2 ts3) (timeseries_ c2)) with c2 in Z by (destruct c2; reflexivity). exact Z.
Qed.

End AllocState.
