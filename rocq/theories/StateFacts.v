(** Histories of a correlator. *)
From Coq Require Import String.
From Coq Require Import ZArith List Bool Arith Lia.
From Verif Require Import Num Mem MemFacts Spec DataStructure DSFacts Correlator Sacf Api CorrFacts LoopFacts MainFacts SafeFacts.
Import ListNotations.
Local Open Scope list_scope.

Section StateFacts.
Context {A : Num}.

(** ** What storing preserves *)
Lemma lset_length {X} (l : list X) i x l' : lset l i x = Ok l' -> i < length l /\ length l' = length l.
Proof.
  unfold lset. destruct (Nat.ltb_spec i (length l)) as [H|]; [|discriminate]. intros E. injection E as <-.
  split; [exact H|]. exact (upd_length l i x H).
Qed.

Lemma lset_throws {X} (l : list X) i x e : lset l i x <> Throw e /\ lset l i x <> Diverge.
Proof. unfold lset. destruct (i <? length l); split; discriminate. Qed.

Lemma lget_throws {X} (l : list X) i e : lget l i <> Throw e /\ lget l i <> Diverge.
Proof. unfold lget. destruct (nth_error l i); split; discriminate. Qed.

Lemma add_loop_length nls ts cor n j cs cs' : add_loop nls ts cor n j cs = Ok cs' -> length cs' = length cs.
Proof.
  revert j cs. induction n as [|n IH]; intros j cs H; cbn [add_loop] in H; [injection H as <-; reflexivity|].
  apply bind_Ok in H. destruct H as [x [_ H]]. apply bind_Ok in H. destruct H as [cs1 [H1 H2]].
  apply lset_length in H1. rewrite (IH _ _ H2). apply H1.
Qed.

Lemma add_loop_throws nls ts cor n j cs e : add_loop nls ts cor n j cs <> Throw e /\ add_loop nls ts cor n j cs <> Diverge.
Proof.
  revert j cs. induction n as [|n IH]; intros j cs; cbn [add_loop]; [split; discriminate|].
  unfold lget. destruct (nth_error cor j); cbn [bind]; [|split; discriminate].
  unfold lset. destruct (_ <? _); cbn [bind]; [apply IH|split; discriminate].
Qed.

(** adding data: never an exception; on return the buffers have their lengths *)
Lemma add_cases c it i c' r : addCorrelationData c it i = (c', r) ->
  same_setup c c' /\ length (timeseries_ c') = length (timeseries_ c) /\ length (correlations_ c') = length (correlations_ c) /\
  ((r = Ok tt /\ i < length (timeseries_ c)) \/ exists u, r = UB u).
Proof.
  unfold addCorrelationData, mlift. destruct (lset (timeseries_ c) i (k it)) as [tsv|e|u|] eqn:E; cbn [mbind].
  - destruct (lset_length _ _ _ _ E) as [H1 H2].
    destruct (add_loop _ _ _ _ _ _) as [cs|e|u|] eqn:E2; cbn [mbind]; intros H; injection H as <- <-.
    + split; [eexists _, _; reflexivity|]. cbn. rewrite H2, (add_loop_length _ _ _ _ _ _ _ E2). auto.
    + destruct (proj1 (add_loop_throws _ _ _ _ _ _ e) E2).
    + split; [eexists _, _; reflexivity|]. cbn. rewrite H2. eauto.
    + destruct (proj2 (add_loop_throws _ _ _ _ _ _ PyKeyError) E2).
  - destruct (proj1 (lset_throws _ _ _ e) E).
  - intros H. injection H as <- <-. split; [apply same_setup_refl|]. eauto.
  - destruct (proj2 (lset_throws (timeseries_ c) i (k it) PyKeyError) E).
Qed.

Lemma store_res_cases c kk v i c' r : store_res c kk v i = (c', r) ->
  same_setup c c' /\ length (timeseries_ c') = length (timeseries_ c) /\ length (correlations_ c') = length (correlations_ c) /\
  (r = Ok tt -> i < length (timeseries_ c)) /\ (r = Diverge -> v = Diverge).
Proof.
  destruct v as [cs|e|u|]; cbn [store_res]; intros H.
  - apply add_cases in H. destruct H as [H1 [H2 [H3 H4]]]. split; [exact H1|]. split; [exact H2|]. split; [exact H3|].
    destruct H4 as [[-> H4]|[u ->]]; split; try discriminate; auto.
  - injection H as <- <-. repeat split; try discriminate. apply same_setup_refl.
  - injection H as <- <-. repeat split; try discriminate. apply same_setup_refl.
  - injection H as <- <-. repeat split; try discriminate. apply same_setup_refl.
Qed.

Lemma run_lags_cases f ks i c c' r : run_lags f ks i c = (c', r) ->
  same_setup c c' /\ length (timeseries_ c') = length (timeseries_ c) /\ length (correlations_ c') = length (correlations_ c) /\
  (r = Ok tt -> ks = [] \/ i + length ks <= length (timeseries_ c)) /\ (r = Diverge -> exists kk, f kk = Diverge).
Proof.
  revert i c. induction ks as [|kk ks IH]; intros i c H; cbn [run_lags] in H.
  - injection H as <- <-. repeat split; try discriminate; auto. apply same_setup_refl.
  - destruct (store_res c kk (f kk) i) as [c1 r1] eqn:E. pose proof (store_res_cases _ _ _ _ _ _ E) as [S1 [S2 [S3 [S4 S5]]]].
    destruct r1 as [[]|e|u|]; cbn [mbind] in H.
    + destruct (IH _ _ H) as [T1 [T2 [T3 [T4 T5]]]].
      split; [eapply same_setup_trans; eassumption|]. rewrite T2, T3, S2, S3. split; [reflexivity|]. split; [reflexivity|].
      split; [|exact T5]. intros Hr. right. cbn [length]. specialize (S4 eq_refl).
      destruct (T4 Hr) as [->|T]; cbn [length]; [lia|]. rewrite S2 in T. lia.
    + injection H as <- <-. repeat split; try assumption; discriminate.
    + injection H as <- <-. repeat split; try assumption; discriminate.
    + injection H as <- <-. repeat split; try assumption; try discriminate. eauto.
Qed.

(** ** Cleaning *)
Lemma slice_cases {X} (l : list X) a b : (exists r, slice l a b = Ok r /\ b <= length l) \/ slice l a b = UB OobRead.
Proof. unfold slice. destruct (Nat.leb_spec b (length l)); eauto. Qed.

Lemma write_slice_cases {X} (l : list X) a xs :
  (exists r, write_slice l a xs = Ok r /\ length r = length l) \/ write_slice l a xs = UB OobWrite.
Proof.
  unfold write_slice. destruct (Nat.leb_spec (a + length xs) (length l)) as [H|]; [|auto]. left. eexists. split; [reflexivity|].
  rewrite !app_length, firstn_length_le, skipn_length by lia. lia.
Qed.

Lemma clean_loop_cases cs nls i n j copy :
  (exists r, clean_loop cs nls i n j copy = Ok r /\ length r = length copy /\
     forall q, j <= q -> q < j + n -> q * nls + i <= length cs) \/
  exists u, clean_loop cs nls i n j copy = UB u.
Proof.
  revert j copy. induction n as [|n IH]; intros j copy; cbn [clean_loop].
  - left. exists copy. repeat split. intros; lia.
  - destruct (slice_cases cs (j * nls) (j * nls + i)) as [[xs [-> H1]]| ->]; cbn [bind]; [|eauto].
    destruct (write_slice_cases copy (j * i) xs) as [[copy' [-> H2]]| ->]; cbn [bind]; [|eauto].
    destruct (IH (S j) copy') as [[r [-> [H3 H4]]]|H]; [|right; exact H].
    left. exists r. split; [reflexivity|]. split; [congruence|]. intros q Hq1 Hq2.
    destruct (Nat.eq_dec q j) as [->|]; [exact H1|]. apply H4; lia.
Qed.

Lemma lresize_length {X} (d : X) l n : length (lresize d l n) = n.
Proof. unfold lresize. rewrite app_length, firstn_length, repeat_length. lia. Qed.

Lemma clean_cases c i :
  (exists ts cs, cleanCorrelationData c i = (set_data c ts cs i, Ok tt) /\ length ts = i /\ length cs = N_datasets (ds c) * i /\
     forall q, q < N_datasets (ds c) -> q * num_lag_steps c + i <= length (correlations_ c)) \/
  exists u, snd (cleanCorrelationData c i) = UB u.
Proof.
  unfold cleanCorrelationData, mlift.
  destruct (clean_loop_cases (correlations_ c) (num_lag_steps c) i (N_datasets (ds c)) 0 (repeat nzero (N_datasets (ds c) * i)))
    as [[r [-> [H1 H2]]]|[u ->]]; cbn [mbind]; [|right; eexists; reflexivity].
  left. eexists _, _. split; [reflexivity|]. split; [apply lresize_length|]. split; [rewrite H1; apply repeat_length|].
  intros q Hq. apply H2; lia.
Qed.

(** ** The two paths from any state with a sound data structure *)
Definition semi (c : correlator) : Prop := wf_ds (ds c) /\ length (Nvec c) = N_datasets (ds c).

Definition lags_in (c : correlator) : list num * bool :=
  lag_list (S (length (timeseries_ c))) (max_lag c) (lag_resolution c) (min_lag c) false.

Lemma calculate_any p c : semi c ->
  calculateStandardCorrelation p c =
  mbind (run_lags (std_values p c) (fst (lags_in c)) 0 c) (fun c1 _ =>
    if snd (lags_in c) then cleanCorrelationData c1 (length (fst (lags_in c))) else (c1, Diverge)).
Proof.
  intros [Hds HN]. unfold calculateStandardCorrelation.
  rewrite (std_loop_run p (std_values p c) c) by (auto using same_setup_refl).
  fold (lags_in c). rewrite mbind_assoc. apply mbind_ext. intros c1 [] E. destruct (snd (lags_in c)); reflexivity.
Qed.

Lemma run_too_long f ks c : length (timeseries_ c) < length ks -> snd (run_lags f ks 0 c) <> Ok tt.
Proof.
  intros H E. destruct (run_lags f ks 0 c) as [c' r] eqn:Er. cbn in E. apply run_lags_cases in Er.
  destruct Er as [_ [_ [_ [E4 _]]]]. destruct (E4 E) as [->|E5]; cbn in *; lia.
Qed.

Lemma find_any p c sel wgt : semi c ->
  find_correlation p c sel wgt =
  mbind (run_lags (named_values p c sel wgt) (fst (lags_in c)) 0 c) (fun c1 _ =>
    match fst (lags_in c) with
    | [] => (c1, Throw PyUnboundLocalError)
    | _ => if snd (lags_in c) then cleanCorrelationData c1 (length (fst (lags_in c))) else (c1, Diverge)
    end).
Proof.
  intros [Hds HN]. unfold find_correlation.
  rewrite (find_loop_run p sel wgt (named_values p c sel wgt) c) by (auto using same_setup_refl).
  unfold gen_start. set (T := length (timeseries_ c)).
  rewrite (gen_list_lags (S T) (S T)) by (try lia; discriminate).
  change (lag_list (S T) (max_lag c) (lag_resolution c) (min_lag c) false) with (lags_in c).
  rewrite mbind_assoc. cbn [fst snd].
  destruct (Nat.le_gt_cases (length (fst (lags_in c))) T) as [Hle|Hgt].
  - rewrite firstn_all2 by lia. destruct (Nat.ltb_spec (length (fst (lags_in c))) (S T)); [|lia]. rewrite andb_true_r.
    assert (Hs : snd (lags_in c) = true).
    { destruct (snd (lags_in c)) eqn:E; [reflexivity|]. apply lag_list_long in E. fold (lags_in c) in E. unfold T in *. lia. }
    rewrite Hs. apply mbind_ext. intros c1 [] E. cbn [mbind]. destruct (fst (lags_in c)) as [|x l]; [reflexivity|].
    cbn [length]. f_equal. lia.
  - assert (Hno : snd (run_lags (named_values p c sel wgt) (firstn (S T) (fst (lags_in c))) 0 c) <> Ok tt).
    { apply run_too_long. rewrite firstn_length_le by lia. fold T. lia. }
    assert (E : run_lags (named_values p c sel wgt) (fst (lags_in c)) 0 c =
                run_lags (named_values p c sel wgt) (firstn (S T) (fst (lags_in c))) 0 c).
    { rewrite <- (firstn_skipn (S T) (fst (lags_in c))) at 1. rewrite run_lags_app.
      destruct (run_lags (named_values p c sel wgt) (firstn (S T) (fst (lags_in c))) 0 c) as [c1 [[]|e|u|]]; try reflexivity.
      cbn in Hno. congruence. }
    rewrite E. apply mbind_fail_ext. intros []. exact Hno.
Qed.

Lemma lags_in_nil c : fst (lags_in c) = [] <-> nle (min_lag c) (max_lag c) = false.
Proof.
  unfold lags_in. cbn [lag_list]. destruct (nle (min_lag c) (max_lag c)); [|split; reflexivity].
  destruct (nlt nzero (min_lag c) && _); split; discriminate.
Qed.

Lemma lags_in_first c : nle (min_lag c) (max_lag c) = true ->
  exists l, fst (lags_in c) = (if nlt nzero (min_lag c) && negb (neqb (min_lag c) nzero) then nzero else min_lag c) :: l.
Proof.
  unfold lags_in. cbn [lag_list]. intros ->.
  replace (if neqb (min_lag c) nzero then true else false) with (neqb (min_lag c) nzero) by (destruct (neqb _ _); reflexivity).
  destruct (nlt nzero (min_lag c) && _); cbn [fst]; eauto.
Qed.

Lemma paths_agree_any p c : semi c -> nle (min_lag c) (max_lag c) = true ->
  find_correlation p c "natural" "fractional" = calculateStandardCorrelation p c.
Proof.
  intros Hc Hle. rewrite find_any, calculate_any by exact Hc. apply mbind_ext. intros c1 [] _.
  destruct (fst (lags_in c)) eqn:E; [|reflexivity]. apply lags_in_nil in E. congruence.
Qed.

Lemma empty_range p c sel wgt : semi c -> nle (min_lag c) (max_lag c) = false ->
  calculateStandardCorrelation p c = cleanCorrelationData c 0 /\ find_correlation p c sel wgt = (c, Throw PyUnboundLocalError).
Proof.
  intros Hc Hle. rewrite find_any, calculate_any by exact Hc.
  assert (E : lags_in c = ([], true)) by (unfold lags_in; cbn [lag_list]; rewrite Hle; reflexivity).
  rewrite E. split; reflexivity.
Qed.

(** ** Termination *)
Lemma named_values_terminates p c sel wgt kk : named_values p c sel wgt kk <> Diverge.
Proof.
  unfold named_values. destruct (sel_named sel) as [sf|] eqn:E; [|discriminate].
  destruct (weight_named wgt (alpha c)) as [w|].
  - unfold lag_values. apply bind_no_diverge; [eapply sel_named_no_diverge; exact E|]. intros sS _.
    apply bind_no_diverge; [apply deltas_no_diverge|]. discriminate.
  - apply bind_no_diverge; [eapply sel_named_no_diverge; exact E|]. intros sS _.
    apply bind_no_diverge; [apply deltas_no_diverge|]. discriminate.
Qed.

Lemma clean_terminates c i : snd (cleanCorrelationData c i) <> Diverge.
Proof. destruct (clean_cases c i) as [[ts [cs [-> _]]]|[u ->]]; discriminate. Qed.

Lemma run_then_terminates p c sel wgt (m : correlator -> meth correlator unit) : semi c ->
  (forall c1, snd (m c1) = Diverge -> length (timeseries_ c) < length (fst (lags_in c))) ->
  snd (mbind (run_lags (named_values p c sel wgt) (fst (lags_in c)) 0 c) (fun c1 _ => m c1)) <> Diverge.
Proof.
  intros Hc Hm H. destruct (run_lags _ _ 0 c) as [c1 r] eqn:E.
  pose proof (run_lags_cases _ _ _ _ _ _ E) as [_ [_ [_ [H4 H5]]]].
  destruct r as [[]|e|u|]; cbn in H; try discriminate.
  - apply Hm in H. destruct (H4 eq_refl) as [H6|H6]; [rewrite H6 in H; cbn in H; lia|lia].
  - destruct (H5 eq_refl) as [kk Hk]. exact (named_values_terminates _ _ _ _ _ Hk).
Qed.

Lemma lags_in_long c : snd (lags_in c) = false -> length (timeseries_ c) < length (fst (lags_in c)).
Proof. intros E. apply lag_list_long in E. fold (lags_in c) in E. lia. Qed.

Lemma calculate_terminates p c : semi c -> snd (calculateStandardCorrelation p c) <> Diverge.
Proof.
  intros Hc. rewrite calculate_any by exact Hc.
  change (std_values p c) with (named_values p c "natural" "fractional").
  apply (run_then_terminates p c "natural" "fractional"
           (fun c1 => if snd (lags_in c) then cleanCorrelationData c1 (length (fst (lags_in c))) else (c1, Diverge)) Hc).
  intros c1 H. destruct (snd (lags_in c)) eqn:E; [destruct (clean_terminates _ _ H)|apply lags_in_long; exact E].
Qed.

Lemma find_terminates p c sel wgt : semi c -> snd (find_correlation p c sel wgt) <> Diverge.
Proof.
  intros Hc. rewrite find_any by exact Hc.
  apply (run_then_terminates p c sel wgt (fun c1 => match fst (lags_in c) with [] => (c1, Throw PyUnboundLocalError) | _ =>
           if snd (lags_in c) then cleanCorrelationData c1 (length (fst (lags_in c))) else (c1, Diverge) end) Hc).
  intros c1 H. destruct (fst (lags_in c)) eqn:E0; [discriminate|]. rewrite <- E0.
  destruct (snd (lags_in c)) eqn:E; [destruct (clean_terminates _ _ H)|apply lags_in_long; exact E].
Qed.

(** ** Invariant of histories *)
Definition cleared (c : correlator) : Prop := timeseries_ c = [] /\ correlations_ c = [].

Definition inv (c0 c : correlator) : Prop :=
  ds c = ds c0 /\ Nvec c = Nvec c0 /\ num_lag_steps c <= num_lag_steps c0 /\ (bufs_ok c \/ cleared c).

Definition base (c0 : correlator) : Prop := ready c0 /\ 0 < N_datasets (ds c0).

Lemma inv_semi c0 c : base c0 -> inv c0 c -> semi c.
Proof. intros [[H1 [H2 _]] _] [H3 [H4 _]]. unfold semi. rewrite H3, H4. split; assumption. Qed.

Lemma inv_refl c0 : base c0 -> inv c0 c0.
Proof. intros [[_ [_ H]] _]. repeat split; auto. Qed.

(** lengths decide *)
Lemma bufs_lengths c c' : same_setup c c' -> length (timeseries_ c') = length (timeseries_ c) ->
  length (correlations_ c') = length (correlations_ c) -> bufs_ok c -> bufs_ok c'.
Proof. intros [ts [cs ->]] H1 H2 [H3 H4]. split; cbn in *; congruence. Qed.

Lemma cleared_lengths c c' : length (timeseries_ c') = length (timeseries_ c) ->
  length (correlations_ c') = length (correlations_ c) -> cleared c -> cleared c'.
Proof.
  intros H1 H2 [H3 H4]. rewrite H3 in H1. rewrite H4 in H2. split; [destruct (timeseries_ c')|destruct (correlations_ c')]; auto; discriminate.
Qed.

Lemma inv_lengths c0 c c' : same_setup c c' -> length (timeseries_ c') = length (timeseries_ c) ->
  length (correlations_ c') = length (correlations_ c) -> inv c0 c -> inv c0 c' /\ (bufs_ok c -> bufs_ok c').
Proof.
  intros HS H1 H2 [H3 [H4 [H5 H6]]]. split; [|exact (bufs_lengths _ _ HS H1 H2)].
  assert (K : ds c' = ds c /\ Nvec c' = Nvec c /\ num_lag_steps c' = num_lag_steps c) by (destruct HS as [ts [cs ->]]; auto).
  destruct K as [K1 [K2 K3]]. unfold inv. rewrite K1, K2, K3. repeat split; auto.
  destruct H6 as [H6|H6]; [left; eapply bufs_lengths; eassumption|right; eapply cleared_lengths; eassumption].
Qed.

Lemma clean_inv c0 c i c' r : base c0 -> inv c0 c -> cleanCorrelationData c i = (c', r) ->
  (r = Ok tt /\ inv c0 c' /\ bufs_ok c' /\ i <= length (timeseries_ c)) \/ exists u, r = UB u.
Proof.
  intros [_ HN] [H3 [H4 [H5 H6]]] E. destruct (clean_cases c i) as [[ts [cs [E' [L1 [L2 L3]]]]]|[u Hu]].
  - rewrite E in E'. injection E' as -> ->. left. split; [reflexivity|].
    assert (Hb : bufs_ok (set_data c ts cs i)) by (split; cbn; assumption).
    rewrite H3 in L3. specialize (L3 (N_datasets (ds c0) - 1) ltac:(lia)).
    assert (Hi : i <= num_lag_steps c /\ i <= length (timeseries_ c)).
    { destruct H6 as [[B1 B2]|[B1 B2]].
      - rewrite B2, H3 in L3. rewrite B1. destruct (N_datasets (ds c0)) as [|m]; [lia|]. cbn [Nat.mul Nat.sub] in L3. rewrite Nat.sub_0_r in L3. lia.
      - rewrite B2 in L3. cbn [length] in L3. assert (i = 0) as -> by (clear -L3; nia). lia. }
    split; [|split; [exact Hb|apply Hi]]. repeat split; cbn; try assumption; [lia|left; exact Hb].
  - rewrite E in Hu. right. eauto.
Qed.

(** a run followed by cleaning, or by nothing but an exception *)
Lemma run_clean_inv c0 c f ks n c' r (b : bool) : base c0 -> inv c0 c ->
  mbind (run_lags f ks 0 c) (fun c1 _ => if b then cleanCorrelationData c1 n else (c1, Diverge)) = (c', r) ->
  (r = Ok tt \/ exists e, r = Throw e) -> inv c0 c' /\ (bufs_ok c -> bufs_ok c').
Proof.
  intros H0 Hi E Hr. destruct (run_lags f ks 0 c) as [c1 r1] eqn:E1.
  pose proof (run_lags_cases _ _ _ _ _ _ E1) as [S1 [S2 [S3 _]]].
  destruct (inv_lengths c0 c c1 S1 S2 S3 Hi) as [K1 K2].
  destruct r1 as [[]|e|u|]; cbn [mbind] in E.
  - destruct b; [|injection E as <- <-; destruct Hr as [Hr|[e Hr]]; discriminate].
    destruct (clean_inv c0 c1 n c' r H0 K1 E) as [[_ [T1 [T2 _]]]|[u ->]]; [auto|].
    destruct Hr as [Hr|[e Hr]]; discriminate.
  - injection E as <- <-. auto.
  - injection E as <- <-. auto.
  - injection E as <- <-. auto.
Qed.

Lemma step_inv p c0 c o c' r : base c0 -> inv c0 c -> run_op p c o = (c', r) ->
  (r = Ok tt \/ exists e, r = Throw e) -> inv c0 c' /\ (o <> Clear -> bufs_ok c -> bufs_ok c').
Proof.
  intros H0 Hi E Hr. destruct o; cbn [run_op] in E.
  - injection E as <- <-. split; [exact Hi|]. intros _ Hb. exact Hb.
  - injection E as <- <-. split; [exact Hi|]. intros _ Hb. exact Hb.
  - injection E as <- <-. split; [exact Hi|]. intros _ Hb. exact Hb.
  - injection E as <- <-. split; [exact Hi|]. intros _ Hb. exact Hb.
  - rewrite calculate_any in E by (eapply inv_semi; eassumption).
    destruct (run_clean_inv _ _ _ _ _ _ _ _ H0 Hi E Hr). auto.
  - rewrite find_any in E by (eapply inv_semi; eassumption).
    destruct (fst (lags_in c)) as [|x l].
    + cbn in E. injection E as <- <-. auto.
    + destruct (run_clean_inv _ _ _ _ _ _ _ _ H0 Hi E Hr). auto.
  - destruct (i <? 0)%Z.
    + injection E as <- <-. auto.
    + apply add_cases in E. destruct E as [S1 [S2 [S3 _]]].
      destruct (inv_lengths c0 c c' S1 S2 S3 Hi) as [K1 K2]. auto.
  - destruct (i <? 0)%Z.
    + injection E as <- <-. auto.
    + destruct (clean_inv c0 c _ c' r H0 Hi E) as [[_ [T1 [T2 _]]]|[u ->]]; [auto|].
      destruct Hr as [Hr|[e Hr]]; discriminate.
  - injection E as <- <-. destruct Hi as [H3 [H4 [H5 H6]]]. split; [|congruence].
    repeat split; cbn; try assumption. right. split; reflexivity.
Qed.

Lemma after_inv p c0 os c : base c0 -> after p c0 os c -> inv c0 c /\ (~ In Clear os -> bufs_ok c).
Proof.
  intros H0 H. induction H as [|os c1 o c2 r H [I1 I2] E Hr].
  - split; [apply inv_refl; exact H0|]. intros _. apply H0.
  - destruct (step_inv p c0 c1 o c2 r H0 I1 E Hr) as [K1 K2]. split; [exact K1|]. intros Hn. apply K2.
    + intros ->. apply Hn, in_or_app. right. left. reflexivity.
    + apply I2. intros Hin. apply Hn, in_or_app. left. exact Hin.
Qed.

Lemma new_base d c0 : accepted d -> new_Correlator d = Ok c0 -> base c0 /\ ds c0 = d.
Proof.
  intros Ha Hn. destruct (new_Correlator_accepted d c0 Ha Hn) as [ts [data [er [N [n [-> [H1 [H2 [H3 [H4 ->]]]]]]]]]].
  split; [|reflexivity]. split; [apply the_corr_ready; assumption|exact H3].
Qed.

End StateFacts.
