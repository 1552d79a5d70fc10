(** Cost.v: the work of a whole call. *)
From Coq Require Import String.
From Coq Require Import ZArith List Bool Arith Lia.
From Verif Require Import Num Mem MemFacts Spec Laws DataStructure DSFacts Correlator Sacf Api CorrFacts LoopFacts MainFacts ConstrFacts Laws2 WeightFacts Cost CostFacts.
Import ListNotations.
Local Open Scope list_scope.

Section CostMain.
Context {A : Num}.

Lemma plus_free_r c : plus c free = c.
Proof. destruct c. unfold plus, free. cbn. f_equal; lia. Qed.
Lemma plus_free_l c : plus free c = c.
Proof. destruct c. reflexivity. Qed.

Section Loops.
Variables (p : platform) (c0 : correlator).
Hypothesis Hds : wf_ds (ds c0).
Hypothesis HN : length (Nvec c0) = N_datasets (ds c0).
Let M := M_datapoints (ds c0).
Let N := N_datasets (ds c0).

Lemma setup_fields c : same_setup c0 c -> ds c = ds c0 /\ Nvec c = Nvec c0 /\ max_lag c = max_lag c0 /\ lag_resolution c = lag_resolution c0.
Proof. intros [ts [cs ->]]. repeat split. Qed.

Lemma calculate_at_setup c kk i : same_setup c0 c -> same_setup c0 (fst (calculateStandardCorrelation_at p c kk i)).
Proof.
  intros Hc. destruct (setup_fields c Hc) as [F1 [F2 _]].
  rewrite calculate_at_closed by (rewrite ?F1, ?F2; assumption).
  eapply same_setup_trans; [exact Hc|apply store_res_setup].
Qed.
Lemma find_at_setup sel wgt c kk i : same_setup c0 c -> same_setup c0 (fst (find_correlation_at p sel wgt c kk i)).
Proof.
  intros Hc. destruct (setup_fields c Hc) as [F1 [F2 _]].
  rewrite find_at_closed by (rewrite ?F1, ?F2; assumption).
  eapply same_setup_trans; [exact Hc|apply store_res_setup].
Qed.

Lemma store_ok_len c kk r i c1 : store_res c kk r i = (c1, Ok tt) ->
  i < length (timeseries_ c) /\ length (timeseries_ c1) = length (timeseries_ c).
Proof.
  destruct r as [cs|e|u|]; cbn [store_res]; try discriminate. unfold store, addCorrelationData, mlift. cbn [k].
  destruct (Nat.lt_ge_cases i (length (timeseries_ c))) as [H|H].
  - rewrite lset_ok by exact H. cbn [mbind]. destruct (add_loop _ _ _ _ _ _); cbn [mbind]; intros E; try discriminate E.
    injection E as <-. cbn. split; [exact H|apply upd_length; exact H].
  - rewrite lset_oob by exact H. discriminate.
Qed.
Lemma calculate_at_len c kk i c1 q : same_setup c0 c -> calculateStandardCorrelation_at_c p c kk i = ((c1, Ok tt), q) ->
  i < length (timeseries_ c) /\ length (timeseries_ c1) = length (timeseries_ c).
Proof.
  intros Hc E. destruct (setup_fields c Hc) as [F1 [F2 _]]. apply (f_equal fst) in E. rewrite calculate_at_e in E.
  rewrite calculate_at_closed in E by (rewrite ?F1, ?F2; assumption). eapply store_ok_len. exact E.
Qed.
Lemma find_at_len sel wgt c kk i c1 q : same_setup c0 c -> find_correlation_at_c p sel wgt c kk i = ((c1, Ok tt), q) ->
  i < length (timeseries_ c) /\ length (timeseries_ c1) = length (timeseries_ c).
Proof.
  intros Hc E. destruct (setup_fields c Hc) as [F1 [F2 _]]. apply (f_equal fst) in E. rewrite find_at_e in E.
  rewrite find_at_closed in E by (rewrite ?F1, ?F2; assumption). eapply store_ok_len. exact E.
Qed.

(** no more lags are begun than fit, and one *)
Lemma std_loop_started fuel : forall kk pos i c, same_setup c0 c ->
  started (snd (std_loop_c p fuel kk pos i c)) <= S (length (timeseries_ c) - i).
Proof.
  induction fuel as [|fuel IH]; intros kk pos i c Hc; cbn [std_loop_c]; [cbn; lia|].
  destruct (setup_fields c Hc) as [F1 _].
  destruct (nle kk (max_lag c)); [|cbn; lia].
  destruct (nlt nzero kk && negb (if neqb kk nzero then true else pos)).
  - destruct (calculate_at_cost p c ltac:(rewrite F1; exact Hds) nzero i) as [_ [St1 _]].
    pose proof (calculate_at_setup c nzero i Hc) as S1. rewrite <- calculate_at_e in S1.
    pose proof (fun c1 q => calculate_at_len c nzero i c1 q Hc) as L1.
    destruct (calculateStandardCorrelation_at_c p c nzero i) as [[c1 [[]|e|u|]] q1]; cbn [cbind charge fst snd] in *; try lia.
    destruct (L1 c1 q1 eq_refl) as [L1a L1b]. destruct (setup_fields c1 S1) as [G1 _].
    destruct (calculate_at_cost p c1 ltac:(rewrite G1; exact Hds) kk (S i)) as [_ [St2 _]].
    pose proof (calculate_at_setup c1 kk (S i) S1) as S2. rewrite <- calculate_at_e in S2.
    pose proof (fun c2 q => calculate_at_len c1 kk (S i) c2 q S1) as L2.
    destruct (calculateStandardCorrelation_at_c p c1 kk (S i)) as [[c2 [[]|e|u|]] q2]; cbn [cbind charge fst snd plus started] in *; try lia.
    destruct (L2 c2 q2 eq_refl) as [L2a L2b]. specialize (IH (nadd kk (lag_resolution c)) true (S (S i)) c2 S2). lia.
  - destruct (calculate_at_cost p c ltac:(rewrite F1; exact Hds) kk i) as [_ [St1 _]].
    pose proof (calculate_at_setup c kk i Hc) as S1. rewrite <- calculate_at_e in S1.
    pose proof (fun c1 q => calculate_at_len c kk i c1 q Hc) as L1.
    destruct (calculateStandardCorrelation_at_c p c kk i) as [[c1 [[]|e|u|]] q1]; cbn [cbind charge fst snd plus started] in *; try lia.
    destruct (L1 c1 q1 eq_refl) as [L1a L1b].
    specialize (IH (nadd kk (lag_resolution c)) (if neqb kk nzero then true else pos) (S i) c1 S1). lia.
Qed.
Lemma find_loop_started sel wgt fuel maxl resl : forall g n last c, same_setup c0 c ->
  started (snd (find_loop_c p sel wgt fuel maxl resl g n last c)) <= S (length (timeseries_ c) - n).
Proof.
  induction fuel as [|fuel IH]; intros g n last c Hc; cbn [find_loop_c]; [cbn; lia|].
  destruct (gen_next maxl resl g) as [[kk g']|]; [|cbn; lia]. destruct (setup_fields c Hc) as [F1 _].
  destruct (find_at_cost p c ltac:(rewrite F1; exact Hds) sel wgt kk n) as [_ [St1 _]].
  pose proof (find_at_setup sel wgt c kk n Hc) as S1. rewrite <- find_at_e in S1.
  pose proof (fun c1 q => find_at_len sel wgt c kk n c1 q Hc) as L1.
  destruct (find_correlation_at_c p sel wgt c kk n) as [[c1 [[]|e|u|]] q1]; cbn [cbind charge fst snd plus started] in *; try lia.
  destruct (L1 c1 q1 eq_refl) as [L1a L1b]. specialize (IH g' (S n) (Some n) c1 S1). lia.
Qed.

Lemma std_loop_cost fuel : forall kk pos i c, same_setup c0 c ->
  bounded (M * (Nat.log2 M + 3)) M N (snd (std_loop_c p fuel kk pos i c)) /\
  (forall n, snd (fst (std_loop_c p fuel kk pos i c)) = Ok n ->
     ran p (ds c0) (naturalSelectionFunctionIdx p (ds c0)) (fst (lag_list fuel (max_lag c0) (lag_resolution c0) kk pos))
       (snd (std_loop_c p fuel kk pos i c))).
Proof.
  induction fuel as [|fuel IH]; intros kk pos i c Hc; cbn [std_loop_c lag_list].
  { split; [apply bounded_free|discriminate]. }
  destruct (setup_fields c Hc) as [F1 [F2 [F3 F4]]]. rewrite F3, F4.
  destruct (nle kk (max_lag c0)); [|split; [apply bounded_free|intros n _; apply ran_nil]].
  destruct (nlt nzero kk && negb (if neqb kk nzero then true else pos)); cbn [fst snd].
  - destruct (calculate_at_cost p c ltac:(rewrite F1; exact Hds) nzero i) as [B1 [_ R1]].
    pose proof (calculate_at_setup c nzero i Hc) as S1. rewrite <- calculate_at_e in S1.
    rewrite F1 in B1, R1. fold M N in B1.
    destruct (calculateStandardCorrelation_at_c p c nzero i) as [[c1 [[]|e|u|]] q1]; cbn [cbind charge fst snd] in *;
      try (split; [exact B1|discriminate]).
    destruct (setup_fields c1 S1) as [G1 _].
    destruct (calculate_at_cost p c1 ltac:(rewrite G1; exact Hds) kk (S i)) as [B2 [_ R2]].
    pose proof (calculate_at_setup c1 kk (S i) S1) as S2. rewrite <- calculate_at_e in S2.
    rewrite G1 in B2, R2. fold M N in B2.
    destruct (calculateStandardCorrelation_at_c p c1 kk (S i)) as [[c2 [[]|e|u|]] q2]; cbn [cbind charge fst snd] in *;
      try (split; [apply bounded_plus; assumption|discriminate]).
    destruct (IH (nadd kk (lag_resolution c0)) true (S (S i)) c2 S2) as [B3 R3].
    split; [apply bounded_plus; [exact B1|apply bounded_plus; assumption]|].
    intros n E. apply (ran_app p (ds c0) _ [nzero]); [apply R1; reflexivity|].
    apply (ran_app p (ds c0) _ [kk]); [apply R2; reflexivity|]. exact (R3 n E).
  - destruct (calculate_at_cost p c ltac:(rewrite F1; exact Hds) kk i) as [B1 [_ R1]].
    pose proof (calculate_at_setup c kk i Hc) as S1. rewrite <- calculate_at_e in S1.
    rewrite F1 in B1, R1. fold M N in B1.
    destruct (calculateStandardCorrelation_at_c p c kk i) as [[c1 [[]|e|u|]] q1]; cbn [cbind charge fst snd] in *;
      try (split; [exact B1|discriminate]).
    destruct (IH (nadd kk (lag_resolution c0)) (if neqb kk nzero then true else pos) (S i) c1 S1) as [B3 R3].
    split; [apply bounded_plus; assumption|].
    intros n E. apply (ran_app p (ds c0) _ [kk]); [apply R1; reflexivity|]. exact (R3 n E).
Qed.

Lemma find_loop_cost sel wgt fuel : forall g n last c, same_setup c0 c ->
  let x := find_loop_c p sel wgt fuel (max_lag c0) (lag_resolution c0) g n last c in
  let L := gen_list fuel (max_lag c0) (lag_resolution c0) g in
  bounded (search_cost sel M) M N (snd x) /\
  (forall m, snd (fst x) = Ok m ->
     (fst L = [] \/ exists f, selection_function p sel (ds c0) = Some f) /\
     forall f, selection_function p sel (ds c0) = Some f -> ran p (ds c0) f (fst L) (snd x)).
Proof.
  induction fuel as [|fuel IH]; intros g n last c Hc; cbv zeta; cbn [find_loop_c gen_list].
  { split; [apply bounded_free|discriminate]. }
  destruct (gen_next (max_lag c0) (lag_resolution c0) g) as [[kk g']|];
    [|split; [apply bounded_free|intros m _; split; [left; reflexivity|intros f _; apply ran_nil]]].
  destruct (setup_fields c Hc) as [F1 _].
  destruct (find_at_cost p c ltac:(rewrite F1; exact Hds) sel wgt kk n) as [B1 [_ R1]].
  pose proof (find_at_setup sel wgt c kk n Hc) as S1. rewrite <- find_at_e in S1.
  rewrite F1 in B1, R1. fold M N in B1. cbn [fst snd].
  destruct (find_correlation_at_c p sel wgt c kk n) as [[c1 [[]|e|u|]] q1]; cbn [cbind charge fst snd] in *;
    try (split; [exact B1|discriminate]).
  destruct (IH g' (S n) (Some n) c1 S1) as [B2 R2].
  split; [apply bounded_plus; assumption|]. intros m E. destruct (R1 eq_refl) as [f [Ef Rf]].
  split; [right; exists f; exact Ef|]. intros f' Ef'. rewrite Ef in Ef'. injection Ef' as <-.
  apply (ran_app p (ds c0) f [kk]); [exact Rf|]. destruct (R2 m E) as [_ R2']. apply R2'. exact Ef.
Qed.
End Loops.

Lemma find_cost p c1 sel wgt : ready c1 ->
  bounded (search_cost sel (M_datapoints (ds c1))) (M_datapoints (ds c1)) (N_datasets (ds c1)) (snd (find_correlation_c p c1 sel wgt)) /\
  (snd (fst (find_correlation_c p c1 sel wgt)) = Ok tt -> exists f, selection_function p sel (ds c1) = Some f /\
     ran p (ds c1) f (fst (lags_of c1)) (snd (find_correlation_c p c1 sel wgt))).
Proof.
  intros Hr. pose proof Hr as [Hds [HN [Hb1 Hb2]]].
  pose proof (find_run p c1 sel wgt Hr) as HF. rewrite <- find_e in HF.
  unfold find_correlation_c in *. rewrite Hb1 in *.
  destruct (find_loop_cost p c1 Hds HN sel wgt (S (num_lag_steps c1)) (gen_start (min_lag c1)) 0 None c1 (same_setup_refl c1)) as [B R].
  unfold gen_start in R. rewrite (gen_list_lags (S (num_lag_steps c1)) (S (num_lag_steps c1))) in R by (try lia; discriminate).
  cbv zeta in R. fold (lags_of c1) in R. cbn [fst] in R. fold (gen_start (min_lag c1)) in R.
  destruct (find_loop_c p sel wgt (S (num_lag_steps c1)) (max_lag c1) (lag_resolution c1) (gen_start (min_lag c1)) 0 None c1)
    as [[c2 [m|e|u|]] q]; cbn [cbind charge fst snd] in *; try (split; [exact B|discriminate]).
  match goal with |- bounded _ _ _ (plus q ?z) /\ _ => assert (Hq : plus q z = q) by (destruct m; apply plus_free_r); rewrite Hq; clear Hq end.
  split; [exact B|]. intros HO. rewrite HF in HO. clear HF.
  destruct (run_lags (named_values p c1 sel wgt) (fst (py_lags_of c1)) 0 c1) as [c3 [[]|e|u|]]; cbn [mbind snd] in HO; try discriminate HO.
  destruct (snd (py_lags_of c1)) eqn:Es; [|discriminate HO]. unfold py_lags_of in Es, HO. cbn [fst snd] in Es, HO.
  apply andb_true_iff in Es. destruct Es as [_ Es]. apply Nat.ltb_lt in Es.
  rewrite firstn_all2 in R, HO by lia. destruct (R m eq_refl) as [[E|[f Ef]] Rf].
  - rewrite E in HO. discriminate HO.
  - exists f. split; [exact Ef|apply Rf; exact Ef].
Qed.

(** the work after the construction of the correlator *)
Definition path_c (p : platform) (c1 : correlator) (sel wgt : string) : counted correlator unit :=
  if String.eqb sel "natural"%string && String.eqb wgt "fractional"%string
  then calculateStandardCorrelation_c p c1 else find_correlation_c p c1 sel wgt.

Lemma path_cost p c1 sel wgt : ready c1 ->
  bounded (search_cost sel (M_datapoints (ds c1))) (M_datapoints (ds c1)) (N_datasets (ds c1)) (snd (path_c p c1 sel wgt)) /\
  (snd (fst (path_c p c1 sel wgt)) = Ok tt -> exists f, selection_function p sel (ds c1) = Some f /\
     ran p (ds c1) f (fst (lags_of c1)) (snd (path_c p c1 sel wgt))).
Proof.
  intros Hr. unfold path_c. destruct (String.eqb sel "natural" && String.eqb wgt "fractional") eqn:E; [|apply find_cost; exact Hr].
  apply andb_true_iff in E. destruct E as [E _]. apply String.eqb_eq in E. subst sel.
  destruct Hr as [Hds [HN [Hb1 Hb2]]]. unfold calculateStandardCorrelation_c. rewrite Hb1.
  destruct (std_loop_cost p c1 Hds HN (S (num_lag_steps c1)) (min_lag c1) false 0 c1 (same_setup_refl c1)) as [B R].
  fold (lags_of c1) in R.
  destruct (std_loop_c p (S (num_lag_steps c1)) (min_lag c1) false 0 c1) as [[c2 [n|e|u|]] q]; cbn [cbind charge fst snd] in *;
    try (split; [exact B|discriminate]).
  rewrite plus_free_r. split; [exact B|]. intros _. eexists. split; [reflexivity|]. apply (R n). reflexivity.
Qed.

Lemma path_started p c1 sel wgt : ready c1 -> started (snd (path_c p c1 sel wgt)) <= S (num_lag_steps c1).
Proof.
  intros [Hds [HN [Hb1 Hb2]]]. unfold path_c. destruct (String.eqb sel "natural" && String.eqb wgt "fractional").
  - unfold calculateStandardCorrelation_c.
    pose proof (std_loop_started p c1 Hds HN (S (length (timeseries_ c1))) (min_lag c1) false 0 c1 (same_setup_refl c1)) as H.
    rewrite Nat.sub_0_r, Hb1 in H. rewrite Hb1.
    destruct (std_loop_c p (S (num_lag_steps c1)) (min_lag c1) false 0 c1) as [[c2 [n|e|u|]] q]; cbn [cbind charge fst snd] in *;
      rewrite ?plus_free_r; exact H.
  - unfold find_correlation_c.
    pose proof (find_loop_started p c1 Hds HN sel wgt (S (length (timeseries_ c1))) (max_lag c1) (lag_resolution c1)
                  (gen_start (min_lag c1)) 0 None c1 (same_setup_refl c1)) as H.
    rewrite Nat.sub_0_r, Hb1 in H. rewrite Hb1.
    destruct (find_loop_c p sel wgt (S (num_lag_steps c1)) (max_lag c1) (lag_resolution c1) (gen_start (min_lag c1)) 0 None c1)
      as [[c2 [[i|]|e|u|]] q]; cbn [cbind charge fst snd] in *; rewrite ?plus_free_r; exact H.
Qed.

(** ** The constructor *)
Definition present (l : list num) : nat := length (filter (fun x => negb (nisnan x)) l).

Lemma norm_loop_cost (HA : arith A) d j row : j < length (data_mean d) -> length row = M_datapoints d ->
  (forall i x, nth_error row i = Some x -> nth_error (data_ d) (getVectorIndex (M_datapoints d) i j) = Some x) ->
  forall n i acc, i + n = M_datapoints d -> exists y,
  norm_loop_c d j n i acc = ((tt, Ok y), some_copies (2 * length (data_mean d) * present (skipn i row))).
Proof.
  intros Hj Hl Hrow. pose proof (arith_laws A HA) as La.
  induction n as [|n IH]; intros i acc Hi; cbn [norm_loop_c].
  - rewrite skipn_all2 by lia. exists acc. cbn [present filter length]. rewrite Nat.mul_0_r. reflexivity.
  - destruct (nth_error_Some_ex row i ltac:(lia)) as [x Ex].
    assert (Hsk : skipn i row = x :: skipn (S i) row).
    { apply list_ext. intros m. rewrite nth_error_skipn. destruct m as [|m]; [rewrite Nat.add_0_r; exact Ex|].
      cbn [nth_error]. rewrite nth_error_skipn. f_equal. lia. }
    rewrite Hsk. unfold lat. rewrite (Hrow i x Ex). unfold clift, ccall. cbn [cbind fst snd charge].
    rewrite l_nan_f32. unfold present. cbn [filter]. destruct (nisnan x); cbn [negb].
    + destruct (IH (S i) acc ltac:(lia)) as [y ->]. exists y. unfold charge. cbn [fst snd]. rewrite plus_free_l. reflexivity.
    + rewrite (lget_ok _ _ nzero Hj). cbn [cbind fst snd charge].
      destruct (IH (S i) (nadd acc (nmul (nsub (nf32 x) (nth j (data_mean d) nzero)) (nsub (nf32 x) (nth j (data_mean d) nzero)))) ltac:(lia)) as [y ->].
      exists y. unfold charge. cbn [fst snd]. rewrite !plus_free_l. f_equal. unfold plus, some_copies. cbn [started compared weighed multiplied copied length].
      f_equal. fold (present (skipn (S i) row)). lia.
Qed.

Lemma norms_cost (HA : arith A) d rows : length (data_mean d) = N_datasets d -> data_2d d = Ok rows ->
  forall js, (forall j, In j js -> j < N_datasets d) -> exists ys,
  norms_c d js = ((tt, Ok ys), some_copies (2 * N_datasets d * present (concat (map (fun j => nth j rows []) js)))).
Proof.
  intros Hm Hd. unfold data_2d, rows_2d in Hd. destruct (mapM_Ok_inv _ _ _ Hd) as [Hlr Hr]. rewrite seq_length in Hlr.
  induction js as [|j js IH]; intros Hjs; cbn [norms_c map concat].
  - exists []. unfold present. cbn [filter length]. rewrite Nat.mul_0_r. reflexivity.
  - assert (Hj : j < N_datasets d) by (apply Hjs; left; reflexivity).
    destruct (Hr j j) as [row [E1 E2]]. { rewrite nth_error_seq. destruct (Nat.ltb_spec j (N_datasets d)); [f_equal; lia|lia]. }
    destruct (mapM_Ok_inv _ _ _ E2) as [Hl Hx]. rewrite seq_length in Hl.
    destruct (norm_loop_cost HA d j row ltac:(lia) Hl) with (n := M_datapoints d) (i := 0) (acc := nzero) as [y Ey]; [|lia|].
    { intros i x Hi. assert (Hi' : i < M_datapoints d) by (rewrite <- Hl; apply nth_error_Some; congruence).
      destruct (Hx i i) as [x' [X1 X2]]. { rewrite nth_error_seq. destruct (Nat.ltb_spec i (M_datapoints d)); [f_equal; lia|lia]. }
      rewrite Hi in X1. injection X1 as <-. unfold lget in X2. destruct (nth_error (data_ d) _); [|discriminate X2]. injection X2 as ->. reflexivity. }
    rewrite Ey. cbn [skipn]. destruct (IH ltac:(intros j' H'; apply Hjs; right; exact H')) as [ys Eys]. rewrite Eys.
    cbn [cbind charge fst snd]. exists (y :: ys). unfold charge. cbn [fst snd]. f_equal.
    rewrite (nth_error_nth _ _ [] E1). unfold plus, some_copies. cbn [started compared weighed multiplied copied free].
    f_equal. rewrite Hm. unfold present. rewrite filter_app, app_length. lia.
Qed.

Lemma map_nth_seq {X} (l : list (list X)) : map (fun j => nth j l []) (seq 0 (length l)) = l.
Proof.
  apply list_ext. intros n. rewrite nth_error_map, nth_error_seq. destruct (Nat.ltb_spec n (length l)) as [H|H]; cbn [option_map].
  - symmetry. apply nth_error_nth_eq. exact H.
  - symmetry. apply nth_error_None. exact H.
Qed.

Lemma accepted_rows d : accepted d -> exists rows, data_2d d = Ok rows /\ length rows = N_datasets d /\ length (data_mean d) = N_datasets d /\ length (timeseries d) = M_datapoints d /\ Forall (fun row => length row = M_datapoints d) rows.
Proof.
  intros Ha. destruct (accepted_setUp d Ha) as [ts [data [er [N [-> [H1 [H2 [H3 [H4 H5]]]]]]]]].
  exists (recut N (length ts) data). unfold data_2d. cbn [N_datasets M_datapoints data_ data_mean the_ds].
  rewrite rows_2d_ok by exact H4. assert (Hl : length (recut N (length ts) data) = N) by (unfold recut; rewrite map_length, seq_length; reflexivity).
  rewrite map_length. repeat split; try assumption.
  pose proof (rows_2d_ok data N (length ts) H4) as E. unfold rows_2d in E. destruct (mapM_Ok_inv _ _ _ E) as [_ Hn].
  apply Forall_forall. intros row Hin. apply In_nth_error in Hin. destruct Hin as [j Hj].
  assert (j < N) by (rewrite <- Hl; apply nth_error_Some; congruence).
  destruct (Hn j j) as [row' [E1 E2]]. { rewrite nth_error_seq. destruct (Nat.ltb_spec j N); [f_equal; lia|lia]. }
  rewrite Hj in E1. injection E1 as <-. destruct (mapM_Ok_inv _ _ _ E2) as [E3 _]. rewrite E3, seq_length. reflexivity.
Qed.

Lemma new_Correlator_cost (HA : arith A) d rows : accepted d -> data_2d d = Ok rows ->
  snd (new_Correlator_c d) = some_copies (2 * N_datasets d * present (concat rows)).
Proof.
  intros Ha Hd. destruct (accepted_rows d Ha) as [rows' [E [Hl [Hm _]]]]. rewrite Hd in E. injection E as <-.
  destruct (norms_cost HA d rows Hm Hd (seq 0 (N_datasets d))) as [ys E].
  { intros j Hj. apply in_seq in Hj. lia. }
  unfold new_Correlator_c. rewrite E. cbn [cbind charge snd fst]. rewrite plus_free_r. rewrite <- Hl at 2. rewrite map_nth_seq. reflexivity.
Qed.

(** ** The whole call *)
Lemma call_cost (HA : arith A) p d rows mi ma re al sel wgt : accepted d -> data_2d d = Ok rows ->
  let x := autocorrelation_c p d mi ma re al sel wgt in
  compared (snd x) <= started (snd x) * search_cost sel (length (timeseries d)) /\ weighed (snd x) <= started (snd x) * length (timeseries d) /\ multiplied (snd x) <= length rows * weighed (snd x) /\ copied (snd x) = 2 * length rows * present (concat rows) /\
  (forall c0, new_Correlator d = Ok c0 -> started (snd x) <= S (num_lag_steps c0)) /\ (forall lags corr c, fst x = Ok (lags, corr, c) -> exists f, selection_function p sel d = Some f /\ ran p d f lags (snd x)).
Proof.
  intros Ha Hd x. pose proof (new_Correlator_cost HA d rows Ha Hd) as HC.
  destruct (accepted_rows d Ha) as [rows' [E [Hl [Hm [Ht _]]]]]. rewrite Hd in E. injection E as <-.
  assert (Hx : forall lags corr c, fst x = Ok (lags, corr, c) -> exists c0, new_Correlator d = Ok c0 /\    lags = fst (lags_of (set_up_correlation c0 mi ma re al))).
  { intros lags corr c Hx. subst x. rewrite autocorrelation_e in Hx.
    destruct (accepted_setUp d Ha) as [ts [data [er [N' [-> [H1 [H2 [H3 [H4 H5]]]]]]]]].
    rewrite auto_core in Hx by assumption. unfold acf_core in Hx. rewrite new_Correlator_closed by assumption.
    destruct (allot (rel_times ts)) as [n|e|u|] eqn:Ea; cbn [bind] in Hx |- *; try discriminate Hx.
    eexists. split; [reflexivity|].
    apply bind_Ok in Hx. destruct Hx as [gF [HgF Hx]]. injection Hx as <- _ _.
    assert (HG : fst gF = fst (lag_list (S n) (opt_or ma (last (rel_times ts) nzero)) (opt_or re (findMinDiff (rel_times ts)))
                  (opt_or mi (nneg (last (rel_times ts) nzero))) false)).
    { set (L := lag_list _ _ _ _ _) in *.
      assert (HF : forall fs, (do Fs <- fs; Ok (fst L, Fs)) = Ok gF -> fst gF = fst L).
      { intros fs H. apply bind_Ok in H. destruct H as [Fs [_ H]]. injection H as <-. reflexivity. }
      destruct (fst L); [destruct (_ && _)|]; try (eapply HF; exact HgF). discriminate HgF. }
    rewrite HG. destruct (set_up_fields (the_corr ts data er N' n) mi ma re al) as [F1 [F2 [F3 [F4 [F5 [F6 [F7 [F8 F9]]]]]]]].
    unfold lags_of. rewrite F3, F6, F7, F8. reflexivity. }
  pose proof (new_Correlator_e d) as HE. unfold x, autocorrelation_c in *.
  destruct (new_Correlator_c d) as [[c0|e|u|] q]; cbn [fst snd] in *; subst q.
  2-4: cbn [started compared weighed multiplied copied some_copies]; rewrite Hl; repeat split; try lia; try discriminate; rewrite <- HE; discriminate.
  destruct (new_Correlator_accepted d c0 Ha ltac:(symmetry; exact HE)) as [ts [data [er [N' [n HH]]]]].
  assert (Hr : ready (set_up_correlation c0 mi ma re al)).
  { apply set_up_ready. destruct HH as [_ [H1 [H2 [_ [_ ->]]]]]. apply the_corr_ready; assumption. }
  assert (Hds : ds (set_up_correlation c0 mi ma re al) = d).
  { destruct (set_up_fields c0 mi ma re al) as [-> _]. destruct HH as [-> [_ [_ [_ [_ ->]]]]]. reflexivity. }
  fold (path_c p (set_up_correlation c0 mi ma re al) sel wgt).
  destruct (path_cost p (set_up_correlation c0 mi ma re al) sel wgt Hr) as [[B1 B2 B3 B4] R]. rewrite Hds in B1, B2, B3, R.
  unfold plus. cbn [started compared weighed multiplied copied some_copies]. rewrite B4. rewrite Ht, Hl. repeat split; try lia.
  { intros c0' E0. rewrite <- HE in E0. injection E0 as <-. pose proof (path_started p _ sel wgt Hr) as H.
    destruct (set_up_fields c0 mi ma re al) as [_ [_ [F3 _]]]. rewrite F3 in H. exact H. }
  intros lags corr c Hc. destruct (Hx lags corr c Hc) as [c0' [E0 ->]]. rewrite <- HE in E0. injection E0 as <-.
  apply bind_Ok in Hc. destruct Hc as [[] [Hc _]]. destruct (R Hc) as [f [Ef [ns [R1 [R2 [R3 R4]]]]]].
  exists f. split; [exact Ef|]. exists ns. cbn [started weighed multiplied Nat.add]. auto.
Qed.
End CostMain.
