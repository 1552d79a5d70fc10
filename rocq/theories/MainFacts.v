(** Closed form of a whole autocorrelation call. *)
From Coq Require Import String.
From Coq Require Import ZArith List Bool Arith Lia.
From Verif Require Import Num Mem MemFacts Spec DataStructure DSFacts Correlator Sacf Api CorrFacts LoopFacts.
Import ListNotations.

Section MainFacts.
Context {A : Num}.

(** ** Correlator states that can run *)
Definition ready (c : correlator) : Prop :=
  wf_ds (ds c) /\ length (Nvec c) = N_datasets (ds c) /\ bufs_ok c.

Definition std_values (p : platform) (c : correlator) : num -> res (list num) :=
  lag_values natural_sel (fractionWeightFunction (alpha c)) p c.

Lemma lag_values_length sf w p c kk cs : lag_values sf w p c kk = Ok cs -> length cs = N_datasets (ds c).
Proof.
  unfold lag_values. intros H. apply bind_Ok in H. destruct H as [sS [_ H]].
  apply bind_Ok in H. destruct H as [dts [_ H]]. injection H as <-.
  rewrite map_length, seq_length. reflexivity.
Qed.

Lemma named_values_length p c sel wgt kk cs :
  named_values p c sel wgt kk = Ok cs -> length cs = N_datasets (ds c).
Proof.
  unfold named_values. destruct (sel_named sel) as [sf|]; [|discriminate].
  destruct (weight_named wgt (alpha c)) as [w|]; [apply lag_values_length|].
  intros H. apply bind_Ok in H. destruct H as [sS [_ H]].
  apply bind_Ok in H. destruct H as [dts [_ H]]. discriminate.
Qed.

(** the lags of a correlator: the complete grid, or (second component false)
    more of them than fit *)
Definition lags_of (c : correlator) : list num * bool :=
  lag_list (S (num_lag_steps c)) (max_lag c) (lag_resolution c) (min_lag c) false.

Lemma calculate_run p c : ready c ->
  calculateStandardCorrelation p c =
  mbind (run_lags (std_values p c) (fst (lags_of c)) 0 c) (fun c1 _ =>
    if snd (lags_of c) then cleanCorrelationData c1 (length (fst (lags_of c))) else (c1, Diverge)).
Proof.
  intros [Hds [HN Hb]]. unfold calculateStandardCorrelation.
  rewrite (std_loop_run p (std_values p c) c) by (auto using same_setup_refl).
  destruct Hb as [Hb1 _]. rewrite Hb1. fold (lags_of c). rewrite mbind_assoc.
  apply mbind_ext. intros c1 [] E. destruct (snd (lags_of c)); reflexivity.
Qed.

Definition py_lags_of (c : correlator) : list num * bool :=
  (firstn (S (num_lag_steps c)) (fst (lags_of c)),
   snd (lags_of c) && (length (fst (lags_of c)) <? S (num_lag_steps c))).

Lemma find_run p c sel wgt : ready c ->
  find_correlation p c sel wgt =
  mbind (run_lags (named_values p c sel wgt) (fst (py_lags_of c)) 0 c) (fun c1 _ =>
    if snd (py_lags_of c) then
      match fst (py_lags_of c) with
      | [] => (c1, Throw PyUnboundLocalError)
      | _ => cleanCorrelationData c1 (length (fst (py_lags_of c)))
      end
    else (c1, Diverge)).
Proof.
  intros [Hds [HN Hb]]. unfold find_correlation.
  rewrite (find_loop_run p sel wgt (named_values p c sel wgt) c) by (auto using same_setup_refl).
  destruct Hb as [Hb1 _]. rewrite Hb1. unfold gen_start.
  rewrite (gen_list_lags (S (num_lag_steps c)) (S (num_lag_steps c))) by (try lia; discriminate).
  fold (lags_of c). rewrite mbind_assoc. cbn [fst snd]. unfold py_lags_of. cbn [fst snd].
  apply mbind_ext. intros c1 [] E.
  destruct (snd (lags_of c) && _); [|reflexivity]. cbn [mbind].
  destruct (firstn (S (num_lag_steps c)) (fst (lags_of c))) as [|x l] eqn:El; [reflexivity|].
  cbn [length]. f_equal. lia.
Qed.

(** lists are cut only if they do not fit *)
Lemma py_lags_fit c : length (fst (lags_of c)) <= num_lag_steps c ->
  snd (lags_of c) = true /\ py_lags_of c = lags_of c.
Proof.
  intros H. assert (Hs : snd (lags_of c) = true).
  { destruct (snd (lags_of c)) eqn:E; [reflexivity|]. apply lag_list_long in E.
    unfold lags_of in H. lia. }
  split; [exact Hs|]. unfold py_lags_of. rewrite Hs. rewrite firstn_all2 by lia.
  destruct (Nat.ltb_spec (length (fst (lags_of c))) (S (num_lag_steps c))); [|lia].
  destruct (lags_of c) as [l b]. cbn in *. subst b. reflexivity.
Qed.

Lemma mbind_fail_ext {S R Q} (x : meth S R) (f g : S -> R -> meth S Q) :
  (forall r, snd x <> Ok r) -> mbind x f = mbind x g.
Proof. intros H. destruct x as [s [r|e|u|]]; try reflexivity. cbn in H. congruence. Qed.

(** the outcome of a run over a list that does not fit does not depend on the
    part beyond the first lag that does not fit *)
Lemma run_lags_cut f ks c :
  bufs_ok c -> (forall kk cs, f kk = Ok cs -> length cs = N_datasets (ds c)) ->
  num_lag_steps c < length ks ->
  run_lags f ks 0 c = run_lags f (firstn (S (num_lag_steps c)) ks) 0 c /\
  snd (run_lags f ks 0 c) <> Ok tt.
Proof.
  intros Hb Hf Hl.
  assert (Hno : snd (run_lags f (firstn (S (num_lag_steps c)) ks) 0 c) <> Ok tt).
  { rewrite run_lags_res by (auto; lia). apply run_res_full.
    rewrite firstn_length_le by lia. lia. }
  assert (E : run_lags f ks 0 c = run_lags f (firstn (S (num_lag_steps c)) ks) 0 c).
  { rewrite <- (firstn_skipn (S (num_lag_steps c)) ks) at 1. rewrite run_lags_app.
    destruct (run_lags f (firstn (S (num_lag_steps c)) ks) 0 c) as [c1 [[]|e|u|]]; try reflexivity.
    cbn in Hno. congruence. }
  split; [exact E|]. rewrite E. exact Hno.
Qed.

(** ** Outcomes of the two paths for a ready correlator *)
Section Outcome.
Variables (p : platform) (c : correlator).
Hypothesis Hc : ready c.

Let nls := num_lag_steps c.

(** outcome of computing all lags *)
Definition path_res (f : num -> res (list num)) : res unit := run_res f (fst (lags_of c)) nls.

Lemma path_fail f (k1 : correlator -> meth correlator unit) :
  (forall kk cs, f kk = Ok cs -> length cs = N_datasets (ds c)) ->
  path_res f <> Ok tt ->
  snd (mbind (run_lags f (fst (lags_of c)) 0 c) (fun c1 _ => k1 c1)) = path_res f.
Proof.
  intros Hf Hn. destruct Hc as [Hds [HN Hb]].
  assert (E : snd (run_lags f (fst (lags_of c)) 0 c) = path_res f).
  { rewrite run_lags_res by (auto; lia). rewrite Nat.sub_0_r. reflexivity. }
  destruct (run_lags f (fst (lags_of c)) 0 c) as [c1 [[]|e|u|]]; cbn in *; try exact E. congruence.
Qed.

Lemma path_ok f :
  (forall kk cs, f kk = Ok cs -> length cs = N_datasets (ds c)) ->
  path_res f = Ok tt ->
  exists vals, mapM f (fst (lags_of c)) = Ok vals /\
    snd (lags_of c) = true /\ length (fst (lags_of c)) <= nls /\
    let c' := set_data c (fst (lags_of c)) (concat (by_dataset (N_datasets (ds c)) vals))
                (length (fst (lags_of c))) in
    mbind (run_lags f (fst (lags_of c)) 0 c)
      (fun c1 _ => cleanCorrelationData c1 (length (fst (lags_of c)))) = (c', Ok tt) /\
    correlations c' = Ok (by_dataset (N_datasets (ds c)) vals).
Proof.
  intros Hf H. destruct (mapM_run_res _ _ _ H) as [vals Hv]. exists vals. split; [exact Hv|].
  apply run_res_ok in H. destruct H as [Hl _]. fold nls in Hl.
  destruct (py_lags_fit c Hl) as [Hs _]. split; [exact Hs|]. split; [exact Hl|].
  apply run_clean; try assumption. apply Hc.
Qed.

Lemma std_values_length kk cs : std_values p c kk = Ok cs -> length cs = N_datasets (ds c).
Proof. apply lag_values_length. Qed.

Lemma calculate_outcome : snd (calculateStandardCorrelation p c) = path_res (std_values p c).
Proof.
  rewrite calculate_run by exact Hc.
  destruct (path_res (std_values p c)) as [[]|e|u|] eqn:E.
  - destruct (path_ok _ std_values_length E) as [vals [Hv [Hs [Hl [E1 E2]]]]].
    rewrite Hs, E1. reflexivity.
  - destruct (snd (lags_of c)); rewrite path_fail by (try exact std_values_length; congruence); exact E.
  - destruct (snd (lags_of c)); rewrite path_fail by (try exact std_values_length; congruence); exact E.
  - destruct (snd (lags_of c)); rewrite path_fail by (try exact std_values_length; congruence); exact E.
Qed.

Lemma find_cut sel wgt :
  find_correlation p c sel wgt =
  mbind (run_lags (named_values p c sel wgt) (fst (lags_of c)) 0 c) (fun c1 _ =>
    match fst (lags_of c) with
    | [] => (c1, Throw PyUnboundLocalError)
    | _ => if snd (lags_of c) then cleanCorrelationData c1 (length (fst (lags_of c))) else (c1, Diverge)
    end).
Proof.
  rewrite find_run by exact Hc. destruct Hc as [Hds [HN Hb]].
  destruct (Nat.le_gt_cases (length (fst (lags_of c))) (num_lag_steps c)) as [Hle|Hgt].
  - destruct (py_lags_fit c Hle) as [Hs ->]. rewrite Hs.
    apply mbind_ext. intros c1 [] _. destruct (fst (lags_of c)); reflexivity.
  - destruct (run_lags_cut (named_values p c sel wgt) (fst (lags_of c)) c Hb
                (named_values_length p c sel wgt) Hgt) as [E Hno].
    unfold py_lags_of at 1. cbn [fst]. rewrite <- E. apply mbind_fail_ext. intros []. exact Hno.
Qed.

Lemma find_outcome sel wgt :
  snd (find_correlation p c sel wgt) =
  match fst (lags_of c) with
  | [] => Throw PyUnboundLocalError
  | _ => path_res (named_values p c sel wgt)
  end.
Proof.
  rewrite find_cut. destruct (fst (lags_of c)) as [|x l] eqn:El; [reflexivity|].
  rewrite <- El.
  destruct (path_res (named_values p c sel wgt)) as [[]|e|u|] eqn:E.
  - destruct (path_ok _ (named_values_length p c sel wgt) E) as [vals [Hv [Hs [Hl [E1 E2]]]]].
    rewrite Hs, E1. reflexivity.
  - destruct (snd (lags_of c)); rewrite path_fail by (try exact (named_values_length p c sel wgt); congruence); exact E.
  - destruct (snd (lags_of c)); rewrite path_fail by (try exact (named_values_length p c sel wgt); congruence); exact E.
  - destruct (snd (lags_of c)); rewrite path_fail by (try exact (named_values_length p c sel wgt); congruence); exact E.
Qed.

Lemma named_std kk : named_values p c "natural" "fractional" kk = std_values p c kk.
Proof. reflexivity. Qed.

(** the two paths leave the same state *)
Lemma paths_agree : fst (lags_of c) <> [] ->
  find_correlation p c "natural" "fractional" = calculateStandardCorrelation p c.
Proof.
  intros Hne. rewrite find_cut, calculate_run by exact Hc.
  apply mbind_ext. intros c1 [] _. destruct (fst (lags_of c)); [congruence|reflexivity].
Qed.

End Outcome.

Lemma run_res_not_diverge f ks room : (forall kk, f kk <> Diverge) -> run_res f ks room <> Diverge.
Proof.
  intros Hf. revert room. induction ks as [|kk ks IH]; intros room; cbn; [discriminate|].
  destruct (f kk) as [cs|e|u|] eqn:E; cbn; try discriminate; [|destruct (Hf _ E)].
  destruct room; [discriminate|apply IH].
Qed.

(** ** Construction *)
Lemma accepted_setUp d : accepted d ->
  exists ts data er N, d = the_ds ts data er N /\ ts <> [] /\ data <> [] /\
    length data mod length ts = 0 /\ N * length ts <= length data /\ 0 < N.
Proof.
  intros H.
  assert (Hs : exists ts data er N, setUp ts data er N (length ts) = Ok d /\ (0 < N \/ data = [])).
  { destruct H as [[ts [v [e H]]]|[ts [v [e H]]]]; destruct e as [e|]; cbn in H.
    - exists ts, v, e, 1. auto.
    - exists ts, v, [], 1. auto.
    - exists ts, (concat v), (concat e), (length v). split; [exact H|].
      destruct v; [right; reflexivity|left; cbn; lia].
    - exists ts, (concat v), [], (length v). split; [exact H|].
      destruct v; [right; reflexivity|left; cbn; lia]. }
  destruct Hs as [ts [data [er [N [Hs HN]]]]]. exists ts, data, er, N.
  destruct (setUp_cases ts data er N _ Hs) as [[E _]|[[E _]|[[E _]|[E [H1 [H2 [H3 H4]]]]]]]; try discriminate.
  injection E as ->. destruct HN as [HN|HN]; [|congruence]. auto 10.
Qed.

(** normalisation of one dataset: squared deviations of the values rounded to
    single precision; missing values skipped *)
Definition norm_of (xs : list num) : num :=
  fold_left (fun acc x => if nisnan (nf32 x) then acc
                          else nadd acc (nmul (nsub (nf32 x) (mean xs)) (nsub (nf32 x) (mean xs)))) xs nzero.

Lemma norm_loop_ok d j n i acc xs m :
  nth_error (data_mean d) j = Some m ->
  (forall q, q < n -> nth_error (data_ d) (i + q + j * M_datapoints d) = nth_error xs q) -> length xs = n ->
  norm_loop d j n i acc =
  Ok (fold_left (fun acc x => if nisnan (nf32 x) then acc
                          else nadd acc (nmul (nsub (nf32 x) m) (nsub (nf32 x) m))) xs acc).
Proof.
  intros Hm. revert i acc xs. induction n as [|n IH]; intros i acc xs Hx Hl.
  - destruct xs; [reflexivity|discriminate].
  - destruct xs as [|x xs]; [discriminate|]. injection Hl as Hl. cbn [norm_loop fold_left].
    unfold lat, getVectorIndex. specialize (Hx 0 ltac:(lia)) as H0. rewrite Nat.add_0_r in H0.
    rewrite H0. cbn [nth_error bind].
    assert (Hx' : forall q, q < n -> nth_error (data_ d) (S i + q + j * M_datapoints d) = nth_error xs q).
    { intros q Hq. specialize (Hx (S q) ltac:(lia)). cbn [nth_error] in Hx. rewrite <- Hx. f_equal. lia. }
    destruct (nisnan (nf32 x)); [apply IH; assumption|].
    unfold lget. rewrite Hm. cbn [bind]. apply IH; assumption.
Qed.

Lemma Nvec_closed ts data er N : N * length ts <= length data ->
  mapM (fun j => norm_loop (the_ds ts data er N) j (M_datapoints (the_ds ts data er N)) 0 nzero)
       (seq 0 (N_datasets (the_ds ts data er N))) =
  Ok (map norm_of (recut N (length ts) data)).
Proof.
  intros H. unfold recut. rewrite map_map. apply mapM_Ok_map. intros j Hj. apply in_seq in Hj.
  cbn [N_datasets the_ds] in Hj. unfold norm_of.
  apply norm_loop_ok.
  - cbn. unfold recut. rewrite map_map, nth_error_map, nth_error_seq.
    destruct (Nat.ltb_spec j N); [reflexivity|lia].
  - intros q Hq. cbn [M_datapoints data_ the_ds] in *. rewrite nth_error_piece.
    destruct (Nat.ltb_spec q (length ts)); [|lia]. f_equal. lia.
  - cbn. apply piece_length. nia.
Qed.

(** number of lags allotted by the constructor *)
Definition allot (nt : list num) : res nat :=
  do maxl <- lback nt;
  do q <- to_int (nfloor (ndiv (nsub maxl (nneg maxl)) (findMinDiff nt)));
  do nls <- int_add q 3;
  if (nls <? 0)%Z then UB BadConversion else Ok (Z.to_nat nls).

Definition the_corr (ts data er : list num) (N n : nat) : correlator :=
  let nt := rel_times ts in
  {| ds := the_ds ts data er N;
     correlations_ := repeat nzero (N * n);
     timeseries_ := repeat nzero n;
     Nvec := map norm_of (recut N (length ts) data);
     max_lag := last nt nzero; min_lag := nneg (last nt nzero);
     lag_resolution := findMinDiff nt;
     alpha := middle nt nzero; num_lag_steps := n |}.

Lemma rel_times_nil ts : ts <> [] -> rel_times ts <> [].
Proof. destruct ts; [congruence|discriminate]. Qed.

Lemma new_Correlator_closed ts data er N :
  ts <> [] -> N * length ts <= length data ->
  new_Correlator (the_ds ts data er N) =
  do n <- allot (rel_times ts); Ok (the_corr ts data er N n).
Proof.
  intros Ht H. unfold new_Correlator. rewrite Nvec_closed by exact H. cbn [bind].
  unfold allot. cbn [norm_t the_ds].
  rewrite (lback_ok _ nzero (rel_times_nil ts Ht)). cbn [bind].
  destruct (to_int _) as [q|e|u|]; try reflexivity. cbn [bind].
  destruct (int_add q 3) as [nls|e|u|]; try reflexivity. cbn [bind].
  destruct (nls <? 0)%Z; reflexivity.
Qed.

Lemma new_Correlator_accepted d c : accepted d -> new_Correlator d = Ok c ->
  exists ts data er N n, d = the_ds ts data er N /\ ts <> [] /\ N * length ts <= length data /\ 0 < N /\
    allot (rel_times ts) = Ok n /\ c = the_corr ts data er N n.
Proof.
  intros Ha H. destruct (accepted_setUp d Ha) as [ts [data [er [N [-> [H1 [H2 [H3 [H4 H5]]]]]]]]].
  rewrite new_Correlator_closed in H by assumption. apply bind_Ok in H. destruct H as [n [Hn H]].
  injection H as <-. exists ts, data, er, N, n. auto 10.
Qed.

Lemma the_corr_ready ts data er N n : ts <> [] -> N * length ts <= length data ->
  ready (the_corr ts data er N n).
Proof.
  intros Ht H. split; [|split].
  - split; [|split]; cbn.
    + destruct ts; [congruence|cbn; lia].
    + apply rel_times_length.
    + rewrite app_length, repeat_length, (concat_length (length ts)).
      * rewrite map_length, recut_length. lia.
      * intros r Hr. apply in_map_iff in Hr. destruct Hr as [x [<- Hx]]. unfold centred.
        rewrite map_length. unfold recut in Hx. apply in_map_iff in Hx. destruct Hx as [i [<- Hi]].
        apply in_seq in Hi. apply piece_length. nia.
  - cbn. rewrite map_length, recut_length. reflexivity.
  - split; cbn; rewrite repeat_length; reflexivity.
Qed.

Lemma set_up_ready c mi ma re al : ready c -> ready (set_up_correlation c mi ma re al).
Proof.
  intros H. unfold set_up_correlation.
  destruct ma, mi, re, al; exact H.
Qed.

(** rows of the normalised data *)
Lemma norm_data_piece ts data er N j : N * length ts <= length data -> j < N ->
  piece (length ts) (norm_data (the_ds ts data er N)) j = centred (piece (length ts) data j).
Proof.
  intros H Hj. cbn [norm_data the_ds].
  set (M := length ts) in *. set (rows := map centred (recut N M data)).
  assert (Hr : forall r, In r rows -> length r = M).
  { intros r Hr. unfold rows in Hr. apply in_map_iff in Hr. destruct Hr as [x [<- Hx]]. unfold centred.
    rewrite map_length. unfold recut in Hx. apply in_map_iff in Hx. destruct Hx as [i [<- Hi]].
    apply in_seq in Hi. apply piece_length. nia. }
  assert (Hlen : length (concat rows) = N * M).
  { rewrite (concat_length M) by exact Hr. unfold rows. rewrite map_length, recut_length. reflexivity. }
  transitivity (piece M (concat rows) j).
  - unfold piece. rewrite skipn_app, firstn_app.
    assert (M - length (skipn (j * M) (concat rows)) = 0) as -> by (rewrite skipn_length, Hlen; nia).
    cbn [firstn]. apply app_nil_r.
  - apply piece_concat; [exact Hr|]. unfold rows. rewrite nth_error_map, nth_error_recut.
    destruct (Nat.ltb_spec j N); [reflexivity|lia].
Qed.

(** ** The result as a function of a dataset *)
(** what a lag computes, as a function of one row of values *)
Definition row_fun := list num -> num.

Definition acf_at (sf : sel_fun) (w : num -> num) (p : platform) (ts : list num) (kk : num) : res row_fun :=
  do sS <- sf p (rel_times ts) kk;
  do dts <- deltas p (rel_times ts) (fst sS) (snd sS);
  Ok (fun row => corr_value (centred row) (fst sS) (map w dts) (norm_of row)).

Lemma lag_values_acf sf w p ts data er N n c kk :
  ds c = ds (the_corr ts data er N n) -> Nvec c = Nvec (the_corr ts data er N n) ->
  N * length ts <= length data ->
  lag_values sf w p c kk =
  do F <- acf_at sf w p ts kk; Ok (map F (recut N (length ts) data)).
Proof.
  intros Hd HN H. unfold lag_values, acf_at. rewrite Hd, HN. cbn [ds the_corr norm_t the_ds N_datasets Nvec M_datapoints].
  destruct (sf p (rel_times ts) kk) as [sS|e|u|]; cbn [bind]; try reflexivity.
  destruct (deltas p (rel_times ts) (fst sS) (snd sS)) as [dts|e|u|]; cbn [bind]; try reflexivity.
  f_equal. unfold recut at 2. rewrite (map_map (piece (length ts) data)). apply map_ext_in. intros j Hj. apply in_seq in Hj.
  change (norm_data _) with (norm_data (the_ds ts data er N)).
  rewrite norm_data_piece by lia. f_equal.
  apply nth_error_nth. rewrite nth_error_map, nth_error_recut.
  destruct (Nat.ltb_spec j N); [reflexivity|lia].
Qed.

Definition named_acf (sel wgt : string) (al : num) (p : platform) (ts : list num) (kk : num) : res row_fun :=
  match sel_named sel with
  | None => Throw PyKeyError
  | Some sf =>
      match weight_named wgt al with
      | None => do sS <- sf p (rel_times ts) kk;
                do dts <- deltas p (rel_times ts) (fst sS) (snd sS);
                Throw PyKeyError
      | Some w => acf_at sf w p ts kk
      end
  end.

Lemma named_values_acf sel wgt p ts data er N n c kk :
  ds c = ds (the_corr ts data er N n) -> Nvec c = Nvec (the_corr ts data er N n) ->
  N * length ts <= length data ->
  named_values p c sel wgt kk =
  do F <- named_acf sel wgt (alpha c) p ts kk; Ok (map F (recut N (length ts) data)).
Proof.
  intros Hd HN H. unfold named_values, named_acf.
  destruct (sel_named sel) as [sf|]; [|reflexivity].
  destruct (weight_named wgt (alpha c)) as [w|]; [eapply lag_values_acf; eassumption|].
  rewrite Hd. cbn [ds the_corr norm_t the_ds].
  destruct (sf p (rel_times ts) kk) as [sS|e|u|]; cbn [bind]; try reflexivity.
  destruct (deltas p (rel_times ts) (fst sS) (snd sS)) as [dts|e|u|]; reflexivity.
Qed.

(** the room test for any kind of value *)
Fixpoint run_room {X} (f : num -> res X) (ks : list num) (room : nat) : res (list X) :=
  match ks with
  | [] => Ok []
  | kk :: ks' =>
      do v <- f kk;
      match room with
      | 0 => UB OobWrite
      | S room' => do vs <- run_room f ks' room'; Ok (v :: vs)
      end
  end.

Lemma run_room_res {X} (f : num -> res X) (g : X -> list num) ks room :
  run_res (fun kk => do v <- f kk; Ok (g v)) ks room = (do _vs <- run_room f ks room; Ok tt).
Proof.
  revert room. induction ks as [|kk ks IH]; intros room; cbn; [reflexivity|].
  destruct (f kk) as [v|e|u|]; cbn; try reflexivity. destruct room as [|room]; [reflexivity|].
  rewrite IH. destruct (run_room f ks room); reflexivity.
Qed.

Lemma run_room_mapM {X} (f : num -> res X) ks room vs : run_room f ks room = Ok vs -> mapM f ks = Ok vs.
Proof.
  revert room vs. induction ks as [|kk ks IH]; intros room vs H; cbn in *; [exact H|].
  apply bind_Ok in H. destruct H as [v [Hv H]]. rewrite Hv. cbn. destruct room as [|room]; [discriminate|].
  apply bind_Ok in H. destruct H as [vs' [H1 H2]]. rewrite (IH _ _ H1). exact H2.
Qed.

Lemma run_room_length {X} (f : num -> res X) ks room vs : run_room f ks room = Ok vs -> length ks <= room.
Proof.
  revert room vs. induction ks as [|kk ks IH]; intros room vs H; cbn in *; [lia|].
  apply bind_Ok in H. destruct H as [v [Hv H]]. destruct room as [|room]; [discriminate|].
  apply bind_Ok in H. destruct H as [vs' [H1 H2]]. apply IH in H1. lia.
Qed.

Lemma run_room_complete {X} (f : num -> res X) ks room vs :
  mapM f ks = Ok vs -> length ks <= room -> run_room f ks room = Ok vs.
Proof.
  revert room vs. induction ks as [|kk ks IH]; intros room vs H Hl; cbn in *; [exact H|].
  apply bind_Ok in H. destruct H as [v [Hv H]]. rewrite Hv. cbn. destruct room as [|room]; [lia|].
  apply bind_Ok in H. destruct H as [vs' [H1 H2]]. rewrite (IH _ _ H1) by lia. exact H2.
Qed.

(** everything a call computes that does not depend on the values: lags and,
    per lag, a function from a row of values to its correlation *)
Definition acf_core (p : platform) (ts : list num) (mi ma re al : option num) (sel wgt : string)
  : res (list num * list row_fun) :=
  do n <- allot (rel_times ts);
  let nt := rel_times ts in
  let maxl := opt_or ma (last nt nzero) in
  let minl := opt_or mi (nneg (last nt nzero)) in
  let r := opt_or re (findMinDiff nt) in
  let a := opt_or al (middle nt nzero) in
  let L := lag_list (S n) maxl r minl false in
  match fst L, String.eqb sel "natural" && String.eqb wgt "fractional" with
  | [], false => Throw PyUnboundLocalError
  | _, _ => do Fs <- run_room (named_acf sel wgt a p ts) (fst L) n; Ok (fst L, Fs)
  end.

Definition pack (rows : list (list num)) : py_corr :=
  match rows with
  | [row] => Flat row
  | _ => Nested rows
  end.

Lemma set_up_fields c mi ma re al :
  let c1 := set_up_correlation c mi ma re al in
  ds c1 = ds c /\ Nvec c1 = Nvec c /\ num_lag_steps c1 = num_lag_steps c /\
  timeseries_ c1 = timeseries_ c /\ correlations_ c1 = correlations_ c /\
  max_lag c1 = opt_or ma (max_lag c) /\ min_lag c1 = opt_or mi (min_lag c) /\
  lag_resolution c1 = opt_or re (lag_resolution c) /\ alpha c1 = opt_or al (alpha c).
Proof. unfold set_up_correlation. destruct ma, mi, re, al; repeat split; reflexivity. Qed.

Lemma by_dataset_rows (Fs : list row_fun) rows N : length rows = N ->
  by_dataset N (map (fun F => map F rows) Fs) = map (fun row => map (fun F => F row) Fs) rows.
Proof.
  intros HN. unfold by_dataset. apply list_ext. intros j. rewrite !nth_error_map, nth_error_seq.
  destruct (Nat.ltb_spec j N) as [Hj|Hj].
  - destruct (nth_error_Some_ex rows j ltac:(lia)) as [row Hrow]. rewrite Hrow. cbn [option_map]. f_equal.
    rewrite map_map. apply map_ext. intros F. apply nth_error_nth. rewrite nth_error_map. cbn.
    rewrite Hrow. reflexivity.
  - replace (nth_error rows j) with (@None (list num)); [reflexivity|]. symmetry. apply nth_error_None. lia.
Qed.

Lemma correlations_length c rows : correlations c = Ok rows -> length rows = N_datasets (ds c).
Proof.
  unfold correlations. intros H. apply mapM_Ok_inv in H. destruct H as [H _].
  rewrite H, seq_length. reflexivity.
Qed.

Lemma result_of_pack c rows : correlations c = Ok rows -> 0 < length rows ->
  result_of c = Ok (lag_timeseries c, pack rows).
Proof.
  intros H Hl. unfold result_of. rewrite H. cbn [bind].
  destruct rows as [|r [|r' rows]]; [cbn in Hl; lia|reflexivity|]. reflexivity.
Qed.

(** the correlator left by a successful call *)
Definition final_corr (ts data er : list num) (N n : nat) (mi ma re al : option num)
  (g : list num) (rows : list (list num)) : correlator :=
  set_data (set_up_correlation (the_corr ts data er N n) mi ma re al) g (concat rows) (length g).

Lemma auto_core p ts data er N mi ma re al sel wgt :
  ts <> [] -> N * length ts <= length data -> 0 < N ->
  autocorrelation p (the_ds ts data er N) mi ma re al sel wgt =
  do gF <- acf_core p ts mi ma re al sel wgt;
  do n <- allot (rel_times ts);
  let rows := map (fun row => map (fun F => F row) (snd gF)) (recut N (length ts) data) in
  Ok (fst gF, pack rows, final_corr ts data er N n mi ma re al (fst gF) rows).
Proof.
  intros Ht HN H0. unfold autocorrelation, acf_core. rewrite new_Correlator_closed by assumption.
  destruct (allot (rel_times ts)) as [n|e|u|] eqn:Ea; cbn [bind]; try reflexivity.
  set (c0 := the_corr ts data er N n). set (c1 := set_up_correlation c0 mi ma re al).
  assert (Hr : ready c1) by (apply set_up_ready, the_corr_ready; assumption).
  destruct (set_up_fields c0 mi ma re al) as [F1 [F2 [F3 [F4 [F5 [F6 [F7 [F8 F9]]]]]]]]. fold c1 in F1, F2, F3, F4, F5, F6, F7, F8, F9.
  set (L := lag_list (S n) (opt_or ma (last (rel_times ts) nzero)) (opt_or re (findMinDiff (rel_times ts)))
              (opt_or mi (nneg (last (rel_times ts) nzero))) false).
  assert (HL : lags_of c1 = L).
  { unfold lags_of, L. rewrite F3, F6, F7, F8. reflexivity. }
  set (a := opt_or al (middle (rel_times ts) nzero)).
  assert (Ha : alpha c1 = a) by (rewrite F9; reflexivity).
  set (rows0 := recut N (length ts) data).
  assert (Hval : forall kk, named_values p c1 sel wgt kk =
            do F <- named_acf sel wgt a p ts kk; Ok (map F rows0)).
  { intros kk. rewrite (named_values_acf sel wgt p ts data er N n c1) by assumption. rewrite Ha. reflexivity. }
  assert (Hres : path_res c1 (named_values p c1 sel wgt) =
            do _vs <- run_room (named_acf sel wgt a p ts) (fst L) n; Ok tt).
  { unfold path_res. rewrite HL, F3. change (num_lag_steps c0) with n.
    rewrite <- (run_room_res _ (fun F : row_fun => map F rows0)).
    generalize n. induction (fst L) as [|kk ks IH]; intros m; cbn; [reflexivity|].
    rewrite Hval. destruct (named_acf sel wgt a p ts kk); cbn; try reflexivity.
    destruct m; [reflexivity|apply IH]. }
  assert (HNd : N_datasets (ds c1) = N) by (rewrite F1; reflexivity).
  (* common treatment of the two paths *)
  assert (Hmain : forall m : meth correlator unit,
    (snd m = path_res c1 (named_values p c1 sel wgt)) ->
    (path_res c1 (named_values p c1 sel wgt) = Ok tt ->
       m = mbind (run_lags (named_values p c1 sel wgt) (fst (lags_of c1)) 0 c1)
             (fun c2 _ => cleanCorrelationData c2 (length (fst (lags_of c1))))) ->
    (do _u <- snd m; do r <- result_of (fst m); Ok (fst r, snd r, fst m)) =
    do gF <- (do Fs <- run_room (named_acf sel wgt a p ts) (fst L) n; Ok (fst L, Fs));
    do n0 <- Ok n;
    let rows := map (fun row => map (fun F => F row) (snd gF)) rows0 in
    Ok (fst gF, pack rows, final_corr ts data er N n0 mi ma re al (fst gF) rows)).
  { intros m Hm1 Hm2. rewrite Hm1, Hres.
    destruct (run_room (named_acf sel wgt a p ts) (fst L) n) as [Fs|e|u|] eqn:ER; cbn [bind]; try reflexivity.
    rewrite Hres in Hm2. cbn [bind] in Hm2, Hres. specialize (Hm2 eq_refl).
    destruct (path_ok c1 Hr _ (named_values_length p c1 sel wgt) Hres) as [vals [Hv [Hs [Hl [E1 E2]]]]].
    rewrite E1 in Hm2. rewrite Hm2. cbn [fst snd].
    assert (Hvals : vals = map (fun F : row_fun => map F rows0) Fs).
    { apply run_room_mapM in ER. rewrite HL in Hv. clear -Hv ER Hval.
      revert vals Fs Hv ER. induction (fst L) as [|kk ks IH]; intros vals Fs Hv ER; cbn in *.
      - injection Hv as <-. injection ER as <-. reflexivity.
      - rewrite Hval in Hv. destruct (named_acf sel wgt a p ts kk) as [F|e|u|]; cbn in *; try discriminate.
        apply bind_Ok in Hv. destruct Hv as [vals' [Hv1 Hv2]]. injection Hv2 as <-.
        apply bind_Ok in ER. destruct ER as [Fs' [ER1 ER2]]. injection ER2 as <-.
        cbn. f_equal. apply IH; assumption. }
    rewrite HL, Hvals, HNd, by_dataset_rows in * by (unfold rows0; apply recut_length).
    assert (Hlr : 0 < length (map (fun row => map (fun F => F row) Fs) rows0)).
    { rewrite map_length. unfold rows0. rewrite recut_length. exact H0. }
    rewrite (result_of_pack _ _ E2) by exact Hlr. reflexivity. }
  destruct (String.eqb sel "natural") eqn:Es; destruct (String.eqb wgt "fractional") eqn:Ew;
    cbn [andb].
  - apply String.eqb_eq in Es. apply String.eqb_eq in Ew. subst sel wgt.
    rewrite Hmain.
    + destruct (fst L); reflexivity.
    + apply calculate_outcome. exact Hr.
    + intros E. rewrite calculate_run by exact Hr.
      destruct (path_ok c1 Hr _ (named_values_length p c1 "natural" "fractional") E) as [vals [Hv [Hs _]]].
      rewrite Hs. reflexivity.
  - destruct (fst L) as [|x l] eqn:EL.
    { rewrite find_outcome by exact Hr. rewrite HL, EL. reflexivity. }
    rewrite <- EL in *. rewrite Hmain; [destruct (fst L); [congruence|reflexivity]| |].
    + rewrite find_outcome by exact Hr. rewrite HL, EL. reflexivity.
    + intros E. rewrite find_cut by exact Hr.
      destruct (path_ok c1 Hr _ (named_values_length p c1 sel wgt) E) as [vals [Hv [Hs _]]].
      rewrite Hs, HL, EL. reflexivity.
  - destruct (fst L) as [|x l] eqn:EL.
    { rewrite find_outcome by exact Hr. rewrite HL, EL. reflexivity. }
    rewrite <- EL in *. rewrite Hmain; [destruct (fst L); [congruence|reflexivity]| |].
    + rewrite find_outcome by exact Hr. rewrite HL, EL. reflexivity.
    + intros E. rewrite find_cut by exact Hr.
      destruct (path_ok c1 Hr _ (named_values_length p c1 sel wgt) E) as [vals [Hv [Hs _]]].
      rewrite Hs, HL, EL. reflexivity.
  - destruct (fst L) as [|x l] eqn:EL.
    { rewrite find_outcome by exact Hr. rewrite HL, EL. reflexivity. }
    rewrite <- EL in *. rewrite Hmain; [destruct (fst L); [congruence|reflexivity]| |].
    + rewrite find_outcome by exact Hr. rewrite HL, EL. reflexivity.
    + intros E. rewrite find_cut by exact Hr.
      destruct (path_ok c1 Hr _ (named_values_length p c1 sel wgt) E) as [vals [Hv [Hs _]]].
      rewrite Hs, HL, EL. reflexivity.
Qed.

End MainFacts.
