(** The loop over the lags: fuel suffices, closed form of the result. *)
From Coq Require Import String.
From Coq Require Import ZArith List Bool Arith Lia.
From Verif Require Import Num Mem MemFacts Spec DataStructure DSFacts Correlator Sacf CorrFacts.
Import ListNotations.

Section LoopFacts.
Context {A : Num}.

(** ** Lags *)
(** lags visited with at most [fuel] increments, and whether the loop ended *)
Fixpoint lag_list (fuel : nat) (maxl r kk : num) (pos : bool) : list num * bool :=
  match fuel with
  | 0 => ([], false)
  | S fuel' =>
      if nle kk maxl then
        let pos1 := if neqb kk nzero then true else pos in
        if nlt nzero kk && negb pos1 then
          let L := lag_list fuel' maxl r (nadd kk r) true in (nzero :: kk :: fst L, snd L)
        else
          let L := lag_list fuel' maxl r (nadd kk r) pos1 in (kk :: fst L, snd L)
      else ([], true)
  end.

Lemma lag_list_long fuel maxl r kk pos :
  snd (lag_list fuel maxl r kk pos) = false -> fuel <= length (fst (lag_list fuel maxl r kk pos)).
Proof.
  revert kk pos. induction fuel as [|fuel IH]; intros kk pos H; [cbn; lia|].
  cbn [lag_list] in *. destruct (nle kk maxl); [|discriminate].
  destruct (nlt nzero kk && negb (if neqb kk nzero then true else pos)); cbn [fst snd length] in *;
    apply IH in H; lia.
Qed.

Lemma steps_S a r n : steps a r (S n) = steps (nadd a r) r n.
Proof.
  unfold steps, Nat.iter. induction n as [|n IH]; [reflexivity|]. cbn [nat_rect] in *.
  rewrite <- IH. reflexivity.
Qed.

Lemma map_steps_S a r n : map (steps a r) (seq 0 (S n)) = a :: map (steps (nadd a r) r) (seq 0 n).
Proof.
  cbn [seq map]. f_equal. rewrite <- seq_shift, map_map. apply map_ext. intros i. apply steps_S.
Qed.

(** the list with the flag already set *)
Lemma lag_list_spec fuel maxl r kk pos :
  let L := lag_list fuel maxl r kk pos in
  exists n, (forall i, i < n -> nle (steps kk r i) maxl = true) /\
    (snd L = true -> nle (steps kk r n) maxl = false) /\
    (snd L = false -> n = fuel) /\
    fst L = if pos then map (steps kk r) (seq 0 n) else with_zero (map (steps kk r) (seq 0 n)).
Proof.
  revert kk pos. induction fuel as [|fuel IH]; intros kk pos; cbn [lag_list].
  - exists 0. cbn. repeat split; try discriminate; [lia|]. destruct pos; reflexivity.
  - destruct (nle kk maxl) eqn:Hle.
    + destruct (IH (nadd kk r) (if nlt nzero kk && negb (if neqb kk nzero then true else pos)
                                 then true else if neqb kk nzero then true else pos))
        as [n [H1 [H2 [H3 H4]]]].
      exists (S n). rewrite map_steps_S. split; [|split; [|split]].
      * intros i Hi. destruct i as [|i]; [exact Hle|]. rewrite steps_S. apply H1. lia.
      * rewrite steps_S. intros Hs. apply H2. destruct (nlt nzero kk && _); exact Hs.
      * intros Hs. f_equal. apply H3. destruct (nlt nzero kk && _); exact Hs.
      * destruct pos; cbn [negb] in *.
        -- assert (Hpos : (if neqb kk nzero then true else true) = true) by (destruct (neqb kk nzero); reflexivity).
           rewrite Hpos in *. rewrite andb_false_r in *. cbn [fst]. rewrite H4. reflexivity.
        -- cbn [with_zero]. destruct (neqb kk nzero); cbn [negb] in *.
           ++ rewrite andb_false_r in *. cbn [fst]. rewrite H4. reflexivity.
           ++ rewrite andb_true_r in *. destruct (nlt nzero kk); cbn [fst]; rewrite H4; reflexivity.
    + exists 0. cbn. repeat split; try discriminate; [lia|intros; exact Hle|]. destruct pos; reflexivity.
Qed.

Lemma stops_at_unique a r b n m : stops_at a r b n -> stops_at a r b m -> n = m.
Proof.
  intros [H1 H2] [H3 H4]. destruct (Nat.lt_trichotomy n m) as [H|[H|H]]; [|exact H|].
  - rewrite (H3 n H) in H2. discriminate.
  - rewrite (H1 m H) in H4. discriminate.
Qed.

Lemma lag_list_grid fuel maxl r kk :
  snd (lag_list fuel maxl r kk false) = true -> lag_grid kk r maxl (fst (lag_list fuel maxl r kk false)).
Proof.
  intros H. destruct (lag_list_spec fuel maxl r kk false) as [n [H1 [H2 [H3 H4]]]].
  exists n. split; [split; auto|exact H4].
Qed.

Lemma lag_grid_unique a r b g g' : lag_grid a r b g -> lag_grid a r b g' -> g = g'.
Proof.
  intros [n [H1 ->]] [m [H2 ->]]. rewrite (stops_at_unique _ _ _ _ _ H1 H2). reflexivity.
Qed.

Lemma with_zero_length l : length l <= length (with_zero l) <= S (length l).
Proof.
  induction l as [|x l IH]; cbn; [lia|].
  destruct (neqb x nzero); cbn; [lia|]. destruct (nlt nzero x); cbn; lia.
Qed.

(** conversely a grid is found with enough fuel *)
Lemma grid_lag_list fuel maxl r kk g :
  lag_grid kk r maxl g -> length g < fuel -> lag_list fuel maxl r kk false = (g, true).
Proof.
  intros Hg Hl. destruct (lag_list fuel maxl r kk false) as [l b] eqn:E.
  destruct b.
  - f_equal. eapply lag_grid_unique; [|exact Hg].
    change l with (fst (l, true)). rewrite <- E. apply lag_list_grid. rewrite E. reflexivity.
  - exfalso. destruct (lag_list_spec fuel maxl r kk false) as [n [H1 [H2 [H3 H4]]]].
    rewrite E in *. cbn in *. rewrite (H3 eq_refl) in *. destruct Hg as [m [[G1 G2] ->]].
    pose proof (with_zero_length (map (steps kk r) (seq 0 m))) as HL.
    rewrite map_length, seq_length in HL. rewrite H1 in G2; [discriminate|lia].
Qed.

(** ** Running over a list of lags *)
Fixpoint run_lags (f : num -> res (list num)) (ks : list num) (i : nat) (c : correlator)
  : meth correlator unit :=
  match ks with
  | [] => (c, Ok tt)
  | kk :: ks' => mbind (store_res c kk (f kk) i) (fun c1 _ => run_lags f ks' (S i) c1)
  end.

Lemma mbind_assoc {S R Q T} (x : meth S R) (f : S -> R -> meth S Q) (g : S -> Q -> meth S T) :
  mbind (mbind x f) g = mbind x (fun s r => mbind (f s r) g).
Proof. destruct x as [s [r|e|u|]]; reflexivity. Qed.

Lemma mbind_ext {S R Q} (x : meth S R) (f g : S -> R -> meth S Q) :
  (forall s r, x = (s, Ok r) -> f s r = g s r) -> mbind x f = mbind x g.
Proof. intros H. destruct x as [s [r|e|u|]]; cbn; auto. Qed.

Lemma run_lags_app f l1 l2 i c :
  run_lags f (l1 ++ l2) i c =
  mbind (run_lags f l1 i c) (fun c1 _ => run_lags f l2 (i + length l1) c1).
Proof.
  revert i c. induction l1 as [|kk l1 IH]; intros i c; cbn [app run_lags length].
  - cbn. rewrite Nat.add_0_r. reflexivity.
  - rewrite mbind_assoc. apply mbind_ext. intros c1 _ _. rewrite IH. apply mbind_ext.
    intros c2 _ _. f_equal. lia.
Qed.

(** a correlator differing only in the result buffers *)
Definition same_setup (c c' : correlator) : Prop :=
  exists ts cs, c' = set_data c ts cs (num_lag_steps c).

Lemma same_setup_refl c : same_setup c c.
Proof. exists (timeseries_ c), (correlations_ c). destruct c; reflexivity. Qed.
Lemma same_setup_trans c c1 c2 : same_setup c c1 -> same_setup c1 c2 -> same_setup c c2.
Proof. intros [ts [cs ->]] [ts' [cs' ->]]. exists ts', cs'. reflexivity. Qed.

Lemma store_setup c kk cs i : same_setup c (fst (store c kk cs i)).
Proof.
  unfold store, addCorrelationData, mlift. cbn [k correlation].
  destruct (lset (timeseries_ c) i kk); cbn [mbind fst]; try apply same_setup_refl.
  destruct (add_loop _ _ _ _ _ _); cbn [mbind fst]; eexists _, _; reflexivity.
Qed.

Lemma store_res_setup c kk r i : same_setup c (fst (store_res c kk r i)).
Proof. destruct r; cbn; try apply same_setup_refl. apply store_setup. Qed.

Lemma run_lags_setup f ks i c : same_setup c (fst (run_lags f ks i c)).
Proof.
  revert i c. induction ks as [|kk ks IH]; intros i c; cbn [run_lags]; [apply same_setup_refl|].
  pose proof (store_res_setup c kk (f kk) i) as H.
  destruct (store_res c kk (f kk) i) as [c1 [[]|e|u|]]; cbn [mbind fst] in *; try exact H.
  eapply same_setup_trans; [exact H|apply IH].
Qed.

(** ** The loops are runs *)
Lemma std_loop_run p f c0 fuel kk pos i c :
  wf_ds (ds c0) -> length (Nvec c0) = N_datasets (ds c0) -> same_setup c0 c ->
  (forall x, f x = lag_values natural_sel (fractionWeightFunction (alpha c0)) p c0 x) ->
  std_loop p fuel kk pos i c =
  let L := lag_list fuel (max_lag c0) (lag_resolution c0) kk pos in
  mbind (run_lags f (fst L) i c) (fun c' _ => (c', if snd L then Ok (i + length (fst L)) else Diverge)).
Proof.
  intros Hds HN Hc Hf. revert kk pos i c Hc. induction fuel as [|fuel IH]; intros kk pos i c Hc; [reflexivity|].
  assert (Hat : forall c' x n, same_setup c0 c' ->
            calculateStandardCorrelation_at p c' x n = store_res c' x (f x) n).
  { intros c' x n Hc'. rewrite calculate_at_closed by (destruct Hc' as [ts [cs ->]]; assumption).
    rewrite Hf. destruct Hc' as [ts [cs ->]]. reflexivity. }
  cbn [std_loop lag_list].
  assert (Hml : max_lag c = max_lag c0) by (destruct Hc as [ts [cs ->]]; reflexivity).
  assert (Hlr : lag_resolution c = lag_resolution c0) by (destruct Hc as [ts [cs ->]]; reflexivity).
  rewrite Hml, Hlr. destruct (nle kk (max_lag c0)).
  - destruct (nlt nzero kk && negb (if neqb kk nzero then true else pos)); cbn [fst snd run_lags].
    + rewrite Hat by exact Hc. rewrite mbind_assoc. apply mbind_ext. intros c1 [] E1.
      assert (Hc1 : same_setup c0 c1).
      { eapply same_setup_trans; [exact Hc|]. change c1 with (fst (c1, Ok tt)).
        rewrite <- E1. apply store_res_setup. }
      rewrite Hat by exact Hc1. rewrite mbind_assoc. apply mbind_ext. intros c2 [] E2.
      assert (Hc2 : same_setup c0 c2).
      { eapply same_setup_trans; [exact Hc1|]. change c2 with (fst (c2, Ok tt)).
        rewrite <- E2. apply store_res_setup. }
      rewrite IH by exact Hc2. apply mbind_ext. intros c3 _ _. cbn [length].
      destruct (snd _); f_equal. f_equal. lia.
    + rewrite Hat by exact Hc. rewrite mbind_assoc. apply mbind_ext. intros c1 [] E1.
      assert (Hc1 : same_setup c0 c1).
      { eapply same_setup_trans; [exact Hc|]. change c1 with (fst (c1, Ok tt)).
        rewrite <- E1. apply store_res_setup. }
      rewrite IH by exact Hc1. apply mbind_ext. intros c3 _ _. cbn [length].
      destruct (snd _); f_equal. f_equal. lia.
  - cbn. rewrite Nat.add_0_r. reflexivity.
Qed.

(** the generator with at most [fuel] calls of next *)
Fixpoint gen_list (fuel : nat) (maxl r : num) (g : gen) : list num * bool :=
  match fuel with
  | 0 => ([], false)
  | S fuel' =>
      match gen_next maxl r g with
      | None => ([], true)
      | Some (kk, g') => let L := gen_list fuel' maxl r g' in (kk :: fst L, snd L)
      end
  end.

Lemma find_loop_run p sel wgt f c0 fuel g n last c :
  wf_ds (ds c0) -> length (Nvec c0) = N_datasets (ds c0) -> same_setup c0 c ->
  (forall x, f x = named_values p c0 sel wgt x) ->
  find_loop p sel wgt fuel (max_lag c0) (lag_resolution c0) g n last c =
  let L := gen_list fuel (max_lag c0) (lag_resolution c0) g in
  mbind (run_lags f (fst L) n c) (fun c' _ =>
    (c', if snd L then Ok (match fst L with [] => last | _ => Some (n + length (fst L) - 1) end)
         else Diverge)).
Proof.
  intros Hds HN Hc Hf. revert g n last c Hc. induction fuel as [|fuel IH]; intros g n last c Hc; [reflexivity|].
  cbn [find_loop gen_list]. destruct (gen_next (max_lag c0) (lag_resolution c0) g) as [[kk g']|]; [|reflexivity].
  assert (Hat : find_correlation_at p sel wgt c kk n = store_res c kk (f kk) n).
  { rewrite find_at_closed by (destruct Hc as [ts [cs ->]]; assumption).
    rewrite Hf. destruct Hc as [ts [cs ->]]. reflexivity. }
  rewrite Hat. cbn [fst snd run_lags]. rewrite mbind_assoc. apply mbind_ext. intros c1 [] E1.
  assert (Hc1 : same_setup c0 c1).
  { eapply same_setup_trans; [exact Hc|]. change c1 with (fst (c1, Ok tt)).
    rewrite <- E1. apply store_res_setup. }
  rewrite IH by exact Hc1. apply mbind_ext. intros c3 _ _. cbn [length].
  destruct (snd _); [|reflexivity]. f_equal. f_equal. f_equal.
  destruct (fst (gen_list fuel (max_lag c0) (lag_resolution c0) g')) as [|x l]; cbn [length]; f_equal; lia.
Qed.

Lemma gen_list_lags n : forall F maxl r kk pos pc, n <= F -> pc <> GAfterZero ->
  let L := lag_list F maxl r (match pc with GAfterK => nadd kk r | _ => kk end) pos in
  gen_list n maxl r {| g_k := kk; g_pos := pos; g_pc := pc |} =
  (firstn n (fst L), snd L && (length (fst L) <? n)).
Proof.
  induction n as [n IH] using lt_wf_ind. intros F maxl r kk pos pc HF Hpc.
  destruct n as [|n].
  { cbn. rewrite andb_false_r. reflexivity. }
  destruct F as [|F]; [lia|].
  set (k1 := match pc with GAfterK => nadd kk r | _ => kk end).
  assert (Hn : gen_next maxl r {| g_k := kk; g_pos := pos; g_pc := pc |} = gen_test maxl k1 pos).
  { unfold gen_next, k1. cbn. destruct pc; try reflexivity. congruence. }
  cbn [gen_list lag_list]. rewrite Hn. unfold gen_test.
  destruct (nle k1 maxl); [|reflexivity].
  destruct (nlt nzero k1 && negb (if neqb k1 nzero then true else pos)).
  - cbn [fst snd firstn length]. destruct n as [|n].
    + cbn. rewrite andb_false_r. reflexivity.
    + cbn [gen_list gen_next g_pc g_k g_pos fst snd firstn].
      rewrite (IH n ltac:(lia) F) by (try lia; discriminate). reflexivity.
  - cbn [fst snd firstn length]. rewrite (IH n ltac:(lia) F) by (try lia; discriminate). reflexivity.
Qed.

(** ** Storing *)
Definition bufs_ok (c : correlator) : Prop :=
  length (timeseries_ c) = num_lag_steps c /\
  length (correlations_ c) = N_datasets (ds c) * num_lag_steps c.

Lemma div_mod_eq q r n : q < n -> (q + n * r) mod n = q /\ (q + n * r) / n = r.
Proof.
  intros H. split.
  - rewrite (Nat.mul_comm n r), Nat.mod_add by lia. apply Nat.mod_small. exact H.
  - rewrite (Nat.mul_comm n r), Nat.div_add by lia. rewrite Nat.div_small by exact H. reflexivity.
Qed.

Lemma add_loop_ok nls ts cor N n j cs :
  ts < nls -> length cor = N -> j + n = N -> length cs = N * nls ->
  exists cs', add_loop nls ts cor n j cs = Ok cs' /\ length cs' = N * nls /\
    forall q r, q < nls -> r < N -> nth_error cs' (q + nls * r) =
      if (q =? ts) && (j <=? r) then nth_error cor r else nth_error cs (q + nls * r).
Proof.
  intros Hts Hcor. revert j cs. induction n as [|n IH]; intros j cs Hj Hl; cbn [add_loop].
  - exists cs. repeat split; auto. intros q r Hq Hr.
    destruct (Nat.leb_spec j r); [lia|]. rewrite andb_false_r. reflexivity.
  - destruct (nth_error_Some_ex cor j ltac:(lia)) as [x Hx]. unfold lget. rewrite Hx. cbn [bind].
    assert (Hin : ts + nls * j < length cs) by nia.
    rewrite lset_ok by exact Hin. cbn [bind].
    destruct (IH (S j) (upd cs (ts + nls * j) x)) as [cs' [E [Hl' Hn]]]; [lia|rewrite upd_length; assumption|].
    exists cs'. split; [exact E|]. split; [exact Hl'|]. intros q r Hq Hr. rewrite Hn by assumption.
    rewrite nth_error_upd by exact Hin.
    destruct (Nat.eqb_spec q ts) as [->|Hqt]; cbn [andb].
    + destruct (Nat.leb_spec (S j) r), (Nat.leb_spec j r); try lia; try reflexivity.
      * assert (r = j) as -> by lia. rewrite Nat.eqb_refl. symmetry. exact Hx.
      * destruct (Nat.eqb_spec (ts + nls * r) (ts + nls * j)); [nia|reflexivity].
    + destruct (Nat.eqb_spec (q + nls * r) (ts + nls * j)) as [E2|]; [|reflexivity].
      exfalso. destruct (div_mod_eq q r nls Hq) as [M1 _]. destruct (div_mod_eq ts j nls Hts) as [M2 _].
      rewrite E2 in M1. congruence.
Qed.

Lemma store_full c kk cs i : bufs_ok c -> num_lag_steps c <= i -> store c kk cs i = (c, UB OobWrite).
Proof.
  intros [H1 H2] Hi. unfold store, addCorrelationData, mlift. cbn [k].
  rewrite lset_oob by lia. reflexivity.
Qed.

Lemma store_ok c kk cs i :
  bufs_ok c -> i < num_lag_steps c -> length cs = N_datasets (ds c) ->
  exists c', store c kk cs i = (c', Ok tt) /\ bufs_ok c' /\ same_setup c c' /\
    timeseries_ c' = upd (timeseries_ c) i kk /\
    forall q r, q < num_lag_steps c -> r < N_datasets (ds c) ->
      nth_error (correlations_ c') (q + num_lag_steps c * r) =
      if q =? i then nth_error cs r else nth_error (correlations_ c) (q + num_lag_steps c * r).
Proof.
  intros [H1 H2] Hi Hcs. unfold store, addCorrelationData, mlift. cbn [k correlation].
  rewrite lset_ok by lia. cbn [mbind].
  destruct (add_loop_ok (num_lag_steps c) i cs (N_datasets (ds c)) (N_datasets (ds c)) 0 (correlations_ c))
    as [cs' [E [Hl Hn]]]; try assumption; try reflexivity.
  rewrite E. cbn [mbind]. eexists. split; [reflexivity|]. split; [|split; [|split]].
  - split; cbn; [rewrite upd_length; lia|exact Hl].
  - eexists _, _. reflexivity.
  - reflexivity.
  - intros q r Hq Hr. cbn. rewrite Hn by assumption. rewrite andb_true_r. reflexivity.
Qed.

(** outcome of a run with room for [room] more lags *)
Fixpoint run_res (f : num -> res (list num)) (ks : list num) (room : nat) : res unit :=
  match ks with
  | [] => Ok tt
  | kk :: ks' =>
      do _v <- f kk;
      match room with
      | 0 => UB OobWrite
      | S room' => run_res f ks' room'
      end
  end.

Lemma run_lags_res f ks i c :
  bufs_ok c -> i <= num_lag_steps c ->
  (forall kk cs, f kk = Ok cs -> length cs = N_datasets (ds c)) ->
  snd (run_lags f ks i c) = run_res f ks (num_lag_steps c - i).
Proof.
  revert i c. induction ks as [|kk ks IH]; intros i c Hb Hi Hf; [reflexivity|].
  cbn [run_lags run_res]. destruct (f kk) as [cs|e|u|] eqn:Ef; cbn [store_res bind]; try reflexivity.
  destruct (Nat.eq_dec i (num_lag_steps c)) as [->|Hne].
  - rewrite store_full by (auto; lia). rewrite Nat.sub_diag. reflexivity.
  - destruct (store_ok c kk cs i Hb ltac:(lia) (Hf _ _ Ef)) as [c' [E [Hb' [[ts [cc Hs]] _]]]].
    rewrite E. cbn [mbind]. replace (num_lag_steps c - i) with (S (num_lag_steps c - S i)) by lia.
    assert (Hnls : num_lag_steps c' = num_lag_steps c) by (subst c'; reflexivity).
    rewrite IH; try assumption.
    + rewrite Hnls. reflexivity.
    + lia.
    + subst c'. exact Hf.
Qed.

Lemma run_res_full f ks room : room < length ks -> run_res f ks room <> Ok tt.
Proof.
  revert room. induction ks as [|kk ks IH]; intros room H; cbn in *; [lia|].
  destruct (f kk); cbn; try discriminate. destruct room; [discriminate|]. apply IH. lia.
Qed.

Lemma run_res_ok f ks room :
  run_res f ks room = Ok tt <-> length ks <= room /\ forall kk, In kk ks -> exists cs, f kk = Ok cs.
Proof.
  revert room. induction ks as [|kk ks IH]; intros room; cbn.
  - split; [|reflexivity]. intros _. split; [lia|]. intros kk [].
  - split.
    + destruct (f kk) as [cs|e|u|] eqn:Ef; cbn; try discriminate. destruct room as [|room]; [discriminate|].
      intros H. apply IH in H. destruct H as [H1 H2]. split; [lia|]. intros k' [<-|H]; eauto.
    + intros [H1 H2]. destruct (H2 kk (or_introl eq_refl)) as [cs ->]. cbn.
      destruct room as [|room]; [lia|]. apply IH. split; [lia|auto].
Qed.

(** if every lag can be computed, a run that does not fit ends in an
    out-of-bounds write *)
Lemma run_res_oob f ks room :
  room < length ks -> (forall kk, In kk ks -> exists cs, f kk = Ok cs) -> run_res f ks room = UB OobWrite.
Proof.
  revert room. induction ks as [|kk ks IH]; intros room H Hf; cbn in *; [lia|].
  destruct (Hf kk (or_introl eq_refl)) as [cs ->]. cbn. destruct room; [reflexivity|].
  apply IH; [lia|auto].
Qed.

(** final buffers of a successful run *)
Lemma run_lags_ok f ks vals i c :
  bufs_ok c -> i + length ks <= num_lag_steps c ->
  (forall kk cs, f kk = Ok cs -> length cs = N_datasets (ds c)) ->
  mapM f ks = Ok vals ->
  exists c', run_lags f ks i c = (c', Ok tt) /\ bufs_ok c' /\ same_setup c c' /\
    (forall q, nth_error (timeseries_ c') q =
       if (i <=? q) && (q <? i + length ks) then nth_error ks (q - i) else nth_error (timeseries_ c) q) /\
    (forall q r, q < num_lag_steps c -> r < N_datasets (ds c) ->
       nth_error (correlations_ c') (q + num_lag_steps c * r) =
       if (i <=? q) && (q <? i + length ks)
       then match nth_error vals (q - i) with Some v => nth_error v r | None => None end
       else nth_error (correlations_ c) (q + num_lag_steps c * r)).
Proof.
  revert i c vals. induction ks as [|kk ks IH]; intros i c vals Hb Hi Hf Hv.
  - exists c. split; [reflexivity|]. split; [exact Hb|]. split; [apply same_setup_refl|]. cbn [length].
    split; intros; (destruct (Nat.leb_spec i q), (Nat.ltb_spec q (i + 0)); cbn; [lia|reflexivity..]).
  - cbn [mapM] in Hv. destruct (f kk) as [cs|e|u|] eqn:Ef; try discriminate. cbn [bind] in Hv.
    destruct (mapM f ks) as [vals'|e|u|] eqn:Em; try discriminate. injection Hv as <-.
    cbn [length] in Hi. cbn [run_lags]. rewrite Ef. cbn [store_res].
    destruct (store_ok c kk cs i Hb ltac:(lia) (Hf _ _ Ef)) as [c1 [E [Hb1 [Hs1 [Ht Hc]]]]].
    rewrite E. cbn [mbind].
    assert (Hnls : num_lag_steps c1 = num_lag_steps c) by (destruct Hs1 as [? [? ->]]; reflexivity).
    assert (HN : N_datasets (ds c1) = N_datasets (ds c)) by (destruct Hs1 as [? [? ->]]; reflexivity).
    destruct (IH (S i) c1 vals' Hb1 ltac:(lia)) as [c2 [E2 [Hb2 [Hs2 [Ht2 Hc2]]]]].
    { rewrite HN. exact Hf. }
    { reflexivity. }
    exists c2. split; [exact E2|]. split; [exact Hb2|]. split; [eapply same_setup_trans; eassumption|].
    rewrite Hnls, HN in Hc2. destruct Hb as [Hbt Hbc].
    split.
    + intros q. rewrite Ht2, Ht, nth_error_upd by lia. cbn [length].
      destruct (Nat.leb_spec (S i) q), (Nat.ltb_spec q (S i + length ks)), (Nat.leb_spec i q),
        (Nat.ltb_spec q (i + S (length ks))), (Nat.eqb_spec q i); cbn [andb]; try lia; try reflexivity.
      * replace (q - i) with (S (q - S i)) by lia. reflexivity.
      * subst q. rewrite Nat.sub_diag. reflexivity.
    + intros q r Hq Hr. rewrite Hc2, Hc by assumption. cbn [length].
      destruct (Nat.leb_spec (S i) q), (Nat.ltb_spec q (S i + length ks)), (Nat.leb_spec i q),
        (Nat.ltb_spec q (i + S (length ks))), (Nat.eqb_spec q i); cbn [andb]; try lia; try reflexivity.
      * replace (q - i) with (S (q - S i)) by lia. reflexivity.
      * subst q. rewrite Nat.sub_diag. reflexivity.
Qed.

(** ** Cleaning up *)
Lemma clean_loop_ok cs nls i N n j :
  length cs = N * nls -> i <= nls -> j + n = N ->
  clean_loop cs nls i n j
    (concat (map (fun r => firstn i (piece nls cs r)) (seq 0 j)) ++ repeat nzero (n * i)) =
  Ok (concat (map (fun r => firstn i (piece nls cs r)) (seq 0 N))).
Proof.
  intros Hl Hi. revert j. induction n as [|n IH]; intros j Hj; cbn [clean_loop].
  - cbn. rewrite app_nil_r. do 2 f_equal. f_equal. f_equal. lia.
  - unfold slice. destruct (Nat.leb_spec (j * nls + i) (length cs)) as [_|]; [|nia]. cbn [bind].
    replace (j * nls + i - j * nls) with i by lia.
    assert (Hp : firstn i (skipn (j * nls) cs) = firstn i (piece nls cs j)).
    { unfold piece. rewrite firstn_firstn, Nat.min_l by lia. reflexivity. }
    rewrite Hp. set (row := firstn i (piece nls cs j)).
    assert (Hrow : length row = i).
    { unfold row. rewrite firstn_length_le; [reflexivity|]. rewrite piece_length by nia. exact Hi. }
    assert (Hlen : length (concat (map (fun r => firstn i (piece nls cs r)) (seq 0 j))) = j * i).
    { rewrite (concat_length i).
      - rewrite map_length, seq_length. reflexivity.
      - intros r Hr. apply in_map_iff in Hr. destruct Hr as [x [<- Hx]]. apply in_seq in Hx.
        rewrite firstn_length_le; [reflexivity|]. rewrite piece_length by nia. exact Hi. }
    unfold write_slice. rewrite Hrow, app_length, Hlen, repeat_length.
    destruct (Nat.leb_spec (j * i + i) (j * i + S n * i)) as [_|]; [|nia]. cbn [bind].
    rewrite <- IH with (j := S j) by lia. f_equal.
    rewrite firstn_app, Hlen, Nat.sub_diag. cbn [firstn]. rewrite app_nil_r.
    rewrite firstn_all2 by lia. rewrite skipn_app, skipn_all2 by lia. cbn [app]. rewrite Hlen.
    rewrite seq_S, map_app, concat_app. cbn [map concat Nat.add]. rewrite app_nil_r, <- app_assoc.
    f_equal. f_equal. replace (j * i + i - j * i) with i by lia.
    replace (S n * i) with (i + n * i) by lia. rewrite repeat_app, skipn_app, repeat_length.
    rewrite skipn_all2 by (rewrite repeat_length; lia). rewrite Nat.sub_diag. reflexivity.
Qed.

Lemma clean_ok c i : bufs_ok c -> i <= num_lag_steps c ->
  cleanCorrelationData c i =
  (set_data c (firstn i (timeseries_ c))
     (concat (map (fun r => firstn i (piece (num_lag_steps c) (correlations_ c) r))
                  (seq 0 (N_datasets (ds c))))) i, Ok tt).
Proof.
  intros [H1 H2] Hi. unfold cleanCorrelationData, lresize, mlift.
  replace (i - length (timeseries_ c)) with 0 by lia. cbn [repeat]. rewrite app_nil_r.
  pose proof (clean_loop_ok (correlations_ c) (num_lag_steps c) i (N_datasets (ds c)) (N_datasets (ds c)) 0
                H2 Hi eq_refl) as E.
  cbn [seq map concat app] in E. rewrite E. reflexivity.
Qed.

Lemma clean_correlations ts cs i c N (rows : list (list num)) :
  N_datasets (ds c) = N -> cs = concat rows -> length rows = N -> (forall r, In r rows -> length r = i) ->
  correlations (set_data c ts cs i) = Ok rows.
Proof.
  intros HN -> Hl Hr. unfold correlations. cbn [ds correlations_ num_lag_steps set_data].
  transitivity (rows_2d (concat rows) N i).
  - unfold rows_2d. rewrite HN. reflexivity.
  - rewrite rows_2d_ok by (rewrite (concat_length i) by exact Hr; rewrite Hl; lia).
    rewrite <- Hl, recut_concat by exact Hr. reflexivity.
Qed.

(** rows of the result from the values per lag *)
Definition by_dataset (N : nat) (vals : list (list num)) : list (list num) :=
  map (fun r => map (fun v => nth r v nzero) vals) (seq 0 N).

(** ** Complete run *)
(** the final state of a run over a grid that fits *)
Lemma run_clean f ks vals c :
  bufs_ok c -> length ks <= num_lag_steps c ->
  (forall kk cs, f kk = Ok cs -> length cs = N_datasets (ds c)) ->
  mapM f ks = Ok vals ->
  let c' := set_data c ks (concat (by_dataset (N_datasets (ds c)) vals)) (length ks) in
  mbind (run_lags f ks 0 c) (fun c1 _ => cleanCorrelationData c1 (length ks)) = (c', Ok tt) /\
  correlations c' = Ok (by_dataset (N_datasets (ds c)) vals).
Proof.
  intros Hb Hl Hf Hv.
  assert (Hlv : length vals = length ks) by (apply mapM_Ok_inv in Hv; apply Hv).
  assert (Hvn : forall v, In v vals -> length v = N_datasets (ds c)).
  { intros v Hin. apply In_nth_error in Hin. destruct Hin as [n Hn].
    assert (n < length ks) by (rewrite <- Hlv; apply nth_error_Some; congruence).
    destruct (nth_error_Some_ex ks n H) as [kk Hk]. apply mapM_Ok_inv in Hv. destruct Hv as [_ Hv].
    destruct (Hv n kk Hk) as [b [Hb1 Hb2]]. rewrite Hn in Hb1. injection Hb1 as <-. eapply Hf; exact Hb2. }
  destruct (run_lags_ok f ks vals 0 c Hb Hl Hf Hv) as [c1 [E [Hb1 [Hs [Ht Hc]]]]].
  assert (Hnls : num_lag_steps c1 = num_lag_steps c) by (destruct Hs as [? [? ->]]; reflexivity).
  assert (HN : N_datasets (ds c1) = N_datasets (ds c)) by (destruct Hs as [? [? ->]]; reflexivity).
  intros c'. split.
  - rewrite E. cbn [mbind]. rewrite clean_ok by (try assumption; lia). f_equal.
    assert (E1 : firstn (length ks) (timeseries_ c1) = ks).
    { apply list_ext. intros n. rewrite nth_error_firstn, Ht. cbn [Nat.leb andb Nat.add].
      destruct (Nat.ltb_spec n (length ks)); [rewrite Nat.sub_0_r; reflexivity|].
      symmetry. apply nth_error_None. lia. }
    rewrite E1. unfold c'. rewrite HN.
    assert (E2 : map (fun r => firstn (length ks) (piece (num_lag_steps c1) (correlations_ c1) r))
                   (seq 0 (N_datasets (ds c))) = by_dataset (N_datasets (ds c)) vals).
    { unfold by_dataset. apply map_ext_in. intros r Hr. apply in_seq in Hr. apply list_ext. intros n.
      rewrite nth_error_firstn, nth_error_piece, nth_error_map, Hnls.
      destruct (Nat.ltb_spec n (length ks)) as [Hn|Hn].
      - destruct (Nat.ltb_spec n (num_lag_steps c)); [|lia].
        replace (r * num_lag_steps c + n) with (n + num_lag_steps c * r) by lia.
        rewrite Hc by lia. cbn [Nat.leb andb Nat.add]. destruct (Nat.ltb_spec n (length ks)); [|lia].
        rewrite Nat.sub_0_r. destruct (nth_error_Some_ex vals n ltac:(lia)) as [v Hv1]. rewrite Hv1.
        cbn [option_map]. apply nth_error_nth_eq. rewrite (Hvn v) by (eapply nth_error_In; exact Hv1). lia.
      - symmetry. replace (nth_error vals n) with (@None (list num)); [reflexivity|].
        symmetry. apply nth_error_None. lia. }
    rewrite E2. destruct Hs as [ts [cs ->]]. reflexivity.
  - apply (clean_correlations _ _ _ _ (N_datasets (ds c))); try reflexivity.
    + unfold by_dataset. rewrite map_length, seq_length. reflexivity.
    + intros r Hr. unfold by_dataset in Hr. apply in_map_iff in Hr. destruct Hr as [x [<- _]].
      rewrite map_length. exact Hlv.
Qed.

Lemma mapM_run_res f ks room : run_res f ks room = Ok tt -> exists vals, mapM f ks = Ok vals.
Proof.
  intros H. apply run_res_ok in H. destruct H as [_ H]. induction ks as [|kk ks IH]; cbn; [eauto|].
  destruct (H kk (or_introl eq_refl)) as [cs ->]. cbn. destruct IH as [vals ->]; [intros; apply H; right; assumption|].
  cbn. eauto.
Qed.

(** names of the outcome when a run over the first lags fails *)
Lemma run_res_app f l1 l2 room : length l1 > room ->
  run_res f (l1 ++ l2) room = run_res f l1 room.
Proof.
  revert room. induction l1 as [|kk l1 IH]; intros room H; cbn in *; [lia|].
  destruct (f kk); cbn; try reflexivity. destruct room; [reflexivity|]. apply IH. lia.
Qed.

End LoopFacts.
