(** Proofs about [Threads.v]: threads that run the same calculation on one Correlator. *)
From Coq Require Import String.
From Coq Require Import ZArith List Bool Arith Lia.
From Verif Require Import Num Mem MemFacts Spec DataStructure DSFacts Correlator Sacf Api Threads SpecThreads CorrFacts LoopFacts MainFacts StateFacts ThreadFacts.
Import ListNotations.
Local Open Scope list_scope.

Lemma skipn_next {X} (l : list X) : forall m x r, skipn m l = x :: r -> r = skipn (S m) l.
Proof. induction l as [|y l IH]; intros [|m] x r H; cbn in H; try discriminate H; [injection H as _ <-; reflexivity|]. apply (IH m x r H). Qed.

Section Same.
Context {A : Num}.
Variable p : platform.
Variables (c : correlator) (sel wgt : string) (ks : list num) (vals : list (list num)).
Let n := length ks.
Let N := N_datasets (ds c).
Let f := named_values p c sel wgt.
Hypothesis Hsemi : semi c.
Hypothesis Hbufs : bufs_ok c.
Hypothesis Hn : n <= num_lag_steps c.
Hypothesis Hpos : 0 < n.
Hypothesis Hvals : mapM f ks = Ok vals.
Hypothesis Hlags : exists fuel, gen_list fuel (max_lag c) (lag_resolution c) (gen_start (min_lag c)) = (ks, true).

Definition cfg (c' : correlator) : Prop := exists ts cs m, c' = set_data c ts cs m.
Definition written (m : nat) (c' : correlator) : Prop :=
  forall q, q < m -> nth_error (timeseries_ c') q = nth_error ks q /\
    forall r, r < N -> nth_error (correlations_ c') (q + num_lag_steps c' * r) = match nth_error vals q with Some v => nth_error v r | None => None end.
Definition good (c' : correlator) : Prop := cfg c' /\ bufs_ok c' /\ n <= num_lag_steps c'.
Definition final : correlator := set_data c ks (concat (by_dataset N vals)) n.

Lemma vals_length : length vals = n.
Proof. pose proof Hvals as H. apply mapM_Ok_inv in H. apply H. Qed.
Lemma vals_each q : q < n -> exists kk v, nth_error ks q = Some kk /\ nth_error vals q = Some v /\ f kk = Ok v /\ length v = N.
Proof.
  intros Hq. destruct (nth_error_Some_ex ks q Hq) as [kk Hk]. pose proof Hvals as H. apply mapM_Ok_inv in H. destruct H as [_ H].
  destruct (H q kk Hk) as [v [H1 H2]]. exists kk, v. repeat split; auto. eapply named_values_length. exact H2.
Qed.

Lemma good_c : good c.
Proof. split; [exists (timeseries_ c), (correlations_ c), (num_lag_steps c); destruct c; reflexivity|]. split; [exact Hbufs|exact Hn]. Qed.

Lemma cfg_N c' : cfg c' -> N_datasets (ds c') = N.
Proof. intros [ts [cs [m ->]]]. reflexivity. Qed.

Lemma clean_written c' : good c' -> written n c' -> cleanCorrelationData c' n = (final, Ok tt).
Proof.
  intros [Hc [Hb Hl]] Hw. rewrite clean_ok by assumption. f_equal.
  assert (E1 : firstn n (timeseries_ c') = ks).
  { apply list_ext. intros q. rewrite nth_error_firstn. destruct (Nat.ltb_spec q n) as [Hq|Hq]; [apply Hw; exact Hq|]. symmetry. apply nth_error_None. exact Hq. }
  rewrite E1. rewrite (cfg_N c' Hc).
  assert (E2 : map (fun r => firstn n (piece (num_lag_steps c') (correlations_ c') r)) (seq 0 N) = by_dataset N vals).
  { unfold by_dataset. apply map_ext_in. intros r Hr. apply in_seq in Hr. apply list_ext. intros q.
    rewrite nth_error_firstn, nth_error_piece, nth_error_map. destruct (Nat.ltb_spec q n) as [Hq|Hq].
    - destruct (Nat.ltb_spec q (num_lag_steps c')); [|lia]. replace (r * num_lag_steps c' + q) with (q + num_lag_steps c' * r) by lia.
      destruct (Hw q Hq) as [_ K]. rewrite K by lia. destruct (vals_each q Hq) as [kk [v [_ [Hv [_ Lv]]]]]. rewrite Hv. cbn [option_map]. apply nth_error_nth_eq. lia.
    - replace (nth_error vals q) with (@None (list num)); [reflexivity|]. symmetry. apply nth_error_None. rewrite vals_length. exact Hq. }
  rewrite E2. destruct Hc as [ts [cs [m ->]]]. reflexivity.
Qed.

Lemma pieces_all (cs : list num) m : length cs = N * m -> concat (map (fun r => firstn m (piece m cs r)) (seq 0 N)) = cs.
Proof.
  intros H. apply list_ext. intros i.
  assert (G : forall K, K <= N -> concat (map (fun r => firstn m (piece m cs r)) (seq 0 K)) = firstn (K * m) cs).
  { induction K as [|K IH]; intros HK; [reflexivity|]. rewrite seq_S, map_app, concat_app, IH by lia. cbn [map concat Nat.add]. rewrite app_nil_r.
    apply list_ext. intros q. rewrite !nth_error_firstn. unfold piece. rewrite firstn_firstn, Nat.min_id.
    destruct (Nat.lt_ge_cases q (K * m)) as [L|L].
    - rewrite nth_error_app1 by (rewrite firstn_length_le; nia). rewrite nth_error_firstn. destruct (Nat.ltb_spec q (K * m)); [|lia]. destruct (Nat.ltb_spec q (S K * m)); [reflexivity|lia].
    - rewrite nth_error_app2 by (rewrite firstn_length_le; nia). rewrite firstn_length_le by nia. rewrite nth_error_firstn, nth_error_skipn.
      replace (K * m + (q - K * m)) with q by lia. destruct (Nat.ltb_spec (q - K * m) m), (Nat.ltb_spec q (S K * m)); try lia; reflexivity. }
  rewrite G by lia. rewrite firstn_all2 by lia. reflexivity.
Qed.

Lemma final_unique c' : good c' -> written n c' -> num_lag_steps c' = n -> c' = final.
Proof.
  intros Hg Hw Hs. pose proof (clean_written c' Hg Hw) as E. destruct Hg as [Hc [Hb Hl]]. rewrite clean_ok in E by assumption. apply (f_equal fst) in E. cbn [fst] in E. rewrite <- E.
  destruct Hb as [B1 B2]. rewrite (cfg_N c' Hc) in B2 |- *. rewrite Hs in B1, B2 |- *. rewrite firstn_all2 by lia. rewrite pieces_all by exact B2.
  destruct Hc as [ts [cs [m ->]]]. cbn in Hs. subst m. reflexivity.
Qed.

Lemma final_good : good final /\ written n final /\ num_lag_steps final = n.
Proof.
  assert (B : bufs_ok final).
  { split; [reflexivity|]. cbn. rewrite (concat_length n). - unfold by_dataset. rewrite map_length, seq_length. reflexivity.
    - intros r Hr. unfold by_dataset in Hr. apply in_map_iff in Hr. destruct Hr as [x [<- _]]. rewrite map_length. apply vals_length. }
  split; [split; [exists ks, (concat (by_dataset N vals)), n; reflexivity|split; [exact B|apply le_n]]|]. split; [|reflexivity].
  intros q Hq. split; [reflexivity|]. intros r Hr. cbn [correlations_ num_lag_steps final set_data].
  pose proof (piece_concat n (by_dataset N vals) r) as PC. specialize (PC (map (fun v => nth r v nzero) vals)).
  assert (E : piece n (concat (by_dataset N vals)) r = map (fun v => nth r v nzero) vals).
  { apply PC.
    - intros x Hx. unfold by_dataset in Hx. apply in_map_iff in Hx. destruct Hx as [y [<- _]]. rewrite map_length. apply vals_length.
    - unfold by_dataset. rewrite nth_error_map. rewrite nth_error_seq. destruct (Nat.ltb_spec r N); [reflexivity|lia]. }
  assert (E2 : nth_error (piece n (concat (by_dataset N vals)) r) q = nth_error (concat (by_dataset N vals)) (q + n * r)).
  { rewrite nth_error_piece. destruct (Nat.ltb_spec q n); [|lia]. f_equal. lia. }
  rewrite <- E2, E, nth_error_map. destruct (vals_each q Hq) as [kk [v [_ [Hv [_ Lv]]]]]. rewrite Hv. cbn [option_map]. symmetry. apply nth_error_nth_eq. lia.
Qed.

(** storing what belongs there *)
Lemma store_good c' q kk v : good c' -> q < n -> nth_error ks q = Some kk -> nth_error vals q = Some v ->
  exists c'', store c' kk v q = (c'', Ok tt) /\ good c'' /\ num_lag_steps c'' = num_lag_steps c' /\
    (forall m', m' <= n -> written m' c' -> written m' c'') /\ (written q c' -> written (S q) c'').
Proof.
  intros [Hc [Hb Hl]] Hq Hk Hv. pose proof (cfg_N c' Hc) as EN.
  assert (Lv : length v = N_datasets (ds c')) by (destruct (vals_each q Hq) as [kk' [v' [K1 [K2 [_ K4]]]]]; rewrite EN; congruence).
  destruct (store_ok c' kk v q Hb ltac:(lia) Lv) as [c'' [E [Hb'' [Hs [Ht Hr]]]]]. exists c''.
  assert (Es : num_lag_steps c'' = num_lag_steps c') by (destruct Hs as [? [? ->]]; reflexivity).
  assert (Hc'' : cfg c'') by (destruct Hs as [ts' [cs' ->]]; destruct Hc as [ts [cs [k0 ->]]]; eexists _, _, _; reflexivity).
  assert (P : forall m', (forall x, x < m' -> x <> q -> nth_error (timeseries_ c') x = nth_error ks x /\
      forall r, r < N -> nth_error (correlations_ c') (x + num_lag_steps c' * r) = match nth_error vals x with Some v => nth_error v r | None => None end) -> m' <= n -> written m' c'').
  { intros m' K Hm' x Hx. destruct Hb as [B1 B2]. rewrite Ht, nth_error_upd, Es by lia. destruct (Nat.eqb_spec x q) as [->|Hne].
    - split; [auto|]. intros r Hrr. rewrite Hr by lia. rewrite Nat.eqb_refl, Hv. reflexivity.
    - destruct (K x Hx Hne) as [K1 K2]. split; [exact K1|]. intros r Hrr. rewrite Hr by lia. destruct (Nat.eqb_spec x q); [contradiction|]. apply K2. exact Hrr. }
  split; [exact E|]. split; [split; [exact Hc''|split; [exact Hb''|lia]]|]. split; [exact Es|]. split; [intros m' Hm K; apply P; [|exact Hm]; intros x Hx _; apply K; exact Hx|].
  intros K. apply P; [|lia]. intros x Hx Hne. apply K. lia.
Qed.

(** ** The lines between two stores *)
Definition done_it (x : meth cor_it unit) : res cor_it :=
  match x with (it, Ok _) => Ok it | (_, Throw e) => Throw e | (_, UB u) => UB u | (_, Diverge) => Diverge end.
Definition comp_sum (it : cor_it) : res cor_it := done_it (findCorrelation p c it).
Definition comp_weigh (it : cor_it) : res cor_it := match WEIGHT_FUNCTIONS wgt with None => Throw PyKeyError | Some w => comp_sum (w c it) end.
Definition comp_delta (it : cor_it) : res cor_it := do it1 <- done_it (deltaT p (ds c) it); comp_weigh it1.
Definition comp_sel (it : cor_it) : res cor_it := match SELECTION_FUNCTIONS p sel with None => Throw PyKeyError | Some g => do it1 <- done_it (g c it); comp_delta it1 end.

Lemma sel_cfg c' g it : cfg c' -> SELECTION_FUNCTIONS p sel = Some g -> g c' it = g c it.
Proof.
  intros [ts [cs [m ->]]]. unfold SELECTION_FUNCTIONS. destruct (String.eqb sel "fast"); [intros E; injection E as <-; reflexivity|].
  destruct (String.eqb sel "natural"); [intros E; injection E as <-; reflexivity|discriminate].
Qed.
Lemma wgt_cfg c' g it : cfg c' -> WEIGHT_FUNCTIONS wgt = Some g -> g c' it = g c it.
Proof.
  intros [ts [cs [m ->]]]. unfold WEIGHT_FUNCTIONS. destruct (String.eqb wgt "gaussian"); [intros E; injection E as <-; reflexivity|].
  destruct (String.eqb wgt "fractional"); [intros E; injection E as <-; reflexivity|].
  destruct (String.eqb wgt "fractional_squared"); [intros E; injection E as <-; reflexivity|discriminate].
Qed.
Lemma sum_cfg c' it : cfg c' -> findCorrelation p c' it = findCorrelation p c it.
Proof.
  intros [ts [cs [m ->]]]. unfold findCorrelation. cbn [ds set_data]. generalize (N_datasets (ds c)) 0 it. clear.
  intros k0. induction k0 as [|k0 IH]; intros j it; [reflexivity|]. cbn [findCorrelation_loop ds set_data Nvec]. unfold mlift.
  destruct (lget (correlation it) j); cbn [mbind]; try reflexivity. destruct (lset _ _ _); cbn [mbind]; try reflexivity.
  destruct (snd _); cbn [mbind]; try reflexivity. destruct (lget (Nvec c) j); cbn [mbind]; try reflexivity. destruct (lset _ _ _); cbn [mbind]; try reflexivity. apply IH.
Qed.
Lemma ds_cfg c' : cfg c' -> ds c' = ds c.
Proof. intros [ts [cs [m ->]]]. reflexivity. Qed.

Definition put (c' : correlator) (r : res cor_it) (i : nat) : meth correlator unit :=
  match r with Ok it => addCorrelationData c' it i | Throw e => (c', Throw e) | UB u => (c', UB u) | Diverge => (c', Diverge) end.
Lemma put_on c' x g i : put c' (do it1 <- done_it x; g it1) i = on_it c' x (fun it1 => put c' (g it1) i).
Proof. destruct x as [it [[]|e|u|]]; reflexivity. Qed.

Lemma at_comp c' kk i : cfg c' -> find_correlation_at p sel wgt c' kk i = put c' (comp_sel (CorrelationIterator kk N)) i.
Proof.
  intros Hc. unfold find_correlation_at, comp_sel. rewrite (cfg_N c' Hc). destruct (SELECTION_FUNCTIONS p sel) as [g|] eqn:Eg; [|reflexivity].
  rewrite put_on, (sel_cfg c' g _ Hc Eg). apply on_it_ext. intros it1. unfold comp_delta. rewrite put_on, (ds_cfg c' Hc). apply on_it_ext. intros it2.
  unfold comp_weigh. destruct (WEIGHT_FUNCTIONS wgt) as [w|] eqn:Ew; [|reflexivity]. rewrite (wgt_cfg c' w _ Hc Ew). unfold comp_sum.
  rewrite (sum_cfg c' _ Hc). destruct (findCorrelation p c (w c it2)) as [it [[]|e|u|]]; reflexivity.
Qed.

Definition stores (it : cor_it) (q : nat) : Prop :=
  exists kk v, nth_error ks q = Some kk /\ nth_error vals q = Some v /\ forall c' i, cfg c' -> addCorrelationData c' it i = store c' kk v i.

Lemma comp_ok q kk : nth_error ks q = Some kk -> exists it, comp_sel (CorrelationIterator kk N) = Ok it /\ stores it q.
Proof.
  intros Hk. assert (Hq : q < n) by (apply nth_error_Some; congruence). destruct (vals_each q Hq) as [kk' [v [K1 [K2 [K3 K4]]]]].
  assert (kk' = kk) by congruence. subst kk'.
  assert (AT : forall c' i, cfg c' -> put c' (comp_sel (CorrelationIterator kk N)) i = store c' kk v i).
  { intros c' i Hc. rewrite <- at_comp by exact Hc. rewrite find_at_closed by (destruct Hc as [ts [cs [m ->]]]; apply Hsemi).
    replace (named_values p c' sel wgt kk) with (Ok v : res (list num)); [reflexivity|]. rewrite <- K3. destruct Hc as [ts [cs [m ->]]]. reflexivity. }
  destruct good_c as [Gc _]. destruct (store_good c q kk v good_c Hq Hk K2) as [c'' [E _]].
  pose proof (AT c q Gc) as E1. rewrite E in E1. destruct (comp_sel (CorrelationIterator kk N)) as [it|e|u|] eqn:Ec; cbn [put] in E1; try discriminate E1.
  exists it. split; [reflexivity|]. exists kk, v. split; [exact Hk|]. split; [exact K2|]. intros c' i Hc. exact (AT c' i Hc).
Qed.

(** ** Where a thread may be *)
Definition left_lags (l : locals) (m : nat) : Prop :=
  l_max l = max_lag c /\ l_res l = lag_resolution c /\ exists fuel, gen_list fuel (max_lag c) (lag_resolution c) (l_gen l) = (skipn m ks, true).
Definition mid (c' : correlator) (l : locals) (r : res cor_it) : Prop :=
  left_lags l (S (l_count l)) /\ l_count l < n /\ l_i l = Some (l_count l) /\ written (l_count l) c' /\ exists it, r = Ok it /\ stores it (l_count l).
Definition at_place (c' : correlator) (s : find_at) : Prop :=
  match s with
  | ReadMin => True
  | ReadMax m => m = min_lag c
  | ReadRes m M => m = min_lag c /\ M = max_lag c
  | NextLag l => left_lags l (l_count l) /\ l_count l <= n /\ l_i l = match l_count l with 0 => None | S i => Some i end /\ written (l_count l) c'
  | Select l it => mid c' l (comp_sel it)
  | Delta l it => mid c' l (comp_delta it)
  | Weigh l it => mid c' l (comp_weigh it)
  | Sum l it => mid c' l (comp_sum it)
  | Store l it => mid c' l (Ok it)
  | Clean m => m = n /\ written n c'
  | Stop r => r = Ok tt /\ c' = final
  end.
Definition to_go (s : find_at) : nat :=
  match s with
  | ReadMin => 6 * n + 5 | ReadMax _ => 6 * n + 4 | ReadRes _ _ => 6 * n + 3
  | NextLag l => 6 * (n - l_count l) + 2 | Select l _ => 6 * (n - l_count l) + 1 | Delta l _ => 6 * (n - l_count l)
  | Weigh l _ => 6 * (n - l_count l) - 1 | Sum l _ => 6 * (n - l_count l) - 2 | Store l _ => 6 * (n - l_count l) - 3
  | Clean _ => 1 | Stop _ => 0
  end.
Definition grows (c' c'' : correlator) : Prop := (forall m, m <= n -> written m c' -> written m c'') /\ (c' = final -> c'' = final).

Lemma grows_refl c' : grows c' c'. Proof. split; auto. Qed.
Lemma mid_grows c' c'' l r : grows c' c'' -> mid c' l r -> mid c'' l r.
Proof. intros [G _] [M1 [M2 [M3 [M4 M5]]]]. split; [exact M1|]. split; [exact M2|]. split; [exact M3|]. split; [apply G; [lia|exact M4]|exact M5]. Qed.
Lemma place_grows c' c'' s : grows c' c'' -> at_place c' s -> at_place c'' s.
Proof.
  intros G. destruct s; cbn [at_place]; auto; try (apply mid_grows; exact G).
  - intros [H1 [H2 [H3 H4]]]. split; [exact H1|]. split; [exact H2|]. split; [exact H3|]. apply G; [exact H2|exact H4].
  - intros [H1 H2]. split; [exact H1|]. apply G; [lia|exact H2].
  - intros [H1 H2]. split; [exact H1|]. apply G. exact H2.
Qed.

Lemma mid_next c' l (x : meth cor_it unit) (g : cor_it -> res cor_it) (F : cor_it -> find_at) :
  (forall it, at_place c' (F it) <-> mid c' l (g it)) -> mid c' l (do it1 <- done_it x; g it1) -> at_place c' (and_then x F) /\ exists it, and_then x F = F it.
Proof.
  intros HF Hm. destruct x as [it [[]|e|u|]]; cbn [done_it bind and_then] in *; [split; [apply HF; exact Hm|eauto]|..]; destruct Hm as [_ [_ [_ [_ [it' [K _]]]]]]; discriminate K.
Qed.

Lemma place_step c' s c'' s' : good c' -> at_place c' s -> (forall r, s <> Stop r) -> find_step p sel wgt c' s = (c'', s') ->
  good c'' /\ at_place c'' s' /\ grows c' c'' /\ S (to_go s') = to_go s.
Proof.
  intros Hg Hp Hs E. pose proof Hg as [Hc [Hb Hl]]. destruct s; cbn [find_step] in E; cbn [at_place] in Hp.
  - injection E as <- <-. split; [exact Hg|]. split; [cbn; destruct Hc as [? [? [? ->]]]; reflexivity|]. split; [apply grows_refl|cbn; lia].
  - injection E as <- <-. split; [exact Hg|]. split; [cbn; split; [exact Hp|destruct Hc as [? [? [? ->]]]; reflexivity]|]. split; [apply grows_refl|cbn; lia].
  - injection E as <- <-. destruct Hp as [-> ->]. split; [exact Hg|]. split; [|split; [apply grows_refl|cbn; lia]]. cbn. split; [|split; [lia|split; [reflexivity|intros q Hq; lia]]].
    split; [reflexivity|]. split; [destruct Hc as [? [? [? ->]]]; reflexivity|]. exact Hlags.
  - destruct Hp as [[L1 [L2 [fuel L3]]] [H2 [H3 H4]]]. rewrite L1, L2 in E. destruct fuel as [|fuel]; [cbn in L3; discriminate L3|]. cbn [gen_list] in L3.
    destruct (gen_next (max_lag c) (lag_resolution c) (l_gen l)) as [[kk g]|].
    + injection L3 as L3 L4. injection E as <- <-.
      assert (Hq : l_count l < n). { destruct (Nat.lt_ge_cases (l_count l) n) as [K|K]; [exact K|]. rewrite skipn_all2 in L3 by exact K. discriminate L3. }
      assert (Hk : nth_error ks (l_count l) = Some kk). { rewrite <- (Nat.add_0_r (l_count l)). rewrite <- nth_error_skipn. rewrite <- L3. reflexivity. }
      assert (Hr : fst (gen_list fuel (max_lag c) (lag_resolution c) g) = skipn (S (l_count l)) ks).
      { apply (skipn_next ks (l_count l) kk). symmetry. exact L3. }
      split; [exact Hg|]. split; [|split; [apply grows_refl|cbn [to_go l_count]; lia]]. cbn [at_place]. unfold mid. cbn [l_count l_i]. split; [|split; [exact Hq|split; [reflexivity|split; [exact H4|]]]].
      * split; [reflexivity|]. split; [reflexivity|]. exists fuel. cbn [l_gen]. rewrite (surjective_pairing (gen_list _ _ _ _)), Hr, L4. reflexivity.
      * rewrite (cfg_N c' Hc). apply comp_ok. exact Hk.
    + injection L3 as L3. injection E as <- <-.
      assert (Hq : l_count l = n). { apply (f_equal (@length num)) in L3. rewrite skipn_length in L3. cbn in L3. fold n in L3. lia. }
      assert (Hi : l_i l = Some (n - 1)). { rewrite H3, Hq. clear - Hpos. destruct n; [lia|]. f_equal. lia. }
      rewrite Hi. split; [exact Hg|]. split; [cbn; split; [lia|rewrite <- Hq; exact H4]|]. split; [apply grows_refl|]. cbn. rewrite Hq. lia.
  - injection E as <- <-. split; [exact Hg|]. unfold comp_sel in Hp. destruct (SELECTION_FUNCTIONS p sel) as [g|] eqn:Eg; [|destruct Hp as [_ [_ [_ [_ [it' [K _]]]]]]; discriminate K].
    rewrite (sel_cfg c' g it Hc Eg). destruct (mid_next c' l (g c it) comp_delta (Delta l)) as [K1 [it' K2]]; [intros; apply iff_refl|exact Hp|]. split; [exact K1|]. split; [apply grows_refl|]. rewrite K2. cbn. destruct Hp as [_ [Hq _]]. lia.
  - injection E as <- <-. split; [exact Hg|]. rewrite (ds_cfg c' Hc). destruct (mid_next c' l (deltaT p (ds c) it) comp_weigh (Weigh l)) as [K1 [it' K2]]; [intros; apply iff_refl|exact Hp|]. split; [exact K1|]. split; [apply grows_refl|]. rewrite K2. cbn. destruct Hp as [_ [Hq _]]. lia.
  - injection E as <- <-. split; [exact Hg|]. unfold comp_weigh in Hp. destruct (WEIGHT_FUNCTIONS wgt) as [w|] eqn:Ew; [|destruct Hp as [_ [_ [_ [_ [it' [K _]]]]]]; discriminate K].
    rewrite (wgt_cfg c' w it Hc Ew). split; [exact Hp|]. split; [apply grows_refl|]. cbn. destruct Hp as [_ [Hq _]]. lia.
  - injection E as <- <-. split; [exact Hg|]. rewrite (sum_cfg c' it Hc). destruct Hp as [P1 [Hq [P3 [P4 [it' [P5 P6]]]]]]. unfold comp_sum in P5.
    destruct (findCorrelation p c it) as [it1 [[]|e|u|]]; cbn [done_it] in P5; try discriminate P5. injection P5 as ->. cbn [and_then at_place].
    split; [split; [exact P1|]; repeat (split; [assumption|]); eauto|]. split; [apply grows_refl|]. cbn. lia.
  - destruct Hp as [P1 [Hq [P3 [P4 [it' [P5 [kk [v [S1 [S2 S3]]]]]]]]]]. injection P5 as <-. rewrite (S3 c' (l_count l) Hc) in E.
    destruct (store_good c' (l_count l) kk v Hg Hq S1 S2) as [c1 [E1 [G1 [G2 [G3 G4]]]]]. rewrite E1 in E. injection E as <- <-. split; [exact G1|].
    split; [|split; [|cbn; lia]].
    + cbn. split; [exact P1|]. split; [lia|]. split; [exact P3|]. apply G4. exact P4.
    + split; [exact G3|]. intros ->. destruct final_good as [_ [F2 F3]]. apply final_unique; [exact G1|apply G3; [lia|exact F2]|congruence].
  - destruct Hp as [-> Hw]. rewrite (clean_written c' Hg Hw) in E. injection E as <- <-. destruct final_good as [F1 [F2 F3]]. split; [exact F1|]. split; [cbn; auto|]. split; [|reflexivity].
    split; [|auto]. intros m Hm _ q Hq. apply F2. lia.
  - destruct (Hs r). reflexivity.
Qed.

(** ** The threads *)
Variable a : nat.
Definition one_of_them (c' : correlator) (t : thread) : Prop :=
  (forall r, In r (log t) -> r = Ended (Ok tt)) /\ (log t <> [] -> c' = final) /\ (forall w, In w (todo t) -> w = Call a (Find sel wgt)) /\
  match doing t with
  | Idle => True
  | InFind b s1 w1 s => b = a /\ s1 = sel /\ w1 = wgt /\ at_place c' s /\ forall r, s <> Stop r
  | _ => False
  end.
Definition turns_left (t : thread) : nat :=
  length (todo t) * (6 * n + 6) + match doing t with InFind _ _ _ s => to_go s | _ => 0 end.

Lemma one_step h c' t h' t' : nth_error h a = Some c' -> good c' -> one_of_them c' t -> thread_step p h t = (h', t') ->
  exists c'', nth_error h' a = Some c'' /\ good c'' /\ grows c' c'' /\ one_of_them c'' t' /\ turns_left t' = turns_left t - 1.
Proof.
  intros Ha Hg [O1 [O2 [O3 O4]]] E. unfold thread_step, on in E. unfold turns_left. destruct (doing t) as [|b s1 w1 s| | | | |] eqn:Et; try destruct O4.
  - destruct (todo t) as [|w ws] eqn:Ew.
    + injection E as <- <-. exists c'. split; [exact Ha|]. split; [exact Hg|]. split; [apply grows_refl|]. split; [|rewrite Et, Ew; reflexivity].
      split; [exact O1|]. split; [exact O2|]. rewrite Ew, Et. split; [intros w []|exact I].
    + rewrite (O3 w (or_introl eq_refl)) in E. rewrite Ha in E. injection E as <- <-. exists c'. split; [exact Ha|]. split; [exact Hg|]. split; [apply grows_refl|].
      split; [|cbn; lia]. split; [exact O1|]. split; [exact O2|]. split; [intros w' Hw'; apply O3; right; exact Hw'|]. cbn. repeat split; try reflexivity. discriminate.
  - subst b. destruct H0 as [-> [-> [Hp Hs]]]. rewrite Ha in E. destruct (find_step p sel wgt c' s) as [c'' s'] eqn:Es.
    destruct (place_step c' s c'' s' Hg Hp Hs Es) as [G' [P' [Gr Tg]]]. injection E as <- <-. exists c''. split; [rewrite (replace_same _ _ _ _ _ Ha), Nat.eqb_refl; reflexivity|].
    split; [exact G'|]. split; [exact Gr|].
    assert (K : (exists r, s' = Stop r) \/ forall r, s' <> Stop r) by (destruct s'; try (right; discriminate); left; eauto). destruct K as [[r ->]|K].
    + destruct P' as [-> ->]. cbn [finish undefined]. split; [|unfold finish; cbn [todo doing]; cbn [to_go] in Tg; lia]. split; [|split; [reflexivity|split; [exact O3|exact I]]].
      intros r Hr. apply in_app_or in Hr. destruct Hr as [Hr|[<-|[]]]; [apply O1; exact Hr|reflexivity].
    + replace (match s' with Stop r => finish t (todo t) (undefined r) (Ended r) | _ => goes_on t (todo t) (InFind a sel wgt s') end) with (goes_on t (todo t) (InFind a sel wgt s'))
        by (destruct s'; try reflexivity; destruct (K r); reflexivity).
      split; [|cbn [goes_on todo doing]; lia]. split; [exact O1|]. split; [intros Hl; apply Gr; apply O2; exact Hl|]. split; [exact O3|]. cbn. auto.
Qed.

Definition all_same (s : system) : Prop :=
  exists c', nth_error (mem s) a = Some c' /\ good c' /\ forall i t, nth_error (threads s) i = Some t -> one_of_them c' t.

Lemma same_step s i : all_same s -> all_same (system_step p s i) /\
  forall j t, nth_error (threads s) j = Some t -> exists t', nth_error (threads (system_step p s i)) j = Some t' /\ turns_left t' = turns_left t - (if i =? j then 1 else 0).
Proof.
  intros Hs. pose proof Hs as [c' [Ha [Hg Ht]]]. unfold system_step. destruct (nth_error (threads s) i) as [t|] eqn:Ei.
  2:{ split; [exact Hs|]. intros j t Hj. exists t. split; [exact Hj|]. destruct (Nat.eqb_spec i j) as [->|]; [congruence|lia]. }
  destruct (thread_step p (mem s) t) as [h' t'] eqn:Es. destruct (one_step _ _ _ _ _ Ha Hg (Ht i t Ei) Es) as [c'' [H1 [H2 [H3 [H4 H5]]]]].
  assert (Ns : forall j, nth_error (set_thread (threads s) i t') j = if j =? i then Some t' else nth_error (threads s) j) by (intros j; apply (set_thread_same _ _ _ _ _ Ei)).
  split.
  - exists c''. split; [exact H1|]. split; [exact H2|]. intros j tj. cbn [threads]. rewrite Ns. destruct (Nat.eqb_spec j i) as [->|]; [intros K; injection K as <-; exact H4|].
    intros Hj. destruct (Ht j tj Hj) as [O1 [O2 [O3 O4]]]. split; [exact O1|]. split; [intros K; apply H3; apply O2; exact K|]. split; [exact O3|].
    destruct (doing tj); auto. destruct O4 as [K1 [K2 [K3 [K4 K5]]]]. repeat split; auto. apply (place_grows c'); assumption.
  - intros j tj Hj. cbn [threads]. rewrite Ns. rewrite (Nat.eqb_sym i j). destruct (Nat.eqb_spec j i) as [->|]; [|exists tj; split; [exact Hj|lia]].
    exists t'. split; [reflexivity|]. rewrite Ei in Hj. injection Hj as <-. exact H5.
Qed.

Lemma same_run schedule : forall s, all_same s -> all_same (run_threads p schedule s) /\
  forall j t, nth_error (threads s) j = Some t -> exists t', nth_error (threads (run_threads p schedule s)) j = Some t' /\ turns_left t' = turns_left t - turns j schedule.
Proof.
  induction schedule as [|i sch IH]; intros s Hs; cbn [run_threads fold_left].
  - split; [exact Hs|]. intros j t Hj. exists t. split; [exact Hj|]. cbn. lia.
  - fold (run_threads p sch (system_step p s i)). destruct (same_step s i Hs) as [S1 S2]. destruct (IH _ S1) as [I1 I2]. split; [exact I1|].
    intros j t Hj. destruct (S2 j t Hj) as [t1 [H1 H2]]. destruct (I2 j t1 H1) as [t2 [H3 H4]]. exists t2. split; [exact H3|]. cbn [turns]. lia.
Qed.

Lemma none_left c' t : one_of_them c' t -> (turns_left t = 0 <-> finished t).
Proof.
  intros [_ [_ [_ O]]]. unfold turns_left, finished. destruct (doing t) as [|b s1 w1 s| | | | |]; try destruct O.
  - destruct (todo t); cbn; split; intros K; [auto|reflexivity|lia|destruct K as [_ K]; discriminate K].
  - destruct H0 as [_ [_ [Hp Hs]]]. split; [|intros [K _]; discriminate K]. intros K. exfalso.
    assert (Z : 0 < to_go s). { destruct s; cbn in *; try lia; try (destruct Hp as [_ [Hq _]]; lia). destruct (Hs r). reflexivity. }
    lia.
Qed.
End Same.

Section Wrap.
Context {A : Num}.
Variable p : platform.

Lemma same_calculation d c0 os c sel wgt cF (h : heap) a progs schedule i ws t :
  accepted d -> new_Correlator d = Ok c0 -> after p c0 os c -> ~ In Clear os ->
  run_op p c (Find sel wgt) = (cF, Ok tt) ->
  nth_error h a = Some c ->
  (forall ws w, In ws progs -> In w ws -> w = Call a (Find sel wgt)) ->
  let s := run_threads p schedule (begin h progs) in
  nth_error progs i = Some ws -> nth_error (threads s) i = Some t ->
  (forall r, In r (log t) -> r = Ended (Ok tt)) /\ (log t <> [] -> nth_error (mem s) a = Some cF) /\
  (finished t <-> length ws * (6 * length (lag_timeseries cF) + 6) <= turns i schedule).
Proof.
  intros Ha Hn Hafter Hclr Hrun Hh Hprog s Hws Ht. destruct (new_base d c0 Ha Hn) as [Hbase _].
  destruct (after_inv p c0 os c Hbase Hafter) as [Hinv Hb]. specialize (Hb Hclr). pose proof (inv_semi c0 c Hbase Hinv) as Hsemi.
  cbn [run_op] in Hrun. rewrite (find_any p c sel wgt Hsemi) in Hrun. set (ks := fst (lags_in c)) in *. set (f := named_values p c sel wgt) in *.
  destruct (run_lags f ks 0 c) as [c1 r] eqn:Er. destruct r as [[]|e|u|]; cbn [mbind] in Hrun; try discriminate Hrun.
  assert (Hf : forall kk cs, f kk = Ok cs -> length cs = N_datasets (ds c)) by (intros kk cs; apply named_values_length).
  pose proof (run_lags_res f ks 0 c Hb (Nat.le_0_l _) Hf) as Rr. rewrite Er, Nat.sub_0_r in Rr. cbn [snd] in Rr. symmetry in Rr.
  destruct (mapM_run_res f ks _ Rr) as [vals Hvals]. apply run_res_ok in Rr. destruct Rr as [Hlen _].
  assert (Hpos : 0 < length ks) by (destruct ks; [discriminate Hrun|cbn; lia]).
  assert (Hsnd : snd (lags_in c) = true) by (destruct ks; [discriminate Hrun|]; destruct (snd (lags_in c)); [reflexivity|discriminate Hrun]).
  destruct (run_clean f ks vals c Hb Hlen Hf Hvals) as [K _].
  assert (EF : cF = final c ks vals).
  { rewrite Er in K. cbn [mbind] in K. rewrite Hsnd in Hrun. unfold final. destruct ks; [discriminate Hrun|]. rewrite K in Hrun. injection Hrun as <-. reflexivity. }
  assert (Hlags : exists fuel, gen_list fuel (max_lag c) (lag_resolution c) (gen_start (min_lag c)) = (ks, true)).
  { exists (S (length (timeseries_ c))). unfold gen_start. rewrite (gen_list_lags _ (S (length (timeseries_ c)))) by (try lia; discriminate).
    change (lag_list (S (length (timeseries_ c))) (max_lag c) (lag_resolution c) (min_lag c) false) with (lags_in c). fold ks. destruct Hb as [B1 _].
    rewrite Hsnd. rewrite firstn_all2 by lia. destruct (Nat.ltb_spec (length ks) (S (length (timeseries_ c)))); [reflexivity|lia]. }
  pose proof (same_run p c sel wgt ks vals Hsemi Hb Hlen Hpos Hvals Hlags a schedule (begin h progs)) as R.
  destruct R as [[c' [R1 [R2 R3]]] R4].
  { exists c. split; [exact Hh|]. split; [eapply good_c; eassumption|]. intros j tj Hj. apply begin_nth in Hj. destruct Hj as [w [Hw ->]].
    split; [intros r []|]. split; [intros K0; destruct (K0 eq_refl)|]. split; [|exact I]. cbn. intros x Hx. apply (Hprog w x); [eapply nth_error_In; exact Hw|exact Hx]. }
  destruct (R3 i t Ht) as [O1 [O2 [O3 O4]]]. split; [exact O1|]. split; [intros Hl; rewrite EF, <- (O2 Hl); exact R1|].
  destruct (R4 i {| doing := Idle; todo := ws; log := [] |}) as [t' [T1 T2]]; [apply begin_nth; eauto|]. assert (t' = t) by (unfold s in Ht; congruence). subst t'.
  pose proof (R3 i t Ht) as NL. apply none_left in NL. rewrite <- NL, T2. rewrite EF. unfold turns_left. cbn [todo doing lag_timeseries final set_data timeseries_]. lia. all: eassumption.
Qed.
End Wrap.
