(** The int expressions: when they are in range, and what happens otherwise. *)
From Coq Require Import String.
From Coq Require Import ZArith List Bool Arith Lia.
From Verif Require Import Num Mem MemFacts Spec SpecExt DataStructure Correlator Sacf Api DSFacts CorrFacts LoopFacts MainFacts ItThms StateFacts RelFacts IntIndex.
Import ListNotations.
Local Open Scope list_scope.

Lemma imul_ok a b : (Z.of_nat a * Z.of_nat b <= INT_MAX)%Z -> imul a b = Ok (a * b).
Proof. intros H. unfold imul. destruct (Z.leb_spec (Z.of_nat a * Z.of_nat b) INT_MAX); [reflexivity|lia]. Qed.
Lemma iadd_ok a b : (Z.of_nat a + Z.of_nat b <= INT_MAX)%Z -> iadd a b = Ok (a + b).
Proof. intros H. unfold iadd. destruct (Z.leb_spec (Z.of_nat a + Z.of_nat b) INT_MAX); [reflexivity|lia]. Qed.
Lemma imul_cases a b : imul a b = Ok (a * b) \/ imul a b = UB BadConversion.
Proof. unfold imul. destruct (_ <=? _)%Z; auto. Qed.

Section Facts.
Context {A : Num}.

(** ** one lag *)
Lemma add_loop_fits nls ts cor : forall n j cs, n = 0 \/ (Z.of_nat ts + Z.of_nat nls * Z.of_nat (j + n - 1) <= INT_MAX)%Z ->
  add_loop_int nls ts cor n j cs = add_loop nls ts cor n j cs.
Proof.
  induction n as [|n IH]; intros j cs H; [reflexivity|]. destruct H as [H|H]; [discriminate|]. cbn [add_loop_int add_loop].
  destruct (lget cor j) as [x|e|u|]; cbn [bind]; try reflexivity.
  rewrite imul_ok by nia. cbn [bind]. rewrite iadd_ok by nia. cbn [bind].
  destruct (lset cs (ts + nls * j) x) as [cs'|e|u|]; cbn [bind]; try reflexivity. apply IH. destruct n; [left; reflexivity|right].
  replace (S j + S n - 1) with (j + S (S n) - 1) by lia. exact H.
Qed.

Lemma add_loop_over nls ts cor : forall n j cs r, add_loop nls ts cor n j cs = Ok r -> 0 < n ->
  (INT_MAX < Z.of_nat ts + Z.of_nat nls * Z.of_nat (j + n - 1))%Z -> add_loop_int nls ts cor n j cs = UB BadConversion.
Proof.
  induction n as [|n IH]; intros j cs r E Hn H; [lia|]. cbn [add_loop_int add_loop] in *.
  apply bind_Ok in E. destruct E as [x [E1 E]]. apply bind_Ok in E. destruct E as [cs' [E2 E]]. rewrite E1. cbn [bind].
  unfold imul. destruct (Z.leb_spec (Z.of_nat nls * Z.of_nat j) INT_MAX) as [M|M]; [|reflexivity]. cbn [bind].
  unfold iadd. destruct (Z.leb_spec (Z.of_nat ts + Z.of_nat (nls * j)) INT_MAX) as [P|P]; [|reflexivity]. cbn [bind]. rewrite E2. cbn [bind].
  destruct n as [|n]; [exfalso; replace (j + 1 - 1) with j in H by lia; lia|]. apply (IH (S j) cs' r E); [lia|].
  replace (S j + S n - 1) with (j + S (S n) - 1) by lia. exact H.
Qed.

(** the largest position written at step [i] *)
Definition in_range (c : correlator) (i : nat) : Prop :=
  (Z.of_nat i + Z.of_nat (num_lag_steps c) * Z.of_nat (N_datasets (ds c) - 1) <= INT_MAX)%Z.

Lemma in_range_dec c i : in_range c i \/ ~ in_range c i.
Proof. unfold in_range. lia. Qed.

Lemma add_fits c it i : in_range c i -> addCorrelationData_int c it i = addCorrelationData c it i.
Proof.
  intros H. unfold addCorrelationData_int, addCorrelationData. destruct (lset _ _ _) as [tsv|e|u|]; cbn; try reflexivity.
  rewrite add_loop_fits; [reflexivity|]. destruct (N_datasets (ds c)) eqn:E; [left; reflexivity|right].
  unfold in_range in H. rewrite E in H. cbn [Nat.add]. exact H.
Qed.

Lemma add_over c it i c' : 0 < N_datasets (ds c) -> addCorrelationData c it i = (c', Ok tt) -> ~ in_range c i ->
  snd (addCorrelationData_int c it i) = UB BadConversion.
Proof.
  unfold addCorrelationData_int, addCorrelationData, mlift. intros HN E H. destruct (lset _ _ _) as [tsv|e|u|]; cbn [mbind] in *; try discriminate.
  destruct (add_loop _ _ _ _ _ _) as [cs|e|u|] eqn:E2; cbn [mbind] in E; try discriminate.
  rewrite (add_loop_over _ _ _ _ _ _ _ E2 HN); [reflexivity|]. unfold in_range in H. cbn [Nat.add]. lia.
Qed.

(** the two ways to treat a lag, ending in the storing of the result *)
Definition one_lag (st : correlator -> num -> nat -> meth correlator unit) (st_int : correlator -> num -> nat -> meth correlator unit) : Prop :=
  forall c kk i, (exists it, st c kk i = addCorrelationData c it i /\ st_int c kk i = addCorrelationData_int c it i) \/
    (st_int c kk i = st c kk i /\ fst (st c kk i) = c /\ snd (st c kk i) <> Ok tt).

Lemma on_it_cases c x f g : (forall it, (exists it', f it = addCorrelationData c it' (snd g) /\ fst g it = addCorrelationData_int c it' (snd g)) \/
    (fst g it = f it /\ fst (f it) = c /\ snd (f it) <> Ok tt)) ->
  (exists it, on_it (R := unit) c x f = addCorrelationData c it (snd g) /\ on_it c x (fst g) = addCorrelationData_int c it (snd g)) \/
  (on_it c x (fst g) = on_it c x f /\ fst (on_it c x f) = c /\ snd (on_it c x f) <> Ok tt).
Proof. intros H. unfold on_it. destruct x as [it [[]|e|u|]]; cbn; [apply H|right..]; repeat split; discriminate. Qed.

Lemma one_std p : one_lag (calculateStandardCorrelation_at p) (calculateStandardCorrelation_at_int p).
Proof.
  intros c kk i. unfold calculateStandardCorrelation_at, calculateStandardCorrelation_at_int.
  apply (on_it_cases c _ _ (_, i)). intros it1. cbn [fst snd]. apply (on_it_cases c _ _ (_, i)). intros it2. cbn [fst snd].
  apply (on_it_cases c _ _ (_, i)). intros it3. cbn [fst snd]. left. eauto.
Qed.

Lemma one_find p sel wgt : one_lag (find_correlation_at p sel wgt) (find_correlation_at_int p sel wgt).
Proof.
  intros c kk i. unfold find_correlation_at, find_correlation_at_int. destruct (SELECTION_FUNCTIONS p sel) as [f|]; [|right; repeat split; discriminate].
  apply (on_it_cases c _ _ (_, i)). intros it1. cbn [fst snd]. apply (on_it_cases c _ _ (_, i)). intros it2. cbn [fst snd].
  destruct (WEIGHT_FUNCTIONS wgt) as [w|]; [|right; repeat split; discriminate].
  apply (on_it_cases c _ _ (_, i)). intros it3. cbn [fst snd]. left. eauto.
Qed.

(** buffers whose positions are in range *)
Definition fit (c : correlator) : Prop :=
  (Z.of_nat (N_datasets (ds c)) * Z.of_nat (num_lag_steps c) <= INT_MAX + 1)%Z /\ 0 < N_datasets (ds c) /\
  length (timeseries_ c) <= num_lag_steps c /\ (Z.of_nat (num_lag_steps c) <= INT_MAX)%Z.

Lemma fit_range c i : fit c -> i < length (timeseries_ c) -> in_range c i.
Proof.
  intros [H1 [H2 [H3 H4]]] Hi. unfold in_range. replace (Z.of_nat (N_datasets (ds c) - 1)) with (Z.of_nat (N_datasets (ds c)) - 1)%Z by lia. nia.
Qed.

Lemma fit_next c c' : same_setup c c' -> length (timeseries_ c') = length (timeseries_ c) -> fit c -> fit c'.
Proof. intros [ts [cs ->]] H. unfold fit. cbn. cbn in H. rewrite H. auto. Qed.

Section OneLag.
Context (st st_int : correlator -> num -> nat -> meth correlator unit) (Hst : one_lag st st_int).

Lemma st_fits c kk i : fit c -> st_int c kk i = st c kk i.
Proof.
  intros Hf. destruct (Hst c kk i) as [[it [E1 E2]]|[E _]]; [|exact E]. rewrite E1, E2.
  destruct (Nat.lt_ge_cases i (length (timeseries_ c))) as [Hi|Hi]; [apply add_fits, fit_range; assumption|].
  unfold addCorrelationData_int, addCorrelationData, lset. destruct (Nat.ltb_spec i (length (timeseries_ c))); [lia|]. reflexivity.
Qed.

Lemma st_ok c kk i c' : st c kk i = (c', Ok tt) -> same_setup c c' /\ length (timeseries_ c') = length (timeseries_ c) /\ i < length (timeseries_ c) /\
  (in_range c i -> st_int c kk i = (c', Ok tt)) /\ (0 < N_datasets (ds c) -> ~ in_range c i -> snd (st_int c kk i) = UB BadConversion).
Proof.
  intros E. destruct (Hst c kk i) as [[it [E1 E2]]|[_ [_ E3]]]; [|rewrite E in E3; exfalso; apply E3; reflexivity].
  rewrite E1 in E. destruct (add_cases c it i c' (Ok tt) E) as [H1 [H2 [_ H3]]].
  split; [exact H1|]. split; [exact H2|]. split; [destruct H3 as [[_ H3]|[u H3]]; [exact H3|discriminate]|]. rewrite E2. split.
  - intros H. rewrite add_fits by exact H. exact E.
  - intros HN H. exact (add_over c it i c' HN E H).
Qed.
End OneLag.

(** ** cleaning *)
Lemma clean_loop_fits cs nls i : forall n j copy, n = 0 \/ (Z.of_nat (j + n - 1) * Z.of_nat nls <= INT_MAX)%Z -> i <= nls ->
  clean_loop_int cs nls i n j copy = clean_loop cs nls i n j copy.
Proof.
  induction n as [|n IH]; intros j copy H Hi; [reflexivity|]. destruct H as [H|H]; [discriminate|]. cbn [clean_loop_int clean_loop].
  rewrite !imul_ok by nia. cbn [bind]. destruct (slice _ _ _); cbn [bind]; try reflexivity. destruct (write_slice _ _ _); cbn [bind]; try reflexivity.
  apply IH; [|exact Hi]. destruct n; [left; reflexivity|right]. replace (S j + S n - 1) with (j + S (S n) - 1) by lia. exact H.
Qed.

Lemma clean_loop_either cs nls i : forall n j copy,
  clean_loop_int cs nls i n j copy = clean_loop cs nls i n j copy \/ clean_loop_int cs nls i n j copy = UB BadConversion.
Proof.
  induction n as [|n IH]; intros j copy; [left; reflexivity|]. cbn [clean_loop_int clean_loop].
  destruct (imul_cases j nls) as [->| ->]; cbn [bind]; [|auto]. destruct (imul_cases j i) as [->| ->]; cbn [bind]; [|auto].
  destruct (slice _ _ _); cbn [bind]; auto. destruct (write_slice _ _ _); cbn [bind]; auto.
Qed.

Lemma clean_loop_over cs nls i : forall n j copy, 0 < n -> (INT_MAX < Z.of_nat (j + n - 1) * Z.of_nat nls)%Z ->
  (exists r, clean_loop cs nls i n j copy = Ok r) -> clean_loop_int cs nls i n j copy = UB BadConversion.
Proof.
  induction n as [|n IH]; intros j copy Hn H [r E]; [lia|]. cbn [clean_loop_int clean_loop] in *.
  apply bind_Ok in E. destruct E as [xs [E1 E]]. apply bind_Ok in E. destruct E as [copy' [E2 E]].
  unfold imul at 1. destruct (Z.leb_spec (Z.of_nat j * Z.of_nat nls) INT_MAX) as [M|M]; [|reflexivity]. cbn [bind].
  destruct (imul_cases j i) as [->| ->]; cbn [bind]; [|reflexivity]. rewrite E1. cbn [bind]. rewrite E2. cbn [bind].
  destruct n as [|n]; [exfalso; replace (j + 1 - 1) with j in H by lia; lia|]. apply IH; [lia| |eauto].
  replace (S j + S n - 1) with (j + S (S n) - 1) by lia. exact H.
Qed.

Lemma clean_fits c i : in_range c 0 -> i <= num_lag_steps c -> cleanCorrelationData_int c i = cleanCorrelationData c i.
Proof.
  intros H Hi. unfold cleanCorrelationData_int, cleanCorrelationData. rewrite clean_loop_fits; [reflexivity| |exact Hi].
  destruct (N_datasets (ds c)) eqn:E; [left; reflexivity|right]. unfold in_range in H. rewrite E in H. cbn [Nat.add]. lia.
Qed.

Lemma clean_over c i c' : 0 < N_datasets (ds c) -> cleanCorrelationData c i = (c', Ok tt) -> ~ in_range c 0 -> snd (cleanCorrelationData_int c i) = UB BadConversion.
Proof.
  unfold cleanCorrelationData_int, cleanCorrelationData, mlift. intros HN E H. destruct (clean_loop _ _ _ _ _ _) as [r|e|u|] eqn:E2; cbn [mbind] in E; try discriminate.
  rewrite clean_loop_over; [reflexivity|exact HN| |eauto]. unfold in_range in H. cbn [Nat.add]. lia.
Qed.

(** ** reading the results *)
Lemma correlations_fits c : (Z.of_nat (N_datasets (ds c)) * Z.of_nat (num_lag_steps c) <= INT_MAX + 1)%Z -> correlations_int c = correlations c.
Proof.
  intros H. unfold correlations_int, correlations. apply mapM_ext. intros j Hj. apply in_seq in Hj. apply mapM_ext. intros i Hi. apply in_seq in Hi.
  rewrite imul_ok by nia. cbn [bind]. rewrite iadd_ok by nia. reflexivity.
Qed.

(** ** the loops *)
Lemma std_loop_fits p : forall fuel kk pos i c, fit c -> std_loop_int p fuel kk pos i c = std_loop p fuel kk pos i c.
Proof.
  induction fuel as [|fuel IH]; intros kk pos i c Hf; [reflexivity|]. cbn [std_loop_int std_loop]. destruct (nle kk (max_lag c)); [|reflexivity]. cbv zeta.
  assert (S1 : forall c kk i f g, fit c -> (forall c', fit c' -> i < length (timeseries_ c') -> f c' tt = g c' tt) ->
     mbind (calculateStandardCorrelation_at_int p c kk i) f = mbind (R := unit) (Q := nat) (calculateStandardCorrelation_at p c kk i) g).
  { intros c1 k1 i1 f g Hf1 K. rewrite (st_fits _ _ (one_std p)) by exact Hf1.
    destruct (calculateStandardCorrelation_at p c1 k1 i1) as [c' [[]|e|u|]] eqn:E; cbn [mbind]; try reflexivity.
    destruct (st_ok _ _ (one_std p) _ _ _ _ E) as [Q1 [Q2 [Q3 _]]]. apply K; [eapply fit_next; eassumption|]. rewrite Q2. exact Q3. }
  destruct (nlt nzero kk && negb (if neqb kk nzero then true else pos)).
  - apply S1; [exact Hf|]. intros c1 Hf1 H1. unfold mlift. rewrite iadd_ok by (destruct Hf1 as [_ [_ [? ?]]]; lia). cbn [mbind].
    replace (i + 1) with (S i) by lia. apply S1; [exact Hf1|]. intros c2 Hf2 H2. rewrite iadd_ok by (destruct Hf2 as [_ [_ [? ?]]]; lia). cbn [mbind].
    replace (S i + 1) with (S (S i)) by lia. apply IH. exact Hf2.
  - apply S1; [exact Hf|]. intros c1 Hf1 H1. unfold mlift. rewrite iadd_ok by (destruct Hf1 as [_ [_ [? ?]]]; lia). cbn [mbind].
    replace (i + 1) with (S i) by lia. apply IH. exact Hf1.
Qed.

Lemma setup_range c c' i : same_setup c c' -> in_range c' i <-> in_range c i.
Proof. intros [ts [cs ->]]. reflexivity. Qed.

Lemma setup_sizes c c' : same_setup c c' -> num_lag_steps c' = num_lag_steps c /\ ds c' = ds c.
Proof. intros [ts [cs ->]]. split; reflexivity. Qed.

Lemma range_le c i j : j <= i -> in_range c i -> in_range c j.
Proof. unfold in_range. lia. Qed.

(** what is known of a loop that ends normally *)
Definition exactly (c c' : correlator) (i L : nat) (x : correlator * res nat) (y : correlator * res nat) : Prop :=
  same_setup c c' /\ length (timeseries_ c') = length (timeseries_ c) /\ i <= L /\ (i < L -> L <= length (timeseries_ c)) /\
  (L = i \/ in_range c (L - 1) -> x = y) /\
  (0 < N_datasets (ds c) -> i < L -> ~ in_range c (L - 1) -> snd x = UB BadConversion).

Lemma std_loop_exact p : forall fuel kk pos i c c' L, (Z.of_nat (length (timeseries_ c)) <= INT_MAX)%Z ->
  std_loop p fuel kk pos i c = (c', Ok L) -> exactly c c' i L (std_loop_int p fuel kk pos i c) (c', Ok L).
Proof.
  induction fuel as [|fuel IH]; intros kk pos i c c' L Hm E; [discriminate|]. cbn [std_loop_int std_loop] in *. cbv zeta in *.
  destruct (nle kk (max_lag c)).
  2: { injection E as <- <-. split; [apply same_setup_refl|]. split; [reflexivity|]. split; [lia|]. split; [lia|]. split; [reflexivity|lia]. }
  assert (S1 : forall c i kk c1 f (g : nat -> _) L, (Z.of_nat (length (timeseries_ c)) <= INT_MAX)%Z -> calculateStandardCorrelation_at p c kk i = (c1, Ok tt) ->
     (forall i1, f c1 tt i1 = g i1) -> exactly c1 c' (S i) L (g (S i)) (c', Ok L) ->
     exactly c c' i L (mbind (calculateStandardCorrelation_at_int p c kk i) (fun c1 u => mlift c1 (iadd i 1) (f c1 u))) (c', Ok L)).
  { clear. intros c i kk c1 f g L Hm E Hg [K1 [K2 [K3 [K4 [K5 K6]]]]].
    destruct (st_ok _ _ (one_std p) _ _ _ _ E) as [Q1 [Q2 [Q3 [Q4 Q5]]]].
    destruct (setup_sizes _ _ Q1) as [Z1 Z2].
    split; [eapply same_setup_trans; eassumption|]. split; [congruence|]. split; [lia|]. split; [intros _; destruct (Nat.eq_dec L (S i)); [lia|rewrite <- Q2; apply K4; lia]|].
    split.
    - intros H. assert (Hr : in_range c (L - 1)) by (destruct H as [H|H]; [lia|exact H]).
      rewrite Q4 by (apply (range_le c (L - 1)); [lia|exact Hr]). cbn [mbind]. unfold mlift. rewrite iadd_ok by lia. cbn [mbind]. rewrite Hg.
      replace (i + 1) with (S i) by lia. apply K5. right. apply (setup_range c c1); assumption.
    - intros HN Hi Hr. destruct (in_range_dec c i) as [Ri|Ri].
      + rewrite Q4 by exact Ri. cbn [mbind]. unfold mlift. rewrite iadd_ok by lia. cbn [mbind]. rewrite Hg. replace (i + 1) with (S i) by lia.
        apply K6; [rewrite Z2; exact HN| |rewrite (setup_range c c1); assumption].
        destruct (Nat.eq_dec L (S i)) as [->|]; [|lia]. exfalso. apply Hr. replace (S i - 1) with i by lia. exact Ri.
      + specialize (Q5 HN Ri). destruct (calculateStandardCorrelation_at_int p c kk i) as [c2 r]. cbn in Q5. subst r. reflexivity. }
  destruct (nlt nzero kk && negb (if neqb kk nzero then true else pos)).
  - apply mbind_Ok_inv in E. destruct E as [c1 [[] [E1 E]]]. apply mbind_Ok_inv in E. destruct E as [c2 [[] [E2 E]]].
    destruct (st_ok _ _ (one_std p) _ _ _ _ E1) as [_ [Q2 _]]. destruct (st_ok _ _ (one_std p) _ _ _ _ E2) as [_ [Q2' _]].
    eapply (S1 c i nzero c1 _ _ L Hm E1); [intros i1; reflexivity|].
    eapply (S1 c1 (S i) kk c2 (fun c2 _ i2 => std_loop_int p fuel (nadd kk (lag_resolution c)) true i2 c2)); [rewrite Q2; exact Hm|exact E2|intros i1; reflexivity|].
    apply IH; [rewrite Q2', Q2; exact Hm|exact E].
  - apply mbind_Ok_inv in E. destruct E as [c1 [[] [E1 E]]].
    destruct (st_ok _ _ (one_std p) _ _ _ _ E1) as [_ [Q2 _]].
    eapply (S1 c i kk c1 (fun c1 _ i1 => std_loop_int p fuel (nadd kk (lag_resolution c)) (if neqb kk nzero then true else pos) i1 c1)); [exact Hm|exact E1|intros i1; reflexivity|].
    apply IH; [rewrite Q2; exact Hm|exact E].
Qed.

Lemma find_loop_fits p sel wgt : forall fuel maxl resl g n last c, fit c ->
  find_loop_int p sel wgt fuel maxl resl g n last c = find_loop p sel wgt fuel maxl resl g n last c.
Proof.
  induction fuel as [|fuel IH]; intros maxl resl g n last c Hf; [reflexivity|]. cbn [find_loop_int find_loop].
  destruct (gen_next maxl resl g) as [[kk g']|]; [|reflexivity]. rewrite (st_fits _ _ (one_find p sel wgt)) by exact Hf.
  destruct (find_correlation_at p sel wgt c kk n) as [c' [[]|e|u|]] eqn:E; cbn [mbind]; try reflexivity.
  destruct (st_ok _ _ (one_find p sel wgt) _ _ _ _ E) as [Q1 [Q2 _]]. apply IH. eapply fit_next; eassumption.
Qed.

Lemma find_loop_exact p sel wgt : forall fuel maxl resl g n last c c' last', 
  find_loop p sel wgt fuel maxl resl g n last c = (c', Ok last') ->
  (c' = c /\ last' = last /\ find_loop_int p sel wgt fuel maxl resl g n last c = (c', Ok last')) \/
  exists L, last' = Some (L - 1) /\ n < L /\ same_setup c c' /\ length (timeseries_ c') = length (timeseries_ c) /\ L <= length (timeseries_ c) /\
    (in_range c (L - 1) -> find_loop_int p sel wgt fuel maxl resl g n last c = (c', Ok last')) /\
    (0 < N_datasets (ds c) -> ~ in_range c (L - 1) -> snd (find_loop_int p sel wgt fuel maxl resl g n last c) = UB BadConversion).
Proof.
  induction fuel as [|fuel IH]; intros maxl resl g n last c c' last' E; [discriminate|]. cbn [find_loop_int find_loop] in *.
  destruct (gen_next maxl resl g) as [[kk g']|]; [|injection E as <- <-; left; auto]. right.
  apply mbind_Ok_inv in E. destruct E as [c1 [[] [E1 E]]]. destruct (st_ok _ _ (one_find p sel wgt) _ _ _ _ E1) as [Q1 [Q2 [Q3 [Q4 Q5]]]].
  destruct (setup_sizes _ _ Q1) as [Z1 Z2].
  assert (Over : 0 < N_datasets (ds c) -> ~ in_range c n -> forall f : correlator -> unit -> meth correlator (option nat), snd (mbind (find_correlation_at_int p sel wgt c kk n) f) = UB BadConversion).
  { intros HN Hr f. specialize (Q5 HN Hr). destruct (find_correlation_at_int p sel wgt c kk n) as [c2 r]. cbn in Q5. subst r. reflexivity. }
  destruct (IH _ _ _ _ _ _ _ _ E) as [[-> [-> E']]|[L [-> [H1 [H2 [H3 [H4 [H5 H6]]]]]]]].
  - exists (S n). replace (S n - 1) with n by lia. split; [reflexivity|]. split; [lia|]. split; [exact Q1|]. split; [exact Q2|]. split; [lia|]. split.
    + intros Hr. rewrite Q4 by exact Hr. exact E'.
    + intros HN Hr. apply Over; assumption.
  - exists L. split; [reflexivity|]. split; [lia|]. split; [eapply same_setup_trans; eassumption|]. split; [congruence|]. split; [lia|]. split.
    + intros Hr. rewrite Q4 by (apply (range_le c (L - 1)); [lia|exact Hr]). apply H5. apply (setup_range c c1); assumption.
    + intros HN Hr. destruct (in_range_dec c n) as [Rn|Rn]; [|apply Over; assumption].
      rewrite Q4 by exact Rn. apply H6; [rewrite Z2; exact HN|rewrite (setup_range c c1); assumption].
Qed.

(** ** whole calculations *)
Lemma fit_zero c : fit c -> in_range c 0.
Proof. intros [H1 [H2 [H3 H4]]]. unfold in_range. replace (Z.of_nat (N_datasets (ds c) - 1)) with (Z.of_nat (N_datasets (ds c)) - 1)%Z by lia. nia. Qed.

Lemma calculate_fits p c : fit c -> calculateStandardCorrelation_int p c = calculateStandardCorrelation p c.
Proof.
  intros Hf. unfold calculateStandardCorrelation_int, calculateStandardCorrelation. rewrite std_loop_fits by exact Hf.
  destruct (std_loop _ _ _ _ _ _) as [c1 [L|e|u|]] eqn:E; cbn [mbind]; try reflexivity.
  assert (Hm : (Z.of_nat (length (timeseries_ c)) <= INT_MAX)%Z) by (destruct Hf as [_ [_ [? ?]]]; lia).
  destruct (std_loop_exact p _ _ _ _ _ _ _ Hm E) as [K1 [K2 [K3 [K4 _]]]]. pose proof (fit_next _ _ K1 K2 Hf) as Hf1.
  apply clean_fits; [apply fit_zero; exact Hf1|]. destruct Hf1 as [_ [_ [H _]]]. destruct (Nat.eq_dec L 0); [lia|]. specialize (K4 ltac:(lia)). lia.
Qed.

Lemma find_fits p c sel wgt : fit c -> find_correlation_int p c sel wgt = find_correlation p c sel wgt.
Proof.
  intros Hf. unfold find_correlation_int, find_correlation. rewrite find_loop_fits by exact Hf.
  destruct (find_loop _ _ _ _ _ _ _ _ _ _) as [c1 [last|e|u|]] eqn:E; cbn [mbind]; try reflexivity.
  destruct (find_loop_exact _ _ _ _ _ _ _ _ _ _ _ _ E) as [[-> [-> _]]|[L [-> [H1 [H2 [H3 [H4 _]]]]]]]; [reflexivity|].
  pose proof (fit_next _ _ H2 H3 Hf) as Hf1. apply clean_fits; [apply fit_zero; exact Hf1|]. destruct Hf1 as [_ [_ [H _]]]. lia.
Qed.

Lemma add_same c it i : fit c -> addCorrelationData_int c it i = addCorrelationData c it i.
Proof.
  intros Hf. destruct (Nat.lt_ge_cases i (length (timeseries_ c))) as [Hi|Hi]; [apply add_fits, fit_range; assumption|].
  unfold addCorrelationData_int, addCorrelationData, lset. destruct (Nat.ltb_spec i (length (timeseries_ c))); [lia|]. reflexivity.
Qed.

Lemma clean_either c i : cleanCorrelationData_int c i = cleanCorrelationData c i \/ snd (cleanCorrelationData_int c i) = UB BadConversion.
Proof.
  unfold cleanCorrelationData_int, cleanCorrelationData. destruct (clean_loop_either (correlations_ c) (num_lag_steps c) i (N_datasets (ds c)) 0 (repeat nzero (N_datasets (ds c) * i))) as [->| ->];
    [left; reflexivity|right; reflexivity].
Qed.

Lemma op_fits p c0 c o : base c0 -> inv c0 c -> fit c ->
  run_op_int p c o = run_op p c o \/ exists i u v, o = CleanData i /\ snd (run_op_int p c o) = UB u /\ snd (run_op p c o) = UB v.
Proof.
  intros H0 Hi Hf. destruct o; cbn [run_op_int run_op]; try (left; reflexivity).
  - left. apply calculate_fits. exact Hf.
  - left. apply find_fits. exact Hf.
  - left. destruct (i <? 0)%Z; [reflexivity|]. apply add_same. exact Hf.
  - destruct (Z.ltb_spec i 0); [left; reflexivity|]. destruct (cleanCorrelationData c (Z.to_nat i)) as [c' r] eqn:E.
    destruct (clean_inv c0 c _ c' r H0 Hi E) as [[-> [_ [_ Hle]]]|[u ->]].
    + left. rewrite clean_fits; [exact E|apply fit_zero; exact Hf|]. destruct Hf as [_ [_ [Hl _]]]. lia.
    + destruct (clean_either c (Z.to_nat i)) as [Q|Q]; [left; congruence|right]. exists i, BadConversion, u. auto.
Qed.

Lemma fit_inv c0 c : base c0 -> inv c0 c -> (Z.of_nat (N_datasets (ds c0)) * Z.of_nat (num_lag_steps c0) <= INT_MAX + 1)%Z ->
  (Z.of_nat (num_lag_steps c0) <= INT_MAX)%Z -> fit c.
Proof.
  intros [_ HN] [H1 [_ [H2 H3]]] H4 H5. unfold fit. rewrite H1. split; [nia|]. split; [exact HN|]. split; [|lia].
  destruct H3 as [[H3 _]|[-> _]]; [lia|cbn; lia].
Qed.

(** the number of steps of a new correlator is an int *)
Lemma new_steps d c0 : accepted d -> new_Correlator d = Ok c0 ->
  length (lag_timeseries c0) = num_lag_steps c0 /\ (Z.of_nat (num_lag_steps c0) <= INT_MAX)%Z.
Proof.
  intros Ha Hn. split; [destruct (new_base d c0 Ha Hn) as [[[_ [_ [H _]]] _] _]; exact H|].
  unfold new_Correlator in Hn. apply bind_Ok in Hn. destruct Hn as [N [_ Hn]]. apply bind_Ok in Hn. destruct Hn as [m [_ Hn]]. cbv zeta in Hn.
  apply bind_Ok in Hn. destruct Hn as [q [_ Hn]]. apply bind_Ok in Hn. destruct Hn as [nls [E Hn]].
  destruct (Z.ltb_spec nls 0); [discriminate|]. injection Hn as <-. cbn [num_lag_steps].
  unfold int_add in E. destruct (in_int (q + 3)) eqn:B; [|discriminate]. injection E as <-. unfold in_int in B. apply andb_true_iff in B. destruct B as [_ B]. apply Z.leb_le in B. lia.
Qed.

(** ** the exact condition *)
Lemma calculate_exact p c c' : (Z.of_nat (length (timeseries_ c)) <= INT_MAX)%Z -> 0 < N_datasets (ds c) -> length (timeseries_ c) <= num_lag_steps c ->
  calculateStandardCorrelation p c = (c', Ok tt) ->
  let L := length (timeseries_ c') in
  (in_range c (L - 1) -> calculateStandardCorrelation_int p c = (c', Ok tt)) /\
  (~ in_range c (L - 1) -> snd (calculateStandardCorrelation_int p c) = UB BadConversion) /\
  num_lag_steps c' = L /\ L <= num_lag_steps c /\ ds c' = ds c.
Proof.
  intros Hm HN Hl E. unfold calculateStandardCorrelation, calculateStandardCorrelation_int in *.
  apply mbind_Ok_inv in E. destruct E as [c1 [L [E1 E]]]. destruct (std_loop_exact p _ _ _ _ _ _ _ Hm E1) as [K1 [K2 [K3 [K4 [K5 K6]]]]].
  destruct (setup_sizes _ _ K1) as [Z1 Z2].
  assert (HL : L <= num_lag_steps c1) by (destruct (Nat.eq_dec L 0); [lia|specialize (K4 ltac:(lia)); lia]).
  destruct (clean_cases c1 L) as [[ts [cs [E' [L1 [L2 L3]]]]]|[u Hu]]; [|rewrite E in Hu; discriminate].
  pose proof E as E2. rewrite E' in E. injection E as <-. cbn [timeseries_ set_data num_lag_steps ds]. cbv zeta. rewrite L1.
  split; [|split; [|split; [reflexivity|split; [lia|exact Z2]]]].
  - intros Hr. rewrite K5 by (right; exact Hr). cbn [mbind]. rewrite clean_fits; [exact E'| |exact HL].
    apply (setup_range c c1); [exact K1|]. apply (range_le c (L - 1)); [lia|exact Hr].
  - intros Hr. destruct (Nat.eq_dec L 0) as [->|HL0]; [|specialize (K6 HN ltac:(lia) Hr); destruct (std_loop_int _ _ _ _ _ _) as [c2 r]; cbn in K6; subst r; reflexivity].
    rewrite K5 by (left; reflexivity). cbn [mbind]. apply (clean_over c1 0 _ ltac:(rewrite Z2; exact HN) E2).
    rewrite (setup_range c c1) by exact K1. exact Hr.
Qed.

Lemma find_exact p sel wgt c c' : 0 < N_datasets (ds c) -> length (timeseries_ c) <= num_lag_steps c ->
  find_correlation p c sel wgt = (c', Ok tt) ->
  let L := length (timeseries_ c') in
  (in_range c (L - 1) -> find_correlation_int p c sel wgt = (c', Ok tt)) /\
  (~ in_range c (L - 1) -> snd (find_correlation_int p c sel wgt) = UB BadConversion) /\
  num_lag_steps c' = L /\ L <= num_lag_steps c /\ ds c' = ds c.
Proof.
  intros HN Hl E. unfold find_correlation, find_correlation_int in *.
  apply mbind_Ok_inv in E. destruct E as [c1 [last [E1 E]]].
  destruct (find_loop_exact _ _ _ _ _ _ _ _ _ _ _ _ E1) as [[-> [-> _]]|[L [-> [H1 [H2 [H3 [H4 [H5 H6]]]]]]]]; [discriminate|].
  destruct (setup_sizes _ _ H2) as [Z1 Z2]. replace (L - 1 + 1) with L in * by lia.
  destruct (clean_cases c1 L) as [[ts [cs [E' [L1 [L2 L3]]]]]|[u Hu]]; [|rewrite E in Hu; discriminate].
  rewrite E' in E. injection E as <-. cbn [timeseries_ set_data num_lag_steps ds]. cbv zeta. rewrite L1.
  split; [|split; [|split; [reflexivity|split; [lia|exact Z2]]]].
  - intros Hr. rewrite H5 by exact Hr. cbn [mbind]. replace (L - 1 + 1) with L by lia. rewrite clean_fits; [exact E'| |lia].
    apply (setup_range c c1); [exact H2|]. apply (range_le c (L - 1)); [lia|exact Hr].
  - intros Hr. specialize (H6 HN Hr). destruct (find_loop_int _ _ _ _ _ _ _ _ _ _) as [c2 r]. cbn in H6. subst r. reflexivity.
Qed.

Definition the_call (p : platform) (c : correlator) (sel wgt : string) : meth correlator unit :=
  if String.eqb sel "natural"%string && String.eqb wgt "fractional"%string then calculateStandardCorrelation p c else find_correlation p c sel wgt.
Definition the_call_int (p : platform) (c : correlator) (sel wgt : string) : meth correlator unit :=
  if String.eqb sel "natural"%string && String.eqb wgt "fractional"%string then calculateStandardCorrelation_int p c else find_correlation_int p c sel wgt.

Lemma call_exact p c sel wgt c' : (Z.of_nat (length (timeseries_ c)) <= INT_MAX)%Z -> 0 < N_datasets (ds c) -> length (timeseries_ c) <= num_lag_steps c ->
  the_call p c sel wgt = (c', Ok tt) ->
  let L := length (timeseries_ c') in
  (in_range c (L - 1) -> the_call_int p c sel wgt = (c', Ok tt)) /\
  (~ in_range c (L - 1) -> snd (the_call_int p c sel wgt) = UB BadConversion) /\
  num_lag_steps c' = L /\ L <= num_lag_steps c /\ ds c' = ds c.
Proof.
  intros Hm HN Hl. unfold the_call, the_call_int. destruct (_ && _)%bool; intros E; [apply calculate_exact|apply find_exact]; assumption.
Qed.

Lemma call_fits p c sel wgt : fit c -> the_call_int p c sel wgt = the_call p c sel wgt.
Proof. intros H. unfold the_call, the_call_int. destruct (_ && _)%bool; [apply calculate_fits|apply find_fits]; exact H. Qed.

Lemma result_fits c : (Z.of_nat (N_datasets (ds c)) * Z.of_nat (num_lag_steps c) <= INT_MAX + 1)%Z -> result_of_int c = result_of c.
Proof. intros H. unfold result_of_int, result_of. rewrite correlations_fits by exact H. reflexivity. Qed.

Lemma up_same c mi ma re al : let c1 := set_up_correlation c mi ma re al in
  ds c1 = ds c /\ timeseries_ c1 = timeseries_ c /\ num_lag_steps c1 = num_lag_steps c /\ correlations_ c1 = correlations_ c.
Proof. destruct mi, ma, re, al; repeat split. Qed.

Lemma autocorrelation_exact p d c0 mi ma re al sel wgt lags corr c : accepted d -> new_Correlator d = Ok c0 ->
  autocorrelation p d mi ma re al sel wgt = Ok (lags, corr, c) ->
  autocorrelation_int p d mi ma re al sel wgt =
  if (Z.of_nat (N_datasets d - 1) * Z.of_nat (length (lag_timeseries c0)) + Z.of_nat (length lags - 1) <=? INT_MAX)%Z
  then Ok (lags, corr, c) else UB BadConversion.
Proof.
  intros Ha Hn E. destruct (new_base d c0 Ha Hn) as [[H0 HN] Hd]. destruct (new_steps d c0 Ha Hn) as [Hs Hm]. rewrite Hs.
  unfold autocorrelation, autocorrelation_int in *. rewrite Hn in *. cbn [bind] in *. cbv zeta in *.
  destruct (up_same c0 mi ma re al) as [U1 [U2 [U3 U4]]]. set (c1 := set_up_correlation c0 mi ma re al) in *.
  change (if String.eqb sel "natural"%string && String.eqb wgt "fractional"%string then calculateStandardCorrelation p c1 else find_correlation p c1 sel wgt)
    with (the_call p c1 sel wgt) in E.
  change (if String.eqb sel "natural"%string && String.eqb wgt "fractional"%string then calculateStandardCorrelation_int p c1 else find_correlation_int p c1 sel wgt)
    with (the_call_int p c1 sel wgt).
  assert (Hl : length (timeseries_ c1) = num_lag_steps c1) by (rewrite U2, U3; exact Hs).
  destruct (the_call p c1 sel wgt) as [c2 [[]|e|u|]] eqn:E1; cbn [fst snd bind] in E; try discriminate.
  destruct (result_of c2) as [[lg cr]|e|u|] eqn:E2; cbn [bind fst snd] in E; try discriminate. injection E as <- <- <-.
  assert (Hlg : lg = timeseries_ c2).
  { unfold result_of in E2. apply bind_Ok in E2. destruct E2 as [cs [_ E2]]. destruct (1 <? length cs); [injection E2 as <- _; reflexivity|].
    destruct cs; [discriminate|]. injection E2 as <- _. reflexivity. }
  destruct (call_exact p c1 sel wgt c2) as [K1 [K2 [K3 [K4 K5]]]]; [rewrite Hl, U3; exact Hm|rewrite U1; exact HN|lia|exact E1|].
  rewrite <- Hlg in *.
  assert (Hrange : in_range c1 (length lg - 1) <-> (Z.of_nat (N_datasets d - 1) * Z.of_nat (num_lag_steps c0) + Z.of_nat (length lg - 1) <= INT_MAX)%Z).
  { unfold in_range. rewrite U1, U3, Hd. lia. }
  destruct (Z.leb_spec (Z.of_nat (N_datasets d - 1) * Z.of_nat (num_lag_steps c0) + Z.of_nat (length lg - 1)) INT_MAX) as [Q|Q].
  - rewrite K1 by (apply Hrange; exact Q). cbn [fst snd bind]. rewrite result_fits; [rewrite E2; reflexivity|].
    rewrite K3, K5, U1, Hd. rewrite Hd in HN. rewrite U3 in K4. destruct (length lg) as [|L] eqn:EL; [lia|]. replace (S L - 1) with L in Q by lia.
    replace (Z.of_nat (N_datasets d)) with (Z.of_nat (N_datasets d - 1) + 1)%Z by lia. nia.
  - rewrite K2 by (rewrite Hrange; lia). reflexivity.
Qed.

Lemma autocorrelation_fits p d c0 mi ma re al sel wgt : accepted d -> new_Correlator d = Ok c0 ->
  (Z.of_nat (N_datasets d) * Z.of_nat (length (lag_timeseries c0)) <= INT_MAX + 1)%Z ->
  autocorrelation_int p d mi ma re al sel wgt = autocorrelation p d mi ma re al sel wgt.
Proof.
  intros Ha Hn Hf. destruct (new_base d c0 Ha Hn) as [Hb Hd]. destruct (new_steps d c0 Ha Hn) as [Hs Hm]. rewrite Hs in Hf. rewrite <- Hd in Hf.
  destruct Hb as [H0 HN].
  assert (Ff : fit c0) by (apply (fit_inv c0 c0); [split; assumption|apply inv_refl; split; assumption|exact Hf|exact Hm]).
  unfold autocorrelation, autocorrelation_int. rewrite Hn. cbn [bind]. cbv zeta.
  destruct (up_same c0 mi ma re al) as [U1 [U2 [U3 U4]]]. set (c1 := set_up_correlation c0 mi ma re al) in *.
  assert (Fc : fit c1) by (unfold fit in *; rewrite U1, U2, U3; exact Ff).
  change (if String.eqb sel "natural"%string && String.eqb wgt "fractional"%string then calculateStandardCorrelation p c1 else find_correlation p c1 sel wgt)
    with (the_call p c1 sel wgt).
  change (if String.eqb sel "natural"%string && String.eqb wgt "fractional"%string then calculateStandardCorrelation_int p c1 else find_correlation_int p c1 sel wgt)
    with (the_call_int p c1 sel wgt).
  rewrite call_fits by exact Fc. destruct (the_call p c1 sel wgt) as [c2 [[]|e|u|]] eqn:E1; cbn [fst snd bind]; try reflexivity.
  destruct (call_exact p c1 sel wgt c2) as [K1 [K2 [K3 [K4 K5]]]]; [rewrite U2; change (timeseries_ c0) with (lag_timeseries c0); rewrite Hs; exact Hm|rewrite U1; exact HN|rewrite U2, U3; change (timeseries_ c0) with (lag_timeseries c0); rewrite Hs; lia|exact E1|].
  rewrite result_fits; [reflexivity|]. rewrite K3, K5, U1. rewrite U3 in K4. nia.
Qed.

Lemma history_fits p d c0 os c o : accepted d -> new_Correlator d = Ok c0 ->
  (Z.of_nat (N_datasets d) * Z.of_nat (length (lag_timeseries c0)) <= INT_MAX + 1)%Z -> after p c0 os c ->
  run_op_int p c o = run_op p c o \/ exists i u v, o = CleanData i /\ snd (run_op_int p c o) = UB u /\ snd (run_op p c o) = UB v.
Proof.
  intros Ha Hn Hf H. destruct (new_base d c0 Ha Hn) as [Hb Hd]. destruct (new_steps d c0 Ha Hn) as [Hs Hm]. rewrite Hs in Hf. rewrite <- Hd in Hf.
  destruct (after_inv p c0 os c Hb H) as [Hi _]. apply (op_fits p c0 c o Hb Hi). apply (fit_inv c0 c Hb Hi); assumption.
Qed.

Lemma history_reads p d c0 os c : accepted d -> new_Correlator d = Ok c0 ->
  (Z.of_nat (N_datasets d) * Z.of_nat (length (lag_timeseries c0)) <= INT_MAX + 1)%Z -> after p c0 os c ->
  correlations_int c = correlations c.
Proof.
  intros Ha Hn Hf H. destruct (new_base d c0 Ha Hn) as [Hb Hd]. destruct (new_steps d c0 Ha Hn) as [Hs Hm]. rewrite Hs in Hf. rewrite <- Hd in Hf.
  destruct (after_inv p c0 os c Hb H) as [Hi _]. apply correlations_fits. apply (fit_inv c0 c Hb Hi Hf Hm).
Qed.

End Facts.
