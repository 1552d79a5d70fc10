(** Proofs about interrupted calculations. *)
From Coq Require Import String.
From Coq Require Import ZArith List Bool Arith Lia.
From Verif Require Import Num Mem MemFacts Spec DataStructure Correlator Sacf Api CorrFacts LoopFacts MainFacts StateFacts RelFacts ConstrFacts AllocThms.
From Verif Require Import Threads ThreadFacts ThreadShared ThreadSame Interrupt.
Import ListNotations.
Local Open Scope list_scope.

Section Facts.
Context {A : Num}.
Variable p : platform.

Lemma find_steps_add sel wgt n : forall m x, find_steps p sel wgt (n + m) x = find_steps p sel wgt m (find_steps p sel wgt n x).
Proof. induction n as [|n IH]; intros m x; [reflexivity|]. cbn [Nat.add find_steps]. apply IH. Qed.
Lemma find_steps_stop sel wgt n : forall c r, find_steps p sel wgt n (c, Stop r) = (c, Stop r).
Proof. induction n as [|n IH]; intros c r; [reflexivity|]. cbn [find_steps fst snd find_step]. apply IH. Qed.

(** ** uncut *)
Lemma find_ends sel wgt k : forall c s, ok_find c s -> steps_left (len c) s <= k ->
  exists n c' r, find_steps p sel wgt n (c, s) = (c', Stop r) /\ rest_find p sel wgt c s = (c', r).
Proof.
  induction k as [|k IH]; intros c s Ho Hk.
  - destruct s; cbn [steps_left] in Hk; try lia. exists 0, c, r. split; reflexivity.
  - destruct (find_step p sel wgt c s) as [c1 s1] eqn:E.
    destruct (find_step_rest p sel wgt c s c1 s1 Ho E) as [[R [O1 L]]|[R [r Hr]]].
    + assert (K : (exists r, s = Stop r) \/ forall r, s <> Stop r) by (destruct s; try (right; intros r0 C; discriminate C); left; eauto).
      destruct K as [[r ->]|K]; [exists 0, c, r; split; reflexivity|].
      destruct (find_step_fewer p sel wgt c s c1 s1 Ho E K) as [F|[r ->]].
      * destruct (IH c1 s1 O1) as [n [c' [r [N1 N2]]]]; [lia|]. exists (S n), c', r. split; [cbn [find_steps fst snd]; rewrite E; exact N1|]. rewrite <- R. exact N2.
      * exists 1, c1, r. split; [cbn [find_steps fst snd]; exact E|]. rewrite <- R. reflexivity.
    + subst s1. exists 1, c1, r. split; [cbn [find_steps fst snd]; exact E|exact R].
Qed.

Lemma uncut c sel wgt c' r : find_correlation p c sel wgt = (c', r) <-> exists n, find_steps p sel wgt n (c, ReadMin) = (c', Stop r).
Proof.
  destruct (find_ends sel wgt (steps_left (len c) ReadMin) c ReadMin I (le_n _)) as [n [c1 [r1 [N1 N2]]]]. cbn [rest_find] in N2. split.
  - intros E. exists n. congruence.
  - intros [m Hm]. rewrite N2. destruct (Nat.le_ge_cases n m) as [L|L].
    + replace m with (n + (m - n)) in Hm by lia. rewrite find_steps_add, N1, find_steps_stop in Hm. congruence.
    + replace n with (m + (n - m)) in N1 by lia. rewrite find_steps_add, Hm, find_steps_stop in N1. congruence.
Qed.

(** ** what a cut call leaves *)
Definition kept (c c' : correlator) : Prop :=
  same_settings c c' /\ num_lag_steps c' = num_lag_steps c /\ length (timeseries_ c') = length (timeseries_ c) /\ length (correlations_ c') = length (correlations_ c).
Lemma kept_refl c : kept c c.
Proof. repeat split. Qed.
Lemma kept_trans c c1 c2 : kept c c1 -> kept c1 c2 -> kept c c2.
Proof. unfold kept, same_settings. intros [[a1 [a2 [a3 [a4 [a5 a6]]]]] [a7 [a8 a9]]] [[b1 [b2 [b3 [b4 [b5 b6]]]]] [b7 [b8 b9]]]. repeat split; congruence. Qed.

Lemma step_kept sel wgt c s c' s' : find_step p sel wgt c s = (c', s') -> (forall r, s' <> Stop r) -> kept c c'.
Proof.
  intros E Hs. destruct s; cbn [find_step] in E; try (injection E as <- _; apply kept_refl).
  - destruct (gen_next (l_max l) (l_res l) (l_gen l)) as [[kk g]|]; injection E as <- _; apply kept_refl.
  - destruct (addCorrelationData c it (l_count l)) as [c1 r] eqn:Ea. injection E as <- _. apply add_cases in Ea. destruct Ea as [[ts [cs ->]] [L1 [L2 _]]]. repeat split; assumption.
  - destruct (cleanCorrelationData c n) as [c1 r]. injection E as _ <-. destruct (Hs r). reflexivity.
Qed.
Lemma steps_kept sel wgt n : forall c s c' s', find_steps p sel wgt n (c, s) = (c', s') -> (forall r, s' <> Stop r) -> kept c c'.
Proof.
  induction n as [|n IH]; intros c s c' s' E Hs; [injection E as <- _; apply kept_refl|]. cbn [find_steps fst snd] in E.
  destruct (find_step p sel wgt c s) as [c1 s1] eqn:E1. apply (kept_trans c c1).
  - apply (step_kept sel wgt c s c1 s1 E1). intros r ->. rewrite find_steps_stop in E. injection E as _ <-. exact (Hs r eq_refl).
  - exact (IH c1 s1 c' s' E Hs).
Qed.
Lemma cut_kept c sel wgt n c' : cut p c sel wgt n c' -> kept c c'.
Proof. intros [s [E Hs]]. exact (steps_kept sel wgt n c ReadMin c' s E Hs). Qed.

(** ** the steps are operations *)
Lemma steps_ops sel wgt n c0 : forall c s c' s' os, after p c0 os c -> find_steps p sel wgt n (c, s) = (c', s') -> (forall r, s' <> Stop r) ->
  exists os', after p c0 (os ++ os') c' /\ forall o, In o os' -> exists it i, o = AddData it (Z.of_nat i).
Proof.
  induction n as [|n IH]; intros c s c' s' os Ha E Hs.
  - injection E as <- _. exists []. rewrite app_nil_r. split; [exact Ha|intros o []].
  - cbn [find_steps fst snd] in E. destruct (find_step p sel wgt c s) as [c1 s1] eqn:E1.
    assert (Hs1 : forall r, s1 <> Stop r) by (intros r ->; rewrite find_steps_stop in E; injection E as _ <-; exact (Hs r eq_refl)).
    assert (K : c1 = c \/ exists it i, run_op p c (AddData it (Z.of_nat i)) = (c1, Ok tt)).
    { destruct s; cbn [find_step] in E1; try (left; injection E1 as <- _; reflexivity).
      - left. destruct (gen_next (l_max l) (l_res l) (l_gen l)) as [[kk g]|]; injection E1 as <- _; reflexivity.
      - right. destruct (addCorrelationData c it (l_count l)) as [c2 r] eqn:Ea. injection E1 as <- <-. exists it, (l_count l). cbn [run_op].
        destruct (Z.ltb_spec (Z.of_nat (l_count l)) 0); [lia|]. rewrite Nat2Z.id, Ea. destruct r as [[]|e|u|]; [reflexivity|..]; destruct (Hs1 _ eq_refl).
      - exfalso. destruct (cleanCorrelationData c n0) as [c2 r]. injection E1 as _ <-. exact (Hs1 r eq_refl). }
    destruct K as [->|[it [i K]]]; [exact (IH c s1 c' s' os Ha E Hs)|].
    destruct (IH c1 s1 c' s' (os ++ [AddData it (Z.of_nat i)])) as [os' [O1 O2]]; [econstructor; [exact Ha|exact K|left; reflexivity]|exact E|exact Hs|].
    exists (AddData it (Z.of_nat i) :: os'). rewrite <- app_assoc in O1. split; [exact O1|]. intros o [<-|Ho]; [eauto|auto].
Qed.

Lemma cuts_ops c0 es c : after_cuts p c0 es c -> exists os, after p c0 os c /\
  forall o, In o os -> In (Whole o) es \/ exists it i, o = AddData it (Z.of_nat i).
Proof.
  induction 1 as [|es c1 o c2 r _ [os [H1 H2]] E Hr|es c1 sel wgt n c2 _ [os [H1 H2]] [s [E Hs]]].
  - exists []. split; [constructor|intros o []].
  - exists (os ++ [o]). split; [econstructor; eassumption|]. intros o' Ho. apply in_app_or in Ho. destruct Ho as [Ho|[<-|[]]].
    + destruct (H2 o' Ho) as [K|K]; [left; apply in_or_app; left; exact K|right; exact K].
    + left. apply in_or_app. right. left. reflexivity.
  - destruct (steps_ops sel wgt n c0 c1 ReadMin c2 s os H1 E Hs) as [os' [O1 O2]]. exists (os ++ os'). split; [exact O1|].
    intros o Ho. apply in_app_or in Ho. destruct Ho as [Ho|Ho]; [|right; exact (O2 o Ho)].
    destruct (H2 o Ho) as [K|K]; [left; apply in_or_app; left; exact K|right; exact K].
Qed.

(** ** the next calculation *)
Lemma lags_kept c c' : kept c c' -> lags_in c' = lags_in c.
Proof. intros [[_ [_ [_ [H4 [H5 H6]]]]] [_ [H8 _]]]. unfold lags_in. rewrite H4, H5, H6, H8. reflexivity. Qed.

Lemma loop_kept c c' sel wgt : kept c c' -> bufs_ok c -> bufs_ok c' ->
  let m x := mbind (run_lags (named_values p x sel wgt) (fst (lags_in c)) 0 x) (fun c1 _ => cleanCorrelationData c1 (length (fst (lags_in c)))) in
  snd (run_lags (named_values p c' sel wgt) (fst (lags_in c)) 0 c') = snd (run_lags (named_values p c sel wgt) (fst (lags_in c)) 0 c) /\
  (snd (run_lags (named_values p c sel wgt) (fst (lags_in c)) 0 c) = Ok tt -> m c' = m c /\ snd (m c) = Ok tt).
Proof.
  intros K Hb Hb' m. pose proof K as [Hs [Hn _]].
  assert (Ef : forall kk, named_values p c' sel wgt kk = named_values p c sel wgt kk) by (intros kk; apply named_values_ext; apply Hs).
  assert (Er : forall ks r, run_res (named_values p c' sel wgt) ks r = run_res (named_values p c sel wgt) ks r).
  { induction ks as [|kk ks IH]; intros r; [reflexivity|]. cbn [run_res]. rewrite Ef. destruct (named_values p c sel wgt kk); cbn [bind]; try reflexivity. destruct r; [reflexivity|apply IH]. }
  pose proof (run_lags_res (named_values p c sel wgt) (fst (lags_in c)) 0 c Hb (Nat.le_0_l _) (named_values_length p c sel wgt)) as R1.
  pose proof (run_lags_res (named_values p c' sel wgt) (fst (lags_in c)) 0 c' Hb' (Nat.le_0_l _) (named_values_length p c' sel wgt)) as R2.
  split; [rewrite R1, R2, Er, Hn; reflexivity|]. intros E. rewrite R1, Nat.sub_0_r in E. destruct (mapM_run_res _ _ _ E) as [vals Hv]. apply run_res_ok in E. destruct E as [Hl _].
  destruct (run_clean _ _ vals c Hb Hl (named_values_length p c sel wgt) Hv) as [C1 _].
  destruct (run_clean (named_values p c' sel wgt) (fst (lags_in c)) vals c' Hb') as [C2 _]; [lia|apply named_values_length|rewrite <- Hv; apply mapM_ext; auto|].
  unfold m. rewrite C1, C2. split; [|reflexivity]. f_equal. assert (Hd : ds c' = ds c) by apply Hs. rewrite Hd. apply set_data_settings. exact Hs.
Qed.

Lemma calc_kept c c' o : kept c c' -> semi c -> bufs_ok c -> bufs_ok c' -> is_calculation o ->
  snd (run_op p c' o) = snd (run_op p c o) /\ (snd (run_op p c o) = Ok tt -> run_op p c' o = run_op p c o).
Proof.
  intros K Hse Hb Hb' Ho. assert (Hse' : semi c') by (destruct K as [[H1 [H2 _]] _]; unfold semi; rewrite H1, H2; exact Hse).
  destruct Ho as [->|[sel [wgt ->]]]; cbn [run_op].
  - rewrite !calculate_any by assumption. rewrite (lags_kept c c' K).
    change (std_values p c) with (named_values p c "natural" "fractional"). change (std_values p c') with (named_values p c' "natural" "fractional").
    destruct (loop_kept c c' "natural" "fractional" K Hb Hb') as [L1 L2].
    destruct (run_lags _ _ 0 c) as [c1 r1], (run_lags _ _ 0 c') as [c2 r2]. cbn [snd] in L1, L2. subst r2.
    destruct r1 as [[]|e|u|]; cbn [mbind] in *; try (split; [reflexivity|intros X; discriminate X]).
    destruct (L2 eq_refl) as [M1 M2]. destruct (snd (lags_in c)); [rewrite M1; auto|]. split; [reflexivity|intros X; discriminate X].
  - rewrite !find_any by assumption. rewrite (lags_kept c c' K).
    destruct (loop_kept c c' sel wgt K Hb Hb') as [L1 L2].
    destruct (run_lags _ _ 0 c) as [c1 r1], (run_lags _ _ 0 c') as [c2 r2]. cbn [snd] in L1, L2. subst r2.
    destruct r1 as [[]|e|u|]; cbn [mbind] in *; try (split; [reflexivity|intros X; discriminate X]).
    destruct (L2 eq_refl) as [M1 M2]. destruct (fst (lags_in c)); [split; [reflexivity|intros X; discriminate X]|].
    destruct (snd (lags_in c)); [rewrite M1; auto|]. split; [reflexivity|intros X; discriminate X].
Qed.
Lemma kept_bufs c c' : kept c c' -> bufs_ok c -> bufs_ok c'.
Proof. intros [[H1 _] [H2 [H3 H4]]] [B1 B2]. split; [congruence|]. rewrite H4, H1, H2. exact B2. Qed.

(** reading *)
Lemma read_rows c : bufs_ok c -> exists rows, correlations c = Ok rows /\ length rows = N_datasets (ds c) /\
  forall j row, nth_error rows j = Some row -> length row = num_lag_steps c /\ forall i, i < num_lag_steps c -> nth_error row i = nth_error (correlations_ c) (i + num_lag_steps c * j).
Proof.
  intros Hb. destruct (correlations_consistent c Hb) as [rows [E _]]. exists rows.
  split; [exact E|]. split; [apply correlations_length; exact E|]. intros j row Hj. unfold correlations in E. apply mapM_Ok_inv in E. destruct E as [L E].
  rewrite seq_length in L. assert (Hlt : j < N_datasets (ds c)) by (rewrite <- L; apply nth_error_Some; congruence).
  destruct (E j j) as [row' [R1 R2]]; [rewrite nth_error_nth' with (d := 0) by (rewrite seq_length; lia); rewrite seq_nth by lia; reflexivity|].
  assert (row' = row) by congruence. subst row'. apply mapM_Ok_inv in R2. destruct R2 as [L2 R2]. rewrite seq_length in L2. split; [exact L2|].
  intros i Hi. destruct (R2 i i) as [x [X1 X2]]; [rewrite nth_error_nth' with (d := 0) by (rewrite seq_length; lia); rewrite seq_nth by lia; reflexivity|].
  rewrite X1. unfold lget in X2. rewrite (Nat.mul_comm _ j). destruct (nth_error (correlations_ c) (i + j * num_lag_steps c)); [congruence|discriminate X2].
Qed.
End Facts.

(** ** part of the result *)
Section Part.
Context {A : Num}.
Variable p : platform.
Variables (c : correlator) (sel wgt : string) (ks : list num) (vals : list (list num)).
Let n := length ks.
Let N := N_datasets (ds c).
Let f := named_values p c sel wgt.
Hypothesis Hsemi : semi c.
Hypothesis Hbufs : bufs_ok c.
Hypothesis Hn : n <= num_lag_steps c.
Hypothesis Hpos : 0 < n.
Hypothesis Hvals : mapM f ks = Ok vals.
Hypothesis Hlags : exists fuel, gen_list fuel (max_lag c) (lag_resolution c) (gen_start (min_lag c)) = (ks, true).

Notation good := (good c ks).
Notation at_place := (at_place p c sel wgt ks vals).
Notation written := (written c ks vals).
Notation to_go := (to_go ks).

(** lags stored *)
Definition stored (s : find_at) : nat :=
  match s with
  | NextLag l | Select l _ | Delta l _ | Weigh l _ | Sum l _ | Store l _ => l_count l
  | Clean _ | Stop _ => n
  | _ => 0
  end.
Definition untouched (m : nat) (c' : correlator) : Prop :=
  num_lag_steps c' = num_lag_steps c /\ forall q, m <= q -> q < num_lag_steps c ->
  nth_error (timeseries_ c') q = nth_error (timeseries_ c) q /\
  forall r, r < N -> nth_error (correlations_ c') (q + num_lag_steps c * r) = nth_error (correlations_ c) (q + num_lag_steps c * r).

Lemma step_part c' s c'' s' : good c' -> at_place c' s -> untouched (stored s) c' -> find_step p sel wgt c' s = (c'', s') -> (forall r, s' <> Stop r) -> untouched (stored s') c''.
Proof.
  intros Hg Hp Hu E Hs. destruct s; cbn [find_step] in E; cbn [ThreadSame.at_place] in Hp.
  - injection E as <- <-. exact Hu.
  - injection E as <- <-. exact Hu.
  - injection E as <- <-. exact Hu.
  - destruct Hp as [_ [H2 _]]. destruct (gen_next (l_max l) (l_res l) (l_gen l)) as [[kk g]|]; injection E as <- <-; [exact Hu|].
    destruct (l_i l); [|exact Hu || (destruct (Hs _ eq_refl))]. cbn [stored] in *. destruct Hu as [U1 U2]. split; [exact U1|]. intros q Hq. apply U2. lia.
  - injection E as <- <-. destruct (SELECTION_FUNCTIONS p sel) as [g|]; [|destruct (Hs _ eq_refl)]. destruct (g c' it) as [it1 [[]|e|u|]]; cbn [and_then] in *; [exact Hu|..]; destruct (Hs _ eq_refl).
  - injection E as <- <-. destruct (deltaT p (ds c') it) as [it1 [[]|e|u|]]; cbn [and_then] in *; [exact Hu|..]; destruct (Hs _ eq_refl).
  - injection E as <- <-. destruct (WEIGHT_FUNCTIONS wgt) as [w|]; [exact Hu|destruct (Hs _ eq_refl)].
  - injection E as <- <-. destruct (findCorrelation p c' it) as [it1 [[]|e|u|]]; cbn [and_then] in *; [exact Hu|..]; destruct (Hs _ eq_refl).
  - destruct Hp as [P1 [Hq [P3 [P4 [it' [P5 [kk [v [S1 [S2 S3]]]]]]]]]]. injection P5 as <-. pose proof Hg as [Hc [Hb Hl]]. rewrite (S3 c' (l_count l) Hc) in E.
    assert (EN : N_datasets (ds c') = N) by (apply (cfg_N c c' Hc)).
    assert (Lv : length v = N_datasets (ds c')).
    { destruct (vals_each p c sel wgt ks vals Hvals (l_count l) Hq) as [kk' [v' [K1 [K2 [_ K4]]]]]. rewrite EN. fold N in K4. congruence. }
    fold n in Hl. destruct (store_ok c' kk v (l_count l) Hb ltac:(lia) Lv) as [c1 [E1 [Hb1 [Hs1 [Ht Hr]]]]]. rewrite E1 in E. injection E as <- <-. cbn [stored l_count] in *.
    destruct Hu as [U1 U2]. split; [destruct Hs1 as [? [? ->]]; exact U1|]. intros q H1 H2. destruct (U2 q) as [U3 U4]; [lia|exact H2|].
    rewrite Ht. split; [|intros r Hrr; rewrite U1 in Hr; rewrite Hr by lia; destruct (Nat.eqb_spec q (l_count l)); [lia|apply U4; exact Hrr]].
    rewrite nth_error_upd by (destruct Hb as [B1 _]; lia). destruct (Nat.eqb_spec q (l_count l)); [lia|exact U3].
  - destruct (cleanCorrelationData c' n0) as [c1 r]. injection E as _ <-. destruct (Hs r eq_refl).
  - injection E as _ <-. destruct (Hs r eq_refl).
Qed.

Lemma steps_part k : forall c' s c'' s', good c' -> at_place c' s -> untouched (stored s) c' -> find_steps p sel wgt k (c', s) = (c'', s') -> (forall r, s' <> Stop r) ->
  good c'' /\ at_place c'' s' /\ untouched (stored s') c'' /\ to_go s = to_go s' + k.
Proof.
  induction k as [|k IH]; intros c' s c'' s' Hg Hp Hu E Hs; [injection E as <- <-; rewrite Nat.add_0_r; auto|].
  cbn [find_steps fst snd] in E. destruct (find_step p sel wgt c' s) as [c1 s1] eqn:E1.
  assert (Hs1 : forall r, s1 <> Stop r) by (intros r ->; rewrite find_steps_stop in E; injection E as _ <-; exact (Hs r eq_refl)).
  assert (Hs0 : forall r, s <> Stop r) by (intros r ->; cbn [find_step] in E1; injection E1 as _ <-; exact (Hs1 r eq_refl)).
  destruct (place_step p c sel wgt ks vals Hsemi Hbufs Hn Hpos Hvals Hlags c' s c1 s1 Hg Hp Hs0 E1) as [G1 [G2 [_ G4]]].
  destruct (IH c1 s1 c'' s' G1 G2 (step_part c' s c1 s1 Hg Hp Hu E1 Hs1) E Hs) as [I1 [I2 [I3 I4]]]. repeat (split; [assumption|]). lia.
Qed.

Lemma stored_written c' s : at_place c' s -> (forall r, s <> Stop r) -> stored s <= n /\ written (stored s) c'.
Proof.
  intros Hp Hs. assert (Z : written 0 c') by (intros q Hq; lia).
  destruct s; cbn [ThreadSame.at_place stored] in *; try (split; [lia|exact Z]); try (destruct Hp as [_ [H1 [_ [H2 _]]]]; split; [fold n in H1; lia|exact H2]).
  - destruct Hp as [_ [H1 [_ H2]]]. split; [exact H1|exact H2].
  - destruct Hp as [_ H2]. split; [apply le_n|exact H2].
  - destruct (Hs r eq_refl).
Qed.

Lemma stored_count c' s k : at_place c' s -> (forall r, s <> Stop r) -> 6 * n + 5 = to_go s + k -> stored s = (k - 3) / 6.
Proof.
  intros Hp Hs E. destruct s; cbn [ThreadSame.at_place ThreadSame.to_go stored] in *; try fold n in E.
  - replace (k - 3) with 0 by lia. reflexivity.
  - replace (k - 3) with 0 by lia. reflexivity.
  - replace (k - 3) with 0 by lia. reflexivity.
  - destruct Hp as [_ [H1 _]]; fold n in H1; apply (Nat.div_unique _ _ _ 0); lia.
  - destruct Hp as [_ [H1 _]]; fold n in H1; apply (Nat.div_unique _ _ _ 1); lia.
  - destruct Hp as [_ [H1 _]]; fold n in H1; apply (Nat.div_unique _ _ _ 2); lia.
  - destruct Hp as [_ [H1 _]]; fold n in H1; apply (Nat.div_unique _ _ _ 3); lia.
  - destruct Hp as [_ [H1 _]]; fold n in H1; apply (Nat.div_unique _ _ _ 4); lia.
  - destruct Hp as [_ [H1 _]]; fold n in H1; apply (Nat.div_unique _ _ _ 5); lia.
  - apply (Nat.div_unique _ _ _ 1); lia.
  - destruct (Hs r eq_refl).
Qed.

Lemma part_result k c' s : find_steps p sel wgt k (c, ReadMin) = (c', s) -> (forall r, s <> Stop r) ->
  let m := (k - 3) / 6 in let cF := final c ks vals in
  m <= n /\ num_lag_steps c' = num_lag_steps c /\ (forall i, nth_error (timeseries_ c') i = nth_error (timeseries_ (if i <? m then cF else c)) i) /\
  forall i r, i < num_lag_steps c -> r < N -> nth_error (correlations_ c') (i + num_lag_steps c * r) =
    if i <? m then nth_error (correlations_ cF) (i + num_lag_steps cF * r) else nth_error (correlations_ c) (i + num_lag_steps c * r).
Proof.
  intros E Hs m cF.
  destruct (steps_part k c ReadMin c' s ltac:(eapply good_c; eassumption) I (conj eq_refl (fun _ _ _ => conj eq_refl (fun _ _ => eq_refl))) E Hs) as [G [P [[U1 U2] T]]].
  cbn [ThreadSame.to_go] in T. fold n in T. rewrite (stored_count c' s k P Hs T) in U2. fold m in U2.
  destruct (stored_written c' s P Hs) as [W1 W2]. rewrite (stored_count c' s k P Hs T) in W1, W2. fold m in W1, W2.
  assert (FG : ThreadSame.good c ks (final c ks vals) /\ ThreadSame.written c ks vals n (final c ks vals) /\ num_lag_steps (final c ks vals) = n) by (eapply final_good; eassumption). destruct FG as [_ [F2 F3]].
  split; [exact W1|]. split; [exact U1|]. pose proof Hbufs as [B1 _]. destruct G as [_ [[B1' _] _]].
  split.
  - intros i. destruct (Nat.ltb_spec i m) as [L|L].
    + destruct (W2 i L) as [-> _]. destruct (F2 i) as [F _]; [lia|]. symmetry. exact F.
    + destruct (Nat.lt_ge_cases i (num_lag_steps c)) as [L2|L2]; [apply U2; assumption|].
      rewrite (proj2 (nth_error_None (timeseries_ c) i)) by lia. apply nth_error_None. lia.
  - intros i r Hi Hr. destruct (Nat.ltb_spec i m) as [L|L]; [|apply U2; assumption].
    destruct (W2 i L) as [_ W]. rewrite <- U1, (W r Hr). destruct (F2 i) as [_ F]; [lia|]. unfold cF. rewrite (F r Hr). reflexivity.
Qed.
End Part.

Section Wrap.
Context {A : Num}.
Variable p : platform.

Lemma part_done c sel wgt cF n c' : semi c -> bufs_ok c -> run_op p c (Find sel wgt) = (cF, Ok tt) -> cut p c sel wgt n c' ->
  exists rows rows' rowsF, correlations c = Ok rows /\ correlations c' = Ok rows' /\ correlations cF = Ok rowsF /\
  (n - 3) / 6 <= length (lag_timeseries cF) /\
  (forall i, nth_error (lag_timeseries c') i = nth_error (lag_timeseries (if i <? (n - 3) / 6 then cF else c)) i) /\
  forall j row row' rowF, nth_error rows j = Some row -> nth_error rows' j = Some row' -> nth_error rowsF j = Some rowF ->
  forall i, nth_error row' i = nth_error (if i <? (n - 3) / 6 then rowF else row) i.
Proof.
  intros Hsemi Hb Hrun Hcut. pose proof Hcut as [s [Es Hs]].
  cbn [run_op] in Hrun. rewrite (find_any p c sel wgt Hsemi) in Hrun. set (ks := fst (lags_in c)) in *. set (f := named_values p c sel wgt) in *.
  destruct (run_lags f ks 0 c) as [c1 r] eqn:Er. destruct r as [[]|e|u|]; cbn [mbind] in Hrun; try discriminate Hrun.
  assert (Hf : forall kk cs, f kk = Ok cs -> length cs = N_datasets (ds c)) by (intros kk cs; apply named_values_length).
  pose proof (run_lags_res f ks 0 c Hb (Nat.le_0_l _) Hf) as Rr. rewrite Er, Nat.sub_0_r in Rr. cbn [snd] in Rr. symmetry in Rr.
  destruct (mapM_run_res f ks _ Rr) as [vals Hvals]. apply run_res_ok in Rr. destruct Rr as [Hlen _].
  assert (Hpos : 0 < length ks) by (destruct ks; [discriminate Hrun|cbn; lia]).
  assert (Hsnd : snd (lags_in c) = true) by (destruct ks; [discriminate Hrun|]; destruct (snd (lags_in c)); [reflexivity|discriminate Hrun]).
  destruct (run_clean f ks vals c Hb Hlen Hf Hvals) as [K _].
  assert (EF : cF = final c ks vals).
  { rewrite Er in K. cbn [mbind] in K. rewrite Hsnd in Hrun. unfold final. destruct ks; [discriminate Hrun|]. rewrite K in Hrun. injection Hrun as <-. reflexivity. }
  assert (Hlags : exists fuel, gen_list fuel (max_lag c) (lag_resolution c) (gen_start (min_lag c)) = (ks, true)).
  { exists (S (length (timeseries_ c))). unfold gen_start. rewrite (gen_list_lags _ (S (length (timeseries_ c)))) by (try lia; discriminate).
    change (lag_list (S (length (timeseries_ c))) (max_lag c) (lag_resolution c) (min_lag c) false) with (lags_in c). fold ks. destruct Hb as [B1 _].
    rewrite Hsnd. rewrite firstn_all2 by lia. destruct (Nat.ltb_spec (length ks) (S (length (timeseries_ c)))); [reflexivity|lia]. }
  destruct (part_result p c sel wgt ks vals Hsemi Hb Hlen Hpos Hvals Hlags n c' s Es Hs) as [P1 [P2 [P3 P4]]].
  assert (FG : ThreadSame.good c ks (final c ks vals) /\ ThreadSame.written c ks vals (length ks) (final c ks vals) /\ num_lag_steps (final c ks vals) = length ks) by (eapply final_good; eassumption).
  rewrite <- EF in *. destruct FG as [[_ [FB _]] [_ FN]]. pose proof (cut_kept p c sel wgt n c' Hcut) as Kc. pose proof (kept_bufs c c' Kc Hb) as Hb'.
  assert (LF : lag_timeseries cF = ks) by (rewrite EF; reflexivity). assert (DF : ds cF = ds c) by (rewrite EF; reflexivity).
  destruct (read_rows c Hb) as [rows [R1 [R2 R3]]], (read_rows c' Hb') as [rows' [R1' [R2' R3']]], (read_rows cF FB) as [rowsF [F1 [F2 F3]]].
  exists rows, rows', rowsF. repeat (split; [assumption|]). split; [rewrite LF; exact P1|]. split.
  { intros i. unfold lag_timeseries. rewrite P3. reflexivity. }
  intros j row row' rowF Hj Hj' HjF i. destruct (R3 j row Hj) as [A1 A2], (R3' j row' Hj') as [A1' A2'], (F3 j rowF HjF) as [A1F A2F].
  assert (Hjn : j < N_datasets (ds c)) by (rewrite <- R2; apply nth_error_Some; congruence).
  destruct (Nat.lt_ge_cases i (num_lag_steps c)) as [L|L].
  - rewrite A2' by lia. rewrite P2, (P4 i j L Hjn). destruct (Nat.ltb_spec i ((n - 3) / 6)) as [L2|L2].
    + rewrite A2F by lia. reflexivity.
    + rewrite A2 by lia. reflexivity.
  - rewrite (proj2 (nth_error_None row' i)) by lia. destruct (Nat.ltb_spec i ((n - 3) / 6)) as [L2|L2]; [lia|]. symmetry. apply nth_error_None. lia.
Qed.

Lemma cuts_state d c0 es c : accepted d -> new_Correlator d = Ok c0 -> after_cuts p c0 es c ->
  semi c /\ (~ In (Whole Clear) es -> bufs_ok c).
Proof.
  intros Ha Hn H. destruct (new_base d c0 Ha Hn) as [H0 _]. destruct (cuts_ops p c0 es c H) as [os [O1 O2]].
  destruct (after_inv p c0 os c H0 O1) as [Hi Hb]. split; [exact (inv_semi c0 c H0 Hi)|]. intros Hc. apply Hb. intros C.
  destruct (O2 _ C) as [K|[it [i K]]]; [exact (Hc K)|discriminate K].
Qed.
End Wrap.
