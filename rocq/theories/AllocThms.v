(** Proofs about [Alloc.v]: histories in which requests fail. *)
From Coq Require Import String.
From Coq Require Import ZArith List Bool Arith Lia.
From Verif Require Import Num Mem MemFacts Spec DataStructure DSFacts Correlator Sacf Api CorrFacts LoopFacts MainFacts ConstrFacts StateFacts RelFacts Leak LeakFacts Alloc AllocFacts AllocState.
Import ListNotations.
Local Open Scope list_scope.

Section AllocThms.
Context {A : Num} (fails : nat -> bool).

Lemma delete_new h : delete_iterator (new_iterator h) = h.
Proof. destruct h; reflexivity. Qed.

(** ** What a method leaves, whatever its outcome *)
Definition kept (c c' : correlator) : Prop :=
  same_setup c c' /\ length (timeseries_ c') = length (timeseries_ c) /\ length (correlations_ c') = length (correlations_ c).

Lemma kept_refl c : kept c c.
Proof. repeat split. apply same_setup_refl. Qed.
Lemma kept_trans c c1 c2 : kept c c1 -> kept c1 c2 -> kept c c2.
Proof. intros [H1 [H2 H3]] [K1 [K2 K3]]. split; [eapply same_setup_trans; eassumption|]. split; congruence. Qed.
Lemma kept_add c it i c' r : addCorrelationData c it i = (c', r) -> kept c c'.
Proof. intros E. apply add_cases in E. destruct E as [H1 [H2 [H3 _]]]. repeat split; assumption. Qed.

Lemma at_kept p s kk i q s' q' r : calculate_at_a fails p s kk i q = (s', q', r) ->
  kept (fst s) (fst s') /\ (r = Done (Ok tt) -> snd s' = snd s) /\ (snd s' = snd s \/ snd s' = new_iterator (snd s)).
Proof.
  unfold calculate_at_a, arequest. intros E.
  destruct (fails q); [injection E as <- _ <-; split; [apply kept_refl|]; split; auto|].
  destruct (fails (S q)); [injection E as <- _ <-; split; [apply kept_refl|]; split; auto|].
  destruct (run_it_a fails p (fst s) _ _ (S (S q))) as [[it q2] [[[]|e|u|]|]];
    try (injection E as <- _ <-; split; [apply kept_refl|]; split; [discriminate|right; reflexivity]).
  destruct (addCorrelationData (fst s) it i) as [c' r'] eqn:Ea. apply kept_add in Ea.
  destruct r' as [[]|e|u|]; injection E as <- _ <-; cbn [fst snd]; split; try exact Ea.
  - rewrite delete_new. split; auto.
  - split; [discriminate|right; reflexivity].
  - split; [discriminate|right; reflexivity].
  - split; [discriminate|right; reflexivity].
Qed.

Lemma std_kept p fuel : forall kk pos i s q s' q' r, std_loop_a fails p fuel kk pos i s q = (s', q', r) ->
  kept (fst s) (fst s') /\ (forall n, r = Done (Ok n) -> snd s' = snd s) /\ (snd s' = snd s \/ snd s' = new_iterator (snd s)).
Proof.
  induction fuel as [|fuel IH]; intros kk pos i s q s' q' r E; cbn [std_loop_a] in E.
  - injection E as <- _ <-. split; [apply kept_refl|]. split; auto.
  - destruct (nle kk (max_lag (fst s))); [|injection E as <- _ <-; split; [apply kept_refl|]; split; auto].
    destruct (nlt nzero kk && negb _).
    + destruct (calculate_at_a fails p s nzero i q) as [[s1 q1] r1] eqn:E1. pose proof (at_kept _ _ _ _ _ _ _ _ E1) as [K1 [K2 K3]].
      destruct r1 as [[[]|e|u|]|]; cbn [abind] in E; try (injection E as <- _ <-; split; [exact K1|]; split; [discriminate|exact K3]).
      destruct (calculate_at_a fails p s1 kk (S i) q1) as [[s2 q2] r2] eqn:E2. pose proof (at_kept _ _ _ _ _ _ _ _ E2) as [L1 [L2 L3]].
      rewrite (K2 eq_refl) in *. pose proof (kept_trans _ _ _ K1 L1) as M1.
      destruct r2 as [[[]|e|u|]|]; cbn [abind] in E; try (injection E as <- _ <-; split; [exact M1|]; split; [discriminate|exact L3]).
      apply IH in E. destruct E as [N1 [N2 N3]]. rewrite (L2 eq_refl) in *. split; [exact (kept_trans _ _ _ M1 N1)|]. split; assumption.
    + destruct (calculate_at_a fails p s kk i q) as [[s1 q1] r1] eqn:E1. pose proof (at_kept _ _ _ _ _ _ _ _ E1) as [K1 [K2 K3]].
      destruct r1 as [[[]|e|u|]|]; cbn [abind] in E; try (injection E as <- _ <-; split; [exact K1|]; split; [discriminate|exact K3]).
      apply IH in E. destruct E as [N1 [N2 N3]]. rewrite (K2 eq_refl) in *. split; [exact (kept_trans _ _ _ K1 N1)|]. split; assumption.
Qed.

Lemma find_at_kept p sel wgt s kk i q s' q' r : find_at_a fails p sel wgt s kk i q = (s', q', r) -> kept (fst s) (fst s') /\ snd s' = snd s.
Proof.
  unfold find_at_a, arequest. intros E.
  destruct (fails q); [injection E as <- _ <-; split; [apply kept_refl|reflexivity]|].
  destruct (fails (S q)); [injection E as <- _ <-; split; [apply kept_refl|reflexivity]|].
  destruct (fails (S (S q))); [injection E as <- _ <-; split; [apply kept_refl|reflexivity]|].
  destruct (fails (S (S (S q)))); [injection E as <- _ <-; split; [apply kept_refl|reflexivity]|].
  destruct (selection_op sel) as [f|]; [|injection E as <- _ <-; split; [apply kept_refl|reflexivity]].
  destruct (run_it_a fails p (fst s) _ [f; DeltaT] _) as [[it q2] [[[]|e|u|]|]];
    try (injection E as <- _ <-; split; [apply kept_refl|reflexivity]).
  destruct (weights_op wgt) as [w|]; [|injection E as <- _ <-; split; [apply kept_refl|reflexivity]].
  destruct (run_it_a fails p (fst s) it [w; FindCorrelation] q2) as [[it3 q3] [[[]|e|u|]|]];
    try (injection E as <- _ <-; split; [apply kept_refl|reflexivity]).
  destruct (addCorrelationData (fst s) it3 i) as [c' r'] eqn:Ea. apply kept_add in Ea. injection E as <- _ <-. split; [exact Ea|reflexivity].
Qed.

Lemma find_kept p sel wgt fuel maxl resl : forall g n last s q s' q' r,
  find_loop_a fails p sel wgt fuel maxl resl g n last s q = (s', q', r) -> kept (fst s) (fst s') /\ snd s' = snd s.
Proof.
  induction fuel as [|fuel IH]; intros g n last s q s' q' r E; cbn [find_loop_a] in E.
  - injection E as <- _ <-. split; [apply kept_refl|reflexivity].
  - destruct (gen_next maxl resl g) as [[kk g']|]; [|injection E as <- _ <-; split; [apply kept_refl|reflexivity]].
    destruct (find_at_a fails p sel wgt s kk n q) as [[s1 q1] r1] eqn:E1. pose proof (find_at_kept _ _ _ _ _ _ _ _ _ _ E1) as [K1 K2].
    destruct r1 as [[[]|e|u|]|]; cbn [abind] in E; try (injection E as <- _ <-; split; [exact K1|exact K2]).
    apply IH in E. destruct E as [N1 N2]. split; [exact (kept_trans _ _ _ K1 N1)|congruence].
Qed.

(** ** cleanCorrelationData: a failed request leaves all but perhaps the length of the lags *)
Lemma clean_nomem c i q c' q' : clean_a fails c i q = (c', q', NoMemory) ->
  c' = c \/ c' = with_ts c (lresize nzero (timeseries_ c) i).
Proof.
  unfold clean_a, arequest. intros E.
  assert (G : forall q, (if fails q then (with_ts c (lresize nzero (timeseries_ c) i), S q, NoMemory) else
     match cleanCorrelationData c i with
     | (c2, Ok _) => if length (correlations_ c) <? length (correlations_ c2)
        then if fails (S q) then (with_ts c (lresize nzero (timeseries_ c) i), S (S q), NoMemory) else (c2, S (S q), Done (Ok tt))
        else (c2, S q, Done (Ok tt))
     | (c2, r) => (c2, S q, Done r) end) = (c', q', NoMemory) -> c' = with_ts c (lresize nzero (timeseries_ c) i)).
  { intros q0 E0. destruct (fails q0); [injection E0 as <- _; reflexivity|].
    destruct (cleanCorrelationData c i) as [c2 [[]|e|u|]]; try discriminate.
    destruct (length (correlations_ c) <? length (correlations_ c2)); [|discriminate]. destruct (fails (S q0)); [injection E0 as <- _; reflexivity|discriminate]. }
  destruct (length (timeseries_ c) <? i).
  - destruct (fails q); [left; injection E as <- _; reflexivity|right; exact (G _ E)].
  - right. exact (G _ E).
Qed.

Lemma beside_inv {R} h (x : ameth correlator R) s q r : beside h x = (s, q, r) -> x = (fst s, q, r) /\ snd s = h.
Proof. destruct x as [[c q0] r0]. cbn [beside]. intros E. injection E as <- <- <-. split; reflexivity. Qed.

Lemma kept_settings c c' : kept c c' -> same_settings c c' /\ num_lag_steps c' = num_lag_steps c.
Proof. intros [[ts [cs ->]] _]. repeat split. Qed.

(** ** One operation that runs out of memory *)
Lemma op_nomem p c h o q c' h' q' : semi c -> run_op_a fails p (c, h) o q = ((c', h'), q', NoMemory) ->
  same_settings c c' /\ num_lag_steps c' = num_lag_steps c /\ length (correlations_ c') = length (correlations_ c) /\
  (h' = h \/ (o = Calculate /\ h' = new_iterator h)) /\
  (is_calculation o -> forall c1, run_op p c o = (c1, Ok tt) ->
     length (timeseries_ c') = length (timeseries_ c) \/ length (timeseries_ c') = num_lag_steps c1).
Proof.
  intros Hs E.
  assert (KC : forall x i, kept c x -> same_settings c x /\ num_lag_steps x = num_lag_steps c /\ length (correlations_ x) = length (correlations_ c) /\
     (c' = x \/ c' = with_ts x (lresize nzero (timeseries_ x) i) -> same_settings c c' /\ num_lag_steps c' = num_lag_steps c /\ length (correlations_ c') = length (correlations_ c) /\
       (length (timeseries_ c') = length (timeseries_ c) \/ length (timeseries_ c') = i))).
  { intros x i K. destruct (kept_settings _ _ K) as [K1 K2]. destruct K as [_ [K3 K4]]. repeat (split; [assumption|]).
    intros [-> | ->]; [repeat (split; [assumption|]); left; exact K3|].
    split; [apply (settings_trans _ x); [exact K1|apply settings_refl]|]. cbn. repeat (split; [assumption|]). right. apply lresize_length. }
  destruct o; cbn [run_op_a fst snd] in E.
  - discriminate E.
  - discriminate E.
  - discriminate E.
  - discriminate E.
  - (* Calculate *)
    unfold calculate_a in E. cbn [fst] in E. 
    pose proof (std_loop_agrees fails p (S (length (timeseries_ c))) (min_lag c) false 0 (c, h) q) as Ag.
    destruct (std_loop_a fails p _ _ _ _ (c, h) q) as [[s1 q1] r1] eqn:E1. pose proof (std_kept _ _ _ _ _ _ _ _ _ _ E1) as [K1 [K2 K3]]. cbn [fst snd] in K1, K2, K3.
    destruct r1 as [[n|e|u|]|]; cbn [abind] in E; try discriminate E.
    + apply beside_inv in E. cbn [fst snd] in E. destruct E as [E ->]. apply clean_nomem in E.
      destruct (KC _ n K1) as [_ [_ [_ KK]]]. destruct (KK E) as [M1 [M2 [M3 M4]]].
      repeat (split; [assumption|]). split; [left; apply (K2 n eq_refl)|]. intros _ c1 Ec.
      destruct M4 as [M4|M4]; [left; exact M4|right]. rewrite M4.
      destruct Ag as [[Ag _]|[Ag1 Ag2]]; [discriminate Ag|]. cbn [fst snd] in *.
      destruct (loop_heap p (S (length (timeseries_ c))) (min_lag c) false 0 c h Hs) as [h2 [L1 _]]. rewrite L1 in Ag1, Ag2.
      cbn [run_op] in Ec. unfold calculateStandardCorrelation in Ec. destruct (std_loop p _ _ _ _ c) as [c2 r2]. cbn [fst snd] in *.
      injection Ag2 as <-. cbn [mbind] in Ec. destruct (clean_cases c2 n) as [[ts [cs [E' _]]]|[u Hu]].
      * rewrite Ec in E'. injection E' as ->. reflexivity.
      * rewrite Ec in Hu. discriminate Hu.
    + injection E as -> _. cbn [fst snd] in *. destruct (KC _ 0 K1) as [M1 [M2 [M3 _]]]. repeat (split; [assumption|]).
      split; [destruct K3; auto|]. intros _ c1 _. left. apply K1.
  - (* Find *)
    unfold find_a, arequest in E. cbn [fst snd] in E. destruct (fails q).
    { injection E as <- <- _. destruct (KC c 0 (kept_refl c)) as [M1 [M2 [M3 _]]]. repeat (split; [assumption|]). split; auto. }
    pose proof (find_loop_agrees fails p sel wgt (S (length (timeseries_ c))) (max_lag c) (lag_resolution c) (gen_start (min_lag c)) 0 None (c, h) (S q)) as Ag.
    destruct (find_loop_a fails p _ _ _ _ _ _ _ _ (c, h) (S q)) as [[s1 q1] r1] eqn:E1. pose proof (find_kept _ _ _ _ _ _ _ _ _ _ _ _ _ _ E1) as [K1 K2]. cbn [fst snd] in K1, K2.
    destruct r1 as [[last|e|u|]|]; cbn [abind] in E; try discriminate E.
    + destruct last as [n|]; [|discriminate E]. apply beside_inv in E. cbn [fst snd] in E. destruct E as [E ->]. apply clean_nomem in E.
      destruct (KC _ (n + 1) K1) as [_ [_ [_ KK]]]. destruct (KK E) as [M1 [M2 [M3 M4]]].
      repeat (split; [assumption|]). split; [left; exact K2|]. intros _ c1 Ec.
      destruct M4 as [M4|M4]; [left; exact M4|right]. rewrite M4.
      destruct Ag as [[Ag _]|[Ag1 Ag2]]; [discriminate Ag|]. cbn [fst snd] in *.
      cbn [run_op] in Ec. unfold find_correlation in Ec. destruct (find_loop p _ _ _ _ _ _ _ _ c) as [c2 r2]. cbn [fst snd] in *.
      injection Ag2 as <-. cbn [mbind] in Ec. destruct (clean_cases c2 (n + 1)) as [[ts [cs [E' _]]]|[u Hu]].
      * rewrite Ec in E'. injection E' as ->. reflexivity.
      * rewrite Ec in Hu. discriminate Hu.
    + injection E as -> _. cbn [fst snd] in *. destruct (KC _ 0 K1) as [M1 [M2 [M3 _]]]. repeat (split; [assumption|]).
      split; [auto|]. intros _ c1 _. left. apply K1.
  - discriminate E || (destruct (run_op p c _); discriminate E).
  - destruct (i <? 0)%Z; [discriminate E|]. apply beside_inv in E. cbn [fst snd] in E. destruct E as [E ->]. apply clean_nomem in E.
    destruct (KC c (Z.to_nat i) (kept_refl c)) as [_ [_ [_ KK]]]. destruct (KK E) as [M1 [M2 [M3 M4]]]. repeat (split; [assumption|]). split; [auto|].
    intros [C|[? [? C]]]; discriminate C.
  - unfold arequest in E. destruct (fails q); [|discriminate E]. injection E as <- <- _.
    destruct (KC c 0 (kept_refl c)) as [M1 [M2 [M3 _]]]. repeat (split; [assumption|]). split; auto.
Qed.


(** ** NoMemory exactly when one of the requests made failed *)
Definition local {S R} (q : nat) (x : ameth S R) : Prop :=
  q <= snd (fst x) /\ (snd x = NoMemory <-> exists n, q <= n < snd (fst x) /\ fails n = true).

Lemma local_done {S R} (s : S) q (r : res R) : local q (s, q, Done r).
Proof. split; cbn; [lia|]. split; [discriminate|]. intros [n [H _]]. lia. Qed.

Lemma local_more {S R} q q1 (x : ameth S R) : local q1 x -> q <= q1 -> (forall n, q <= n < q1 -> fails n = false) -> local q x.
Proof.
  intros [H1 H2] Hq Hf. split; [lia|]. rewrite H2. split; intros [n [Hn Hn2]]; exists n; (split; [|exact Hn2]); [lia|].
  destruct (Nat.lt_ge_cases n q1); [|lia]. rewrite (Hf n ltac:(lia)) in Hn2. discriminate.
Qed.

Lemma local_clear {S R} q (x : ameth S R) r : local q x -> snd x = Done r -> forall n, q <= n < snd (fst x) -> fails n = false.
Proof.
  intros [_ [_ H]] E n Hn. destruct (fails n) eqn:Ef; [|reflexivity]. rewrite H in E; [discriminate|]. exists n. auto.
Qed.

Lemma local_bind {S R Q} q (x : ameth S R) (f : S -> nat -> R -> ameth S Q) :
  local q x -> (forall s q' r, local q' (f s q' r)) -> local q (abind x f).
Proof.
  intros Hx Hf. pose proof (local_clear q x) as Hc. destruct x as [[s q1] [[r|e|u|]|]]; cbn [abind fst snd] in *.
  - apply (local_more q q1); [apply Hf|apply Hx|]. apply (Hc _ Hx eq_refl).
  - apply (local_more q q1); [apply local_done|apply Hx|]. apply (Hc _ Hx eq_refl).
  - apply (local_more q q1); [apply local_done|apply Hx|]. apply (Hc _ Hx eq_refl).
  - apply (local_more q q1); [apply local_done|apply Hx|]. apply (Hc _ Hx eq_refl).
  - destruct Hx as [H1 [H2 _]]. split; [exact H1|]. split; [intros _; apply H2; reflexivity|reflexivity].
Qed.

Lemma local_lift {S R Q} (s : S) q (x : res R) (f : R -> ameth S Q) : (forall r, local q (f r)) -> local q (alift s q x f).
Proof. intros H. unfold alift. destruct x as [r|e|u|]; cbn [abind]; [apply H|apply local_done..]. Qed.

Lemma local_request {S R} (s : S) q (f : nat -> ameth S R) : (forall q, local q (f q)) -> local q (arequest fails s q f).
Proof.
  intros H. unfold arequest. destruct (fails q) eqn:E.
  - split; cbn; [lia|]. split; [|reflexivity]. intros _. exists q. split; [lia|exact E].
  - apply (local_more q (Datatypes.S q)); [apply H|lia|]. intros n Hn. replace n with q by lia. exact E.
Qed.

Ltac lo := repeat match goal with
  | |- local _ (_, _, Done _) => apply local_done
  | |- local _ (arequest _ _ _ _) => apply local_request; intros ?
  | |- local _ (alift _ _ _ _) => apply local_lift; intros ?
  | |- local _ (abind _ _) => apply local_bind; [|intros ? ? ?]
  | |- local _ (let _ := _ in _) => cbv zeta
  end.

Lemma local_other {S T R Q} q q1 (s : S) (t : T) (r : res R) (r' : res Q) : local q (s, q1, Done r) -> local q (t, q1, Done r').
Proof. intros H. apply (local_more q q1); [apply local_done|apply H|exact (local_clear _ _ _ H eq_refl)]. Qed.
Lemma local_other_no {S T R Q} q q1 (s : S) (t : T) : local q (s, q1, @NoMemory R) -> local q (t, q1, @NoMemory Q).
Proof. intros [H1 [H2 _]]. split; [exact H1|]. split; [intros _; apply H2; reflexivity|reflexivity]. Qed.

Lemma norm_loop_local d j n : forall i acc q, local q (norm_loop_a fails d j n i acc q).
Proof. induction n as [|n IH]; intros i acc q; cbn [norm_loop_a]; lo. destruct (nisnan _); [apply IH|]. lo. apply IH. Qed.
Lemma norms_local d js : forall q, local q (norms_a fails d js q).
Proof. induction js as [|j js IH]; intros q; cbn [norms_a]; lo; [apply norm_loop_local|apply IH]. Qed.
Lemma new_Correlator_local d q : local q (new_Correlator_a fails d q).
Proof. unfold new_Correlator_a. lo; [apply norms_local|]. destruct (_ <? 0)%Z; lo. Qed.
Lemma natural_shift_local ts back kk : forall it q, local q (natural_shift_a fails ts back kk it q).
Proof. induction ts as [|x ts IH]; intros it q; cbn [natural_shift_a]; lo. destruct (nlt _ _); lo. apply IH. Qed.
Lemma fast_shift_local ts back kk : forall it q, local q (fast_shift_a fails ts back kk it q).
Proof. induction ts as [|x ts IH]; intros it q; cbn [fast_shift_a]; lo. destruct (nle _ _); lo. apply IH. Qed.
Lemma natural_loop_local p nt n : forall i it q, local q (natural_loop_a fails p nt n i it q).
Proof. induction n as [|n IH]; intros i it q; cbn [natural_loop_a]; lo. apply IH. Qed.
Lemma natural_local p d it q : local q (naturalSelectionFunctionIdx_a fails p d it q).
Proof. unfold naturalSelectionFunctionIdx_a. lo; [apply natural_shift_local|apply natural_loop_local]. Qed.
Lemma fast_local p d it q : local q (fastSelectionFunctionIdx_a fails p d it q).
Proof. unfold fastSelectionFunctionIdx_a. lo; [apply fast_shift_local|]. destruct (_ =? 0); lo. Qed.
Lemma deltaT_loop_local p nt vals : forall t it q, local q (deltaT_loop_a fails p nt vals t it q).
Proof. induction vals as [|x l IH]; intros t it q; cbn [deltaT_loop_a]; lo. apply IH. Qed.
Lemma deltaT_local p d it q : local q (deltaT_a fails p d it q).
Proof. unfold deltaT_a. lo. apply deltaT_loop_local. Qed.
Lemma weights_loop_local w l : forall it q, local q (weights_loop_a fails w l it q).
Proof. induction l as [|x l IH]; intros it q; cbn [weights_loop_a]; lo. apply IH. Qed.
Lemma weights_local w it q : local q (getWeights_a fails w it q).
Proof. unfold getWeights_a. lo. apply weights_loop_local. Qed.
Lemma run_it_op_local p c it o q : local q (run_it_op_a fails p c it o q).
Proof.
  destruct o; cbn [run_it_op_a]; try apply natural_local; try apply fast_local; try apply deltaT_local; try apply weights_local;
    destruct (run_it_op p c it _); lo.
Qed.
Lemma run_it_local p c os : forall it q, local q (run_it_a fails p c it os q).
Proof. induction os as [|o os IH]; intros it q; cbn [run_it_a]; lo; [apply run_it_op_local|apply IH]. Qed.

Lemma calculate_at_local p s kk i q : local q (calculate_at_a fails p s kk i q).
Proof.
  unfold calculate_at_a. lo.
  match goal with |- context [run_it_a fails p ?c ?it ?os ?q] => pose proof (run_it_local p c os it q) as H; destruct (run_it_a fails p c it os q) as [[it' qa] r] eqn:E end.
  destruct r as [[[]|e|u|]|].
  - apply (local_more _ qa); [|apply H|exact (local_clear _ _ _ H eq_refl)]. destruct (addCorrelationData (fst s) it' i) as [c' [[]|e|u|]]; lo.
  - exact H.
  - exact H.
  - exact H.
  - exact H.
Qed.
Lemma std_loop_local p fuel : forall kk pos i s q, local q (std_loop_a fails p fuel kk pos i s q).
Proof.
  induction fuel as [|fuel IH]; intros kk pos i s q; cbn [std_loop_a]; lo. destruct (nle _ _); lo.
  destruct (nlt nzero kk && negb _); lo; try apply calculate_at_local; apply IH.
Qed.
Lemma clean_local c i q : local q (clean_a fails c i q).
Proof.
  unfold clean_a. destruct (_ <? i); lo; destruct (cleanCorrelationData c i) as [c2 [[]|e|u|]]; lo; destruct (_ <? _); lo.
Qed.
Lemma beside_local {R} h q (x : ameth correlator R) : local q x -> local q (beside h x).
Proof. destruct x as [[c q1] r]. exact (fun H => H). Qed.
Lemma calculate_local p s q : local q (calculate_a fails p s q).
Proof. unfold calculate_a. lo; [apply std_loop_local|apply beside_local, clean_local]. Qed.
Lemma find_at_local p sel wgt s kk i q : local q (find_at_a fails p sel wgt s kk i q).
Proof.
  unfold find_at_a. lo. destruct (selection_op sel) as [f|]; lo.
  match goal with |- context [run_it_a fails p ?c ?it ?os ?q] => pose proof (run_it_local p c os it q) as H; destruct (run_it_a fails p c it os q) as [[it' qa] r] eqn:E end.
  destruct r as [[[]|e|u|]|]; try exact H.
  apply (local_more _ qa); [|apply H|exact (local_clear _ _ _ H eq_refl)]. destruct (weights_op wgt) as [w|]; lo.
  pose proof (run_it_local p (fst s) [w; FindCorrelation] it' qa) as H2. destruct (run_it_a fails p (fst s) it' [w; FindCorrelation] qa) as [[it2 qb] r2] eqn:E2.
  destruct r2 as [[[]|e|u|]|]; try exact H2.
  apply (local_more _ qb); [|apply H2|exact (local_clear _ _ _ H2 eq_refl)]. destruct (addCorrelationData _ _ _); lo.
Qed.
Lemma find_loop_local p sel wgt fuel a b : forall g n last s q, local q (find_loop_a fails p sel wgt fuel a b g n last s q).
Proof.
  induction fuel as [|fuel IH]; intros g n last s q; cbn [find_loop_a]; lo.
  destruct (gen_next a b g) as [[kk g']|]; lo; [apply find_at_local|apply IH].
Qed.
Lemma find_local p sel wgt s q : local q (find_a fails p sel wgt s q).
Proof.
  unfold find_a. lo; [apply find_loop_local|].
  match goal with |- local _ (match ?l with _ => _ end) => destruct l end; lo. apply beside_local, clean_local.
Qed.
Lemma run_op_local p s o q : local q (run_op_a fails p s o q).
Proof.
  destruct o; cbn [run_op_a]; try (destruct (run_op p (fst s) _); lo).
  - apply calculate_local.
  - apply find_local.
  - destruct (i <? 0)%Z; lo. apply beside_local, clean_local.
  - lo.
Qed.
Lemma autocorrelation_local p d mi ma re al sel wgt h q : local q (autocorrelation_a fails p d mi ma re al sel wgt h q).
Proof.
  unfold autocorrelation_a. pose proof (new_Correlator_local d q) as H. destruct (new_Correlator_a fails d q) as [[[] q1] r].
  destruct r as [[c0|e|u|]|]; try exact (local_other _ _ _ _ _ _ H); try exact (local_other_no _ _ _ _ H).
  apply (local_more _ q1); [|apply H|exact (local_clear _ _ _ H eq_refl)].
  assert (H2 : local q1 (if String.eqb sel "natural" && String.eqb wgt "fractional" then calculate_a fails p (set_up_correlation c0 mi ma re al, h) q1
     else find_a fails p sel wgt (set_up_correlation c0 mi ma re al, h) q1)) by (destruct (_ && _); [apply calculate_local|apply find_local]).
  destruct (if String.eqb sel "natural" && _ then _ else _) as [[s q2] r2]. destruct r2 as [[[]|e|u|]|]; try exact (local_other _ _ _ _ _ _ H2); try exact (local_other_no _ _ _ _ H2).
  apply (local_more _ q2); [|apply H2|exact (local_clear _ _ _ H2 eq_refl)]. lo.
Qed.

(** ** Histories *)
Lemma done_step p c h o q s' q' r : semi c -> run_op_a fails p (c, h) o q = (s', q', Done r) -> (r = Ok tt \/ exists e, r = Throw e) ->
  run_op p c o = (fst s', r) /\ snd s' = match o with Clear => new_results h | _ => h end.
Proof.
  intros Hs E Hr. pose proof (run_op_agrees fails p (c, h) o q) as Ag. rewrite E in Ag. destruct Ag as [[Ag _]|[Ag1 Ag2]]; [discriminate Ag|].
  cbn [fst snd] in *. injection Ag2 as ->. apply op_heap_inv; [exact Hs| |exact Hr]. subst s'. destruct (run_op_heap p (c, h) o); reflexivity.
Qed.

Definition calculations (os : list op) : nat := length (filter (fun o => match o with Calculate => true | _ => false end) os).
Lemma calculations_snoc os o : calculations (os ++ [o]) = calculations os + match o with Calculate => 1 | _ => 0 end.
Proof. unfold calculations. rewrite filter_app, app_length. destruct o; reflexivity. Qed.

Lemma after_a_inv p c0 h0 q0 os s q : base c0 -> after_a fails p (c0, h0) q0 os s q ->
  inv_a c0 (fst s) /\ iterators h0 <= iterators (snd s) <= iterators h0 + calculations os /\
  results h0 <= results (snd s) <= results h0 + cleared_times os.
Proof.
  intros H0 H. induction H as [|os [c1 h1] q1 o [c2 h2] q2 r H [I1 [I2 I3]] E Hr].
  - cbn. split; [apply inv_a_refl; exact H0|]. lia.
  - cbn [fst snd] in *. rewrite calculations_snoc, cleared_snoc. pose proof (inv_a_semi c0 c1 H0 I1) as Hs.
    destruct Hr as [->|Hr].
    + destruct (op_nomem p c1 h1 o q1 c2 h2 q2 Hs E) as [M1 [M2 [M3 [M4 _]]]]. split.
      * destruct I1 as [J1 [J2 [J3 J4]]]. destruct M1 as [T1 [T2 _]]. split; [congruence|]. split; [congruence|]. split; [lia|].
        destruct J4 as [J4|J4]; [left; congruence|right]. rewrite J4 in M3. destruct (correlations_ c2); [reflexivity|discriminate].
      * destruct M4 as [->|[-> ->]]; cbn; lia.
    + assert (G : exists r', r = Done r' /\ (r' = Ok tt \/ exists e, r' = Throw e)) by (destruct Hr as [->|[e ->]]; eauto).
      destruct G as [r' [-> Hr']]. destruct (done_step p c1 h1 o q1 _ q2 r' Hs E Hr') as [D1 D2]. cbn [fst snd] in *. split.
      * exact (step_inv_a p c0 c1 o c2 r' H0 I1 D1 Hr').
      * subst h2. destruct o; cbn; lia.
Qed.

Lemma history_fresh p c0 h0 q0 os s q o s' q' : base c0 -> after_a fails p (c0, h0) q0 os s q -> is_calculation o ->
  run_op_a fails p s o q = (s', q', Done (Ok tt)) ->
  run_op p (set_up_correlation c0 (Some (min_lag (fst s))) (Some (max_lag (fst s))) (Some (lag_resolution (fst s))) (Some (alpha (fst s)))) o = (fst s', Ok tt).
Proof.
  intros H0 H Ho E. destruct (after_a_inv p c0 h0 q0 os s q H0 H) as [I _]. destruct s as [c h]. cbn [fst] in *.
  destruct (done_step p c h o q s' q' _ (inv_a_semi c0 c H0 I) E (or_introl eq_refl)) as [D _].
  exact (calc_as_fresh_a p c0 c o (fst s') H0 I Ho D).
Qed.

Lemma history_retry p c0 h0 q0 os s q o c1 s' q' : base c0 -> after_a fails p (c0, h0) q0 os s q -> is_calculation o ->
  run_op p (fst s) o = (c1, Ok tt) -> run_op_a fails p s o q = (s', q', NoMemory) -> run_op p (fst s') o = (c1, Ok tt).
Proof.
  intros H0 H Ho E1 E. destruct (after_a_inv p c0 h0 q0 os s q H0 H) as [I _]. destruct s as [c h]. cbn [fst] in *. destruct s' as [c' h'].
  destruct (op_nomem p c h o q c' h' q' (inv_a_semi c0 c H0 I) E) as [M1 [M2 [M3 [_ M5]]]].
  destruct (calc_lags p c o c1 (inv_a_semi c0 c H0 I) Ho E1) as [L1 [L2 [_ L3]]].
  apply (calc_retry p c0 c o c1 c' H0 I Ho E1 M1 M2 M3). destruct (M5 Ho c1 E1) as [->| ->]; lia.
Qed.

(** reading after a failed request: as many numbers as before *)
Lemma correlations_lengths c c' : ds c' = ds c -> num_lag_steps c' = num_lag_steps c -> length (correlations_ c') = length (correlations_ c) ->
  forall rows, correlations c = Ok rows -> exists rows', correlations c' = Ok rows' /\ map (@length num) rows' = map (@length num) rows.
Proof.
  intros H1 H2 H3 rows. unfold correlations. rewrite H1, H2. generalize (seq 0 (N_datasets (ds c))). intros l. revert rows.
  induction l as [|j l IH]; intros rows E; cbn [mapM] in *; [injection E as <-; exists []; split; reflexivity|].
  assert (G : forall r n, mapM (fun i => lget (correlations_ c) (i + j * num_lag_steps c)) n = Ok r ->
     exists r', mapM (fun i => lget (correlations_ c') (i + j * num_lag_steps c)) n = Ok r' /\ length r' = length r).
  { intros r n. revert r. induction n as [|i n IHn]; intros r En; cbn [mapM] in *; [injection En as <-; exists []; split; reflexivity|].
    destruct (lget (correlations_ c) (i + j * num_lag_steps c)) as [x|e|u|] eqn:Ex; cbn [bind] in En; try discriminate En.
    destruct (mapM _ n) as [xs|e|u|]; cbn [bind] in En; try discriminate En. injection En as <-.
    destruct (IHn xs eq_refl) as [r' [-> Hr']].
    assert (exists y, lget (correlations_ c') (i + j * num_lag_steps c) = Ok y) as [y ->].
    { unfold lget in *. destruct (nth_error (correlations_ c) _) eqn:Hx; [|discriminate Ex].
      destruct (nth_error (correlations_ c') (i + j * num_lag_steps c)) as [y|] eqn:Hy; [eauto|].
      apply nth_error_None in Hy. assert (Hz : nth_error (correlations_ c) (i + j * num_lag_steps c) <> None) by congruence.
      apply nth_error_Some in Hz. lia. }
    cbn [bind]. eexists. split; [reflexivity|]. cbn. congruence. }
  destruct (mapM (fun i => lget (correlations_ c) (i + j * num_lag_steps c)) (seq 0 (num_lag_steps c))) as [r|e|u|] eqn:Er; cbn [bind] in E; try discriminate E.
  destruct (G r _ Er) as [r' [-> Hr']]. cbn [bind].
  match type of E with (do _ <- ?m; _) = _ => destruct m as [rs|e|u|]; cbn [bind] in E; try discriminate E end. injection E as <-.
  destruct (IH rs eq_refl) as [rs' [-> Hrs]]. cbn [bind]. eexists. split; [reflexivity|]. cbn. congruence.
Qed.

Lemma heap_run p c h o : semi c -> exists h', run_op_heap p (c, h) o = ((fst (run_op p c o), h'), snd (run_op p c o)).
Proof.
  intros Hs. destruct o; cbn [run_op_heap fst snd];
    try (match goal with |- context [run_op p c ?o] => destruct (run_op p c o) end; eexists; reflexivity); [|eexists; reflexivity].
  unfold calculate_heap. cbn [run_op fst]. unfold calculateStandardCorrelation.
  destruct (loop_heap p (S (length (timeseries_ c))) (min_lag c) false 0 c h Hs) as [h1 [-> _]].
  destruct (std_loop p _ _ _ _ c) as [c1 [n|e|u|]]; cbn [mbind fst snd]; try (eexists; reflexivity).
  destruct (cleanCorrelationData c1 n). eexists; reflexivity.
Qed.

Lemma op_same p c0 h0 q0 os s q o s' q' r : base c0 -> after_a fails p (c0, h0) q0 os s q -> run_op_a fails p s o q = (s', q', r) ->
  (r = NoMemory <-> exists n, q <= n < q' /\ fails n = true) /\
  (r <> NoMemory -> r = Done (snd (run_op p (fst s) o)) /\ fst s' = fst (run_op p (fst s) o)).
Proof.
  intros H0 H E. pose proof (run_op_local p s o q) as [_ L]. rewrite E in L. split; [exact L|]. intros Hn.
  destruct (after_a_inv p c0 h0 q0 os s q H0 H) as [I _]. destruct s as [c h]. cbn [fst] in *.
  destruct (heap_run p c h o (inv_a_semi c0 c H0 I)) as [h' K].
  destruct (run_op_agrees fails p (c, h) o q) as [[K1 _]|[K1 K2]]; rewrite E in *; [contradiction|]. rewrite K in *. cbn [fst snd] in *.
  split; [exact K2|]. rewrite K1. reflexivity.
Qed.

End AllocThms.

Lemma enough_memory {A : Num} p c0 h0 q0 os c : base c0 ->
  (after p c0 os c <-> exists h q, after_a (fun _ => false) p (c0, h0) q0 os (c, h) q).
Proof.
  intros H0. split.
  - intros H. induction H as [|os c1 o c2 r H [h1 [q1 I1]] E Hr]; [exists h0, q0; apply after_a_nil|].
    destruct (run_op_a (fun _ => false) p (c1, h1) o q1) as [[[c' h'] q'] r'] eqn:E'.
    destruct (op_same _ p c0 h0 q0 os _ _ _ _ _ _ H0 I1 E') as [K1 K2].
    assert (Hn : r' <> NoMemory) by (intros C; apply K1 in C; destruct C as [n [_ C]]; discriminate C).
    destruct (K2 Hn) as [K3 K4]. cbn [fst snd] in *. rewrite E in *. cbn [fst snd] in *. subst c' r'.
    exists h', q'. eapply after_a_snoc; [exact I1|exact E'|]. right. destruct Hr as [->|[e ->]]; eauto.
  - intros [h [q H]]. remember (c, h) as s eqn:Es. revert c h Es. induction H as [|os s1 q1 o s2 q2 r H IH E Hr]; intros c h Es.
    + injection Es as -> _. apply after_nil.
    + subst s2. destruct (op_same _ p c0 h0 q0 os _ _ _ _ _ _ H0 H E) as [K1 K2].
      assert (Hn : r <> NoMemory) by (intros C; apply K1 in C; destruct C as [n [_ C]]; discriminate C).
      destruct (K2 Hn) as [K3 K4]. cbn [fst snd] in *. destruct s1 as [c1 h1]. cbn [fst] in *.
      apply (after_snoc p c0 os c1 o c (snd (run_op p c1 o))); [exact (IH c1 h1 eq_refl)|rewrite K4; apply surjective_pairing|].
      destruct Hr as [Hr|[Hr|[e Hr]]]; [contradiction| |]; rewrite K3 in Hr; injection Hr as Hr; rewrite Hr; eauto.
Qed.
