(** Proofs about [Alloc.v]: executions without a failed request are those of the other files. *)
From Coq Require Import String.
From Coq Require Import ZArith List Bool Arith Lia.
From Verif Require Import Num Mem MemFacts Spec DataStructure DSFacts Correlator Sacf Api CorrFacts LoopFacts MainFacts ConstrFacts StateFacts RelFacts Leak LeakFacts Alloc.
Import ListNotations.
Local Open Scope list_scope.

Section AllocFacts.
Context {A : Num} (fails : nat -> bool).

(** out of memory after a failed request, or the same *)
Definition agrees {S R} (x : ameth S R) (y : meth S R) : Prop :=
  (snd x = NoMemory /\ exists n, fails n = true) \/ (fst (fst x) = fst y /\ snd x = Done (snd y)).

Lemma agrees_done {S R} (s : S) q (r : res R) : agrees (s, q, Done r) (s, r).
Proof. right. split; reflexivity. Qed.

Lemma agrees_bind {S R Q} (x : ameth S R) (y : meth S R) (f : S -> nat -> R -> ameth S Q) (g : S -> R -> meth S Q) :
  agrees x y -> (forall s q r, y = (s, Ok r) -> agrees (f s q r) (g s r)) -> agrees (abind x f) (mbind y g).
Proof.
  destruct x as [[s q] r], y as [s' r']. intros [[H1 H2]|[H1 H2]] H; cbn [fst snd] in *.
  - subst r. left. split; [reflexivity|exact H2].
  - subst s' r. destruct r' as [a|e|u|]; cbn [abind mbind]; [apply H; reflexivity|apply agrees_done..].
Qed.

Lemma agrees_lift {S R Q} (s : S) q (x : res R) (f : R -> ameth S Q) (g : R -> meth S Q) :
  (forall r, x = Ok r -> agrees (f r) (g r)) -> agrees (alift s q x f) (mlift s x g).
Proof.
  intros H. unfold alift, mlift. apply agrees_bind; [apply agrees_done|]. intros s' q' r E. injection E as _ E. apply H. exact E.
Qed.

Lemma agrees_request {S R} (s : S) q (f : nat -> ameth S R) (y : meth S R) :
  (forall q, agrees (f q) y) -> agrees (arequest fails s q f) y.
Proof. intros H. unfold arequest. destruct (fails q) eqn:E; [|apply H]. left. split; [reflexivity|]. exists q. exact E. Qed.

Ltac ag := repeat first [apply agrees_done | apply agrees_request; intros ? | apply agrees_lift; intros ? ?].

(** ** Iterators *)
Lemma set_shifted_same it : set_shifted it (shifted_timeseries it) = it.
Proof. destruct it; reflexivity. Qed.
Lemma set_weights_same it : set_weights it (weights it) = it.
Proof. destruct it; reflexivity. Qed.

Lemma natural_shift_agrees ts back kk : forall it q,
  agrees (natural_shift_a fails ts back kk it q) (set_shifted it (natural_shift ts back kk (shifted_timeseries it)), Ok tt).
Proof.
  induction ts as [|tp ts IH]; intros it q; cbn [natural_shift_a natural_shift].
  - rewrite set_shifted_same. ag.
  - destruct (nlt back (nadd tp kk)); [rewrite set_shifted_same; ag|]. apply agrees_request. intros q'. exact (IH _ _).
Qed.

Lemma fast_shift_agrees ts back kk : forall it q,
  agrees (fast_shift_a fails ts back kk it q) (set_shifted it (fast_shift ts back kk (shifted_timeseries it)), Ok tt).
Proof.
  induction ts as [|tp ts IH]; intros it q; cbn [fast_shift_a fast_shift].
  - rewrite set_shifted_same. ag.
  - destruct (nle back (nadd tp kk)); [rewrite set_shifted_same; ag|]. apply agrees_request. intros q'. exact (IH _ _).
Qed.

Lemma natural_loop_agrees p nt n : forall i it q, agrees (natural_loop_a fails p nt n i it q) (natural_loop p nt n i it).
Proof. induction n as [|n IH]; intros i it q; cbn [natural_loop_a natural_loop]; ag. apply IH. Qed.

Lemma natural_agrees p d it q : agrees (naturalSelectionFunctionIdx_a fails p d it q) (naturalSelectionFunctionIdx p d it).
Proof.
  unfold naturalSelectionFunctionIdx_a, naturalSelectionFunctionIdx. apply agrees_lift. intros back _.
  set (it1 := set_shifted it (natural_shift (norm_t d) back (k it) (shifted_timeseries it))).
  change (mbind (natural_loop p (norm_t d) (vsize (shifted_timeseries it1)) 0 it1) ?g) with
    (mbind (it1, Ok tt) (fun it1 (_ : unit) => mbind (natural_loop p (norm_t d) (vsize (shifted_timeseries it1)) 0 it1) g)).
  apply agrees_bind; [apply natural_shift_agrees|]. intros it1' q' r _. apply agrees_bind; [apply natural_loop_agrees|]. intros; ag.
Qed.

Lemma fast_agrees p d it q : agrees (fastSelectionFunctionIdx_a fails p d it q) (fastSelectionFunctionIdx p d it).
Proof.
  unfold fastSelectionFunctionIdx_a, fastSelectionFunctionIdx. apply agrees_lift. intros back _.
  set (it1 := set_shifted it (fast_shift (norm_t d) back (k it) (shifted_timeseries it))).
  pose proof (fast_shift_agrees (norm_t d) back (k it) it q) as H. fold it1 in H.
  destruct (fast_shift_a fails (norm_t d) back (k it) it q) as [[it1' q'] r]. destruct H as [[H1 H2]|[H1 H2]]; cbn [fst snd] in *; subst.
  - left. split; [reflexivity|exact H2].
  - cbn [abind]. apply agrees_bind; [|intros; ag]. destruct (vsize (shifted_timeseries it1) =? 0); ag.
Qed.

Lemma deltaT_loop_agrees p nt vals : forall t_i it q, agrees (deltaT_loop_a fails p nt vals t_i it q) (deltaT_loop p nt vals t_i it).
Proof. induction vals as [|v vals IH]; intros t_i it q; cbn [deltaT_loop_a deltaT_loop]; ag. apply IH. Qed.

Lemma deltaT_agrees p d it q : agrees (deltaT_a fails p d it q) (deltaT p d it).
Proof. unfold deltaT_a, deltaT. apply agrees_bind; [apply deltaT_loop_agrees|]. intros; ag. Qed.

Lemma weights_loop_agrees w dsl : forall it q,
  agrees (weights_loop_a fails w dsl it q) (set_weights it (fold_left (fun v d => vpush v (w d)) dsl (weights it)), Ok tt).
Proof.
  induction dsl as [|x dsl IH]; intros it q; cbn [weights_loop_a fold_left].
  - rewrite set_weights_same. ag.
  - apply agrees_request. intros q'. exact (IH _ _).
Qed.

Lemma getWeights_agrees w it q : agrees (getWeights_a fails w it q) (getWeights w it, Ok tt).
Proof.
  unfold getWeights_a, getWeights.
  pose proof (weights_loop_agrees w (vlive (delta_t it)) it q) as H.
  destruct (weights_loop_a fails w (vlive (delta_t it)) it q) as [[it1 q'] r]. destruct H as [[H1 H2]|[H1 H2]]; cbn [fst snd] in *; subst.
  - left. split; [reflexivity|exact H2].
  - cbn [abind]. apply agrees_done.
Qed.

Lemma run_it_op_agrees p c it o q : agrees (run_it_op_a fails p c it o q) (run_it_op p c it o).
Proof.
  destruct o; cbn [run_it_op_a run_it_op].
  - apply agrees_done.
  - apply natural_agrees.
  - apply fast_agrees.
  - apply deltaT_agrees.
  - apply getWeights_agrees.
  - apply getWeights_agrees.
  - apply getWeights_agrees.
  - destruct (findCorrelation p c it). apply agrees_done.
Qed.

Lemma run_it_bind p c it o os :
  run_it p c it (o :: os) = mbind (run_it_op p c it o) (fun it _ => run_it p c it os).
Proof. cbn [run_it]. destruct (run_it_op p c it o) as [it1 [[]|e|u|]]; reflexivity. Qed.

Lemma run_it_agrees p c os : forall it q, agrees (run_it_a fails p c it os q) (run_it p c it os).
Proof.
  induction os as [|o os IH]; intros it q; [apply agrees_done|]. rewrite run_it_bind. cbn [run_it_a].
  apply agrees_bind; [apply run_it_op_agrees|]. intros; apply IH.
Qed.

(** ** The constructor *)
Lemma norm_loop_agrees d j n : forall i acc q, agrees (norm_loop_a fails d j n i acc q) (tt, norm_loop d j n i acc).
Proof.
  induction n as [|n IH]; intros i acc q; cbn [norm_loop_a norm_loop]; [apply agrees_done|].
  destruct (lat (data_ d) (getVectorIndex (M_datapoints d) i j)) as [x|e|u|]; unfold alift; cbn [abind bind]; try apply agrees_done.
  destruct (nisnan (nf32 x)); [apply IH|]. ag.
  destruct (lget (data_mean d) j) as [m|e|u|]; cbn [abind bind]; try apply agrees_done. apply IH.
Qed.

Lemma norms_agrees d js : forall q, agrees (norms_a fails d js q) (tt, mapM (fun j => norm_loop d j (M_datapoints d) 0 nzero) js).
Proof.
  induction js as [|j js IH]; intros q; cbn [norms_a mapM]; [apply agrees_done|].
  pose proof (norm_loop_agrees d j (M_datapoints d) 0 nzero q) as H.
  destruct (norm_loop_a fails d j (M_datapoints d) 0 nzero q) as [[[] q'] r]. destruct H as [[H1 H2]|[H1 H2]]; cbn [fst snd] in *; subst.
  - left. split; [reflexivity|exact H2].
  - destruct (norm_loop d j (M_datapoints d) 0 nzero) as [x|e|u|]; cbn [abind bind]; try apply agrees_done.
    specialize (IH q'). destruct (norms_a fails d js q') as [[[] q2] r]. destruct IH as [[H3 H4]|[H3 H4]]; cbn [fst snd] in *; subst.
    + left. split; [reflexivity|exact H4].
    + destruct (mapM _ js) as [xs|e|u|]; cbn [abind bind]; apply agrees_done.
Qed.

Lemma new_Correlator_agrees d q : agrees (new_Correlator_a fails d q) (tt, new_Correlator d).
Proof.
  unfold new_Correlator_a, new_Correlator. ag. 
  match goal with |- agrees (abind (norms_a fails d ?l ?q) _) _ => pose proof (norms_agrees d l q) as H; destruct (norms_a fails d l q) as [[[] q'] r] end.
  destruct H as [[H1 H2]|[H1 H2]]; cbn [fst snd] in *; subst.
  - left. split; [reflexivity|exact H2].
  - destruct (mapM _ _) as [N|e|u|]; cbn [abind bind]; try apply agrees_done.
    destruct (lback (norm_t d)) as [maxl|e|u|]; unfold alift; cbn [abind bind]; try apply agrees_done.
    destruct (to_int _) as [z|e|u|]; cbn [abind bind]; try apply agrees_done.
    destruct (int_add z 3) as [nls|e|u|]; cbn [abind bind]; try apply agrees_done.
    destruct (nls <? 0)%Z; ag.
Qed.

(** ** The correlator *)
Lemma at_by_ops p c kk i :
  calculateStandardCorrelation_at p c kk i =
  on_it c (run_it p c (CorrelationIterator kk (N_datasets (ds c))) [NaturalSelection; DeltaT; FractionWeights; FindCorrelation])
    (fun it => addCorrelationData c it i).
Proof.
  unfold calculateStandardCorrelation_at. cbn [run_it run_it_op].
  destruct (naturalSelectionFunctionIdx p (ds c) _) as [it1 [[]|e|u|]]; cbn [on_it]; try reflexivity.
  destruct (deltaT p (ds c) it1) as [it2 [[]|e|u|]]; cbn [on_it]; try reflexivity.
  destruct (findCorrelation p c (getFractionWeights c it2)) as [it3 [[]|e|u|]]; reflexivity.
Qed.

Lemma calculate_at_agrees p s kk i q : agrees (calculate_at_a fails p s kk i q) (calculate_at_heap p s kk i).
Proof.
  unfold calculate_at_a, calculate_at_heap. rewrite at_by_ops. ag.
  match goal with |- context [run_it_a fails p ?c ?it ?os ?q] => pose proof (run_it_agrees p c os it q) as H; destruct (run_it_a fails p c it os q) as [[it' q'] r]; destruct (run_it p c it os) as [it2 r2] end.
  destruct H as [[H1 H2]|[H1 H2]]; cbn [fst snd] in *; subst.
  - left. split; [reflexivity|exact H2].
  - destruct r2 as [[]|e|u|]; cbn [on_it]; try apply agrees_done.
    destruct (addCorrelationData (fst s) it2 i) as [c' [[]|e|u|]]; apply agrees_done.
Qed.

Lemma std_loop_agrees p fuel : forall kk pos i s q, agrees (std_loop_a fails p fuel kk pos i s q) (std_loop_heap p fuel kk pos i s).
Proof.
  induction fuel as [|fuel IH]; intros kk pos i s q; cbn [std_loop_a std_loop_heap]; [apply agrees_done|].
  destruct (nle kk (max_lag (fst s))); [|apply agrees_done].
  destruct (nlt nzero kk && negb _).
  - apply agrees_bind; [apply calculate_at_agrees|]. intros s1 q1 _ _. apply agrees_bind; [apply calculate_at_agrees|]. intros; apply IH.
  - apply agrees_bind; [apply calculate_at_agrees|]. intros; apply IH.
Qed.

Lemma clean_agrees c i q : agrees (clean_a fails c i q) (cleanCorrelationData c i).
Proof.
  unfold clean_a. assert (G : forall q, agrees (arequest fails (set_data c (lresize nzero (timeseries_ c) i) (correlations_ c) (num_lag_steps c)) q (fun q =>
    match cleanCorrelationData c i with
    | (c2, Ok _) =>
      if length (correlations_ c) <? length (correlations_ c2) then arequest fails (set_data c (lresize nzero (timeseries_ c) i) (correlations_ c) (num_lag_steps c)) q (fun q => (c2, q, Done (Ok tt)))
      else (c2, q, Done (Ok tt))
    | (c2, r) => (c2, q, Done r)
    end)) (cleanCorrelationData c i)).
  { intros q'. ag. destruct (cleanCorrelationData c i) as [c2 [[]|e|u|]]; ag. destruct (length (correlations_ c) <? length (correlations_ c2)); ag. }
  destruct (length (timeseries_ c) <? i); [apply agrees_request; intros q'|]; apply G.
Qed.

Lemma beside_agrees {R} h (x : ameth correlator R) (y : meth correlator R) :
  agrees x y -> agrees (beside h x) (let (c', r) := y in ((c', h), r)).
Proof.
  destruct x as [[c q] r], y as [c' r']. intros [[H1 H2]|[H1 H2]]; cbn [beside fst snd] in *; subst.
  - left. split; [reflexivity|exact H2].
  - apply agrees_done.
Qed.

Lemma calculate_agrees p s q : agrees (calculate_a fails p s q) (calculate_heap p s).
Proof. unfold calculate_a, calculate_heap. apply agrees_bind; [apply std_loop_agrees|]. intros. apply beside_agrees, clean_agrees. Qed.

Lemma find_at_agrees p sel wgt s kk i q :
  agrees (find_at_a fails p sel wgt s kk i q) (let (c', r) := find_correlation_at p sel wgt (fst s) kk i in ((c', snd s), r)).
Proof.
  destruct s as [c h]. unfold find_at_a, find_correlation_at. cbn [fst snd]. ag.
  assert (S1 : SELECTION_FUNCTIONS p sel = match selection_op sel with Some o => Some (fun c it => run_it_op p c it o) | None => None end).
  { unfold SELECTION_FUNCTIONS, selection_op. destruct (String.eqb_spec sel "fast") as [->|]; [reflexivity|]. destruct (String.eqb_spec sel "natural"); reflexivity. }
  assert (S2 : WEIGHT_FUNCTIONS wgt = match weights_op wgt with Some FractionWeights => Some getFractionWeights | Some FractionSquaredWeights => Some getFractionSquaredWeights
     | Some GaussianWeights => Some getGaussianWeights | _ => None end /\ (weights_op wgt = None \/ exists o, weights_op wgt = Some o /\ is_weights o)).
  { unfold WEIGHT_FUNCTIONS, weights_op, is_weights. destruct (String.eqb_spec wgt "gaussian") as [->|]; [split; [reflexivity|right; eexists; split; [reflexivity|auto]]|].
    destruct (String.eqb_spec wgt "fractional") as [->|]; [split; [reflexivity|right; eexists; split; [reflexivity|auto]]|].
    destruct (String.eqb_spec wgt "fractional_squared") as [->|]; [split; [reflexivity|right; eexists; split; [reflexivity|auto]]|]. split; [reflexivity|left; reflexivity]. }
  rewrite S1. destruct S2 as [-> S2]. destruct (selection_op sel) as [o|]; [|apply agrees_done].
  match goal with |- context [run_it_a fails p ?c ?it ?os ?q] => pose proof (run_it_agrees p c os it q) as H; destruct (run_it_a fails p c it os q) as [[it' q'] r] end.
  rewrite run_it_bind in H.
  destruct (run_it_op p c (CorrelationIterator kk (N_datasets (ds c))) o) as [it1 [[]|e|u|]]; cbn [mbind run_it run_it_op on_it] in *;
    try (destruct H as [[H1 H2]|[H1 H2]]; cbn [fst snd] in *; subst; [left; split; [reflexivity|exact H2]|apply agrees_done]).
  destruct (deltaT p (ds c) it1) as [it2 [[]|e|u|]]; cbn [on_it] in *;
    try (destruct H as [[H1 H2]|[H1 H2]]; cbn [fst snd] in *; subst; [left; split; [reflexivity|exact H2]|apply agrees_done]).
  destruct H as [[H1 H2]|[H1 H2]]; cbn [fst snd] in *; subst; [left; split; [reflexivity|exact H2]|].
  destruct S2 as [->|[w [-> S2]]]; [apply agrees_done|].
  match goal with |- context [run_it_a fails p ?c ?it ?os ?q] => pose proof (run_it_agrees p c os it q) as H; destruct (run_it_a fails p c it os q) as [[it' q''] r] end.
  assert (G : forall it3, run_it_op p c it2 w = (it3, Ok tt) ->
    agrees match r with Done (Ok _) => let (c', r0) := addCorrelationData c it' i in (c', h, q'', Done r0) | _ => (c, h, q'', r) end
      (let (c', r0) := on_it c (findCorrelation p c it3) (fun it4 => addCorrelationData c it4 i) in (c', h, r0))).
  { intros it3 E. rewrite run_it_bind, E in H. cbn [mbind run_it run_it_op] in H.
    destruct (findCorrelation p c it3) as [it4 [[]|e|u|]]; cbn [on_it] in *;
    try (destruct H as [[H1 H2]|[H1 H2]]; cbn [fst snd] in *; subst; [left; split; [reflexivity|exact H2]|apply agrees_done]).
    destruct H as [[H1 H2]|[H1 H2]]; cbn [fst snd] in *; subst; [left; split; [reflexivity|exact H2]|].
    destruct (addCorrelationData c it4 i) as [c' r0]. apply agrees_done. }
  destruct S2 as [->|[->| ->]]; exact (G _ eq_refl).
Qed.

Lemma find_loop_agrees p sel wgt fuel maxl resl : forall g n last s q,
  agrees (find_loop_a fails p sel wgt fuel maxl resl g n last s q) (let (c', r) := find_loop p sel wgt fuel maxl resl g n last (fst s) in ((c', snd s), r)).
Proof.
  induction fuel as [|fuel IH]; intros g n last s q; cbn [find_loop_a find_loop]; [destruct s; apply agrees_done|].
  destruct (gen_next maxl resl g) as [[kk g']|]; [|destruct s; apply agrees_done].
  assert (E : (let (c', r) := mbind (find_correlation_at p sel wgt (fst s) kk n) (fun c1 _ => find_loop p sel wgt fuel maxl resl g' (S n) (Some n) c1) in ((c', snd s), r)) =
    mbind (let (c', r) := find_correlation_at p sel wgt (fst s) kk n in ((c', snd s), r))
      (fun s1 _ => let (c', r) := find_loop p sel wgt fuel maxl resl g' (S n) (Some n) (fst s1) in ((c', snd s1), r))).
  { destruct (find_correlation_at p sel wgt (fst s) kk n) as [c1 [[]|e|u|]]; reflexivity. }
  refine (eq_ind_r (fun y => agrees _ y) _ E). apply agrees_bind; [apply find_at_agrees|]. intros; apply IH.
Qed.

Lemma find_agrees p sel wgt s q : agrees (find_a fails p sel wgt s q) (let (c', r) := find_correlation p (fst s) sel wgt in ((c', snd s), r)).
Proof.
  unfold find_a, find_correlation. ag.
  set (m := find_loop p sel wgt _ _ _ _ _ _ _).
  assert (E : (let (c', r) := mbind m (fun c1 last => match last with None => (c1, Throw PyUnboundLocalError) | Some i => cleanCorrelationData c1 (i + 1) end) in ((c', snd s), r)) =
    mbind (let (c', r) := m in ((c', snd s), r))
      (fun s1 last => match last with None => (s1, Throw PyUnboundLocalError) | Some i => let (c', r) := cleanCorrelationData (fst s1) (i + 1) in ((c', snd s1), r) end)).
  { destruct m as [c1 [[i|]|e|u|]]; reflexivity. }
  refine (eq_ind_r (fun y => agrees _ y) _ E). apply agrees_bind; [apply find_loop_agrees|]. intros s1 q1 [i|] _; [|apply agrees_done]. apply beside_agrees, clean_agrees.
Qed.

Lemma run_op_agrees p s o q : agrees (run_op_a fails p s o q) (run_op_heap p s o).
Proof.
  destruct o; cbn [run_op_a run_op_heap]; try (destruct (run_op p (fst s) _); apply agrees_done).
  - apply calculate_agrees.
  - apply find_agrees.
  - cbn [run_op]. destruct (i <? 0)%Z; [destruct s; apply agrees_done|]. apply beside_agrees, clean_agrees.
  - ag.
Qed.

Lemma autocorrelation_agrees p d mi ma re al sel wgt h q : accepted d ->
  agrees (autocorrelation_a fails p d mi ma re al sel wgt h q) (fst (fst (autocorrelation_a fails p d mi ma re al sel wgt h q)), autocorrelation p d mi ma re al sel wgt).
Proof.
  intros Ha. unfold autocorrelation_a, autocorrelation.
  pose proof (new_Correlator_agrees d q) as H. destruct (new_Correlator_a fails d q) as [[[] q'] r].
  destruct H as [[H1 H2]|[_ H2]]; cbn [fst snd] in *; subst; [left; split; [reflexivity|exact H2]|].
  destruct (new_Correlator d) as [c0|e|u|] eqn:En; cbn [bind]; try apply agrees_done.
  set (c1 := set_up_correlation c0 mi ma re al).
  assert (Hse : semi c1). { destruct (new_base d c0 Ha En) as [[[R1 [R2 _]] _] _]. destruct (set_up_ready c0 mi ma re al (proj1 (proj1 (new_base d c0 Ha En)))) as [S1 [S2 _]]. split; assumption. }
  match goal with |- agrees match ?x with _ => _ end _ => set (m := x) end.
  assert (G : (snd m = NoMemory /\ exists n, fails n = true) \/ exists h', agrees m (let (c', r) := (if String.eqb sel "natural"%string && String.eqb wgt "fractional"%string
           then calculateStandardCorrelation p c1 else find_correlation p c1 sel wgt) in ((c', h'), r))).
  { unfold m. destruct (String.eqb sel "natural" && String.eqb wgt "fractional").
    - pose proof (calculate_agrees p (c1, h) q') as H. destruct H as [H|H]; [left; exact H|right].
      unfold calculate_heap, calculateStandardCorrelation in *. cbn [fst] in *.
      destruct (loop_heap p (S (length (timeseries_ c1))) (min_lag c1) false 0 c1 h Hse) as [h' [L _]]. rewrite L in H.
      exists h'. right. destruct (std_loop p _ _ _ _ _) as [c2 [n|e|u|]]; cbn [mbind fst snd] in *; exact H.
    - right. exists h. apply (find_agrees p sel wgt (c1, h)). }
  clearbody m. destruct m as [[s q2] r]. destruct G as [[G1 G2]|[h' [[G1 G2]|[G1 G2]]]]; cbn [fst snd] in *.
  - subst r. left. split; [reflexivity|exact G2].
  - subst r. left. split; [reflexivity|exact G2].
  - destruct (if _ : bool then calculateStandardCorrelation p c1 else find_correlation p c1 sel wgt) as [c2 r2]. cbn [fst snd] in *. subst s r.
    destruct r2 as [[]|e|u|]; cbn [bind fst snd]; try apply agrees_done.
    unfold arequest. destruct (fails q2) eqn:F1; [left; split; [reflexivity|eauto]|]. destruct (fails (S q2)) eqn:F2; [left; split; [reflexivity|eauto]|].
    destruct (result_of c2) as [[x y]|e|u|]; unfold alift; cbn [abind bind fst snd]; try apply agrees_done.
    destruct (fails (S (S q2))) eqn:F3; [left; split; [reflexivity|eauto]|]. destruct (fails (S (S (S q2)))) eqn:F4; [left; split; [reflexivity|eauto]|]. apply agrees_done.
Qed.

End AllocFacts.
