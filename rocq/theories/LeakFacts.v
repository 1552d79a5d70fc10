(** Proofs about [Leak.v]. *)
From Coq Require Import String.
From Coq Require Import ZArith List Bool Arith Lia.
From Verif Require Import Num Mem MemFacts Spec DataStructure DSFacts Correlator Sacf Api CorrFacts LoopFacts MainFacts ConstrFacts SelFacts StateFacts Leak.
Import ListNotations.
Local Open Scope list_scope.

Section LeakFacts.
Context {A : Num}.

Lemma mapM_no_throw {X Y} (f : X -> res Y) l : (forall x, In x l -> forall e, f x <> Throw e) -> forall e, mapM f l <> Throw e.
Proof.
  induction l as [|x l IH]; intros H e; cbn; [discriminate|]. pose proof (H x (or_introl eq_refl)) as Hx.
  destruct (f x) as [y|e'|u|]; cbn; try discriminate; [|intros _; exact (Hx e' eq_refl)]. specialize (IH (fun y Hy => H y (or_intror Hy))).
  destruct (mapM f l); cbn; try discriminate. intros C. injection C as ->. exact (IH e eq_refl).
Qed.

Lemma cabs_no_throw p x e : cabs p x <> Throw e.
Proof. destruct (cabs_outcome p x) as [[y ->]| ->]; discriminate. Qed.

Lemma shifted_in test nt kk s : In s (shifted test nt kk) -> test s = false.
Proof.
  induction nt as [|x nt IH]; cbn; [contradiction|]. destruct (test (nadd x kk)) eqn:E; cbn; [contradiction|].
  intros [<-|H]; auto.
Qed.

Lemma natural_no_throw p nt kk e : nt <> [] -> natural_sel p nt kk <> Throw e.
Proof.
  intros Hn. unfold natural_sel. pose proof (lback_ok nt nzero Hn) as Hb. rewrite Hb. cbn [bind].
  set (S := shifted _ nt kk). assert (G : forall e, mapM (natural_index p nt) S <> Throw e).
  { apply mapM_no_throw. intros s Hs e'. apply shifted_in in Hs. destruct (natural_index_outcome p nt s _ Hb Hs) as [[i ->]| ->]; discriminate. }
  destruct (mapM (natural_index p nt) S); cbn; try discriminate. intros C. injection C as ->. exact (G e eq_refl).
Qed.

Lemma values_no_throw w p c kk e : wf_ds (ds c) -> lag_values natural_sel w p c kk <> Throw e.
Proof.
  intros Hw. assert (Hn : 0 < length (norm_t (ds c))) by (destruct Hw as [? [? ?]]; lia).
  unfold lag_values. destruct (natural_sel p (norm_t (ds c)) kk) as [[se sh]|e'|u|] eqn:E; cbn [bind fst snd]; try discriminate.
  - destruct (natural_sel_ok p _ kk se sh Hn E) as [K1 [K2 K3]].
    assert (G : forall e, deltas p (norm_t (ds c)) se sh <> Throw e).
    { unfold deltas. apply mapM_no_throw. intros [q s] Hin e'. unfold delta_of. cbn [fst snd].
      apply in_combine_l in Hin. rewrite (lat_ok _ q nzero) by (apply K3; exact Hin). cbn [bind]. destruct (p_checked p); cbn [bind]; [discriminate|apply cabs_no_throw]. }
    destruct (deltas p (norm_t (ds c)) se sh); cbn; try discriminate. intros C. injection C as ->. exact (G e eq_refl).
  - exfalso. apply (natural_no_throw p (norm_t (ds c)) kk e'); [intros C; rewrite C in Hn; cbn in Hn; lia|exact E].
Qed.

(** a step that does not throw frees its iterator or is undefined *)
Lemma at_heap p c h kk i : semi c ->
  calculate_at_heap p (c, h) kk i = (let (c', r) := calculateStandardCorrelation_at p c kk i in
     ((c', match r with Ok _ => h | _ => new_iterator h end), r)) /\
  forall e, snd (calculateStandardCorrelation_at p c kk i) <> Throw e.
Proof.
  intros [H1 H2]. split.
  - unfold calculate_at_heap. cbn [fst snd]. destruct (calculateStandardCorrelation_at p c kk i) as [c' [[]|e|u|]]; try reflexivity.
    destruct h; reflexivity.
  - intros e. rewrite calculate_at_closed by assumption. unfold store_res.
    destruct (lag_values natural_sel (fractionWeightFunction (alpha c)) p c kk) as [cs|e'|u|] eqn:E; cbn [snd]; try discriminate.
    + destruct (store c kk cs i) as [c' r] eqn:Ea. unfold store in Ea. apply add_cases in Ea. destruct Ea as [_ [_ [_ [[-> _]|[u ->]]]]]; discriminate.
    + exfalso. exact (values_no_throw _ p c kk e' H1 E).
Qed.

Lemma at_setup p c kk i c' r : semi c -> calculateStandardCorrelation_at p c kk i = (c', r) -> same_setup c c'.
Proof.
  intros [H1 H2] E. rewrite calculate_at_closed in E by assumption. unfold store_res in E.
  assert (G : same_setup c c) by (exists (timeseries_ c), (correlations_ c); destruct c; reflexivity).
  destruct (lag_values _ _ _ _ _) as [cs|e|u|]; [|injection E as <- _; exact G|injection E as <- _; exact G|injection E as <- _; exact G].
  unfold store in E. apply add_cases in E. apply E.
Qed.

Lemma setup_semi c c' : semi c -> same_setup c c' -> semi c' /\ max_lag c' = max_lag c /\ lag_resolution c' = lag_resolution c.
Proof. intros H [ts [cs ->]]. repeat split; apply H. Qed.

(** the loop: the same run; on a normal end nothing is left; it does not throw *)
Lemma loop_heap p fuel : forall kk pos i c h, semi c ->
  exists h', std_loop_heap p fuel kk pos i (c, h) = (let (c', r) := std_loop p fuel kk pos i c in ((c', h'), r)) /\
    (forall n, snd (std_loop p fuel kk pos i c) = Ok n -> h' = h) /\ forall e, snd (std_loop p fuel kk pos i c) <> Throw e.
Proof.
  induction fuel as [|fuel IH]; intros kk pos i c h Hs; cbn [std_loop std_loop_heap fst].
  { exists h. split; [reflexivity|]. split; [reflexivity|discriminate]. }
  destruct (nle kk (max_lag c)); [|exists h; split; [reflexivity|]; split; [reflexivity|discriminate]].
  set (pos1 := if neqb kk nzero then true else pos).
  assert (One : forall pos2 j c1 x, semi c1 -> lag_resolution c1 = lag_resolution c ->
    exists h', mbind (calculate_at_heap p (c1, h) x j) (fun s1 _ => std_loop_heap p fuel (nadd kk (lag_resolution c)) pos2 (S j) s1) =
      (let (c', r) := mbind (calculateStandardCorrelation_at p c1 x j) (fun c2 _ => std_loop p fuel (nadd kk (lag_resolution c)) pos2 (S j) c2) in ((c', h'), r)) /\
      (forall n, snd (mbind (calculateStandardCorrelation_at p c1 x j) (fun c2 _ => std_loop p fuel (nadd kk (lag_resolution c)) pos2 (S j) c2)) = Ok n -> h' = h) /\
      forall e, snd (mbind (calculateStandardCorrelation_at p c1 x j) (fun c2 _ => std_loop p fuel (nadd kk (lag_resolution c)) pos2 (S j) c2)) <> Throw e).
  { intros pos2 j c1 x Hs1 Hr. destruct (at_heap p c1 h x j Hs1) as [-> Ht]. destruct (calculateStandardCorrelation_at p c1 x j) as [c2 [[]|e|u|]] eqn:E; cbn [mbind snd] in *.
    - apply IH. apply (setup_semi c1 c2 Hs1). eapply at_setup; eassumption.
    - exfalso. exact (Ht e eq_refl).
    - exists (new_iterator h). split; [reflexivity|]. split; discriminate.
    - exists (new_iterator h). split; [reflexivity|]. split; discriminate. }
  destruct (nlt nzero kk && negb pos1).
  - destruct (at_heap p c h nzero i Hs) as [-> Ht]. destruct (calculateStandardCorrelation_at p c nzero i) as [c1 [[]|e|u|]] eqn:E; cbn [mbind snd] in *.
    + destruct (setup_semi c c1 Hs (at_setup _ _ _ _ _ _ Hs E)) as [Hs1 [_ Hr]]. exact (One true (S i) c1 kk Hs1 Hr).
    + exfalso. exact (Ht e eq_refl).
    + exists (new_iterator h). split; [reflexivity|]. split; discriminate.
    + exists (new_iterator h). split; [reflexivity|]. split; discriminate.
  - exact (One pos1 i c kk Hs eq_refl).
Qed.

(** one operation *)
Lemma op_heap p c h o c' r : semi c -> run_op p c o = (c', r) -> (r = Ok tt \/ exists e, r = Throw e) ->
  run_op_heap p (c, h) o = ((c', match o with Clear => new_results h | _ => h end), r).
Proof.
  intros Hs E Hr. destruct o; cbn [run_op_heap fst snd]; try (rewrite E; reflexivity).
  - cbn [run_op] in E. unfold calculate_heap, calculateStandardCorrelation in *. cbn [fst].
    destruct (loop_heap p (S (length (timeseries_ c))) (min_lag c) false 0 c h Hs) as [h' [-> [H1 H2]]].
    destruct (std_loop p _ _ _ _ _) as [c1 [n|e|u|]]; cbn [mbind fst snd] in *.
    + rewrite (H1 n eq_refl). rewrite E. reflexivity.
    + exfalso. exact (H2 e eq_refl).
    + injection E as <- <-. destruct Hr as [Hr|[e Hr]]; discriminate.
    + injection E as <- <-. destruct Hr as [Hr|[e Hr]]; discriminate.
  - cbn [run_op] in E. injection E as <- <-. reflexivity.
Qed.

(** and back *)
Lemma op_heap_inv p c h o s r : semi c -> run_op_heap p (c, h) o = (s, r) -> (r = Ok tt \/ exists e, r = Throw e) ->
  run_op p c o = (fst s, r) /\ snd s = match o with Clear => new_results h | _ => h end.
Proof.
  intros Hs E Hr.
  assert (G : exists c' h', run_op_heap p (c, h) o = ((c', h'), snd (run_op p c o)) /\ c' = fst (run_op p c o)).
  { destruct o; cbn [run_op_heap fst snd];
      try (match goal with |- context [let (_, _) := run_op p c ?x in _] => destruct (run_op p c x) as [c' r'] end; eauto).
    - unfold calculate_heap. cbn [fst run_op]. unfold calculateStandardCorrelation.
      destruct (loop_heap p (S (length (timeseries_ c))) (min_lag c) false 0 c h Hs) as [h' [-> _]].
      destruct (std_loop p _ _ _ _ _) as [c1 [n|e|u|]]; cbn [mbind fst snd]; eauto. destruct (cleanCorrelationData c1 n); eauto.
    - eauto. }
  destruct G as [c' [h' [G ->]]]. rewrite E in G. injection G as -> ->. cbn [fst].
  destruct (run_op p c o) as [c1 r1] eqn:E1. cbn [fst snd] in *. split; [reflexivity|].
  rewrite (op_heap p c h o c1 r1 Hs E1 Hr) in E. injection E as <-. reflexivity.
Qed.

Definition cleared_times (os : list op) : nat := length (filter (fun o => match o with Clear => true | _ => false end) os).

Lemma cleared_snoc os o : cleared_times (os ++ [o]) = cleared_times os + match o with Clear => 1 | _ => 0 end.
Proof. unfold cleared_times. rewrite filter_app, app_length. destruct o; reflexivity. Qed.

Lemma history_heap p c0 h0 os : base c0 -> forall s, after_heap p (c0, h0) os s ->
  after p c0 os (fst s) /\ snd s = {| iterators := iterators h0; results := results h0 + cleared_times os |}.
Proof.
  intros H0 s H. induction H as [|os [c1 h1] o s2 r H [I1 I2] E Hr].
  - split; [apply after_nil|]. destruct h0; cbn. f_equal. lia.
  - cbn [fst snd] in *. destruct (after_inv p c0 os c1 H0 I1) as [Hi _].
    destruct (op_heap_inv p c1 h1 o s2 r (inv_semi _ _ H0 Hi) E Hr) as [K1 K2]. split; [eapply after_snoc; eassumption|].
    rewrite K2, I2, cleared_snoc. destruct o; unfold new_results; cbn; f_equal; lia.
Qed.

Lemma history_heap_back p c0 h0 os c : base c0 -> after p c0 os c -> exists h, after_heap p (c0, h0) os (c, h).
Proof.
  intros H0 H. induction H as [|os c1 o c2 r H [h1 I1] E Hr]; [exists h0; apply after_heap_nil|].
  destruct (after_inv p c0 os c1 H0 H) as [Hi _]. eexists. eapply after_heap_snoc; [exact I1| |exact Hr].
  apply op_heap; [eapply inv_semi; eassumption|exact E|exact Hr].
Qed.
End LeakFacts.

Section Raise.
Context {A : Num}.
Lemma calculate_no_throw p c0 os c c' r : base c0 -> after p c0 os c -> run_op p c Calculate = (c', r) -> forall e, r <> Throw e.
Proof.
  intros H0 H E e. destruct (after_inv p c0 os c H0 H) as [Hi _]. cbn [run_op] in E. unfold calculateStandardCorrelation in E.
  destruct (loop_heap p (S (length (timeseries_ c))) (min_lag c) false 0 c {| iterators := 0; results := 0 |} (inv_semi _ _ H0 Hi)) as [_ [_ [_ H2]]].
  destruct (std_loop p _ _ _ _ _) as [c1 [n|e'|u|]]; cbn [mbind snd] in *.
  - destruct (clean_cases c1 n) as [[ts [cs [K _]]]|[u K]]; rewrite E in K.
    + injection K as _ ->. discriminate.
    + cbn in K. rewrite K. discriminate.
  - exfalso. exact (H2 e' eq_refl).
  - injection E as _ <-. discriminate.
  - injection E as _ <-. discriminate.
Qed.
End Raise.

(** histories by evaluation *)
Section Eval.
Context {A : Num}.
Definition step_heap (p : platform) (s : correlator * heap) (o : op) : option (correlator * heap) :=
  let (s', r) := run_op_heap p s o in match r with Ok _ | Throw _ => Some s' | _ => None end.
Fixpoint steps_heap (p : platform) (s : correlator * heap) (os : list op) : option (correlator * heap) :=
  match os with [] => Some s | o :: os' => match step_heap p s o with Some s' => steps_heap p s' os' | None => None end end.
Lemma steps_after p s0 os : forall done s s', after_heap p s0 done s -> steps_heap p s os = Some s' -> after_heap p s0 (done ++ os) s'.
Proof.
  induction os as [|o os IH]; intros done s s' H E; cbn in E; [injection E as <-; rewrite app_nil_r; exact H|].
  unfold step_heap in E. destruct (run_op_heap p s o) as [s1 r] eqn:E1. change (o :: os) with ([o] ++ os). rewrite app_assoc.
  destruct r as [[]|e|u|]; try discriminate; (eapply IH; [|exact E]); (eapply after_heap_snoc; [exact H|exact E1|]); eauto.
Qed.
End Eval.
