(** Proofs about [Threads.v]: threads that share a Correlator. *)
From Coq Require Import String.
From Coq Require Import ZArith List Bool Arith Lia.
From Verif Require Import Num Mem DataStructure Correlator Sacf Api Threads SpecThreads CorrFacts LoopFacts StateFacts ThreadFacts.
Import ListNotations.
Local Open Scope list_scope.

Section Shared.
Context {A : Num}.
Variable p : platform.

(** ** What one step does *)
Definition plain {X} (r : res X) : Prop := (exists x, r = Ok x) \/ exists e, r = Throw e.
Definition bad_log (l : list report) : Prop := exists r, In r l /\ bad_report r.
Definition part_of_find (o : op) : Prop := (exists it n, o = AddData it (Z.of_nat n)) \/ exists n, o = CleanData (Z.of_nat n).

Lemma find_step_op sel wgt c s c' s' : find_step p sel wgt c s = (c', s') ->
  c' = c \/ exists o r, part_of_find o /\ run_op p c o = (c', r) /\ (r = Ok tt \/ s' = Stop r).
Proof.
  intros E. destruct s; cbn [find_step] in E; try (left; injection E as <- _; reflexivity).
  - destruct (gen_next (l_max l) (l_res l) (l_gen l)) as [[kk g]|]; left; injection E as <- _; reflexivity.
  - destruct (addCorrelationData c it (l_count l)) as [c1 r] eqn:Ea. injection E as <- <-. right. exists (AddData it (Z.of_nat (l_count l))), r.
    split; [left; eauto|]. cbn [run_op]. destruct (Z.ltb_spec (Z.of_nat (l_count l)) 0); [lia|]. rewrite Nat2Z.id. split; [exact Ea|]. destruct r as [[]|e|u|]; auto.
  - destruct (cleanCorrelationData c n) as [c1 r] eqn:Ea. injection E as <- <-. right. exists (CleanData (Z.of_nat n)), r.
    split; [right; eauto|]. cbn [run_op]. destruct (Z.ltb_spec (Z.of_nat n) 0); [lia|]. rewrite Nat2Z.id. split; [exact Ea|]. auto.
Qed.

(** the object changed, if any: by an operation, or it is one of autocorrelation *)
Definition changed (h : heap) (t : thread) (t' : thread) (h' : heap) : Prop :=
  h' = h \/ (exists c0, h' = h ++ [c0]) \/
  exists a c c', nth_error h a = Some c /\ h' = replace h a c' /\
    (own t = Some a \/ c' = c \/
     exists o r, (In (Call a o) (todo t) \/ part_of_find o) /\ run_op p c o = (c', r) /\ (r = Ok tt \/ (exists e, r = Throw e) \/ bad_log (log t'))).

Lemma bad_finish t ws (r : res unit) : (exists x, r = Ok x) \/ (exists e, r = Throw e) \/ bad_log (log (finish t ws (undefined r) (Ended r))).
Proof.
  destruct r as [x|e|u|]; [left; eauto|right; left; eauto| |]; right; right.
  - exists (Ended (UB u)). split; [apply in_or_app; right; left; reflexivity|]. left. eauto.
  - exists (Ended Diverge). split; [apply in_or_app; right; left; reflexivity|]. right. reflexivity.
Qed.

Lemma step_shape h t h' t' : thread_step p h t = (h', t') ->
  changed h t t' h' /\ incl (todo t') (todo t) /\ (exists l, log t' = log t ++ l) /\
  (forall a, own t' = Some a -> own t = Some a \/ a = length h).
Proof.
  intros E. unfold thread_step, on in E.
  assert (LL : forall k ws, exists l, log (goes_on t ws k) = log t ++ l) by (intros; exists []; symmetry; apply app_nil_r).
  assert (LF : forall ws u rep, exists l, log (finish t ws u rep) = log t ++ l) by (intros ws u rep; exists [rep]; reflexivity).
  assert (TF : forall ws u rep, incl ws (todo t) -> incl (todo (finish t ws u rep)) (todo t)) by (intros ws u rep H x Hx; cbn in Hx; destruct u; [destruct Hx|apply H; exact Hx]).
  destruct (doing t) as [|a sel wgt s|a os sel wgt|a sel wgt s|a|a lags|a lags n] eqn:Et.
  - destruct (todo t) as [|w ws] eqn:Ew.
    { injection E as <- <-. split; [left; reflexivity|]. rewrite Ew. split; [apply incl_refl|]. split; [exists []; symmetry; apply app_nil_r|auto]. }
    assert (Iw : incl ws (todo t)) by (rewrite Ew; intros x Hx; right; exact Hx). rewrite <- Ew in *. destruct w as [a o|d mi ma re al sel wgt].
    + destruct (nth_error h a) as [c|] eqn:Ec.
      2:{ injection E as <- <-. split; [left; reflexivity|]. split; [apply incl_refl|]. split; [exists []; symmetry; apply app_nil_r|auto]. }
      destruct (call_step p h t a o ws c) as [[sel [wgt ->]]|[_ K]].
      * injection E as <- <-. split; [left; reflexivity|]. split; [exact Iw|]. split; [apply LL|intros b Hb; discriminate Hb].
      * rewrite K in E. clear K. destruct (run_op p c o) as [c' r] eqn:Er. injection E as <- <-. split; [|split; [apply TF; exact Iw|split; [apply LF|intros b Hb; discriminate Hb]]].
        right. right. exists a, c, c'. split; [exact Ec|]. split; [reflexivity|]. right. right. exists o, r. split; [left; rewrite Ew; left; reflexivity|]. split; [exact Er|].
        destruct (bad_finish t ws r) as [[[] ->]|[K|K]]; auto.
    + destruct (new_Correlator d) as [c0|e|u|]; injection E as <- <-.
      * split; [right; left; eauto|]. split; [exact Iw|]. split; [apply LL|]. intros b Hb. injection Hb as <-. right. reflexivity.
      * split; [left; reflexivity|]. split; [apply TF; exact Iw|]. split; [apply LF|intros b Hb; discriminate Hb].
      * split; [left; reflexivity|]. split; [apply TF; exact Iw|]. split; [apply LF|intros b Hb; discriminate Hb].
      * split; [left; reflexivity|]. split; [apply TF; exact Iw|]. split; [apply LF|intros b Hb; discriminate Hb].
  - destruct (nth_error h a) as [c|] eqn:Ec.
    2:{ injection E as <- <-. split; [left; reflexivity|]. split; [apply incl_refl|]. split; [exists []; symmetry; apply app_nil_r|auto]. }
    destruct (find_step p sel wgt c s) as [c' s'] eqn:Es. injection E as <- <-. split; [|split; [|split]].
    + right. right. exists a, c, c'. split; [exact Ec|]. split; [reflexivity|]. right. destruct (find_step_op sel wgt c s c' s' Es) as [K|[o [r [K1 [K2 K3]]]]]; [left; exact K|].
      right. exists o, r. split; [right; exact K1|]. split; [exact K2|]. destruct K3 as [->| ->]; [auto|]. destruct (bad_finish t (todo t) r) as [[[] ->]|[K|K]]; auto.
    + destruct s'; first [apply incl_refl | apply TF; apply incl_refl].
    + destruct s'; first [apply LF | apply LL].
    + intros b Hb. destruct s'; discriminate Hb.
  - assert (Ow : own t = Some a) by (unfold own; rewrite Et; reflexivity). destruct os as [|o os]; (destruct (nth_error h a) as [c|] eqn:Ec;
      [|injection E as <- <-; split; [left; reflexivity|split; [apply incl_refl|split; [exists []; symmetry; apply app_nil_r|auto]]]]).
    + destruct (String.eqb sel "natural" && String.eqb wgt "fractional").
      * destruct (calculateStandardCorrelation p c) as [c' r]. injection E as <- <-. split; [right; right; exists a, c, c'; auto|].
        destruct r; (split; [first [apply incl_refl | apply TF; apply incl_refl]|split; [first [apply LF | apply LL]|intros b Hb; first [discriminate Hb | left; rewrite Ow; exact Hb]]]).
      * injection E as <- <-. split; [left; reflexivity|]. split; [apply incl_refl|]. split; [apply LL|]. intros b Hb. left. rewrite Ow. exact Hb.
    + injection E as <- <-. split; [right; right; exists a, c, (fst (run_op p c o)); auto|]. split; [apply incl_refl|]. split; [apply LL|]. intros b Hb. left. rewrite Ow. exact Hb.
  - assert (Ow : own t = Some a) by (unfold own; rewrite Et; reflexivity). destruct (nth_error h a) as [c|] eqn:Ec;
      [|injection E as <- <-; split; [left; reflexivity|split; [apply incl_refl|split; [exists []; symmetry; apply app_nil_r|auto]]]].
    destruct (find_step p sel wgt c s) as [c' s'] eqn:Es. injection E as <- <-. split; [right; right; exists a, c, c'; auto|].
    split; [|split].
    + destruct s'; try apply incl_refl. destruct r; first [apply incl_refl | apply TF; apply incl_refl].
    + destruct s'; try apply LL. destruct r; first [apply LF | apply LL].
    + intros b Hb. left. rewrite Ow. destruct s'; try exact Hb. destruct r; first [discriminate Hb | exact Hb].
  - assert (Ow : own t = Some a) by (unfold own; rewrite Et; reflexivity). destruct (nth_error h a) as [c|] eqn:Ec; injection E as <- <-.
    + split; [left; reflexivity|]. split; [apply incl_refl|]. split; [apply LL|]. intros b Hb. left. rewrite Ow. exact Hb.
    + split; [left; reflexivity|split; [apply incl_refl|split; [exists []; symmetry; apply app_nil_r|auto]]].
  - assert (Ow : own t = Some a) by (unfold own; rewrite Et; reflexivity). destruct (nth_error h a) as [c|] eqn:Ec.
    + destruct (correlations c); injection E as <- <-; (split; [left; reflexivity|split; [first [apply incl_refl | apply TF; apply incl_refl]|split; [first [apply LF | apply LL]|intros b Hb; first [discriminate Hb | left; rewrite Ow; exact Hb]]]]).
    + injection E as <- <-. split; [left; reflexivity|split; [apply incl_refl|split; [exists []; symmetry; apply app_nil_r|auto]]].
  - assert (Ow : own t = Some a) by (unfold own; rewrite Et; reflexivity). destruct (nth_error h a) as [c|] eqn:Ec.
    + destruct (correlations c); injection E as <- <-; (split; [left; reflexivity|split; [first [apply incl_refl | apply TF; apply incl_refl]|split; [first [apply LF | apply LL]|intros b Hb; first [discriminate Hb | left; rewrite Ow; exact Hb]]]]).
    + injection E as <- <-. split; [left; reflexivity|split; [apply incl_refl|split; [exists []; symmetry; apply app_nil_r|auto]]].
Qed.

(** ** The history of an object every thread may use *)
Variables (h0 : heap) (progs : list (list work)).
Definition called (a : nat) (o : op) : Prop := (exists i ws, nth_error progs i = Some ws /\ In (Call a o) ws) \/ part_of_find o.
Definition history (s : system) : Prop :=
  length h0 <= length (mem s) /\
  (forall i t, nth_error (threads s) i = Some t -> (forall a, own t = Some a -> length h0 <= a) /\ exists ws, nth_error progs i = Some ws /\ incl (todo t) ws) /\
  ((forall i t, nth_error (threads s) i = Some t -> ~ bad_log (log t)) ->
   forall a c, nth_error h0 a = Some c -> exists os c', nth_error (mem s) a = Some c' /\ after p c os c' /\ forall o, In o os -> called a o).

Lemma history_begin : history (begin h0 progs).
Proof.
  split; [apply le_n|]. split.
  - intros i t Ht. apply begin_nth in Ht. destruct Ht as [ws [Hw ->]]. split; [intros a Ha; discriminate Ha|]. exists ws. split; [exact Hw|apply incl_refl].
  - intros _ a c Hc. exists [], c. split; [exact Hc|]. split; [constructor|]. intros o [].
Qed.

Lemma history_step s i : history s -> history (system_step p s i).
Proof.
  intros Hs. pose proof Hs as [H1 [H2 H3]]. unfold system_step. destruct (nth_error (threads s) i) as [t|] eqn:Ei; [|exact Hs].
  destruct (thread_step p (mem s) t) as [h' t'] eqn:Es. destruct (step_shape _ _ _ _ Es) as [Ch [In' [[l Lg] Ow]]].
  assert (Ns : forall j, nth_error (set_thread (threads s) i t') j = if j =? i then Some t' else nth_error (threads s) j) by (intros j; apply (set_thread_same _ _ _ _ _ Ei)).
  assert (Le : length (mem s) <= length h').
  { destruct Ch as [->|[[c0 ->]|[a [c [c' [_ [-> _]]]]]]]; [lia|rewrite app_length; lia|rewrite replace_length; lia]. }
  split; [cbn; lia|]. destruct (H2 i t Ei) as [Ot [ws [Hw Hi]]]. split; cbn [threads mem].
  - intros j tj. rewrite Ns. destruct (Nat.eqb_spec j i) as [->|]; [|apply H2]. intros K. injection K as <-. split.
    + intros a Ha. destruct (Ow a Ha) as [K| ->]; [apply Ot; exact K|exact H1].
    + exists ws. split; [exact Hw|]. intros x Hx. apply Hi, In', Hx.
  - intros Nb a c Hc.
    assert (Nt : ~ bad_log (log t')) by (apply (Nb i); rewrite Ns, Nat.eqb_refl; reflexivity).
    assert (Nb0 : forall j tj, nth_error (threads s) j = Some tj -> ~ bad_log (log tj)).
    { intros j tj Hj. destruct (Nat.eq_dec j i) as [->|Hn].
      - rewrite Ei in Hj. injection Hj as <-. intros [r [Hr Br]]. apply Nt. exists r. split; [|exact Br]. rewrite Lg. apply in_or_app. left. exact Hr.
      - apply (Nb j). rewrite Ns. destruct (Nat.eqb_spec j i); [contradiction|exact Hj]. }
    destruct (H3 Nb0 a c Hc) as [os [c1 [K1 [K2 K3]]]].
    assert (La : a < length h0) by (apply nth_error_Some; congruence).
    destruct Ch as [->|[[c0 ->]|[b [cb [cb' [Eb [-> D]]]]]]].
    + exists os, c1. auto.
    + exists os, c1. split; [rewrite nth_error_app1 by lia; exact K1|]. auto.
    + rewrite (replace_same _ _ _ _ _ Eb). destruct (Nat.eqb_spec a b) as [->|]; [|exists os, c1; auto]. rewrite Eb in K1. injection K1 as <-.
      destruct D as [D|[->|[o [r [D1 [D2 D3]]]]]].
      * pose proof (Ot _ D). lia.
      * exists os, cb. auto.
      * exists (os ++ [o]), cb'. split; [reflexivity|]. split.
        { eapply after_snoc; [exact K2|exact D2|]. destruct D3 as [D3|[D3|D3]]; auto. contradiction. }
        intros x Hx. apply in_app_or in Hx. destruct Hx as [Hx|[<-|[]]]; [apply K3; exact Hx|]. destruct D1 as [D1|D1]; [|right; exact D1]. left. exists i, ws. split; [exact Hw|]. apply Hi. exact D1.
Qed.

Lemma history_run schedule : forall s, history s -> history (run_threads p schedule s).
Proof. induction schedule as [|i sch IH]; intros s Hs; [exact Hs|]. cbn. apply IH. apply history_step. exact Hs. Qed.

End Shared.
