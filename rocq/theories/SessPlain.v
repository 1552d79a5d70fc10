(** Programs that never assign to the attribute data: no cycles, every object is freed in time. *)
From Coq Require Import String.
From Coq Require Import ZArith List Bool Arith Lia Relations.
From Verif Require Import Num Mem MemFacts Spec DataStructure DSFacts Correlator Sacf Api FileReader Session SpecSess SessFacts SessThms SessRuns.
Import ListNotations.
Local Open Scope list_scope.

Section SessPlain.
Context {A : Num} {D : Dec A}.
Variable p : platform.

Lemma plain_fewer h h' : fewer h h' -> data_plain h -> data_plain h'.
Proof. intros [_ F] H b a n E o m E'. apply F in E as [n0 E]. apply F in E' as [m0 E']. exact (H b a n0 E o m0 E'). Qed.
Lemma plain_alloc nm h pend o : good nm h pend -> data_plain h -> (forall a, o = OSacf (Some (VRef a)) -> exists d m, lookup h a = Some (ODs d, m)) ->
  data_plain (fst (alloc h o)).
Proof.
  intros G H Ho b a n E x m E'. pose proof (alloc_objs h o b) as K. pose proof (alloc_objs h o a) as K'. rewrite E in K. rewrite E' in K'. cbn in K, K'.
  assert (L : exists x' m', lookup h a = Some (x', m') /\ exists d, x' = ODs d \/ x' = x).
  { destruct (b =? length h).
    - injection K as K. destruct (Ho a (eq_sym K)) as (d & m' & Ea). exists (ODs d), m'. eauto.
    - destruct (lookup h b) as [[ob nb]|] eqn:Eb; [|discriminate]. injection K as <-. pose proof (child_live _ _ _ b _ nb a G Eb (or_introl eq_refl)) as L. unfold live in L.
      destruct (lookup h a) as [[x' m']|] eqn:Ea; [|congruence]. exists x', m'. split; [reflexivity|]. destruct (H b a nb Eb x' m' Ea) as [d ->]. eauto. }
  destruct L as (x' & m' & Ea & d & L). pose proof (lookup_within _ _ _ Ea). destruct (Nat.eqb_spec a (length h)); [lia|]. rewrite Ea in K'. cbn in K'. injection K' as <-.
  destruct (b =? length h).
  - injection K as K. destruct (Ho a (eq_sym K)) as (d' & m1 & Ea'). rewrite Ea in Ea'. injection Ea' as -> _. eauto.
  - destruct (lookup h b) as [[ob nb]|] eqn:Eb; [|discriminate]. injection K as <-. exact (H b a nb Eb _ _ Ea).
Qed.
Lemma plain_put h a o o0 n : data_plain h -> lookup h a = Some (o0, n) -> (forall d, o0 <> ODs d) -> (forall q, o <> OSacf (Some (VRef q))) -> data_plain (put h a o).
Proof.
  intros H Ea N No b q k E x m E'. rewrite put_objs in E, E'. destruct (lookup h b) as [[ob nb]|] eqn:Eb; [|discriminate].
  destruct (b =? a); [injection E as E _; destruct (No q E)|]. injection E as -> _. destruct (lookup h q) as [[oq mq]|] eqn:Eq; [|discriminate].
  destruct (H b q nb Eb oq mq Eq) as [d ->]. destruct (Nat.eqb_spec q a) as [->|]; [rewrite Ea in Eq; injection Eq as -> _; destruct (N d eq_refl)|].
  injection E' as <- _. eauto.
Qed.

Lemma on_corr_plain s a cc pds kept n o : inv_s p s -> data_plain (mem s) -> lookup (mem s) a = Some (OCorr cc pds kept, n) ->
  survives (snd (on_corr s a cc pds kept (fun c => run_op p c o))) -> data_plain (mem (fst (on_corr s a cc pds kept (fun c => run_op p c o)))).
Proof.
  intros [G T] H Ea Hs. unfold on_corr in *. destruct (deref (mem s) pds) as [d|] eqn:Ed; [|exact H]. apply deref_ds in Ed as [m Ep].
  destruct (T _ _ _ Ea) as [-> K]. destruct (K _ _ Ep) as (d' & E & c0 & os & Hn & Ho). injection E as <-. pose proof (T _ _ _ Ep) as Ha. cbn [okobj] in Ha.
  destruct (run_op p (with_ds cc d) o) as [c' r] eqn:Er. cbn [fst snd mem] in *.
  assert (Hr : r = Ok tt \/ exists e, r = Throw e) by (apply of_res_survives in Hs as [[[] ->]|Hs]; auto).
  assert (Ho' : after p c0 (os ++ [o]) c') by (eapply after_snoc; eassumption). rewrite (after_ds p d c0 _ c' Ha Hn Ho').
  assert (Ne : a <> pds) by (intros ->; congruence).
  apply plain_put with (o0 := OCorr cc pds [pds]) (n := n); [exact (plain_fewer _ _ (put_same _ _ _ _ Ep) H)| |discriminate|discriminate].
  rewrite put_objs, Ea. destruct (Nat.eqb_spec a pds); [contradiction|reflexivity].
Qed.

Lemma bind_plain s h x v : good (names s) h (fun b => occn b v) -> data_plain h -> data_plain (mem (bind_name s h x v)).
Proof. intros G H. destruct (bind_good s h x v G) as [_ F]. exact (plain_fewer _ _ F H). Qed.

Lemma step_plain s c : inv_s p s -> data_plain (mem s) -> (forall y z, c <> SetData y z) -> survives (snd (step p true s c)) -> data_plain (mem (fst (step p true s c))).
Proof.
  intros I H Hc Hs. pose proof I as [G T].
  assert (New : forall o x, (forall a, o = OSacf (Some (VRef a)) -> False) -> (forall a, In a (children o) -> live (mem s) a) ->
    data_plain (mem (bind_name s (fst (alloc (mem s) o)) x (Some (VRef (length (mem s))))))).
  { intros o x No L. apply bind_plain; [|eapply plain_alloc; [exact G|exact H|intros a E; destruct (No a E)]].
    eapply good_ext; [|exact (alloc_good _ _ _ _ G L)]. intros b. rewrite occn_ref. lia. }
  assert (OO : forall y f, (forall o a n, lookup (names s) y = Some (VRef a) -> lookup (mem s) a = Some (o, n) -> survives (snd (f o a)) -> data_plain (mem (fst (f o a)))) ->
    survives (snd (on_object s y f)) -> data_plain (mem (fst (on_object s y f)))).
  { intros y f Hf. unfold on_object. destruct (lookup (names s) y) as [[|a]|] eqn:Ey; try (intros _; exact H). destruct (lookup (mem s) a) as [[o n]|] eqn:E; [|intros _; exact H]. exact (Hf o a n eq_refl E). }
  destruct c as [x src|x src|x y|x y|x kk size|x y mi ma re al sel wgt|y o|y z i|y z o|y z|y|y|x y|x|x]; cbn [step] in *.
  - destruct (build src) as [d|e|u|]; try exact H. apply New; [discriminate|intros a []].
  - destruct (build src) as [d|e|u|] eqn:E; try exact H. clear New OO Hs.
    assert (E1 : alloc (mem s) (ODs d) = (fst (alloc (mem s) (ODs d)), length (mem s))) by reflexivity. rewrite E1. set (h1 := fst (alloc (mem s) (ODs d))) in *.
    assert (L1 : option_map fst (lookup h1 (length (mem s))) = Some (ODs d)) by (unfold h1; rewrite alloc_objs, Nat.eqb_refl; reflexivity).
    set (o := OSacf (Some (VRef (length (mem s))))).
    assert (E2 : alloc h1 o = (fst (alloc h1 o), length h1)) by reflexivity. rewrite E2. set (h2 := fst (alloc h1 o)) in *. cbn [fst].
    assert (L1' : live h1 (length (mem s))) by (unfold live; destruct (lookup h1 (length (mem s))); [discriminate|discriminate L1]).
    pose proof (alloc_good _ _ _ (ODs d) G (fun a (F : In a []) => match F with end)) as G1. fold h1 in G1.
    assert (Ch : forall a, In a (children o) -> live h1 a) by (intros a [<-|[]]; exact L1').
    pose proof (alloc_good _ _ _ o G1 Ch) as G2. fold h2 in G2.
    destruct (decref_good (names s) h2 (fun b => occn b (Some (VRef (length h1)))) (Some (VRef (length (mem s))))) as [G3 F3].
    { eapply good_ext; [|exact G2]. intros b. rewrite !occn_ref. lia. }
    apply bind_plain; [exact G3|]. apply (plain_fewer _ _ F3). eapply plain_alloc; [exact G1|eapply plain_alloc; [exact G|exact H|discriminate]|].
    intros a Eo. injection Eo as <-. destruct (lookup h1 (length (mem s))) as [[o1 m1]|]; [|discriminate]. injection L1 as ->. eauto.
  - revert Hs. apply OO. intros o b n Ey Eb _. destruct o as [d|[[|a]|]|c pds kept|it]; try exact H.
    + apply bind_plain; [exact G|exact H].
    + assert (L : live (mem s) a) by (apply (child_live _ _ _ b _ n a G Eb); left; reflexivity).
      apply bind_plain; [|exact (plain_fewer _ _ (incref_fewer _ _) H)]. eapply good_ext; [|exact (incref_good _ _ _ a G L)]. intros q. rewrite occn_ref. lia.
  - destruct (is_none s y); [exact H|]. revert Hs. apply OO. intros o a n Ey Ea _. destruct o as [d|q|c pds kept|it]; try exact H.
    destruct (new_Correlator d) as [c0|e|u|]; try exact H. apply (New (OCorr c0 a [a])); [discriminate|]. intros q [<-|[]]. unfold live. congruence.
  - destruct (new_CorrelationIterator kk size) as [it|e|u|]; try exact H. apply (New (OIt it)); [discriminate|intros a []].
  - revert Hs. apply OO. intros o b n Ey Eb _. destruct o as [d|[[|a]|]|c pds kept|it]; try exact H.
    destruct (lookup (mem s) a) as [[[d|v|c pds kept|it] m]|] eqn:Ea; try exact H. pose proof (T _ _ _ Ea) as Ha. cbn [okobj] in Ha.
    destruct (autocorrelation p d mi ma re al sel wgt) as [[r c']|e|u|] eqn:E; try exact H.
    destruct (call_past p d mi ma re al sel wgt r c' Ha E) as (c0 & os & Hn & Ho). rewrite (after_ds p d c0 os c' Ha Hn Ho). cbn [patients].
    set (h1 := put (mem s) a (ODs d)). assert (F : fewer (mem s) h1) by (eapply put_same; exact Ea).
    assert (G1 : good (names s) h1 (fun _ => 0)) by (eapply put_good; [exact G|exact Ea|reflexivity]).
    assert (Ea1 : lookup h1 a = Some (ODs d, m)) by (unfold h1; rewrite put_objs, Ea, Nat.eqb_refl; reflexivity).
    assert (Lc : forall q, In q (children (OCorr c' a [a])) -> live h1 q) by (intros q [<-|[]]; unfold live; congruence).
    change (data_plain (mem (bind_name s (fst (alloc h1 (OCorr c' a [a]))) x (Some (VRef (length h1)))))).
    apply bind_plain; [|eapply plain_alloc; [exact G1|exact (plain_fewer _ _ F H)|discriminate]]. eapply good_ext; [|exact (alloc_good _ _ _ _ G1 Lc)]. intros q. rewrite occn_ref. lia.
  - revert Hs. apply OO. intros o' a n Ey Ea. destruct o' as [d|q|c pds kept|it]; try (intros _; exact H). exact (on_corr_plain s a c pds kept n o I H Ea).
  - revert Hs. apply OO. intros o' a n Ey Ea. destruct o' as [d|q|c pds kept|it]; try (intros _; exact H). destruct (is_none s z); [intros _; exact H|].
    apply OO. intros oz b m Ez Eb. destruct oz as [d|q|c' pds' kept'|it]; try (intros _; exact H). exact (on_corr_plain s a c pds kept n (AddData it i) I H Ea).
  - revert Hs. apply OO. intros o' a n Ey Ea. destruct o' as [d|q|c pds kept|it]; try (intros _; exact H). destruct (is_none s z); [intros _; exact H|].
    apply OO. intros oz b m Ez Eb. destruct oz as [d|q|c' pds' kept'|it]; try (intros _; exact H). intros _. destruct (deref (mem s) pds) as [d|]; [|exact H].
    destruct (run_it_op p (with_ds c d) it o) as [it' r]. cbn [fst mem]. eapply plain_put; [exact H|exact Eb|discriminate|discriminate].
  - destruct (Hc y z eq_refl).
  - revert Hs. apply OO. intros o b n Ey Eb _. destruct o as [d|[v|]|c pds kept|it]; try exact H. cbn [fst mem].
    assert (G2 : good (names s) (put (mem s) b (OSacf None)) (fun q => occn q (Some v) + 0)).
    { intros q. pose proof (refs_cell (names s) (mem s) b (Some (OSacf None, n)) q) as R. rewrite Eb in R. cbn [occc] in R.
      assert (Cn : cnt (children (OSacf (Some v))) q = occn q (Some v)) by (destruct v; reflexivity). assert (Cn0 : cnt (children (OSacf None)) q = 0) by reflexivity.
      rewrite Cn, Cn0 in R. rewrite put_objs. assert (E2 : put (mem s) b (OSacf None) = assign (mem s) b (Some (OSacf None, n))) by (unfold put; rewrite Eb; reflexivity).
      rewrite E2. specialize (G q). destruct (lookup (mem s) q) as [[o' n']|]; lia. }
    destruct (decref_good _ _ (fun _ => 0) (Some v) G2) as [_ F]. apply (plain_fewer _ _ F). eapply plain_put; [exact H|exact Eb|discriminate|discriminate].
  - revert Hs. apply OO. intros o a n Ey Ea _. destruct o as [|[[|q]|]| |]; try exact H; [|destruct (deref _ _); exact H]. destruct (lookup (mem s) q) as [[[] m]|]; exact H.
  - destruct (lookup (names s) y) as [[|a]|] eqn:Ey; [| |exact H].
    + apply bind_plain; [exact G|exact H].
    + pose proof (named_live _ _ _ _ _ G Ey) as L. apply bind_plain; [|exact (plain_fewer _ _ (incref_fewer _ _) H)].
      eapply good_ext; [|exact (incref_good _ _ _ a G L)]. intros q. rewrite occn_ref. lia.
  - apply bind_plain; [exact G|exact H].
  - destruct (lookup (names s) x); [|exact H]. apply bind_plain; [exact G|exact H].
Qed.

Lemma run_plain cs : forall s s', inv_s p s -> data_plain (mem s) -> run p true s cs = Some s' -> (forall y z, ~ In (SetData y z) cs) -> data_plain (mem s').
Proof.
  induction cs as [|c cs IH]; intros s s' I H E N; [injection E as <-; exact H|]. apply run_cons in E as [E1 E2].
  apply (IH (fst (step p true s c))); [exact (proj1 (proj2 (step_all p s c I) E1))| |exact E2|intros y z Hy; exact (N y z (or_intror Hy))].
  apply step_plain; auto. intros y z ->. exact (N y z (or_introl eq_refl)).
Qed.

Lemma plain_acyclic cs s : run p true start cs = Some s -> (forall y z, ~ In (SetData y z) cs) -> acyclic s.
Proof.
  intros E N. apply (flat_acyclic p); [exact (reached_inv p cs s E)|]. apply (run_plain cs start s); [apply inv_start| |exact E|exact N].
  intros b a n E'. unfold lookup, start in E'. cbn in E'. destruct b; discriminate.
Qed.
Lemma plain_keeps cs : forall s x, (forall c, In c cs -> rebinds c = None) -> keeps_data p s x cs.
Proof.
  induction cs as [|c cs IH]; intros s x H; cbn [keeps_data]; [exact I|]. split; [intros y E; rewrite (H c (or_introl eq_refl)) in E; discriminate|].
  apply IH. intros c' Hc. apply H. right. exact Hc.
Qed.
End SessPlain.
