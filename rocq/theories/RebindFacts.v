(** Assigning to the attribute data of a SACF. *)
From Coq Require Import String.
From Coq Require Import ZArith List Bool Arith Lia.
From Verif Require Import Num Mem Spec DataStructure Correlator Sacf Api FileReader Session SpecSess SessFacts SessThms SessRuns.
Import ListNotations.
Local Open Scope list_scope.

Section RebindFacts.
Context {A : Num} {D : Dec A}.
Variable p : platform.

(** the object of a SACF after the assignment; everything else that lives is as before, but for counts *)
Lemma set_data_step s x z b v n w : inv_s p s -> lookup (names s) x = Some (VRef b) -> lookup (mem s) b = Some (OSacf v, n) -> lookup (names s) z = Some w ->
  snd (step p true s (SetData x z)) = Done Nothing /\ let s' := fst (step p true s (SetData x z)) in
  inv_s p s' /\ names s' = names s /\ exists n', lookup (mem s') b = Some (OSacf (Some w), n').
Proof.
  intros H Ex Eb Ez. assert (Es : snd (step p true s (SetData x z)) = Done Nothing) by (cbn [step]; unfold on_object; rewrite Ex, Eb, Ez; reflexivity).
  split; [exact Es|]. cbv zeta. assert (H' : inv_s p (fst (step p true s (SetData x z)))) by (apply (proj2 (step_all p s (SetData x z) H)); rewrite Es; exact I).
  split; [exact H'|]. cbn [step] in *. unfold on_object in *. rewrite Ex, Eb, Ez in *. cbn [fst names mem] in *. split; [reflexivity|].
  pose proof (named_live _ _ _ x b (proj1 H') Ex) as L. unfold live in L. cbn [mem] in L.
  destruct (lookup (decref (put (hold (mem s) w) b (OSacf (Some w))) v) b) as [[o n']|] eqn:E; [|congruence]. exists n'. f_equal. f_equal.
  assert (F : fewer (put (hold (mem s) w) b (OSacf (Some w))) (decref (put (hold (mem s) w) b (OSacf (Some w))) v)).
  { assert (Cn : forall u q, cnt (children (OSacf u)) q = occn q u) by (intros [[|a]|] q; reflexivity). pose proof H as [G _].
    assert (Gh : good (names s) (hold (mem s) w) (fun q => occn q (Some w))).
    { destruct w as [|a]; [exact G|]. eapply good_ext; [|exact (incref_good _ _ _ a G (named_live _ _ _ _ _ G Ez))]. intros q. rewrite occn_ref. lia. }
    assert (exists m, lookup (hold (mem s) w) b = Some (OSacf v, m)) as [m Eh] by (destruct w as [|a]; cbn [hold]; [eauto|]; rewrite incref_objs, Eb; eauto).
    apply (decref_good (names s) _ (fun _ => 0)). intros q. pose proof (refs_cell (names s) (hold (mem s) w) b (Some (OSacf (Some w), m)) q) as R. rewrite Eh in R. cbn [occc] in R. rewrite !Cn in R.
    assert (E2 : put (hold (mem s) w) b (OSacf (Some w)) = assign (hold (mem s) w) b (Some (OSacf (Some w), m))) by (unfold put; rewrite Eh; reflexivity).
    rewrite put_objs, E2. specialize (Gh q). destruct (lookup (hold (mem s) w) q) as [[o' k]|]; lia. }
  destruct F as [_ F]. apply F in E as [k E]. rewrite put_objs, Nat.eqb_refl in E. destruct (lookup (hold (mem s) w) b) as [[o1 k1]|]; [|discriminate]. congruence.
Qed.

(** an object other than the SACF that still lives *)
Lemma set_data_other s x z b a o n : inv_s p s -> lookup (names s) x = Some (VRef b) -> lookup (mem s) a = Some (o, n) -> a <> b ->
  survives (snd (step p true s (SetData x z))) -> let s' := fst (step p true s (SetData x z)) in live (mem s') a -> exists n', lookup (mem s') a = Some (o, n').
Proof.
  intros H Ex Ea Ne Hs s' L. destruct (proj2 (step_all p s (SetData x z) H) Hs) as (H' & [_ C] & N). fold s' in H', C, N. unfold live in L.
  destruct (lookup (mem s') a) as [[o' n']|] eqn:E'; [|congruence]. destruct (C a o' n' (lookup_within _ _ _ Ea) E') as (o0 & n0 & E0 & R).
  assert (o0 = o) as -> by congruence. destruct R as [->|(k & R & _)]; [eauto|]. unfold target in R. cbn [modifies] in R. rewrite Ex in R. congruence.
Qed.

Lemma rebound_state s x z d : inv_s p s -> names_sacf s x -> names_data s z d ->
  snd (step p true s (SetData x z)) = Done Nothing /\ let s' := fst (step p true s (SetData x z)) in inv_s p s' /\
  exists b q n m, lookup (names s') x = Some (VRef b) /\ lookup (mem s') b = Some (OSacf (Some (VRef q)), n) /\ lookup (mem s') q = Some (ODs d, m).
Proof.
  intros H (b & v & n & Ex & Eb) (a & m & Ez & Ea). destruct (set_data_step s x z b v n (VRef a) H Ex Eb Ez) as (Es & H' & N & n' & Eb'). split; [exact Es|]. cbv zeta. split; [exact H'|].
  assert (L : live (mem (fst (step p true s (SetData x z)))) a) by (apply (named_live (names s) _ (fun _ => 0) z); [rewrite <- N; exact (proj1 H')|exact Ez]).
  destruct (set_data_other s x z b a (ODs d) m H Ex Ea) as [m' Ea']; [intros ->; congruence|rewrite Es; exact I|exact L|].
  exists b, a, n', m'. rewrite N. auto.
Qed.

Lemma rebound_calls cs s x z d cs' s' r mi ma re al sel wgt :
  run p true start cs = Some s -> names_sacf s x -> names_data s z d -> run p true s (SetData x z :: cs') = Some s' ->
  (forall c, In c cs' -> assigns c <> Some x) -> keeps_data p (fst (step p true s (SetData x z))) x cs' ->
  snd (step p true s' (AutoCorr r x mi ma re al sel wgt)) = of_res Result (visible (autocorrelation p d mi ma re al sel wgt)).
Proof.
  intros E Hx Hz E' Ha Hk. apply run_cons in E' as [_ E']. destruct (rebound_state s x z d (reached_inv p cs s E) Hx Hz) as (_ & H' & b & q & n & m & K1 & K2 & K3).
  exact (call_later p _ x b q n d m cs' s' r mi ma re al sel wgt H' K1 K2 K3 E' Ha Hk).
Qed.

Lemma rebound_correlators cs s x z y c cs' s' :
  run p true start cs = Some s -> snd (step p true s (Look y)) = Done (SeeCorr c) -> run p true s (SetData x z :: cs') = Some s' ->
  (forall c, In c cs' -> assigns c <> Some y) -> history p s y (SetData x z :: cs') = [] ->
  snd (step p true s' (Look y)) = Done (SeeCorr c).
Proof.
  intros E Hy E' Ha Hh. destruct (replay p cs s (SetData x z :: cs') s' y c E E') as (c' & K1 & K2); [intros c0 [<-|Hc]; [discriminate|exact (Ha c0 Hc)]|exact Hy|].
  rewrite Hh in K2. inversion K2 as [|os c1 o c2 r _ _ _ Eo]; subst; [exact K1|]. destruct os; discriminate.
Qed.

Lemma rebound_shows cs s x z d : run p true start cs = Some s -> names_sacf s x -> names_data s z d ->
  snd (step p true s (SetData x z)) = Done Nothing /\ snd (step p true (fst (step p true s (SetData x z))) (Look x)) = Done (SeeDs d).
Proof.
  intros E Hx Hz. destruct (rebound_state s x z d (reached_inv p cs s E) Hx Hz) as (Es & _ & b & q & n & m & K1 & K2 & K3). split; [exact Es|].
  rewrite look_shown. cbn [snd]. unfold shown. rewrite K1, K2, K3. reflexivity.
Qed.

Lemma rebound_none cs s x z r mi ma re al sel wgt : run p true start cs = Some s -> names_sacf s x -> lookup (names s) z = Some VNone ->
  snd (step p true (fst (step p true s (SetData x z))) (AutoCorr r x mi ma re al sel wgt)) = NullPointer.
Proof.
  intros E (b & v & n & Ex & Eb) Ez. destruct (set_data_step s x z b v n VNone (reached_inv p cs s E) Ex Eb Ez) as (_ & _ & N & n' & Eb').
  set (s' := fst (step p true s (SetData x z))) in *. cbn [step]. unfold on_object. rewrite N, Ex, Eb'. reflexivity.
Qed.

Lemma rebound_other cs s x z a r mi ma re al sel wgt :
  run p true start cs = Some s -> names_sacf s x -> lookup (names s) z = Some (VRef a) -> (forall d, ~ names_data s z d) ->
  let s' := fst (step p true s (SetData x z)) in step p true s' (AutoCorr r x mi ma re al sel wgt) = (s', PyFail).
Proof.
  intros E (b & v & n & Ex & Eb) Ez Hn. pose proof (reached_inv p cs s E) as H. destruct (set_data_step s x z b v n (VRef a) H Ex Eb Ez) as (Es & H' & N & n' & Eb'). cbv zeta.
  assert (L : live (mem (fst (step p true s (SetData x z)))) a) by (apply (named_live (names s) _ (fun _ => 0) z); [rewrite <- N; exact (proj1 H')|exact Ez]).
  assert (K : exists o m, lookup (mem (fst (step p true s (SetData x z)))) a = Some (o, m) /\ forall d, o <> ODs d).
  { destruct (Nat.eq_dec a b) as [->|Ne]; [exists (OSacf (Some (VRef b))), n'; split; [exact Eb'|discriminate]|].
    pose proof (named_live _ _ _ z a (proj1 H) Ez) as La. unfold live in La. destruct (lookup (mem s) a) as [[o m]|] eqn:Ea; [|congruence].
    destruct (set_data_other s x z b a o m H Ex Ea Ne) as [m' Ea']; [rewrite Es; exact I|exact L|]. exists o, m'. split; [exact Ea'|].
    intros d ->. apply (Hn d). exists a, m. auto. }
  destruct K as (o & m & Ea & No). set (s' := fst (step p true s (SetData x z))) in *. cbn [step]. unfold on_object. rewrite N, Ex, Eb', Ea.
  destruct o as [d|u|c q k|it]; try reflexivity. destruct (No d eq_refl).
Qed.

Lemma deleted_call cs s x r mi ma re al sel wgt : run p true start cs = Some s -> names_sacf s x ->
  let s' := fst (step p true s (DelData x)) in step p true s' (AutoCorr r x mi ma re al sel wgt) = (s', PyFail).
Proof.
  intros E (b & v & n & Ex & Eb). pose proof (reached_inv p cs s E) as H. destruct v as [v|].
  - assert (Es : snd (step p true s (DelData x)) = Done Nothing) by (cbn [step]; unfold on_object; rewrite Ex, Eb; reflexivity).
    assert (Hs : survives (snd (step p true s (DelData x)))) by (rewrite Es; exact I).
    destruct (proj2 (step_all p s (DelData x) H) Hs) as (H' & _ & _). cbv zeta.
    assert (N : names (fst (step p true s (DelData x))) = names s) by (cbn [step]; unfold on_object; rewrite Ex, Eb; reflexivity).
    assert (K : exists n', lookup (mem (fst (step p true s (DelData x)))) b = Some (OSacf None, n')).
    { pose proof (named_live _ _ _ x b (proj1 H') ltac:(rewrite N; exact Ex)) as L. unfold live in L. revert L. cbn [step]. unfold on_object. rewrite Ex, Eb. cbn [fst mem].
      destruct (lookup (decref (put (mem s) b (OSacf None)) (Some v)) b) as [[o n']|] eqn:E'; [|congruence]. intros _. exists n'. f_equal. f_equal.
      assert (G2 : good (names s) (put (mem s) b (OSacf None)) (fun q => occn q (Some v) + 0)).
      { intros q. pose proof (refs_cell (names s) (mem s) b (Some (OSacf None, n)) q) as R. rewrite Eb in R. cbn [occc] in R.
        assert (Cn : cnt (children (OSacf (Some v))) q = occn q (Some v)) by (destruct v; reflexivity). assert (Cn0 : cnt (children (OSacf None)) q = 0) by reflexivity.
        rewrite Cn, Cn0 in R. rewrite put_objs. assert (E2 : put (mem s) b (OSacf None) = assign (mem s) b (Some (OSacf None, n))) by (unfold put; rewrite Eb; reflexivity).
        rewrite E2. pose proof (proj1 H q) as G. destruct (lookup (mem s) q) as [[o' k]|]; lia. }
      destruct (decref_good _ _ (fun _ => 0) (Some v) G2) as [_ [_ F]]. apply F in E' as [k E']. rewrite put_objs, Eb, Nat.eqb_refl in E'. congruence. }
    destruct K as [n' K]. set (s' := fst (step p true s (DelData x))) in *. cbn [step]. unfold on_object. rewrite N, Ex, K. reflexivity.
  - assert (Es : fst (step p true s (DelData x)) = s) by (cbn [step]; unfold on_object; rewrite Ex, Eb; reflexivity). cbv zeta. rewrite Es.
    cbn [step]. unfold on_object. rewrite Ex, Eb. reflexivity.
Qed.
End RebindFacts.
