(** Programs with several objects: what holds after every command. *)
From Coq Require Import String.
From Coq Require Import ZArith List Bool Arith Lia.
From Verif Require Import Num Mem MemFacts Spec DataStructure DSFacts Correlator Sacf Api FileReader CorrFacts LoopFacts MainFacts SafeFacts StateFacts RelFacts
  FileThms Session SpecSess SessFacts.
Import ListNotations.
Local Open Scope list_scope.

Section SessThms.
Context {A : Num} {D : Dec A}.
Variable p : platform.

(** a correlator and an iterator with a past *)
Definition corr_past (d : dstruct) (c : correlator) : Prop := exists c0 os, new_Correlator d = Ok c0 /\ after p c0 os c.
Definition it_past (it : cor_it) : Prop := exists kk size it0 os, new_CorrelationIterator kk size = Ok it0 /\ it_after p it0 os it.

Definition okobj (h : heap) (o : obj) : Prop :=
  match o with
  | ODs d => accepted d
  | OSacf _ => True
  | OCorr c pds kept => kept = [pds] /\ forall ob m, lookup h pds = Some (ob, m) -> exists d, ob = ODs d /\ corr_past d (with_ds c d)
  | OIt it => it_past it
  end.
Definition typed (h : heap) : Prop := forall a o n, lookup h a = Some (o, n) -> okobj h o.
Definition inv_s (s : state) : Prop := good (names s) (mem s) (fun _ => 0) /\ typed (mem s).

Lemma okobj_fewer h h' o : fewer h h' -> okobj h o -> okobj h' o.
Proof.
  intros [_ F]. destruct o as [d|v|c pds kept|it]; cbn [okobj]; auto.
  intros [H1 H2]. split; [exact H1|]. intros ob m E. apply F in E as [m' E]. eauto.
Qed.
Lemma typed_fewer h h' : fewer h h' -> typed h -> typed h'.
Proof. intros F H a o n E. apply (okobj_fewer h h' o F). destruct F as [_ F]. apply F in E as [m E]. exact (H a o m E). Qed.

Lemma incref_fewer h a : fewer h (incref h a).
Proof.
  split; [apply incref_length|]. intros b o n E. rewrite incref_objs in E. destruct (lookup h b) as [[o' n']|]; [|discriminate]. injection E as <- _. eauto.
Qed.

Lemma okobj_alloc h o x : okobj h x -> (forall a, In a (children x) -> live h a) -> okobj (fst (alloc h o)) x.
Proof.
  assert (K : forall a ob m, live h a -> lookup (fst (alloc h o)) a = Some (ob, m) -> exists m', lookup h a = Some (ob, m')).
  { intros a ob m L E. pose proof (alloc_objs h o a) as K. rewrite E in K. cbn in K. destruct (Nat.eqb_spec a (length h)) as [->|_].
    - exfalso. apply L. apply lookup_beyond. lia.
    - destruct (lookup h a) as [[o' m']|]; [|discriminate]. injection K as ->. eauto. }
  intros H L. destruct x as [d|v|c pds kept|it]; cbn [okobj children] in *; auto.
  destruct H as [-> H]. split; [reflexivity|]. intros ob m E. apply K in E as [m' E]; [|apply L; left; reflexivity]. eauto.
Qed.
Lemma typed_alloc nm h pend o : good nm h pend -> typed h -> okobj h o -> (forall a, In a (children o) -> live h a) -> typed (fst (alloc h o)).
Proof.
  intros G H Ho L a x n E. pose proof (alloc_objs h o a) as K. rewrite E in K. cbn in K. destruct (a =? length h).
  - injection K as ->. apply okobj_alloc; assumption.
  - destruct (lookup h a) as [[x' m]|] eqn:Ea; [|discriminate]. injection K as ->. apply okobj_alloc; [exact (H a x' m Ea)|].
    intros b Hb. exact (child_live nm h pend a x' m b G Ea Hb).
Qed.

(** ** How the heap changes *)
(** [k]: the command changes the attribute of a SACF *)
Definition alike (k : bool) (o o' : obj) : Prop :=
  match o, o' with OCorr _ a l, OCorr _ a' l' => a' = a /\ l' = l /\ k = false | OIt _, OIt _ => k = false | OSacf _, OSacf _ => k = true | _, _ => False end.
Definition changes (h h' : heap) (m : option (addr * bool)) : Prop :=
  length h <= length h' /\
  forall a o n, a < length h -> lookup h' a = Some (o, n) -> exists o0 n0, lookup h a = Some (o0, n0) /\ (o = o0 \/ exists k, m = Some (a, k) /\ alike k o0 o).
Lemma changes_refl h m : changes h h m.
Proof. split; [reflexivity|]. intros a o n _ E. exists o, n. auto. Qed.
Lemma fewer_changes h h' m : fewer h h' -> changes h h' m.
Proof. intros [F1 F2]. split; [lia|]. intros a o n _ E. apply F2 in E as [n0 E]. exists o, n0. auto. Qed.
Lemma alloc_changes h o m : changes h (fst (alloc h o)) m.
Proof.
  split; [rewrite alloc_length; lia|]. intros a x n Ha E. pose proof (alloc_objs h o a) as K. rewrite E in K. cbn in K.
  destruct (Nat.eqb_spec a (length h)); [lia|]. destruct (lookup h a) as [[x' n']|]; [|discriminate]. injection K as ->. exists x', n'. auto.
Qed.
Lemma changes_trans h h' h'' m : changes h h' None -> changes h' h'' m -> changes h h'' m.
Proof.
  intros [H1 H2] [K1 K2]. split; [lia|]. intros a o n Ha E. destruct (K2 a o n ltac:(lia) E) as (o1 & n1 & E1 & R1). destruct (H2 a o1 n1 Ha E1) as (o0 & n0 & E0 & R0).
  exists o0, n0. split; [exact E0|]. destruct R0 as [->|[k [R0 _]]]; [exact R1|discriminate].
Qed.
Lemma changes_fewer h h' h'' m : changes h h' m -> fewer h' h'' -> changes h h'' m.
Proof.
  intros [H1 H2] [K1 K2]. split; [lia|]. intros a o n Ha E. destruct (K2 a o n E) as [n1 E1]. exact (H2 a o n1 Ha E1).
Qed.

(** the object a command changes *)
Definition target (s : state) (c : cmd) : option (addr * bool) :=
  match modifies c with
  | Some y => match lookup (names s) y with Some (VRef a) => Some (a, match rebinds c with Some _ => true | None => false end) | _ => None end
  | None => None
  end.

Definition step_ok (s : state) (c : cmd) (s' : state) (r : outcome) : Prop :=
  r <> Dangling /\
  (survives r -> inv_s s' /\ changes (mem s) (mem s') (target s c) /\ forall x, assigns c <> Some x -> lookup (names s') x = lookup (names s) x).

Lemma step_same s c r : inv_s s -> r <> Dangling -> step_ok s c s r.
Proof. intros H Hr. split; [exact Hr|]. intros _. split; [exact H|]. split; [apply changes_refl|reflexivity]. Qed.
Lemma of_res_dangling {X} (f : X -> view) (r : res X) : of_res f r <> Dangling.
Proof. destruct r; discriminate. Qed.

(** a new meaning for a name *)
Lemma step_bind s c h x v r : inv_s s -> assigns c = Some x -> good (names s) h (fun b => occn b v) -> typed h -> changes (mem s) h None -> r <> Dangling ->
  step_ok s c (bind_name s h x v) r.
Proof.
  intros [G T] Hx Gh Th Ch Hr. split; [exact Hr|]. intros _. destruct (bind_good s h x v Gh) as [G' F]. split; [split; [exact G'|exact (typed_fewer _ _ F Th)]|].
  split; [exact (changes_trans _ _ _ _ Ch (fewer_changes _ _ _ F))|]. intros y Hy. cbn [bind_name names]. apply lookup_other. congruence.
Qed.

Lemma occn_ref a b : occn b (Some (VRef a)) = if Nat.eq_dec a b then 1 else 0.
Proof. reflexivity. Qed.

(** a new object with a name *)
Lemma step_new s c o x r : inv_s s -> assigns c = Some x -> okobj (mem s) o -> (forall a, In a (children o) -> live (mem s) a) -> r <> Dangling ->
  step_ok s c (bind_name s (fst (alloc (mem s) o)) x (Some (VRef (length (mem s))))) r.
Proof.
  intros H Hx Ho L Hr. pose proof H as [G T]. apply step_bind; try assumption.
  - eapply good_ext; [|exact (alloc_good _ _ _ _ G L)]. intros b. rewrite occn_ref. lia.
  - eapply typed_alloc; eassumption.
  - apply alloc_changes.
Qed.

Lemma source_accepted src d : build src = Ok d -> accepted d.
Proof.
  destruct src as [t v e|t v e|f]; cbn [build]; intros E.
  - left. eauto.
  - right. eauto.
  - destruct (proj2 (file_outcomes f)) as [K|[K|(t & v & e & d' & _ & _ & K & K2)]]; try congruence. left. exists t, v, (Some e). congruence.
Qed.

Lemma deref_ds h a d : deref h a = Some d -> exists n, lookup h a = Some (ODs d, n).
Proof. unfold deref. destruct (lookup h a) as [[[] n]|]; try discriminate. intros E. injection E as ->. eauto. Qed.

Lemma with_ds_same c d : ds c = d -> with_ds c d = c.
Proof. intros <-. destruct c. reflexivity. Qed.

Lemma after_ds d c0 os c : accepted d -> new_Correlator d = Ok c0 -> after p c0 os c -> ds c = d.
Proof.
  intros Ha Hn H. destruct (new_base d c0 Ha Hn) as [H0 H1]. destruct (after_inv p c0 os c H0 H) as [[K _] _]. congruence.
Qed.

Lemma call_past d mi ma re al sel wgt r c : accepted d -> autocorrelation p d mi ma re al sel wgt = Ok (r, c) -> corr_past d c.
Proof.
  intros Ha E. destruct r as [lags corr]. assert (exists c0, new_Correlator d = Ok c0) as [c0 Hn].
  { unfold autocorrelation in E. apply bind_Ok in E. destruct E as [c0 [E _]]. eauto. }
  pose proof (call_history p d c0 mi ma re al sel wgt lags corr c Ha Hn E) as K. cbv zeta in K.
  destruct (set_up_after p c0 mi ma re al) as [os [Hos _]]. exists c0. eexists. split; [exact Hn|]. eapply after_snoc; [exact Hos|exact K|]. left. reflexivity.
Qed.

(** writing an equal object *)
Lemma put_same h a o n : lookup h a = Some (o, n) -> fewer h (put h a o).
Proof.
  intros E. split; [apply put_length|]. intros b x m Eb. rewrite put_objs in Eb. destruct (lookup h b) as [[x' m']|] eqn:Eb'; [|discriminate].
  destruct (Nat.eqb_spec b a) as [->|_].
  - injection Eb as <- _. assert (x' = o) as -> by congruence. eauto.
  - injection Eb as <- _. eauto.
Qed.

(** the object with a name *)
Lemma on_object_ok s c y f : inv_s s ->
  (forall o a n, lookup (names s) y = Some (VRef a) -> lookup (mem s) a = Some (o, n) -> step_ok s c (fst (f o a)) (snd (f o a))) ->
  step_ok s c (fst (on_object s y f)) (snd (on_object s y f)).
Proof.
  intros H Hf. unfold on_object. destruct (lookup (names s) y) as [[|a]|] eqn:Ey; try (apply step_same; [exact H|discriminate]).
  destruct (lookup (mem s) a) as [[o n]|] eqn:Ea; [exact (Hf o a n eq_refl Ea)|]. exfalso. exact (named_live _ _ _ _ _ (proj1 H) Ey Ea).
Qed.

(** replacing a correlator by a later one, or an iterator *)
Lemma put_typed k0 h a o o0 n : typed h -> lookup h a = Some (o0, n) -> alike k0 o0 o -> okobj (put h a o) o -> typed (put h a o).
Proof.
  intros T Ea Al Ho b x m Eb. rewrite put_objs in Eb. destruct (lookup h b) as [[x' m']|] eqn:Eb'; [|discriminate].
  destruct (Nat.eqb_spec b a) as [->|Hb]; [injection Eb as <- _; exact Ho|]. injection Eb as <- _. pose proof (T b x' m' Eb') as K.
  assert (Q : forall q ob k, lookup (put h a o) q = Some (ob, k) -> (q = a /\ ob = o) \/ q <> a /\ lookup h q = Some (ob, k)).
  { intros q ob k Eq. rewrite put_objs in Eq. destruct (lookup h q) as [[xq mq]|]; [|discriminate]. destruct (Nat.eqb_spec q a) as [->|Hq]; injection Eq as <- <-; auto. }
  assert (N : forall d, o0 <> ODs d) by (intros d ->; exact Al).
  destruct x' as [d|q|c pds kept|it]; cbn [okobj] in *; auto.
  destruct K as [K1 K2]. split; [exact K1|]. intros ob k Eq. apply Q in Eq as [[-> ->]|[_ Eq]]; [|eauto]. destruct (K2 o0 n Ea) as (d & E & _). destruct (N d E).
Qed.
Lemma put_changes k0 h a o o0 n : lookup h a = Some (o0, n) -> alike k0 o0 o -> changes h (put h a o) (Some (a, k0)).
Proof.
  intros Ea Al. split; [rewrite put_length; lia|]. intros b x m _ Eb. rewrite put_objs in Eb. destruct (lookup h b) as [[x' m']|] eqn:Eb'; [|discriminate].
  exists x', m'. split; [reflexivity|]. destruct (Nat.eqb_spec b a) as [->|Hb].
  - injection Eb as <- _. right. exists k0. split; [reflexivity|]. congruence.
  - injection Eb as <- _. left. reflexivity.
Qed.

Lemma of_res_survives {X} (f : X -> view) (r : res X) : survives (of_res f r) -> (exists x, r = Ok x) \/ exists e, r = Throw e.
Proof. destruct r; cbn; try tauto; eauto. Qed.

Lemma on_corr_ok s c y a n cc pds kept o : inv_s s -> lookup (names s) y = Some (VRef a) -> modifies c = Some y -> rebinds c = None ->
  lookup (mem s) a = Some (OCorr cc pds kept, n) -> let x := on_corr s a cc pds kept (fun c => run_op p c o) in step_ok s c (fst x) (snd x).
Proof.
  intros H Ey Hm Hb Ea. pose proof H as [G T]. pose proof (T _ _ _ Ea) as K. cbn [okobj] in K. destruct K as [-> K].
  assert (Lp : live (mem s) pds) by (apply (child_live _ _ _ a _ n pds G Ea); left; reflexivity).
  unfold live in Lp. destruct (lookup (mem s) pds) as [[ob m]|] eqn:Ep; [|congruence]. destruct (K ob m eq_refl) as (d & -> & c0 & os & Hn & Ho).
  pose proof (T _ _ _ Ep) as Ha. cbn [okobj] in Ha. cbv zeta. unfold on_corr, deref. rewrite Ep. destruct (run_op p (with_ds cc d) o) as [c' r] eqn:Er. cbn [fst snd].
  split; [apply of_res_dangling|]. intros Hs. assert (Hr : r = Ok tt \/ exists e, r = Throw e) by (apply of_res_survives in Hs as [[[] ->]|Hs]; auto).
  assert (Ho' : after p c0 (os ++ [o]) c') by (eapply after_snoc; eassumption).
  pose proof (after_ds d c0 _ c' Ha Hn Ho') as Ed. rewrite Ed.
  set (h1 := put (mem s) pds (ODs d)). assert (F : fewer (mem s) h1) by (eapply put_same; exact Ep).
  assert (Ne : a <> pds) by (intros ->; congruence).
  assert (Ea1 : lookup h1 a = Some (OCorr cc pds [pds], n)) by (unfold h1; rewrite put_objs, Ea; destruct (Nat.eqb_spec a pds); [contradiction|reflexivity]).
  assert (G1 : good (names s) h1 (fun _ => 0)) by (eapply put_good; [exact G|exact Ep|reflexivity]).
  assert (Al : alike false (OCorr cc pds [pds]) (OCorr c' pds [pds])) by (cbn; auto).
  split; [|split; [|reflexivity]].
  - split; cbn [names mem]; [eapply put_good; [exact G1|exact Ea1|reflexivity]|]. eapply put_typed; [exact (typed_fewer _ _ F T)|exact Ea1|exact Al|].
    cbn [okobj]. split; [reflexivity|]. intros ob' k Eq. rewrite put_objs in Eq. unfold h1 in Eq. rewrite put_objs, Ep, Nat.eqb_refl in Eq.
    destruct (Nat.eqb_spec pds a); [congruence|]. injection Eq as <- _. exists d. split; [reflexivity|]. rewrite with_ds_same by exact Ed. exists c0. eauto.
  - cbn [mem]. unfold target. rewrite Hm, Ey, Hb. eapply changes_trans; [apply fewer_changes; exact F|]. eapply put_changes; [exact Ea1|exact Al].
Qed.

(** a new value of the attribute of a SACF, already held *)
Lemma set_attr_ok s c y b n v w h : inv_s s -> lookup (names s) y = Some (VRef b) -> modifies c = Some y -> rebinds c = Some y -> assigns c = None ->
  good (names s) h (fun q => occn q w) -> fewer (mem s) h -> lookup h b = Some (OSacf v, n) ->
  step_ok s c {| names := names s; mem := decref (put h b (OSacf w)) v |} (Done Nothing).
Proof.
  intros [G T] Ey Hm Hr Hx Gh Fh Eb. split; [discriminate|]. intros _. set (h2 := put h b (OSacf w)).
  assert (Cn : forall u q, cnt (children (OSacf u)) q = occn q u).
  { intros [[|a]|] q; reflexivity. }
  assert (G2 : good (names s) h2 (fun q => occn q v + 0)).
  { intros q. pose proof (refs_cell (names s) h b (Some (OSacf w, n)) q) as R. rewrite Eb in R. cbn [occc] in R. rewrite !Cn in R.
    assert (E2 : h2 = assign h b (Some (OSacf w, n))) by (unfold h2, put; rewrite Eb; reflexivity).
    pose proof (put_objs h b (OSacf w) q) as L2. fold h2 in L2. rewrite L2, E2. specialize (Gh q). destruct (lookup h q) as [[o' n']|]; lia. }
  destruct (decref_good (names s) h2 (fun _ => 0) v G2) as [G3 F3].
  assert (Al : alike true (OSacf v) (OSacf w)) by reflexivity.
  split; [split; cbn [names mem]; [exact G3|]|split; [|reflexivity]].
  - apply (typed_fewer _ _ F3). eapply put_typed; [exact (typed_fewer _ _ Fh T)|exact Eb|exact Al|exact I].
  - cbn [mem]. unfold target. rewrite Hm, Ey, Hr. eapply changes_fewer; [|exact F3]. eapply changes_trans; [apply fewer_changes; exact Fh|].
    eapply put_changes; [exact Eb|exact Al].
Qed.

Theorem step_all s c : inv_s s -> step_ok s c (fst (step p true s c)) (snd (step p true s c)).
Proof.
  intros H. pose proof H as [G T]. destruct c as [x src|x src|x y|x y|x kk size|x y mi ma re al sel wgt|y o|y z i|y z o|y z|y|y|x y|x|x]; cbn [step].
  - destruct (build src) as [d|e|u|] eqn:E; try (apply step_same; [exact H|discriminate]).
    destruct (alloc (mem s) (ODs d)) as [h a] eqn:Ea. replace h with (fst (alloc (mem s) (ODs d))) by (rewrite Ea; reflexivity).
    injection Ea as _ <-. apply step_new; auto; [exact (source_accepted src d E)|intros a []|discriminate].
  - destruct (build src) as [d|e|u|] eqn:E; try (apply step_same; [exact H|discriminate]).
    assert (E1 : alloc (mem s) (ODs d) = (fst (alloc (mem s) (ODs d)), length (mem s))) by reflexivity. rewrite E1. set (h1 := fst (alloc (mem s) (ODs d))) in *.
    assert (E2 : alloc h1 (OSacf (Some (VRef (length (mem s))))) = (fst (alloc h1 (OSacf (Some (VRef (length (mem s)))))), length h1)) by reflexivity. rewrite E2. set (h2 := fst (alloc h1 (OSacf (Some (VRef (length (mem s))))))) in *.
    assert (L1 : option_map fst (lookup h1 (length (mem s))) = Some (ODs d)) by (unfold h1; rewrite alloc_objs, Nat.eqb_refl; reflexivity).
    assert (L1' : live h1 (length (mem s))) by (unfold live; destruct (lookup h1 (length (mem s))); [discriminate|discriminate L1]).
    pose proof (alloc_good _ _ _ (ODs d) G (fun a (F : In a []) => match F with end)) as G1. fold h1 in G1.
    assert (Ch : forall a, In a (children (OSacf (Some (VRef (length (mem s)))))) -> live h1 a) by (intros a [<-|[]]; exact L1').
    pose proof (alloc_good _ _ _ (OSacf (Some (VRef (length (mem s))))) G1 Ch) as G2. fold h2 in G2.
    assert (T1 : typed h1) by (eapply typed_alloc; [exact G|exact T|exact (source_accepted src d E)|intros a []]).
    assert (T2 : typed h2).
    { eapply typed_alloc; [exact G1|exact T1|exact I|exact Ch]. }
    destruct (decref_good (names s) h2 (fun b => occn b (Some (VRef (length h1)))) (Some (VRef (length (mem s))))) as [G3 F3].
    { eapply good_ext; [|exact G2]. intros b. rewrite !occn_ref. lia. }
    apply (step_bind s (NewSacf x src)); [exact H|reflexivity|exact G3|exact (typed_fewer _ _ F3 T2)| |discriminate].
    eapply changes_trans; [apply alloc_changes|]. eapply changes_trans; [apply alloc_changes|]. apply fewer_changes. exact F3.
  - apply on_object_ok; [exact H|]. intros o b n Ey Eb. destruct o as [d|[[|a]|]|c pds kept|it]; try (apply step_same; [exact H|discriminate]).
    { apply (step_bind s (GetData x y)); [exact H|reflexivity|exact G|exact T|apply changes_refl|discriminate]. }
    assert (L : live (mem s) a) by (apply (child_live _ _ _ b _ n a G Eb); left; reflexivity).
    apply (step_bind s (GetData x y)); [exact H|reflexivity| |exact (typed_fewer _ _ (incref_fewer _ _) T)|apply fewer_changes, incref_fewer|discriminate].
    eapply good_ext; [|exact (incref_good _ _ _ a G L)]. intros q. rewrite occn_ref. lia.
  - destruct (is_none s y); [apply step_same; [exact H|discriminate]|]. apply on_object_ok; [exact H|]. intros o a n Ey Ea.
    destruct o as [d|q|c pds kept|it]; try (apply step_same; [exact H|discriminate]).
    destruct (new_Correlator d) as [c0|e|u|] eqn:Ec; try (apply step_same; [exact H|discriminate]). cbn [patients]. cbn [fst snd].
    pose proof (T _ _ _ Ea) as Ha. cbn [okobj] in Ha. destruct (new_base d c0 Ha Ec) as [_ Ed].
    apply (step_new s (NewCorr x y) (OCorr c0 a [a])); [exact H|reflexivity| | |discriminate].
    + cbn [okobj]. split; [reflexivity|]. intros ob m Eb. rewrite Ea in Eb. injection Eb as <- _. exists d. split; [reflexivity|].
      rewrite with_ds_same by exact Ed. exists c0, []. split; [exact Ec|constructor].
    + intros q [<-|[]]. unfold live. congruence.
  - destruct (new_CorrelationIterator kk size) as [it|e|u|] eqn:E; try (apply step_same; [exact H|discriminate]).
    apply (step_new s (NewIt x kk size) (OIt it)); [exact H|reflexivity| |intros a []|discriminate]. cbn [okobj]. exists kk, size, it, []. split; [exact E|constructor].
  - apply on_object_ok; [exact H|]. intros o b n Ey Eb. destruct o as [d|[[|a]|]|c pds kept|it]; try (apply step_same; [exact H|discriminate]).
    assert (L : live (mem s) a) by (apply (child_live _ _ _ b _ n a G Eb); left; reflexivity). unfold live in L.
    destruct (lookup (mem s) a) as [[ob m]|] eqn:Ea; [|congruence]. destruct ob as [d|v'|c2 p2 k2|it2]; try (apply step_same; [exact H|discriminate]).
    pose proof (T _ _ _ Ea) as Ha. cbn [okobj] in Ha.
    destruct (autocorrelation p d mi ma re al sel wgt) as [[r c']|e|u|] eqn:E; try (apply step_same; [exact H|discriminate]).
    destruct (call_past d mi ma re al sel wgt r c' Ha E) as (c0 & os & Hn & Ho). pose proof (after_ds d c0 os c' Ha Hn Ho) as Ed. rewrite Ed. cbn [patients].
    set (h1 := put (mem s) a (ODs d)). assert (F : fewer (mem s) h1) by (eapply put_same; exact Ea).
    assert (G1 : good (names s) h1 (fun _ => 0)) by (eapply put_good; [exact G|exact Ea|reflexivity]).
    assert (Ea1 : lookup h1 a = Some (ODs d, m)) by (unfold h1; rewrite put_objs, Ea, Nat.eqb_refl; reflexivity).
    assert (Lc : forall q, In q (children (OCorr c' a [a])) -> live h1 q) by (intros q [<-|[]]; unfold live; congruence).
    change (step_ok s (AutoCorr x y mi ma re al sel wgt) (bind_name s (fst (alloc h1 (OCorr c' a [a]))) x (Some (VRef (length h1)))) (Done (Result r))).
    apply step_bind; [exact H|reflexivity| | | |discriminate].
    + eapply good_ext; [|exact (alloc_good _ _ _ _ G1 Lc)]. intros q. rewrite occn_ref. lia.
    + eapply typed_alloc; [exact G1|exact (typed_fewer _ _ F T)| |exact Lc]. cbn [okobj]. split; [reflexivity|]. intros ob k Eq. rewrite Ea1 in Eq. injection Eq as <- _.
      exists d. split; [reflexivity|]. rewrite with_ds_same by exact Ed. exists c0, os. auto.
    + eapply changes_trans; [apply fewer_changes; exact F|apply alloc_changes].
  - apply on_object_ok; [exact H|]. intros o' a n Ey Ea. destruct o' as [d|q|c pds kept|it]; try (apply step_same; [exact H|discriminate]).
    exact (on_corr_ok s (Method y o) y a n c pds kept o H Ey eq_refl eq_refl Ea).
  - apply on_object_ok; [exact H|]. intros o' a n Ey Ea. destruct o' as [d|q|c pds kept|it]; try (apply step_same; [exact H|discriminate]).
    destruct (is_none s z); [apply step_same; [exact H|discriminate]|]. apply on_object_ok; [exact H|]. intros oz b m Ez Eb.
    destruct oz as [d|q|c' pds' kept'|it]; try (apply step_same; [exact H|discriminate]).
    exact (on_corr_ok s (AddIt y z i) y a n c pds kept (AddData it i) H Ey eq_refl eq_refl Ea).
  - apply on_object_ok; [exact H|]. intros o' a n Ey Ea. destruct o' as [d|q|c pds kept|it]; try (apply step_same; [exact H|discriminate]).
    destruct (is_none s z); [apply step_same; [exact H|discriminate]|]. apply on_object_ok; [exact H|]. intros oz b m Ez Eb.
    destruct oz as [d|q|c' pds' kept'|it]; try (apply step_same; [exact H|discriminate]).
    pose proof (T _ _ _ Ea) as K. cbn [okobj] in K. destruct K as [-> K].
    assert (Lp : live (mem s) pds) by (apply (child_live _ _ _ a _ n pds G Ea); left; reflexivity).
    unfold live in Lp. destruct (lookup (mem s) pds) as [[ob mp]|] eqn:Ep; [|congruence]. destruct (K ob mp eq_refl) as (d & -> & _). unfold deref. rewrite Ep.
    destruct (run_it_op p (with_ds c d) it o) as [it' r] eqn:Er. cbn [fst snd]. split; [apply of_res_dangling|]. intros Hs.
    assert (Hr : r = Ok tt \/ exists e, r = Throw e) by (apply of_res_survives in Hs as [[[] ->]|Hs]; auto).
    pose proof (T _ _ _ Eb) as Kb. cbn [okobj] in Kb. destruct Kb as (kk & size & it0 & os & En & Ho).
    assert (Al : alike false (OIt it) (OIt it')) by reflexivity.
    split; [|split; [|reflexivity]].
    + split; cbn [names mem]; [eapply put_good; [exact G|exact Eb|reflexivity]|]. eapply put_typed; [exact T|exact Eb|exact Al|]. cbn [okobj]. exists kk, size, it0. eexists.
      split; [exact En|]. eapply it_after_snoc; [exact Ho|exact Er|exact Hr].
    + cbn [mem]. unfold target. cbn [modifies rebinds]. rewrite Ez. eapply put_changes; [exact Eb|exact Al].
  - apply on_object_ok; [exact H|]. intros o b n Ey Eb. destruct o as [d|v|c pds kept|it]; try (apply step_same; [exact H|discriminate]).
    destruct (lookup (names s) z) as [w|] eqn:Ez; [|apply step_same; [exact H|discriminate]]. cbn [fst snd].
    assert (Gh : good (names s) (hold (mem s) w) (fun q => occn q (Some w))).
    { destruct w as [|a]; [exact G|]. eapply good_ext; [|exact (incref_good _ _ _ a G (named_live _ _ _ _ _ G Ez))]. intros q. rewrite occn_ref. lia. }
    assert (Fh : fewer (mem s) (hold (mem s) w)) by (destruct w; [apply fewer_refl|apply incref_fewer]).
    assert (Eh : exists n', lookup (hold (mem s) w) b = Some (OSacf v, n')).
    { destruct w as [|a]; cbn [hold]; [eauto|]. rewrite incref_objs, Eb. eauto. }
    destruct Eh as [n' Eh]. exact (set_attr_ok s (SetData y z) y b n' v (Some w) (hold (mem s) w) H Ey eq_refl eq_refl eq_refl Gh Fh Eh).
  - apply on_object_ok; [exact H|]. intros o b n Ey Eb. destruct o as [d|[v|]|c pds kept|it]; try (apply step_same; [exact H|discriminate]).
    exact (set_attr_ok s (DelData y) y b n (Some v) None (mem s) H Ey eq_refl eq_refl eq_refl G (fewer_refl _) Eb).
  - apply on_object_ok; [exact H|]. intros o a n Ey Ea. destruct o as [d|[[|q]|]|c pds kept|it]; try (apply step_same; [exact H|discriminate]).
    + assert (L : live (mem s) q) by (apply (child_live _ _ _ a _ n q G Ea); left; reflexivity). unfold live in L.
      destruct (lookup (mem s) q) as [[ob m]|] eqn:Eq; [|congruence]. destruct ob; apply step_same; (exact H || discriminate).
    + pose proof (T _ _ _ Ea) as K. cbn [okobj] in K. destruct K as [-> K].
      assert (Lp : live (mem s) pds) by (apply (child_live _ _ _ a _ n pds G Ea); left; reflexivity). unfold live in Lp.
      destruct (lookup (mem s) pds) as [[ob mp]|] eqn:Ep; [|congruence]. destruct (K ob mp eq_refl) as (d & -> & _). unfold deref. rewrite Ep. apply step_same; [exact H|discriminate].
  - destruct (lookup (names s) y) as [[|a]|] eqn:Ey; [| |apply step_same; [exact H|discriminate]].
    + apply (step_bind s (Copy x y)); [exact H|reflexivity|exact G|exact T|apply changes_refl|discriminate].
    + pose proof (named_live _ _ _ _ _ G Ey) as L.
      apply (step_bind s (Copy x y)); [exact H|reflexivity| |exact (typed_fewer _ _ (incref_fewer _ _) T)|apply fewer_changes, incref_fewer|discriminate].
      eapply good_ext; [|exact (incref_good _ _ _ a G L)]. intros q. rewrite occn_ref. lia.
  - apply (step_bind s (SetNone x)); [exact H|reflexivity|exact G|exact T|apply changes_refl|discriminate].
  - destruct (lookup (names s) x) as [v|] eqn:Ex; [|apply step_same; [exact H|discriminate]].
    apply (step_bind s (Del x)); [exact H|reflexivity|exact G|exact T|apply changes_refl|discriminate].
Qed.
End SessThms.
