(** Programs with several objects: whole programs. *)
From Coq Require Import String.
From Coq Require Import ZArith List Bool Arith Lia Relations.
From Verif Require Import Num Mem MemFacts Spec DataStructure DSFacts Correlator Sacf Api FileReader CorrFacts LoopFacts MainFacts SafeFacts StateFacts RelFacts
  ConstrFacts FileThms ItFacts Session SpecSess SessFacts SessThms.
Import ListNotations.
Local Open Scope list_scope.

Section SessRuns.
Context {A : Num} {D : Dec A}.
Variable p : platform.

Lemma run_cons keep s c cs s' : run p keep s (c :: cs) = Some s' <->
  survives (snd (step p keep s c)) /\ run p keep (fst (step p keep s c)) cs = Some s'.
Proof.
  cbn [run]. destruct (step p keep s c) as [s1 r]. cbn [fst snd]. destruct r; cbn [survives]; split; try tauto; try discriminate; intros [[] _].
Qed.

Lemma run_app keep s cs1 cs2 s' : run p keep s (cs1 ++ cs2) = Some s' <-> exists s1, run p keep s cs1 = Some s1 /\ run p keep s1 cs2 = Some s'.
Proof.
  revert s. induction cs1 as [|c cs1 IH]; intros s.
  - cbn. split; [eauto|]. intros (s1 & E & H). injection E as ->. exact H.
  - cbn [app]. rewrite run_cons, IH. split.
    + intros (H1 & s1 & H2 & H3). exists s1. split; [apply run_cons; auto|exact H3].
    + intros (s1 & H2 & H3). apply run_cons in H2 as [H1 H2]. split; [exact H1|]. eauto.
Qed.

Lemma inv_start : inv_s p start.
Proof.
  split.
  - intros a. unfold lookup, start. cbn. destruct a; reflexivity.
  - intros a o n E. unfold lookup, start in E. cbn in E. destruct a; discriminate.
Qed.

Lemma run_inv s cs s' : inv_s p s -> run p true s cs = Some s' -> inv_s p s'.
Proof.
  revert s. induction cs as [|c cs IH]; intros s H E; [injection E as <-; exact H|].
  apply run_cons in E as [E1 E2]. apply (IH _) in E2; [exact E2|]. exact (proj1 (proj2 (step_all p s c H) E1)).
Qed.
Lemma reached_inv cs s : run p true start cs = Some s -> inv_s p s.
Proof. apply run_inv, inv_start. Qed.

(** ** Lifetime *)
Lemma no_dangling cs s c : run p true start cs = Some s -> snd (step p true s c) <> Dangling.
Proof. intros E. exact (proj1 (step_all p s c (reached_inv cs s E))). Qed.

Lemma refers_child s b a o n : inv_s p s -> lookup (mem s) b = Some (o, n) -> (In a (children o) <-> refers s b a).
Proof.
  intros [G T] E. unfold refers. rewrite E. split.
  - intros Ha. pose proof (T _ _ _ E) as K. destruct o as [d|[[|q]|]|c pds kept|it]; cbn [okobj children] in *; try contradiction.
    + destruct Ha as [<-|[]]. left. eauto.
    + destruct K as [-> _]. destruct Ha as [<-|[]]. right. eauto.
  - intros [[m K]|(c & kept & m & K)]; injection K as -> _; [left; reflexivity|]. destruct (T _ _ _ E) as [-> _]. left. reflexivity.
Qed.
Lemma refers_live s b a : inv_s p s -> refers s b a -> allocated s b /\ allocated s a.
Proof.
  intros H R. assert (exists o n, lookup (mem s) b = Some (o, n)) as (o & n & E) by (destruct R as [[n E]|(c & kept & n & E)]; eauto).
  split; [unfold allocated; congruence|]. apply (child_live (names s) _ (fun _ => 0) b o n a (proj1 H) E). apply (refers_child s b a o n H E), R.
Qed.
Lemma reachable_step s b a : reachable s b -> refers s b a -> reachable s a.
Proof. intros H [[n E]|(c & kept & n & E)]; [exact (reach_data s b a n H E)|exact (reach_pointer s b c a kept n H E)]. Qed.

(** a chain of objects, each referring to the one before *)
Inductive chain (s : state) : list addr -> Prop :=
| chain_one a : chain s [a]
| chain_more b a l : refers s b a -> chain s (a :: l) -> chain s (b :: a :: l).
Lemma chain_path s b l a : chain s (b :: l) -> In a l -> clos_trans nat (refers s) b a.
Proof.
  revert b. induction l as [|a0 l IH]; intros b H Ha; [contradiction|]. inversion H; subst. destruct Ha as [->|Ha]; [apply t_step; assumption|].
  eapply t_trans; [apply t_step; eassumption|]. apply IH; assumption.
Qed.
Lemma chain_nodup s l : acyclic s -> chain s l -> NoDup l.
Proof.
  intros H C. induction C as [a|b a l R C IH]; [constructor; [intros []|constructor]|]. constructor; [|exact IH].
  intros Hb. apply (H b). exact (chain_path s b (a :: l) b (chain_more s b a l R C) Hb).
Qed.
Lemma chain_within s l : inv_s p s -> chain s l -> (forall a, In a l -> allocated s a) \/ length l = 1.
Proof.
  intros H C. induction C as [a|b a l R C IH]; [right; reflexivity|]. left. destruct (refers_live s b a H R) as [Lb La]. intros q [<-|Hq]; [exact Lb|].
  destruct IH as [IH|IH]; [exact (IH q Hq)|]. destruct l; [|discriminate]. destruct Hq as [<-|[]]. exact La.
Qed.

Lemma chain_up s : inv_s p s -> acyclic s -> forall k b l, chain s (b :: l) -> allocated s b -> length (mem s) <= k + length l -> reachable s b.
Proof.
  intros H Hc. induction k as [|k IH]; intros b l C Lb Hk.
  - exfalso. pose proof (chain_nodup s _ Hc C) as N. assert (W : forall q, In q (b :: l) -> allocated s q).
    { destruct (chain_within s _ H C) as [W|W]; [exact W|]. destruct l; [|discriminate]. intros q [<-|[]]. exact Lb. }
    assert (I : incl (b :: l) (seq 0 (length (mem s)))).
    { intros q Hq. apply in_seq. specialize (W q Hq). unfold allocated in W. destruct (lookup (mem s) q) as [x|] eqn:E; [|congruence]. apply lookup_within in E. lia. }
    pose proof (NoDup_incl_length N I) as Z. rewrite seq_length in Z. cbn [length] in Z. lia.
  - destruct (held _ _ _ (proj1 H) Lb) as [[x E]|(b' & o & n & E & Hb)]; [exact (reach_name s x b E)|].
    pose proof (proj1 (refers_child s b' b o n H E) Hb) as R. apply (reachable_step s b' b); [|exact R].
    apply (IH b' (b :: l)); [constructor; assumption|exact (proj1 (refers_live s b' b H R))|cbn [length]; lia].
Qed.

Lemma alive_reachable s a : inv_s p s -> acyclic s -> allocated s a <-> reachable s a.
Proof.
  intros H Hc. pose proof H as [G T]. split.
  - intros L. apply (chain_up s H Hc (length (mem s)) a []); [constructor|exact L|lia].
  - induction 1 as [x a E|b a n _ IH E|b c a kept n _ IH E].
    + exact (named_live _ _ _ _ _ G E).
    + apply (refers_live s b a H). left. eauto.
    + apply (refers_live s b a H). right. eauto.
Qed.

Lemma lifetime cs s a : run p true start cs = Some s -> acyclic s -> allocated s a <-> reachable s a.
Proof. intros E. apply alive_reachable, (reached_inv cs s E). Qed.

(** without SetData the data of a SACF is a DataStructure *)
Definition data_plain (h : heap) : Prop := forall b a n, lookup h b = Some (OSacf (Some (VRef a)), n) -> forall o m, lookup h a = Some (o, m) -> exists d, o = ODs d.
Lemma flat_acyclic s : inv_s p s -> data_plain (mem s) -> acyclic s.
Proof.
  intros H Hp a C. assert (X : exists b c, refers s b c /\ exists e, refers s c e).
  { apply clos_trans_t1n in C. inversion C as [? R|? ? R C']; subst; [exists a, a; eauto|]. exists a, y. split; [exact R|]. inversion C'; subst; eauto. }
  destruct X as (b & c & R & e & R'). assert (X : exists d n, lookup (mem s) c = Some (ODs d, n)).
  { destruct (refers_live s b c H R) as [_ L]. unfold allocated in L. destruct (lookup (mem s) c) as [[o n]|] eqn:E; [|congruence].
    destruct R as [[m K]|(c1 & kept & m & K)]; [destruct (Hp b c m K o n E) as [d ->]; eauto|].
    destruct (proj2 H _ _ _ K) as [_ Q]. destruct (Q o n E) as (d & -> & _). eauto. }
  destruct X as (d & n & E). destruct R' as [[m K]|(c1 & kept & m & K)]; congruence.
Qed.

(** ** What a name shows *)
Definition shown (h : heap) (v : option val) : outcome :=
  match v with
  | Some (VRef a) =>
      match lookup h a with
      | Some (ODs d, _) => Done (SeeDs d)
      | Some (OSacf (Some (VRef q)), _) => match lookup h q with Some (ODs d, _) => Done (SeeDs d) | Some _ => PyFail | None => Dangling end
      | Some (OSacf _, _) => PyFail
      | Some (OCorr c pds _, _) => match deref h pds with Some d => Done (SeeCorr (with_ds c d)) | None => Dangling end
      | Some (OIt it, _) => Done (SeeIt it)
      | None => Dangling
      end
  | _ => PyFail
  end.
Lemma look_shown keep s x : step p keep s (Look x) = (s, shown (mem s) (lookup (names s) x)).
Proof.
  cbn [step]. unfold on_object, shown. destruct (lookup (names s) x) as [[|a]|]; try reflexivity. destruct (lookup (mem s) a) as [[o n]|]; [|reflexivity].
  destruct o as [d|[[|q]|]|c pds kept|it]; try reflexivity; [|destruct (deref _ _); reflexivity].
  destruct (lookup (mem s) q) as [[[] m]|]; reflexivity.
Qed.

Lemma ds_stays s s' m q d n : inv_s p s -> inv_s p s' -> changes (mem s) (mem s') m -> lookup (mem s) q = Some (ODs d, n) -> live (mem s') q ->
  deref (mem s') q = Some d.
Proof.
  intros _ _ [C1 C2] E L. unfold live in L. destruct (lookup (mem s') q) as [[o' n']|] eqn:E'; [|congruence].
  destruct (C2 q o' n') as (o0 & n0 & E0 & R); [exact (lookup_within _ _ _ E)|exact E'|]. assert (o0 = ODs d) as -> by congruence.
  destruct R as [->|[k [_ []]]]. unfold deref. rewrite E'. reflexivity.
Qed.

Lemma shown_stays s s' m a : inv_s p s -> inv_s p s' -> changes (mem s) (mem s') m -> (forall k, m <> Some (a, k)) -> live (mem s) a -> live (mem s') a ->
  shown (mem s') (Some (VRef a)) = shown (mem s) (Some (VRef a)).
Proof.
  intros H H' C Hm L L'. pose proof H as [G T]. pose proof H' as [G' T']. unfold live in L, L'. cbn [shown].
  destruct (lookup (mem s) a) as [[o n]|] eqn:E; [|congruence]. destruct (lookup (mem s') a) as [[o' n']|] eqn:E'; [|congruence].
  destruct C as [C1 C2] eqn:EC. destruct (C2 a o' n') as (o0 & n0 & E0 & R); [exact (lookup_within _ _ _ E)|exact E'|].
  assert (o0 = o) as -> by congruence. destruct R as [->|[k [R _]]]; [|destruct (Hm k R)]. pose proof (T _ _ _ E) as K.
  assert (Ch : forall q, In q (children o) -> exists ob k, lookup (mem s) q = Some (ob, k) /\ forall d, ob = ODs d -> deref (mem s) q = Some d /\ deref (mem s') q = Some d).
  { intros q Hq. pose proof (child_live _ _ _ a o n q G E Hq) as Lq. pose proof (child_live _ _ _ a o n' q G' E' Hq) as Lq'. unfold live in Lq.
    destruct (lookup (mem s) q) as [[ob k]|] eqn:Eq; [|congruence]. exists ob, k. split; [reflexivity|]. intros d ->. split; [unfold deref; rewrite Eq; reflexivity|].
    exact (ds_stays s s' m q d k H H' C Eq Lq'). }
  destruct o as [d|[[|q]|]|c pds kept|it]; try reflexivity; cbn [okobj children] in *.
  - destruct (Ch q (or_introl eq_refl)) as (ob & k & Eq & Hd). rewrite Eq. pose proof (child_live _ _ _ a _ n' q G' E' (or_introl eq_refl)) as Lq'. unfold live in Lq'.
    destruct (lookup (mem s') q) as [[ob' k']|] eqn:Eq'; [|congruence].
    destruct (C2 q ob' k' (lookup_within _ _ _ Eq) Eq') as (o0 & m0 & F0 & R). assert (o0 = ob) as -> by congruence.
    destruct R as [->|[k1 [_ R]]]; [reflexivity|]. destruct ob, ob'; cbn in R; try contradiction; reflexivity.
  - destruct K as [-> K]. destruct (Ch pds (or_introl eq_refl)) as (ob & k & Eq & Hd). destruct (K ob k Eq) as (d & -> & _). destruct (Hd d eq_refl) as [-> ->]. reflexivity.
Qed.

Lemma isolated_step s c x : inv_s p s -> survives (snd (step p true s c)) -> assigns c <> Some x ->
  (forall y, modifies c = Some y -> ~ same_object s x y) ->
  let s' := fst (step p true s c) in shown (mem s') (lookup (names s') x) = shown (mem s) (lookup (names s) x).
Proof.
  intros H Hs Ha Hm s'. destruct (proj2 (step_all p s c H) Hs) as (H' & C & N). fold s' in H', C, N. rewrite (N x Ha).
  destruct (lookup (names s) x) as [[|a]|] eqn:Ex; try reflexivity. apply (shown_stays s s' (target s c)); try assumption.
  - unfold target. destruct (modifies c) as [y|]; [|discriminate]. intros k E. apply (Hm y eq_refl). exists a. split; [exact Ex|].
    destruct (lookup (names s) y) as [[|b]|]; try discriminate. congruence.
  - exact (named_live _ _ _ _ _ (proj1 H) Ex).
  - apply (named_live (names s') _ (fun _ => 0) x); [exact (proj1 H')|]. rewrite (N x Ha). exact Ex.
Qed.

Lemma isolated cs s c x : run p true start cs = Some s -> survives (snd (step p true s c)) -> assigns c <> Some x ->
  (forall y, modifies c = Some y -> ~ same_object s x y) ->
  snd (step p true (fst (step p true s c)) (Look x)) = snd (step p true s (Look x)).
Proof. intros E Hs Ha Hm. rewrite !look_shown. cbn [snd]. exact (isolated_step s c x (reached_inv cs s E) Hs Ha Hm). Qed.

(** ** Data never change *)
Lemma not_rebound s c x a k o o' : (forall y, rebinds c = Some y -> ~ same_object s x y) -> lookup (names s) x = Some (VRef a) ->
  target s c = Some (a, k) -> alike k (OSacf o) o' -> False.
Proof.
  intros Hr Ex Et Al. unfold target in Et. destruct (modifies c) as [y|] eqn:Em; [|discriminate]. destruct (lookup (names s) y) as [[|b]|] eqn:Ey; try discriminate.
  injection Et as -> Ek. destruct o'; cbn in Al; try contradiction. subst k. destruct (rebinds c) as [y'|] eqn:Er; [|discriminate].
  assert (y' = y) as -> by (destruct c; cbn in *; congruence). apply (Hr y eq_refl). exists a. auto.
Qed.
Lemma data_step s c x d : inv_s p s -> survives (snd (step p true s c)) -> assigns c <> Some x -> (forall y, rebinds c = Some y -> ~ same_object s x y) ->
  let s' := fst (step p true s c) in shown (mem s) (lookup (names s) x) = Done (SeeDs d) -> shown (mem s') (lookup (names s') x) = Done (SeeDs d).
Proof.
  intros H Hs Ha Hr s' E. destruct (proj2 (step_all p s c H) Hs) as (H' & C & N). fold s' in H', C, N. rewrite (N x Ha).
  destruct (lookup (names s) x) as [[|a]|] eqn:Ex; try discriminate. cbn [shown] in E |- *.
  assert (L' : live (mem s') a) by (apply (named_live (names s') _ (fun _ => 0) x); [exact (proj1 H')|]; rewrite (N x Ha); exact Ex).
  destruct (lookup (mem s) a) as [[o n]|] eqn:Ea; [|discriminate].
  assert (Lt : a < length (mem s)) by exact (lookup_within _ _ _ Ea).
  pose proof C as [C1 C2]. destruct (lookup (mem s') a) as [[o' n']|] eqn:Ea'; [|unfold live in L'; congruence].
  destruct (C2 a o' n' Lt Ea') as (o0 & n0 & E0 & R). assert (o0 = o) as -> by congruence.
  destruct o as [d0|[[|q]|]|c1 pds kept|it]; try discriminate.
  - destruct R as [->|[k [_ []]]]. exact E.
  - destruct R as [->|(k & R & R')]; [|destruct (not_rebound s c x a k _ _ Hr Ex R R')].
    destruct (lookup (mem s) q) as [[[dq| | |] k]|] eqn:Eq; try discriminate. injection E as ->.
    assert (Lq : live (mem s') q) by (apply (child_live _ _ _ a (OSacf (Some (VRef q))) n' q (proj1 H') Ea'); left; reflexivity).
    pose proof (ds_stays s s' (target s c) q d k H H' C Eq Lq) as K. apply deref_ds in K as [m K]. rewrite K. reflexivity.
  - destruct (deref _ _); discriminate.
Qed.

Lemma data_run s cs s' x d : inv_s p s -> run p true s cs = Some s' -> (forall c, In c cs -> assigns c <> Some x) -> keeps_data p s x cs ->
  shown (mem s) (lookup (names s) x) = Done (SeeDs d) -> shown (mem s') (lookup (names s') x) = Done (SeeDs d).
Proof.
  revert s. induction cs as [|c cs IH]; intros s H E Ha Hk Hd; [injection E as <-; exact Hd|]. apply run_cons in E as [E1 E2]. destruct Hk as [Hk1 Hk2].
  apply (IH (fst (step p true s c))); [exact (proj1 (proj2 (step_all p s c H) E1))|exact E2|intros c' Hc; apply Ha; right; exact Hc|exact Hk2|].
  apply data_step; auto. apply Ha. left. reflexivity.
Qed.

Lemma data_kept cs s cs' s' x d : run p true start cs = Some s -> run p true s cs' = Some s' -> (forall c, In c cs' -> assigns c <> Some x) -> keeps_data p s x cs' ->
  snd (step p true s (Look x)) = Done (SeeDs d) -> snd (step p true s' (Look x)) = Done (SeeDs d).
Proof. rewrite !look_shown. cbn [snd]. intros E E' Ha Hk Hd. exact (data_run s cs' s' x d (reached_inv cs s E) E' Ha Hk Hd). Qed.

(** ** The object a constructor makes *)
Lemma bind_shows s h x a : shown (mem (bind_name s h x (Some (VRef a)))) (lookup (names (bind_name s h x (Some (VRef a)))) x)
  = shown (decref h (lookup (names s) x)) (Some (VRef a)).
Proof. cbn [bind_name names mem]. rewrite lookup_same. reflexivity. Qed.

(** an object given a name: the object, if the heap before giving up the old value had it *)
Lemma bound_object s h x a o : good (names s) h (fun b => occn b (Some (VRef a))) -> option_map fst (lookup h a) = Some o ->
  exists n, lookup (mem (bind_name s h x (Some (VRef a)))) a = Some (o, n).
Proof.
  intros G E. destruct (bind_good s h x (Some (VRef a)) G) as [G' [_ F]]. set (s' := bind_name s h x (Some (VRef a))) in *.
  assert (L : live (mem s') a) by (apply (named_live (names s') _ (fun _ => 0) x); [exact G'|]; unfold s'; cbn [bind_name names]; apply lookup_same).
  unfold live in L. destruct (lookup (mem s') a) as [[o' n]|] eqn:E'; [|congruence]. apply F in E' as [m E']. rewrite E' in E. injection E as ->. eauto.
Qed.

Lemma new_sacf_shows s x src d : inv_s p s -> build src = Ok d ->
  let s' := fst (step p true s (NewSacf x src)) in
  snd (step p true s (NewSacf x src)) = Done Nothing /\ exists b q n m, lookup (names s') x = Some (VRef b) /\ lookup (mem s') b = Some (OSacf (Some (VRef q)), n) /\ lookup (mem s') q = Some (ODs d, m).
Proof.
  intros H E. assert (Es : snd (step p true s (NewSacf x src)) = Done Nothing) by (cbn [step]; rewrite E; reflexivity).
  split; [exact Es|]. assert (H' : inv_s p (fst (step p true s (NewSacf x src)))).
  { apply (proj2 (step_all p s (NewSacf x src) H)). rewrite Es. exact I. }
  pose proof H as [G T]. cbn [step] in *. rewrite E in *.
  assert (E1 : alloc (mem s) (ODs d) = (fst (alloc (mem s) (ODs d)), length (mem s))) by reflexivity. rewrite E1 in *. set (h1 := fst (alloc (mem s) (ODs d))) in *.
  assert (E2 : alloc h1 (OSacf (Some (VRef (length (mem s))))) = (fst (alloc h1 (OSacf (Some (VRef (length (mem s)))))), length h1)) by reflexivity. rewrite E2 in *. set (h2 := fst (alloc h1 (OSacf (Some (VRef (length (mem s))))))) in *.
  cbn [fst] in *. assert (Hl : length h1 = S (length (mem s))) by apply alloc_length.
  assert (L1 : option_map fst (lookup h1 (length (mem s))) = Some (ODs d)) by (unfold h1; rewrite alloc_objs, Nat.eqb_refl; reflexivity).
  assert (L2 : option_map fst (lookup h2 (length h1)) = Some (OSacf (Some (VRef (length (mem s)))))) by (unfold h2; rewrite alloc_objs, Nat.eqb_refl; reflexivity).
  assert (L3 : option_map fst (lookup h2 (length (mem s))) = Some (ODs d)) by (unfold h2; rewrite alloc_objs; destruct (Nat.eqb_spec (length (mem s)) (length h1)); [lia|exact L1]).
  assert (L1' : live h1 (length (mem s))) by (unfold live; destruct (lookup h1 (length (mem s))); [discriminate|discriminate L1]).
  pose proof (alloc_good _ _ _ (ODs d) G (fun a (F : In a []) => match F with end)) as G1. fold h1 in G1.
  assert (Ch : forall a, In a (children (OSacf (Some (VRef (length (mem s)))))) -> live h1 a) by (intros a [<-|[]]; exact L1').
  pose proof (alloc_good _ _ _ (OSacf (Some (VRef (length (mem s))))) G1 Ch) as G2. fold h2 in G2.
  destruct (decref_good (names s) h2 (fun b => occn b (Some (VRef (length h1)))) (Some (VRef (length (mem s))))) as [G3 F3].
  { eapply good_ext; [|exact G2]. intros b. rewrite !occn_ref. lia. }
  set (h3 := decref h2 (Some (VRef (length (mem s))))) in *.
  assert (N3 : option_map fst (lookup h3 (length h1)) = Some (OSacf (Some (VRef (length (mem s)))))).
  { specialize (G3 (length h1)) as Q. cbv beta in Q. rewrite occn_ref in Q. destruct (Nat.eq_dec (length h1) (length h1)); [|contradiction].
    destruct (lookup h3 (length h1)) as [[o k]|] eqn:E3; [|lia]. apply F3 in E3 as [m E3]. rewrite E3 in L2. injection L2 as ->. reflexivity. }
  destruct (bound_object s h3 x (length h1) _ G3 N3) as [n Eb]. set (s' := bind_name s h3 x (Some (VRef (length h1)))) in *.
  assert (Lq : live (mem s') (length (mem s))) by (apply (child_live _ _ _ (length h1) (OSacf (Some (VRef (length (mem s))))) n _ (proj1 H') Eb); left; reflexivity).
  unfold live in Lq. destruct (lookup (mem s') (length (mem s))) as [[oq m]|] eqn:Eq; [|congruence].
  exists (length h1), (length (mem s)), n, m. split; [unfold s'; cbn [bind_name names]; apply lookup_same|]. split; [exact Eb|].
  destruct (bind_good s h3 x (Some (VRef (length h1))) G3) as [_ [_ F4]]. fold s' in F4. pose proof (F4 _ _ _ Eq) as [m3 E3]. apply F3 in E3 as [m2 E3].
  rewrite E3 in L3. injection L3 as ->. exact Eq.
Qed.

Lemma autocorr_outcome keep s z x q n d m mi ma re al sel wgt b : lookup (names s) x = Some (VRef b) -> lookup (mem s) b = Some (OSacf (Some (VRef q)), n) ->
  lookup (mem s) q = Some (ODs d, m) ->
  snd (step p keep s (AutoCorr z x mi ma re al sel wgt)) = of_res Result (visible (autocorrelation p d mi ma re al sel wgt)).
Proof.
  intros E1 E2 E3. cbn [step]. unfold on_object. rewrite E1, E2, E3. destruct (autocorrelation p d mi ma re al sel wgt) as [[r c]|e|u|]; reflexivity.
Qed.

Lemma sacf_stays s c x b q n d m : inv_s p s -> survives (snd (step p true s c)) -> assigns c <> Some x -> (forall y, rebinds c = Some y -> ~ same_object s x y) ->
  lookup (names s) x = Some (VRef b) -> lookup (mem s) b = Some (OSacf (Some (VRef q)), n) -> lookup (mem s) q = Some (ODs d, m) ->
  let s' := fst (step p true s c) in
  exists n' m', lookup (names s') x = Some (VRef b) /\ lookup (mem s') b = Some (OSacf (Some (VRef q)), n') /\ lookup (mem s') q = Some (ODs d, m').
Proof.
  intros H Hs Ha Hr E1 E2 E3 s'. destruct (proj2 (step_all p s c H) Hs) as (H' & C & N). fold s' in H', C, N.
  assert (E1' : lookup (names s') x = Some (VRef b)) by (rewrite (N x Ha); exact E1).
  pose proof (named_live _ _ _ _ _ (proj1 H') E1') as L. unfold live in L. destruct (lookup (mem s') b) as [[o' n']|] eqn:E2'; [|congruence].
  pose proof C as [_ C2]. destruct (C2 b o' n' (lookup_within _ _ _ E2) E2') as (o0 & n0 & E0 & R). assert (o0 = OSacf (Some (VRef q))) as -> by congruence.
  destruct R as [->|(k & R & R')]; [|destruct (not_rebound s c x b k _ _ Hr E1 R R')].
  assert (Lq : live (mem s') q) by (apply (child_live _ _ _ b (OSacf (Some (VRef q))) n' q (proj1 H') E2'); left; reflexivity).
  pose proof (ds_stays s s' (target s c) q d m H H' C E3 Lq) as K. apply deref_ds in K as [m' K]. exists n', m'. auto.
Qed.

Lemma call_later s1 x b q n d m cs s' z mi ma re al sel wgt : inv_s p s1 -> lookup (names s1) x = Some (VRef b) ->
  lookup (mem s1) b = Some (OSacf (Some (VRef q)), n) -> lookup (mem s1) q = Some (ODs d, m) -> run p true s1 cs = Some s' ->
  (forall c, In c cs -> assigns c <> Some x) -> keeps_data p s1 x cs ->
  snd (step p true s' (AutoCorr z x mi ma re al sel wgt)) = of_res Result (visible (autocorrelation p d mi ma re al sel wgt)).
Proof.
  revert s1 n m. induction cs as [|c cs IH]; intros s1 n m H1 K1 K2 K3 E' Ha Hk.
  - injection E' as <-. exact (autocorr_outcome true s1 z x q n d m mi ma re al sel wgt b K1 K2 K3).
  - apply run_cons in E' as [E1 E2]. destruct Hk as [Hk1 Hk2].
    destruct (sacf_stays s1 c x b q n d m H1 E1 (Ha c (or_introl eq_refl)) Hk1 K1 K2 K3) as (n' & m' & J1 & J2 & J3).
    apply (IH (fst (step p true s1 c)) n' m'); auto; [exact (proj1 (proj2 (step_all p s1 c H1) E1))|]. intros c' Hc. apply Ha. right. exact Hc.
Qed.
Lemma call_anywhere cs s x src d cs' s' z mi ma re al sel wgt :
  run p true start cs = Some s -> build src = Ok d -> run p true s (NewSacf x src :: cs') = Some s' -> (forall c, In c cs' -> assigns c <> Some x) ->
  keeps_data p (fst (step p true s (NewSacf x src))) x cs' ->
  snd (step p true s' (AutoCorr z x mi ma re al sel wgt)) = of_res Result (visible (autocorrelation p d mi ma re al sel wgt)).
Proof.
  intros E Eb E' Ha Hk. pose proof (reached_inv cs s E) as H. apply run_cons in E' as [Es E'].
  destruct (new_sacf_shows s x src d H Eb) as (_ & b & q & n & m & K1 & K2 & K3).
  pose proof (proj1 (proj2 (step_all p s (NewSacf x src) H) Es)) as H1.
  exact (call_later _ x b q n d m cs' s' z mi ma re al sel wgt H1 K1 K2 K3 E' Ha Hk).
Qed.

(** ** Histories *)
Lemma pasts s x : inv_s p s ->
  match snd (step p true s (Look x)) with
  | Done (SeeDs d) => accepted d
  | Done (SeeCorr c) => exists d c0 os, accepted d /\ new_Correlator d = Ok c0 /\ after p c0 os c
  | Done (SeeIt it) => exists kk size it0 os, new_CorrelationIterator kk size = Ok it0 /\ it_after p it0 os it
  | r => r = PyFail
  end.
Proof.
  intros [G T]. rewrite look_shown. cbn [snd]. unfold shown. destruct (lookup (names s) x) as [[|a]|] eqn:Ex; try reflexivity.
  pose proof (named_live _ _ _ _ _ G Ex) as L. unfold live in L. destruct (lookup (mem s) a) as [[o n]|] eqn:Ea; [|congruence]. pose proof (T _ _ _ Ea) as K.
  destruct o as [d|[[|q]|]|c pds kept|it]; cbn [okobj] in K; try reflexivity.
  - exact K.
  - pose proof (child_live _ _ _ a _ n q G Ea (or_introl eq_refl)) as Lq. unfold live in Lq.
    destruct (lookup (mem s) q) as [[ob k]|] eqn:Eq; [|congruence]. destruct ob; try reflexivity. exact (T _ _ _ Eq).
  - destruct K as [-> K]. pose proof (child_live _ _ _ a _ n pds G Ea (or_introl eq_refl)) as Lq. unfold live in Lq. unfold deref.
    destruct (lookup (mem s) pds) as [[ob k]|] eqn:Eq; [|congruence]. destruct (K ob k eq_refl) as (d & -> & c0 & os & Hn & Ho). exists d, c0, os. split; [exact (T _ _ _ Eq)|auto].
  - exact K.
Qed.

(** ** No command hangs *)
Lemma zero_loop_ends vs n i v : 1 <= n -> length v < i + n -> zero_loop vs n i v <> Diverge.
Proof.
  revert i v. induction n as [|n IH]; intros i v Hn Hl; [lia|]. cbn [zero_loop]. destruct (nlt _ vs); [|discriminate].
  unfold lset. destruct (Nat.ltb_spec i (length v)) as [Hi|Hi]; cbn [bind]; [|discriminate]. destruct (_ =? INT_MAX)%Z; [discriminate|].
  apply IH; [lia|]. pose proof (upd_length v i nzero) as U. unfold upd in U. rewrite U; lia.
Qed.
Lemma new_it_ends kk size : new_CorrelationIterator kk size <> Diverge.
Proof.
  unfold new_CorrelationIterator. destruct (ntrunc size) as [z|]; [|discriminate]. destruct (_ || _)%bool; [discriminate|]. destruct (_ <? z)%Z; [discriminate|].
  apply bind_no_diverge; [|discriminate]. apply zero_loop_ends; [lia|]. rewrite repeat_length. lia.
Qed.
Lemma norm_loop_ends d j n i acc : norm_loop d j n i acc <> Diverge.
Proof.
  revert i acc. induction n as [|n IH]; intros i acc; cbn [norm_loop]; [discriminate|].
  apply bind_no_diverge; [apply lat_no_diverge|]. intros x _. destruct (nisnan _); [apply IH|].
  apply bind_no_diverge; [unfold lget; destruct (nth_error _ j); discriminate|]. intros m _. apply IH.
Qed.
Lemma new_Correlator_ends d : new_Correlator d <> Diverge.
Proof.
  unfold new_Correlator. apply bind_no_diverge; [apply mapM_no_diverge; intros; apply norm_loop_ends|]. intros N _.
  apply bind_no_diverge; [apply lback_no_diverge|]. intros maxl _. cbv zeta.
  apply bind_no_diverge; [unfold to_int; destruct (nfloor _) as [q|]; [destruct (in_int q)|]; discriminate|]. intros q _.
  apply bind_no_diverge; [unfold int_add; destruct (in_int _); discriminate|]. intros nls _. destruct (_ <? 0)%Z; discriminate.
Qed.
Lemma build_ends src : build src <> Diverge.
Proof.
  assert (K : forall t v e n, setUp t v e n (length t) <> Diverge).
  { intros t v e n. destruct (setUp_cases t v e n _ eq_refl) as [[E _]|[[E _]|[[E _]|[E _]]]]; rewrite E; discriminate. }
  destruct src as [t v e|t v e|f]; cbn [build].
  - destruct (SACF_1d_setUp t v e) as (er & -> & _). apply K.
  - destruct (SACF_2d_setUp t v e) as (er & -> & _). apply K.
  - destruct (proj2 (file_outcomes f)) as [E|[E|(t & v & e & d & _ & _ & E & _)]]; rewrite E; discriminate.
Qed.
Lemma find_loop_ends c n j it : snd (findCorrelation_loop p c n j it) <> Diverge.
Proof.
  revert j it. induction n as [|n IH]; intros j it; cbn [findCorrelation_loop]; [discriminate|].
  unfold mlift, lget, lset. destruct (nth_error (correlation it) j) as [acc|]; cbn [mbind]; [|discriminate].
  pose proof (find_sum_tame p (ds c) (selection_indices it) j (vlive (weights it)) 0 acc) as (_ & T & _).
  destruct (findCorrelation_sum _ _ _ _ _ _ _) as [x r]. cbn [fst snd] in *. destruct (j <? length (correlation it)); cbn [mbind]; [|discriminate].
  destruct r as [[]|e|u|]; cbn [mbind]; try discriminate; [|congruence]. destruct (nth_error (Nvec c) j); cbn [mbind]; [|discriminate].
  destruct (j <? _); cbn [mbind]; [apply IH|discriminate].
Qed.
Lemma find_loop_keeps c n j it : let it' := fst (findCorrelation_loop p c n j it) in
  selection_indices it' = selection_indices it /\ shifted_timeseries it' = shifted_timeseries it.
Proof.
  revert j it. induction n as [|n IH]; intros j it; cbn [findCorrelation_loop]; [split; reflexivity|].
  unfold mlift, lget, lset. destruct (nth_error (correlation it) j) as [acc|]; cbn [mbind]; [|split; reflexivity].
  destruct (findCorrelation_sum _ _ _ _ _ _ _) as [x r]. cbn [fst snd] in *. destruct (j <? length (correlation it)); cbn [mbind]; [|split; reflexivity].
  destruct r as [[]|e|u|]; cbn [mbind]; try (split; reflexivity). destruct (nth_error (Nvec c) j); cbn [mbind]; [|split; reflexivity].
  destruct (j <? _); cbn [mbind]; [|split; reflexivity]. match goal with |- context [findCorrelation_loop p c n (S j) ?it1] => destruct (IH (S j) it1) as [E1 E2] end.
  rewrite E1, E2. split; reflexivity.
Qed.
Definition it_wf (it : cor_it) : Prop := vwf (selection_indices it) /\ vwf (shifted_timeseries it).
Lemma it_op_wf c it o : it_wf it -> it_wf (fst (run_it_op p c it o)) /\ snd (run_it_op p c it o) <> Diverge.
Proof.
  intros [V1 V2]. assert (G : o <> FindCorrelation -> it_wf (fst (run_it_op p c it o)) /\ snd (run_it_op p c it o) <> Diverge).
  { intros Ho. destruct (it_step p c (length (correlation it)) it o) as [[_ K] (_ & T & _)]; [intros E; congruence|split; auto|]. split; [exact K|exact T]. }
  destruct o; try (apply G; discriminate). cbn [run_it_op]. unfold findCorrelation. split; [|apply find_loop_ends].
  unfold it_wf. destruct (find_loop_keeps c (N_datasets (ds c)) 0 it) as [-> ->]. split; assumption.
Qed.
Lemma it_past_wf it : it_past p it -> it_wf it.
Proof.
  intros (kk & size & it0 & os & E & H). induction H as [|os it1 c o it2 r _ IH E2 _].
  - unfold new_CorrelationIterator in E. destruct (ntrunc size) as [z|]; [|discriminate]. destruct (_ || _)%bool; [discriminate|].
    destruct (_ <? z)%Z; [discriminate|]. apply bind_Ok in E as (cs & _ & E). injection E as <-. split; apply vwf_empty.
  - destruct (it_op_wf c it1 o IH) as [K _]. rewrite E2 in K. exact K.
Qed.

Lemma corr_op_ends d c o : accepted d -> corr_past p d c -> snd (run_op p c o) <> Diverge.
Proof.
  intros Ha (c0 & os & Hn & Ho). destruct (new_base d c0 Ha Hn) as [H0 _]. pose proof (inv_semi c0 c H0 (proj1 (after_inv p c0 os c H0 Ho))) as Hs.
  destruct o; cbn [run_op]; try discriminate.
  - exact (calculate_terminates p c Hs).
  - exact (find_terminates p c sel wgt Hs).
  - destruct (i <? 0)%Z; [discriminate|]. destruct (addCorrelationData c it (Z.to_nat i)) as [c' r] eqn:E. destruct (add_cases _ _ _ _ _ E) as (_ & _ & _ & [[-> _]|[u ->]]); discriminate.
  - destruct (i <? 0)%Z; [discriminate|]. apply clean_terminates.
Qed.

Lemma of_res_hangs {X} (f : X -> view) (r : res X) : r <> Diverge -> of_res f r <> Hangs.
Proof. destruct r; cbn; congruence. Qed.

Lemma never_hangs_step s c : inv_s p s -> snd (step p true s c) <> Hangs.
Proof.
  intros [G T]. assert (OO : forall y f, (forall o a n, lookup (mem s) a = Some (o, n) -> snd (f o a) <> Hangs) -> snd (on_object s y f) <> Hangs).
  { intros y f Hf. unfold on_object. destruct (lookup (names s) y) as [[|a]|]; try discriminate. destruct (lookup (mem s) a) as [[o n]|] eqn:E; [|discriminate]. exact (Hf o a n E). }
  assert (OC : forall a cc pds kept n o, lookup (mem s) a = Some (OCorr cc pds kept, n) -> snd (on_corr s a cc pds kept (fun c => run_op p c o)) <> Hangs).
  { intros a cc pds kept n o Ea. unfold on_corr. destruct (deref (mem s) pds) as [d|] eqn:Ed; [|discriminate]. apply deref_ds in Ed as [m Ed].
    destruct (T _ _ _ Ea) as [_ K]. destruct (K _ _ Ed) as (d' & E & Hp). injection E as <-. pose proof (corr_op_ends d _ o (T _ _ _ Ed) Hp) as R.
    destruct (run_op p (with_ds cc d) o) as [c' r]. cbn [snd] in *. apply of_res_hangs. exact R. }
  destruct c as [x src|x src|x y|x y|x kk size|x y mi ma re al sel wgt|y o|y z i|y z o|y z|y|y|x y|x|x]; cbn [step].
  - pose proof (build_ends src) as K. destruct (build src); try discriminate. congruence.
  - pose proof (build_ends src) as K. destruct (build src); try discriminate. congruence.
  - apply OO. intros o b n _. destruct o as [|[|]| |]; discriminate.
  - destruct (is_none s y); [discriminate|]. apply OO. intros o b n _. destruct o; try discriminate.
    pose proof (new_Correlator_ends d) as K. destruct (new_Correlator d); try discriminate. congruence.
  - pose proof (new_it_ends kk size) as K. destruct (new_CorrelationIterator kk size); try discriminate. congruence.
  - apply OO. intros o b n _. destruct o as [|[[|a]|]| |]; try discriminate. destruct (lookup (mem s) a) as [[[d| | |] m]|] eqn:Ed; try discriminate.
    pose proof (autocorrelation_terminates p d mi ma re al sel wgt (T _ _ _ Ed)) as K. destruct (autocorrelation p d mi ma re al sel wgt) as [[r c']|e|u|]; try discriminate. congruence.
  - apply OO. intros o' a n E. destruct o'; try discriminate. exact (OC a c pds kept n o E).
  - apply OO. intros o' a n E. destruct o'; try discriminate. destruct (is_none s z); [discriminate|]. apply OO. intros o' b m _. destruct o'; try discriminate. exact (OC a c pds kept n _ E).
  - apply OO. intros o' a n E. destruct o'; try discriminate. destruct (is_none s z); [discriminate|]. apply OO. intros o' b m Eb. destruct o'; try discriminate.
    destruct (deref (mem s) pds) as [d|]; [|discriminate]. destruct (it_op_wf (with_ds c d) it o (it_past_wf it (T _ _ _ Eb))) as [_ K].
    destruct (run_it_op p (with_ds c d) it o) as [it' r]. cbn [snd] in *. apply of_res_hangs. exact K.
  - apply OO. intros o a n _. destruct o; try discriminate. destruct (lookup (names s) z); discriminate.
  - apply OO. intros o a n _. destruct o as [|[|]| |]; discriminate.
  - apply OO. intros o a n _. destruct o as [|[[|q]|]| |]; try discriminate; [|destruct (deref _ _); discriminate]. destruct (lookup (mem s) q) as [[[] m]|]; discriminate.
  - destruct (lookup (names s) y) as [[|a]|]; discriminate.
  - discriminate.
  - destruct (lookup (names s) x); discriminate.
Qed.
Lemma never_hangs cs s c : run p true start cs = Some s -> snd (step p true s c) <> Hangs.
Proof. intros E. apply never_hangs_step, (reached_inv cs s E). Qed.

(** ** The state of a correlator is what its own calls make of it *)
Lemma after_app c os1 c1 os2 c2 : after p c os1 c1 -> after p c1 os2 c2 -> after p c (os1 ++ os2) c2.
Proof.
  intros H1 H2. induction H2 as [|os2 c2 o c3 r _ IH E Hr]; [rewrite app_nil_r; exact H1|]. rewrite app_assoc. eapply after_snoc; eassumption.
Qed.

Lemma same_objectb_ok s x y : same_objectb s x y = true <-> same_object s x y.
Proof.
  unfold same_objectb, same_object. split.
  - destruct (lookup (names s) x) as [[|a]|]; try discriminate. destruct (lookup (names s) y) as [[|b]|]; try discriminate.
    intros E. apply Nat.eqb_eq in E as ->. eauto.
  - intros (a & -> & ->). apply Nat.eqb_refl.
Qed.

Lemma corr_call s c x y a cc pds kept n d o : inv_s p s -> lookup (names s) x = Some (VRef a) -> lookup (names s) y = Some (VRef a) -> modifies c = Some y ->
  lookup (mem s) a = Some (OCorr cc pds kept, n) -> deref (mem s) pds = Some d ->
  step p true s c = on_corr s a cc pds kept (fun c => run_op p c o) -> survives (snd (step p true s c)) ->
  let s' := fst (step p true s c) in exists c', shown (mem s') (lookup (names s') x) = Done (SeeCorr c') /\ after p (with_ds cc d) [o] c'.
Proof.
  intros H Ex Ey Hm Ea Ed Es Hs s'. unfold s'. rewrite Es in *. pose proof (deref_ds _ _ _ Ed) as [m Ep].
  pose proof (proj2 H _ _ _ Ea) as K. cbn [okobj] in K. destruct K as [-> K]. destruct (K _ _ Ep) as (d' & E & c0 & os & Hn & Ho). injection E as <-.
  pose proof (proj2 H _ _ _ Ep) as Ha. cbn [okobj] in Ha. unfold on_corr in *. rewrite Ed in *. destruct (run_op p (with_ds cc d) o) as [c' r] eqn:Er. cbn [fst snd names mem] in *.
  assert (Hr : r = Ok tt \/ exists e, r = Throw e) by (apply of_res_survives in Hs as [[[] ->]|Hs]; auto).
  exists c'. split; [|apply (after_snoc p (with_ds cc d) [] (with_ds cc d) o c' r); [constructor|exact Er|exact Hr]].
  assert (Ho' : after p c0 (os ++ [o]) c') by (eapply after_snoc; eassumption). pose proof (after_ds p d c0 _ c' Ha Hn Ho') as Ec. rewrite Ec.
  assert (Ne : a <> pds) by (intros ->; congruence). rewrite Ex. cbn [shown]. unfold deref. rewrite !put_objs, Ea, Nat.eqb_refl. rewrite !put_objs, Ep, Nat.eqb_refl.
  destruct (Nat.eqb_spec pds a); [congruence|]. rewrite with_ds_same by exact Ec. reflexivity.
Qed.

Lemma replay_step s c x cc : inv_s p s -> survives (snd (step p true s c)) -> assigns c <> Some x -> shown (mem s) (lookup (names s) x) = Done (SeeCorr cc) ->
  let s' := fst (step p true s c) in exists c', shown (mem s') (lookup (names s') x) = Done (SeeCorr c') /\ after p cc (calls s x c) c'.
Proof.
  intros H Hs Ha Hx s'. 
  assert (Q : (forall y, modifies c = Some y -> ~ same_object s x y) -> calls s x c = [] -> exists c', shown (mem s') (lookup (names s') x) = Done (SeeCorr c') /\ after p cc (calls s x c) c').
  { intros Hm ->. exists cc. split; [|constructor]. rewrite <- Hx. exact (isolated_step s c x H Hs Ha Hm). }
  assert (Z : exists a c1 pds kept n d, lookup (names s) x = Some (VRef a) /\ lookup (mem s) a = Some (OCorr c1 pds kept, n) /\ deref (mem s) pds = Some d /\ cc = with_ds c1 d).
  { unfold shown in Hx. destruct (lookup (names s) x) as [[|a]|]; try discriminate. destruct (lookup (mem s) a) as [[[d|[[|q]|]|c1 pds kept|it] n]|] eqn:Ea; try discriminate.
    - destruct (lookup (mem s) q) as [[[] m]|]; discriminate.
    - destruct (deref (mem s) pds) as [d|] eqn:Ed; [|discriminate]. injection Hx as <-. exists a, c1, pds, kept, n, d. auto. }
  destruct Z as (a & c1 & pds & kept & n & d & Ex & Ea & Ed & ->).
  destruct c as [x' src|x' src|x' y|x' y|x' kk size|x' y mi ma re al sel wgt|y o|y z i|y z o|y z|y|y|x' y|x'|x']; try (apply Q; [discriminate|reflexivity]).
  - destruct (same_objectb s x y) eqn:Eb.
    + cbn [calls]. rewrite Eb. apply same_objectb_ok in Eb as (b & Eb1 & Eb2). assert (b = a) as -> by congruence.
      apply (corr_call s (Method y o) x y a c1 pds kept n d o H Ex Eb2 eq_refl Ea Ed); [|exact Hs]. cbn [step]. unfold on_object. rewrite Eb2, Ea. reflexivity.
    + apply Q; [|cbn [calls]; rewrite Eb; reflexivity]. cbn [modifies]. intros y' E K. injection E as <-. apply same_objectb_ok in K. congruence.
  - destruct (same_objectb s x y) eqn:Eb.
    + pose proof Eb as Eb'. apply same_objectb_ok in Eb as (b & Eb1 & Eb2). assert (b = a) as -> by congruence.
      unfold s'. cbn [calls]. rewrite Eb'. unfold named_iterator. cbn [step] in *. unfold on_object in *. rewrite Eb2, Ea in *. unfold is_none in *.
      destruct (lookup (names s) z) as [[|b]|] eqn:Ez; [destruct Hs| |].
      * destruct (lookup (mem s) b) as [[oz m]|] eqn:Ez2; [|destruct Hs].
        destruct oz as [dz|qz|cz pz kz|it]; cbn [map fst snd] in *; try (exists (with_ds c1 d); split; [exact Hx|constructor]).
        assert (Es : step p true s (AddIt y z i) = on_corr s a c1 pds kept (fun c => run_op p c (AddData it i))).
        { cbn [step]. unfold on_object, is_none. rewrite Eb2, Ea, Ez, Ez2. reflexivity. }
        rewrite <- Es in *. exact (corr_call s (AddIt y z i) x y a c1 pds kept n d (AddData it i) H Ex Eb2 eq_refl Ea Ed Es Hs).
      * cbn [fst map]. exists (with_ds c1 d). split; [exact Hx|constructor].
    + apply Q; [|cbn [calls]; rewrite Eb; reflexivity]. cbn [modifies]. intros y' E K. injection E as <-. apply same_objectb_ok in K. congruence.
  - destruct (same_objectb s x z) eqn:Eb.
    + apply same_objectb_ok in Eb as (b & Eb1 & Eb2). assert (b = a) as -> by congruence.
      exists (with_ds c1 d). split; [|constructor]. unfold s'. cbn [step] in *. unfold on_object, is_none in *. rewrite Eb2 in *. rewrite Ea in *.
      destruct (lookup (names s) y) as [[|b]|]; try exact Hx. destruct (lookup (mem s) b) as [[[dz|qz|cz pz kz|it] m]|]; try exact Hx.
    + apply Q; [|reflexivity]. cbn [modifies]. intros y' E K. injection E as <-. apply same_objectb_ok in K. congruence.
  - destruct (same_objectb s x y) eqn:Eb.
    + apply same_objectb_ok in Eb as (b & Eb1 & Eb2). assert (b = a) as -> by congruence.
      exists (with_ds c1 d). split; [|constructor]. unfold s'. cbn [step] in *. unfold on_object in *. rewrite Eb2, Ea in *. exact Hx.
    + apply Q; [|reflexivity]. cbn [modifies]. intros y' E K. injection E as <-. apply same_objectb_ok in K. congruence.
  - destruct (same_objectb s x y) eqn:Eb.
    + apply same_objectb_ok in Eb as (b & Eb1 & Eb2). assert (b = a) as -> by congruence.
      exists (with_ds c1 d). split; [|constructor]. unfold s'. cbn [step] in *. unfold on_object in *. rewrite Eb2, Ea in *. exact Hx.
    + apply Q; [|reflexivity]. cbn [modifies]. intros y' E K. injection E as <-. apply same_objectb_ok in K. congruence.
Qed.

Lemma replay cs s cs' s' x c : run p true start cs = Some s -> run p true s cs' = Some s' -> (forall c, In c cs' -> assigns c <> Some x) ->
  snd (step p true s (Look x)) = Done (SeeCorr c) ->
  exists c', snd (step p true s' (Look x)) = Done (SeeCorr c') /\ after p c (history p s x cs') c'.
Proof.
  intros E. pose proof (reached_inv cs s E) as H. clear E. rewrite !look_shown. cbn [snd]. revert s c H. induction cs' as [|c1 cs' IH]; intros s c H E Ha Hx.
  - injection E as <-. exists c. split; [exact Hx|constructor].
  - apply run_cons in E as [E1 E2]. destruct (replay_step s c1 x c H E1 (Ha c1 (or_introl eq_refl)) Hx) as (c' & K1 & K2).
    destruct (IH (fst (step p true s c1)) c') as (c2 & J1 & J2); auto.
    + exact (proj1 (proj2 (step_all p s c1 H) E1)).
    + intros c3 Hc. apply Ha. right. exact Hc.
    + exists c2. split; [exact J1|]. cbn [history]. exact (after_app c _ c' _ c2 K2 J2).
Qed.
End SessRuns.
