(** Theorems: assigning to the attribute data of a SACF (C105). *)
From Coq Require Import String.
From Coq Require Import ZArith List Bool Arith Lia Relations.
From Flocq Require Import Core BinarySingleNaN.
From Verif Require Import Num Mem XR B64 Spec DataStructure Correlator Sacf Api FileReader FileExamples Examples Session SpecSess SessThms SessRuns SessPlain RebindFacts.
Import ListNotations.
Local Open Scope list_scope.

(** ** C105: after x.data = z later calls are calls on the data z stood for, whatever the program does in between *)
Theorem C105_later_calls {A : Num} {D : Dec A} (p : platform) (cs : list cmd) (s : state) (x z : nat) (d : dstruct) (cs' : list cmd) (s' : state)
  (r : nat) (mi ma re al : option num) (sel wgt : string) :
  run p true start cs = Some s -> names_sacf s x -> names_data s z d -> run p true s (SetData x z :: cs') = Some s' ->
  (forall c, In c cs' -> assigns c <> Some x) -> keeps_data p (fst (step p true s (SetData x z))) x cs' ->
  snd (step p true s' (AutoCorr r x mi ma re al sel wgt)) = of_res Result (visible (autocorrelation p d mi ma re al sel wgt)).
Proof. exact (rebound_calls p cs s x z d cs' s' r mi ma re al sel wgt). Qed.
Print Assumptions C105_later_calls.

(** correlators made before keep their data and state, as long as they are not used themselves *)
Theorem C105_earlier_correlators {A : Num} {D : Dec A} (p : platform) (cs : list cmd) (s : state) (x z y : nat) (c : correlator) (cs' : list cmd) (s' : state) :
  run p true start cs = Some s -> snd (step p true s (Look y)) = Done (SeeCorr c) -> run p true s (SetData x z :: cs') = Some s' ->
  (forall c, In c cs' -> assigns c <> Some y) -> history p s y (SetData x z :: cs') = [] ->
  snd (step p true s' (Look y)) = Done (SeeCorr c).
Proof. exact (rebound_correlators p cs s x z y c cs' s'). Qed.
Print Assumptions C105_earlier_correlators.

(** a SACF can always be given other data; only the attribute changes *)
Theorem C105_assignment {A : Num} {D : Dec A} (p : platform) (cs : list cmd) (s : state) (x z : nat) (d : dstruct) :
  run p true start cs = Some s -> names_sacf s x -> names_data s z d ->
  snd (step p true s (SetData x z)) = Done Nothing /\ snd (step p true (fst (step p true s (SetData x z))) (Look x)) = Done (SeeDs d).
Proof. exact (rebound_shows p cs s x z d). Qed.
Print Assumptions C105_assignment.

(** ** C105: data that are no DataStructure.  None is passed to C++ as a null pointer; anything else is a TypeError *)
Theorem C105_none {A : Num} {D : Dec A} (p : platform) (cs : list cmd) (s : state) (x z r : nat) (mi ma re al : option num) (sel wgt : string) :
  run p true start cs = Some s -> names_sacf s x -> lookup (names s) z = Some VNone ->
  snd (step p true (fst (step p true s (SetData x z))) (AutoCorr r x mi ma re al sel wgt)) = NullPointer.
Proof. exact (rebound_none p cs s x z r mi ma re al sel wgt). Qed.
Print Assumptions C105_none.

Theorem C105_other_type {A : Num} {D : Dec A} (p : platform) (cs : list cmd) (s : state) (x z a : nat) (r : nat) (mi ma re al : option num) (sel wgt : string) :
  run p true start cs = Some s -> names_sacf s x -> lookup (names s) z = Some (VRef a) -> (forall d, ~ names_data s z d) ->
  let s' := fst (step p true s (SetData x z)) in
  step p true s' (AutoCorr r x mi ma re al sel wgt) = (s', PyFail).
Proof. exact (rebound_other p cs s x z a r mi ma re al sel wgt). Qed.
Print Assumptions C105_other_type.

(** a deleted attribute: AttributeError *)
Theorem C105_deleted {A : Num} {D : Dec A} (p : platform) (cs : list cmd) (s : state) (x r : nat) (mi ma re al : option num) (sel wgt : string) :
  run p true start cs = Some s -> names_sacf s x ->
  let s' := fst (step p true s (DelData x)) in
  step p true s' (AutoCorr r x mi ma re al sel wgt) = (s', PyFail).
Proof. exact (deleted_call p cs s x r mi ma re al sel wgt). Qed.
Print Assumptions C105_deleted.

(** ** C105: s.data = s; del s leaves an object that nothing can reach (C70_lifetime needs its hypothesis) *)
Definition own_data : list (@cmd BB) := [NewSacf 0 (Lists (ints [0; 1; 3]%Z) (ints [1; 2; 4]%Z) None); SetData 0 0; Del 0].
Theorem C105_cycle_refuted : exists (s : @state BB) (a : nat), run gcc true start own_data = Some s /\ allocated s a /\ ~ reachable s a /\ ~ acyclic s.
Proof.
  assert (T : match run gcc true start own_data with
    | Some s => match names s, mem s with [None], [None; Some (OSacf (Some (VRef 1)), 1)] => true | _, _ => false end | None => false end = true) by (vm_compute; reflexivity).
  destruct (run gcc true start own_data) as [s|]; [|discriminate T]. exists s, 1. split; [reflexivity|].
  destruct s as [nm h]. cbn [names mem] in T. destruct nm as [|[v|] [|]]; try discriminate T. destruct h as [|[x|] [|[[[d|[[|[|[|]]]|]|c q k|it] [|[|]]]|] [|]]]; try discriminate T.
  assert (C : forall k, k <> 0 -> k <> 1 -> lookup [None; Some (OSacf (Some (VRef 1)), 1)] k = @None (@obj BB * nat)) by (intros [|[|k]] H0 H1; try congruence; destruct k; reflexivity).
  assert (Nm : forall x, lookup [@None val] x = None) by (intros [|[|x]]; reflexivity).
  split; [discriminate|]. split.
  - intros R. induction R as [x a E|b a n _ IH E|b c a kept n _ IH E]; [cbn [names] in E; rewrite Nm in E; discriminate|exact IH|exact IH].
  - intros H. apply (H 1). apply t_step. left. exists 1. reflexivity.
Qed.
Print Assumptions C105_cycle_refuted.

(** new data, a correlator of the old data that nothing else refers to; another SACF gets None *)
Definition swapped : list (@cmd BB) := [NewSacf 0 (Lists (ints [0; 1; 3]%Z) (ints [1; 2; 4]%Z) None); AutoCorr 1 0 None None None None "natural" "fractional";
  NewDs 2 (Lists (ints [0; 2]%Z) (ints [5; 6]%Z) None); NewSacf 3 (Lists (ints [0; 2]%Z) (ints [5; 6]%Z) None); SetNone 4].
Definition swapped2 : list (@cmd BB) := [Del 2; SetData 3 4; Method 1 Clear; AutoCorr 5 0 None None None None "natural" "gaussian"].
Example C105_case : exists s s' d, run gcc true start swapped = Some s /\ names_sacf s 0 /\ names_data s 2 d /\ sames (timeseries d) (ints [0; 2]%Z) = true /\
  run gcc true s (SetData 0 2 :: swapped2) = Some s' /\ (forall c, In c swapped2 -> assigns c <> Some 0) /\
  keeps_data gcc (fst (step gcc true s (SetData 0 2))) 0 swapped2 /\ history gcc s 1 (SetData 0 2 :: firstn 2 swapped2) = [] /\
  lookup (names s) 4 = Some VNone.
Proof.
  set (s1 := fun s : @state BB => fst (step gcc true s (SetData 0 2))).
  set (f := fun s : @state BB => match lookup (names s) 0, lookup (names s) 2, lookup (names s) 4 with
    | Some (VRef a), Some (VRef b), Some VNone => match lookup (mem s) a, lookup (mem s) b with Some (OSacf _, _), Some (ODs d, _) => sames (timeseries d) (ints [0; 2]%Z) | _, _ => false end
    | _, _, _ => false end &&
    match run gcc true s (SetData 0 2 :: swapped2) with Some _ => true | None => false end &&
    negb (same_objectb (fst (step gcc true (s1 s) (Del 2))) 0 3) &&
    match history gcc s 1 (SetData 0 2 :: firstn 2 swapped2) with [] => true | _ => false end).
  assert (T : match run gcc true start swapped with Some s => f s | None => false end = true) by (vm_compute; reflexivity).
  destruct (run gcc true start swapped) as [s|]; [|discriminate T]. unfold f in T. clear f. apply andb_prop in T as [T T4]. apply andb_prop in T as [T T3]. apply andb_prop in T as [T T2].
  destruct (lookup (names s) 0) as [[|a]|] eqn:E0; try discriminate T. destruct (lookup (names s) 2) as [[|b]|] eqn:E2; try discriminate T.
  destruct (lookup (names s) 4) as [[|]|] eqn:E4; try discriminate T.
  destruct (lookup (mem s) a) as [[[| v | |] n]|] eqn:Ea; try discriminate T. destruct (lookup (mem s) b) as [[[d| | |] m]|] eqn:Eb; try discriminate T.
  destruct (run gcc true s (SetData 0 2 :: swapped2)) as [s'|] eqn:E; [|discriminate T2].
  exists s, s', d. split; [reflexivity|]. split; [exists a, v, n; auto|]. split; [exists b, m; auto|]. split; [exact T|]. split; [exact E|]. split.
  { intros c Hc. cbn in Hc. decompose [or] Hc; subst; try discriminate. contradiction. }
  split.
  { cbn [swapped2 keeps_data rebinds]. fold (s1 s). split; [discriminate|]. split; [|split; [discriminate|split; [discriminate|exact I]]].
    intros y Ey. injection Ey as <-. intros K. apply same_objectb_ok in K. rewrite K in T3. discriminate T3. }
  destruct (history gcc s 1 (SetData 0 2 :: firstn 2 swapped2)); [|discriminate T4]. split; [reflexivity|exact E4].
Qed.
