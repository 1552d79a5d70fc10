(** Theorems: programs with several objects (C70 - C72). *)
From Coq Require Import String.
From Coq Require Import ZArith List Bool Arith Lia.
From Flocq Require Import Core BinarySingleNaN.
From Verif Require Import Num Mem XR B64 Spec DataStructure Correlator Sacf Api FileReader FileExamples Examples Session SpecSess SessThms SessRuns SessPlain.
Import ListNotations.
Local Open Scope list_scope.

(** ** C70: lifetime of objects *)
(** whatever the program did before, no command uses an object that was freed *)
Theorem C70_no_dangling {A : Num} {D : Dec A} (p : platform) (cs : list cmd) (s : state) (c : cmd) :
  run p true start cs = Some s -> snd (step p true s c) <> Dangling.
Proof. exact (no_dangling p cs s c). Qed.
Print Assumptions C70_no_dangling.

(** an object is there exactly as long as it can be reached from a name, also through a SACF and through the pointer of a
    correlator to its data, unless a program has made a SACF refer to itself *)
Theorem C70_lifetime {A : Num} {D : Dec A} (p : platform) (cs : list cmd) (s : state) (a : nat) :
  run p true start cs = Some s -> acyclic s -> allocated s a <-> reachable s a.
Proof. exact (lifetime p cs s a). Qed.
Print Assumptions C70_lifetime.

(** it cannot have, if it does not assign to the attribute data *)
Theorem C70_lifetime_plain {A : Num} {D : Dec A} (p : platform) (cs : list cmd) (s : state) (a : nat) :
  run p true start cs = Some s -> (forall y z, ~ In (SetData y z) cs) -> allocated s a <-> reachable s a.
Proof. intros E N. exact (lifetime p cs s a E (plain_acyclic p cs s E N)). Qed.
Print Assumptions C70_lifetime_plain.

Definition dropped : list (@cmd BB) := [NewDs 0 (Lists (ints [0; 1; 3]%Z) (ints [1; 2; 4]%Z) None); NewCorr 1 0; Del 0].
Definition then_calculate (keep : bool) (cs : list (@cmd BB)) (f : outcome -> bool) : bool :=
  match run gcc keep start cs with Some s => f (snd (step gcc keep s (Method 1 Calculate))) | None => false end.

(** d = DataStructure(..); c = Correlator(d); del d; c.calculateStandardCorrelation() *)
Example C70_case : exists s, run gcc true start dropped = Some s /\ lookup (names s) 0 = None /\ reachable s 0 /\ reachable s 1 /\
  snd (step gcc true s (Method 1 Calculate)) = Done Nothing /\
  ~ allocated (fst (step gcc true s (Del 1))) 0 /\ ~ allocated (fst (step gcc true s (Del 1))) 1.
Proof.
  set (test := fun s : state => match lookup (names s) 0, lookup (names s) 1, lookup (mem s) 1, snd (step gcc true s (Method 1 Calculate)) with
    | None, Some (VRef 1), Some (OCorr _ 0 _, _), Done Nothing =>
        match lookup (mem (fst (step gcc true s (Del 1)))) 0, lookup (mem (fst (step gcc true s (Del 1)))) 1 with None, None => true | _, _ => false end
    | _, _, _, _ => false end).
  assert (T : match run gcc true start dropped with Some s => test s | None => false end = true) by (vm_compute; reflexivity).
  destruct (run gcc true start dropped) as [s|]; [|discriminate]. exists s. split; [reflexivity|]. unfold test in T. clear test.
  destruct (lookup (names s) 0) as [v|]; [discriminate|]. destruct (lookup (names s) 1) as [[|[|[|]]]|] eqn:E1; try discriminate.
  destruct (lookup (mem s) 1) as [[[| |c [|] kept|] n]|] eqn:E2; try discriminate.
  destruct (snd (step gcc true s (Method 1 Calculate))) as [[| | | |]| | | | | |]; try discriminate.
  unfold allocated. destruct (lookup (mem (fst (step gcc true s (Del 1)))) 0); [discriminate|]. destruct (lookup (mem (fst (step gcc true s (Del 1)))) 1); [discriminate|].
  split; [reflexivity|]. split; [exact (reach_pointer s 1 c 0 kept n (reach_name s 1 1 E1) E2)|]. split; [exact (reach_name s 1 1 E1)|]. split; [reflexivity|]. split; intros X; apply X; reflexivity.
Qed.

(** without py::keep_alive the same program uses freed memory *)
Theorem C70_needs_keep_alive : exists s, run gcc false start dropped = Some s /\ snd (step gcc false s (Method 1 Calculate)) = Dangling.
Proof.
  assert (T : then_calculate false dropped (fun r => match r with Dangling => true | _ => false end) = true) by (vm_compute; reflexivity).
  unfold then_calculate in T. destruct (run gcc false start dropped) as [s|]; [|discriminate]. exists s. split; [reflexivity|].
  destruct (snd (step gcc false s (Method 1 Calculate))); try discriminate. reflexivity.
Qed.
Print Assumptions C70_needs_keep_alive.

(** ** C71: objects do not influence each other *)
(** a command leaves what a name shows as it was, unless it gives the name a new meaning or is a call on the same object *)
Theorem C71_isolated {A : Num} {D : Dec A} (p : platform) (cs : list cmd) (s : state) (c : cmd) (x : nat) :
  run p true start cs = Some s -> survives (snd (step p true s c)) -> assigns c <> Some x ->
  (forall y, modifies c = Some y -> ~ same_object s x y) ->
  snd (step p true (fst (step p true s c)) (Look x)) = snd (step p true s (Look x)).
Proof. exact (isolated p cs s c x). Qed.
Print Assumptions C71_isolated.

(** the data shown by a SACF or a DataStructure never change, unless the program assigns to the attribute of this SACF *)
Theorem C71_data {A : Num} {D : Dec A} (p : platform) (cs : list cmd) (s : state) (cs' : list cmd) (s' : state) (x : nat) (d : dstruct) :
  run p true start cs = Some s -> run p true s cs' = Some s' -> (forall c, In c cs' -> assigns c <> Some x) -> keeps_data p s x cs' ->
  snd (step p true s (Look x)) = Done (SeeDs d) -> snd (step p true s' (Look x)) = Done (SeeDs d).
Proof. exact (data_kept p cs s cs' s' x d). Qed.
Print Assumptions C71_data.

(** a call of autocorrelation depends only on the arguments of SACF() and its own, whatever the program does before, between
    and to other objects *)
Theorem C71_calls {A : Num} {D : Dec A} (p : platform) (cs : list cmd) (s : state) (x : nat) (src : source) (d : dstruct) (cs' : list cmd) (s' : state)
  (z : nat) (mi ma re al : option num) (sel wgt : string) :
  run p true start cs = Some s -> build src = Ok d -> run p true s (NewSacf x src :: cs') = Some s' -> (forall c, In c cs' -> assigns c <> Some x) ->
  keeps_data p (fst (step p true s (NewSacf x src))) x cs' ->
  snd (step p true s' (AutoCorr z x mi ma re al sel wgt)) = of_res Result (visible (autocorrelation p d mi ma re al sel wgt)).
Proof. exact (call_anywhere p cs s x src d cs' s' z mi ma re al sel wgt). Qed.
Print Assumptions C71_calls.

(** in a program that never assigns to (or deletes) the attribute data *)
Theorem C71_calls_plain {A : Num} {D : Dec A} (p : platform) (cs : list cmd) (s : state) (x : nat) (src : source) (d : dstruct) (cs' : list cmd) (s' : state)
  (z : nat) (mi ma re al : option num) (sel wgt : string) :
  run p true start cs = Some s -> build src = Ok d -> run p true s (NewSacf x src :: cs') = Some s' -> (forall c, In c cs' -> assigns c <> Some x) ->
  (forall c, In c cs' -> rebinds c = None) ->
  snd (step p true s' (AutoCorr z x mi ma re al sel wgt)) = of_res Result (visible (autocorrelation p d mi ma re al sel wgt)).
Proof. intros E B E' Ha Hr. exact (call_anywhere p cs s x src d cs' s' z mi ma re al sel wgt E B E' Ha (plain_keeps p cs' _ x Hr)). Qed.
Print Assumptions C71_calls_plain.

(** a correlator is in the state that the calls on it, and no others, have made *)
Theorem C71_own_calls {A : Num} {D : Dec A} (p : platform) (cs : list cmd) (s : state) (cs' : list cmd) (s' : state) (x : nat) (c : correlator) :
  run p true start cs = Some s -> run p true s cs' = Some s' -> (forall c, In c cs' -> assigns c <> Some x) ->
  snd (step p true s (Look x)) = Done (SeeCorr c) ->
  exists c', snd (step p true s' (Look x)) = Done (SeeCorr c') /\ after p c (history p s x cs') c'.
Proof. exact (replay p cs s cs' s' x c). Qed.
Print Assumptions C71_own_calls.

(** two correlators of one data structure, a third name for the first, an iterator and a SACF *)
Definition sharing : list (@cmd BB) := [NewDs 0 (Lists (ints [0; 1; 3]%Z) (ints [1; 2; 4]%Z) None); NewCorr 1 0; NewCorr 2 0; Copy 3 1; NewIt 4 (fl 1) (fl 1)].
Definition sharing2 : list (@cmd BB) := [Method 3 (SetMaxLag (fl 2)); Method 2 Calculate; ItMethod 2 4 NaturalSelection; AddIt 1 4 0; Del 0;
  NewSacf 0 (Lists (ints [0; 1; 3]%Z) (ints [1; 2; 4]%Z) None); AutoCorr 2 0 None None None None "natural" "gaussian"].
Example C71_case : exists s s' it, run gcc true start sharing = Some s /\ run gcc true s sharing2 = Some s' /\
  (forall c, In c sharing2 -> assigns c <> Some 1) /\ (exists c, snd (step gcc true s (Look 1)) = Done (SeeCorr c)) /\
  same_object s 1 3 /\ ~ same_object s 1 2 /\ history gcc s 1 sharing2 = [SetMaxLag (fl 2); AddData it 0].
Proof.
  set (f := fun s : @state BB => match lookup (names s) 1, lookup (names s) 2, lookup (names s) 3 with Some (VRef 1), Some (VRef 2), Some (VRef 1) => true | _, _, _ => false end &&
    match snd (step gcc true s (Look 1)) with Done (SeeCorr _) => true | _ => false end &&
    match run gcc true s sharing2 with Some _ => true | None => false end).
  assert (T : match run gcc true start sharing with Some s => f s | None => false end = true) by (vm_compute; reflexivity).
  assert (T2 : match run gcc true start sharing with Some s => match history gcc s 1 sharing2 with [SetMaxLag x; AddData _ 0] => sames [x] [fl 2] | _ => false end | None => false end = true)
    by (vm_compute; reflexivity).
  destruct (run gcc true start sharing) as [s|]; [|discriminate]. unfold f in T. clear f. apply andb_prop in T as [T T3]. apply andb_prop in T as [T T4].
  destruct (lookup (names s) 1) as [[|[|[|]]]|] eqn:E1; try discriminate. destruct (lookup (names s) 2) as [[|[|[|[|]]]]|] eqn:E2; try discriminate.
  destruct (lookup (names s) 3) as [[|[|[|]]]|] eqn:E3; try discriminate.
  destruct (run gcc true s sharing2) as [s'|] eqn:E; [|discriminate].
  destruct (history gcc s 1 sharing2) as [|[x| | | | | | | |] [|[| | | | | |it [| |]| |] [|]]] eqn:Eh; try discriminate.
  apply sames_eq in T2. injection T2 as ->. exists s, s', it. split; [reflexivity|]. split; [exact E|]. split.
  { intros c Hc. cbn in Hc. decompose [or] Hc; subst; try discriminate. contradiction. }
  split; [destruct (snd (step gcc true s (Look 1))) as [[| |c| |]| | | | | |]; try discriminate; eauto|].
  split; [exists 1; auto|]. split; [intros (a & A1 & A2); congruence|exact Eh].
Qed.

(** ** C72: every object has a history, and every command ends *)
(** what was shown for accepted data, and for correlators and iterators with any history, holds for the objects of a program *)
Theorem C72_histories {A : Num} {D : Dec A} (p : platform) (cs : list cmd) (s : state) (x : nat) : run p true start cs = Some s ->
  match snd (step p true s (Look x)) with
  | Done (SeeDs d) => accepted d
  | Done (SeeCorr c) => exists d c0 os, accepted d /\ new_Correlator d = Ok c0 /\ after p c0 os c
  | Done (SeeIt it) => exists kk size it0 os, new_CorrelationIterator kk size = Ok it0 /\ it_after p it0 os it
  | r => r = PyFail
  end.
Proof. intros E. exact (pasts p s x (reached_inv p cs s E)). Qed.
Print Assumptions C72_histories.

Theorem C72_never_hangs {A : Num} {D : Dec A} (p : platform) (cs : list cmd) (s : state) (c : cmd) :
  run p true start cs = Some s -> snd (step p true s c) <> Hangs.
Proof. exact (never_hangs p cs s c). Qed.
Print Assumptions C72_never_hangs.

(** the program of C71_case, after which a second correlator with other settings is shown *)
Example C72_case : exists s c, run gcc true start (sharing ++ sharing2) = Some s /\ snd (step gcc true s (Look 1)) = Done (SeeCorr c) /\
  nlt (max_lag c) (fl 3) = true /\ exists it, snd (step gcc true s (Look 4)) = Done (SeeIt it) /\ selection it = [1; 2].
Proof.
  set (f := fun s : @state BB => match snd (step gcc true s (Look 1)), snd (step gcc true s (Look 4)) with
    | Done (SeeCorr c), Done (SeeIt it) => nlt (max_lag c) (fl 3) && (if list_eq_dec Nat.eq_dec (selection it) [1; 2] then true else false) | _, _ => false end).
  assert (T : match run gcc true start (sharing ++ sharing2) with Some s => f s | None => false end = true) by (vm_compute; reflexivity).
  destruct (run gcc true start (sharing ++ sharing2)) as [s|]; [|discriminate]. unfold f in T. clear f.
  destruct (snd (step gcc true s (Look 1))) as [[| |c| |]| | | | | |] eqn:E1; try discriminate.
  destruct (snd (step gcc true s (Look 4))) as [[| | |it|]| | | | | |] eqn:E2; try discriminate.
  apply andb_prop in T as [T1 T2]. destruct (list_eq_dec _ _ _) as [E|]; [|discriminate]. exists s, c. repeat split; eauto.
Qed.
