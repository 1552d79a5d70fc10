(** Vocabulary for statements on programs with several objects. *)
From Coq Require Import ZArith List Bool Arith Relations.
From Verif Require Import Num Mem DataStructure Correlator Sacf Api FileReader Session.
Import ListNotations.
Local Open Scope list_scope.

Section SpecSess.
Context {A : Num} {D : Dec A}.

(** The program goes on after the command. *)
Definition survives (r : outcome) : Prop := match r with Done _ | Raised _ | PyFail => True | _ => False end.

(** The name a command gives a meaning, and the name of the object whose state it may change. *)
Definition assigns (c : cmd) : option nat :=
  match c with
  | NewDs x _ | NewSacf x _ | GetData x _ | NewCorr x _ | NewIt x _ _ | AutoCorr x _ _ _ _ _ _ _ | Copy x _ | SetNone x | Del x => Some x
  | _ => None
  end.
Definition modifies (c : cmd) : option nat :=
  match c with Method y _ | AddIt y _ _ | SetData y _ | DelData y => Some y | ItMethod _ z _ => Some z | _ => None end.
Definition rebinds (c : cmd) : option nat := match c with SetData y _ | DelData y => Some y | _ => None end.

(** x is y *)
Definition same_object (s : state) (x y : nat) : Prop := exists a, lookup (names s) x = Some (VRef a) /\ lookup (names s) y = Some (VRef a).

(** Objects that exist, and objects that can be reached from the names of the program. *)
Definition allocated (s : state) (a : nat) : Prop := lookup (mem s) a <> None.
Inductive reachable (s : state) : nat -> Prop :=
| reach_name x a : lookup (names s) x = Some (VRef a) -> reachable s a
| reach_data b a n : reachable s b -> lookup (mem s) b = Some (OSacf (Some (VRef a)), n) -> reachable s a
| reach_pointer b c a kept n : reachable s b -> lookup (mem s) b = Some (OCorr c a kept, n) -> reachable s a.

(** One object refers to another; no object refers to itself, directly or through others. *)
Definition refers (s : state) (b a : nat) : Prop :=
  (exists n, lookup (mem s) b = Some (OSacf (Some (VRef a)), n)) \/ exists c kept n, lookup (mem s) b = Some (OCorr c a kept, n).
Definition acyclic (s : state) : Prop := forall a, ~ clos_trans nat (refers s) a a.

(** What kind of object a name stands for. *)
Definition names_data (s : state) (z : nat) (d : dstruct) : Prop := exists a n, lookup (names s) z = Some (VRef a) /\ lookup (mem s) a = Some (ODs d, n).
Definition names_sacf (s : state) (x : nat) : Prop := exists b v n, lookup (names s) x = Some (VRef b) /\ lookup (mem s) b = Some (OSacf v, n).

(** Calls that a program makes on the correlator named x. *)
Definition same_objectb (s : state) (x y : nat) : bool :=
  match lookup (names s) x, lookup (names s) y with Some (VRef a), Some (VRef b) => a =? b | _, _ => false end.
Definition named_iterator (s : state) (z : nat) : list cor_it :=
  match lookup (names s) z with
  | Some (VRef b) => match lookup (mem s) b with Some (OIt it, _) => [it] | _ => [] end
  | _ => []
  end.
Definition calls (s : state) (x : nat) (c : cmd) : list op :=
  match c with
  | Method y o => if same_objectb s x y then [o] else []
  | AddIt y z i => if same_objectb s x y then map (fun it => AddData it i) (named_iterator s z) else []
  | _ => []
  end.
Fixpoint history (p : platform) (s : state) (x : nat) (cs : list cmd) : list op :=
  match cs with
  | [] => []
  | c :: cs' => calls s x c ++ history p (fst (step p true s c)) x cs'
  end.
(** The program does not change the attribute data of the object named x. *)
Fixpoint keeps_data (p : platform) (s : state) (x : nat) (cs : list cmd) : Prop :=
  match cs with
  | [] => True
  | c :: cs' => (forall y, rebinds c = Some y -> ~ same_object s x y) /\ keeps_data p (fst (step p true s c)) x cs'
  end.
End SpecSess.
