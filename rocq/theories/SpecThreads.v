(** Vocabulary for the theorems about threads. *)
From Coq Require Import String.
From Coq Require Import ZArith List Bool Arith.
From Verif Require Import Num Mem DataStructure Correlator Sacf Api Threads.
Import ListNotations.
Local Open Scope list_scope.

Section SpecThreads.
Context {A : Num}.

(** the objects a program is given *)
Definition uses (ws : list work) (a : nat) : Prop := exists o, In (Call a o) ws.

Definition finished (t : thread) : Prop := doing t = Idle /\ todo t = [].

(** the same program with nothing else running: each call is one function of the other model *)
Definition is_undefined {X} (r : res X) : Prop := (exists u, r = UB u) \/ r = Diverge.
Definition bad_report (r : report) : Prop := match r with Ended r => is_undefined r | Returned r => is_undefined r end.
Inductive alone (p : platform) : heap -> list work -> heap -> list report -> Prop :=
| alone_nil h : alone p h [] h []
| alone_call h a o ws c c' r h' l : nth_error h a = Some c -> run_op p c o = (c', r) -> ~ is_undefined r ->
    alone p (replace h a c') ws h' l -> alone p h (Call a o :: ws) h' (Ended r :: l)
| alone_call_undefined h a o ws c c' r : nth_error h a = Some c -> run_op p c o = (c', r) -> is_undefined r ->
    alone p h (Call a o :: ws) (replace h a c') [Ended r]
| alone_auto h d mi ma re al sel wgt ws h' l r : visible (autocorrelation p d mi ma re al sel wgt) = r -> ~ is_undefined r ->
    alone p h ws h' l -> alone p h (Auto d mi ma re al sel wgt :: ws) h' (Returned r :: l)
| alone_auto_undefined h d mi ma re al sel wgt ws r : visible (autocorrelation p d mi ma re al sel wgt) = r -> is_undefined r ->
    alone p h (Auto d mi ma re al sel wgt :: ws) h [Returned r].

(** how often thread [i] had its turn *)
Fixpoint turns (i : nat) (schedule : list nat) : nat :=
  match schedule with [] => 0 | j :: s => (if j =? i then 1 else 0) + turns i s end.

End SpecThreads.
