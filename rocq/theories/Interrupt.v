(** Ctrl-C.  CPython raises KeyboardInterrupt between two bytecodes of sacf.py; the extension never looks for signals (there is no PyErr_CheckSignals in
    /repo/sacf), so a method of it is never cut.  So calculateStandardCorrelation is done or not done, but find_correlation (sacf.py:57-92) can be left
    between any two of the steps of Threads.v. *)
From Coq Require Import String.
From Coq Require Import ZArith List Bool Arith.
From Verif Require Import Num Mem DataStructure Correlator Sacf Api Threads.
Import ListNotations.
Local Open Scope list_scope.

Section Interrupt.
Context {A : Num}.
Variable p : platform.

(** [n] steps of find_correlation *)
Fixpoint find_steps (sel wgt : string) (n : nat) (x : correlator * find_at) : correlator * find_at :=
  match n with
  | 0 => x
  | S n' => find_steps sel wgt n' (find_step p sel wgt (fst x) (snd x))
  end.

(** find_correlation(corr) left before it ended, after [n] steps; the object is then [c'] *)
Definition cut (c : correlator) (sel wgt : string) (n : nat) (c' : correlator) : Prop :=
  exists s, find_steps sel wgt n (c, ReadMin) = (c', s) /\ forall r, s <> Stop r.

(** what a program that handles KeyboardInterrupt does with one Correlator *)
Inductive deed := Whole (o : op) | Cut (sel wgt : string) (n : nat).
Inductive after_cuts (c : correlator) : list deed -> correlator -> Prop :=
| cuts_nil : after_cuts c [] c
| cuts_whole es c1 o c2 r : after_cuts c es c1 -> run_op p c1 o = (c2, r) -> (r = Ok tt \/ exists e, r = Throw e) -> after_cuts c (es ++ [Whole o]) c2
| cuts_cut es c1 sel wgt n c2 : after_cuts c es c1 -> cut c1 sel wgt n c2 -> after_cuts c (es ++ [Cut sel wgt n]) c2.
End Interrupt.
