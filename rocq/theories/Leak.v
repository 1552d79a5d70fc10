(** Objects made with [new] in the methods of a correlator, and what becomes of them. *)
From Coq Require Import String.
From Coq Require Import ZArith List Bool Arith.
From Verif Require Import Num Mem DataStructure Correlator Sacf Api.
Import ListNotations.
Local Open Scope list_scope.

Section Leak.
Context {A : Num}.

(** the numbers of CorrelationIterator and of CorrelationData objects that were made with [new] in a method and
    not deleted.  Objects that belong to a Python object (Session.v) or are members of the Correlator are not
    counted. *)
Record heap := { iterators : nat; results : nat }.
Definition new_iterator (h : heap) : heap := {| iterators := S (iterators h); results := results h |}.
Definition delete_iterator (h : heap) : heap := {| iterators := pred (iterators h); results := results h |}.
Definition new_results (h : heap) : heap := {| iterators := iterators h; results := S (results h) |}.

(** Correlator.cpp:276-287: new in line 280, delete in line 286, which is not reached if one of the methods
    called in between throws *)
Definition calculate_at_heap (p : platform) (s : correlator * heap) (kk : num) (i : nat) : meth (correlator * heap) unit :=
  let h1 := new_iterator (snd s) in
  let (c', r) := calculateStandardCorrelation_at p (fst s) kk i in
  match r with
  | Ok _ => ((c', delete_iterator h1), Ok tt)
  | Throw e => ((c', h1), Throw e)
  | UB u => ((c', h1), UB u)
  | Diverge => ((c', h1), Diverge)
  end.

(** Correlator.cpp:259-272 *)
Fixpoint std_loop_heap (p : platform) (fuel : nat) (kk : num) (is_positive : bool) (i : nat) (s : correlator * heap)
  : meth (correlator * heap) nat :=
  match fuel with
  | 0 => (s, Diverge)
  | S fuel' =>
      if nle kk (max_lag (fst s)) then
        let is_positive1 := if neqb kk nzero then true else is_positive in
        if nlt nzero kk && negb is_positive1 then
          mbind (calculate_at_heap p s nzero i) (fun s1 _ =>
          mbind (calculate_at_heap p s1 kk (S i)) (fun s2 _ =>
          std_loop_heap p fuel' (nadd kk (lag_resolution (fst s))) true (S (S i)) s2))
        else
          mbind (calculate_at_heap p s kk i) (fun s1 _ =>
          std_loop_heap p fuel' (nadd kk (lag_resolution (fst s))) is_positive1 (S i) s1)
      else (s, Ok i)
  end.

(** Correlator.cpp:254-274 *)
Definition calculate_heap (p : platform) (s : correlator * heap) : meth (correlator * heap) unit :=
  mbind (std_loop_heap p (S (length (timeseries_ (fst s)))) (min_lag (fst s)) false 0 s) (fun s1 i =>
  let (c', r) := cleanCorrelationData (fst s1) i in ((c', snd s1), r)).

(** the methods; Correlator.h:90: [correlation_data = *new CorrelationData] copies from the new object and
    loses it.  No other method uses [new]. *)
Definition run_op_heap (p : platform) (s : correlator * heap) (o : op) : meth (correlator * heap) unit :=
  match o with
  | Calculate => calculate_heap p s
  | Clear => ((clearCorrelation (fst s), new_results (snd s)), Ok tt)
  | _ => let (c', r) := run_op p (fst s) o in ((c', snd s), r)
  end.

(** states after a sequence of operations, exceptions caught *)
Inductive after_heap (p : platform) (s : correlator * heap) : list op -> correlator * heap -> Prop :=
| after_heap_nil : after_heap p s [] s
| after_heap_snoc os s1 o s2 r : after_heap p s os s1 -> run_op_heap p s1 o = (s2, r) ->
    (r = Ok tt \/ exists e, r = Throw e) -> after_heap p s (os ++ [o]) s2.

End Leak.
