(** Theorems: objects made with new and not deleted (C81). *)
From Coq Require Import String.
From Coq Require Import ZArith List Bool Arith Lia.
From Flocq Require Import BinarySingleNaN.
From Verif Require Import Num Mem MemFacts XR B64 Spec DataStructure Correlator Sacf Api Leak Examples DSFacts StateFacts LeakFacts Props01_Construction Props02_Lags.
Import ListNotations.
Local Open Scope list_scope.

(** ** C81: every history leaves one CorrelationData object behind for each clearCorrelation, and nothing else *)
Theorem C81_leaks {A : Num} (p : platform) (d : dstruct) (c0 : correlator) (h0 : heap) (os : list op) (s : correlator * heap) :
  accepted d -> new_Correlator d = Ok c0 -> after_heap p (c0, h0) os s ->
  iterators (snd s) = iterators h0 /\
  results (snd s) = results h0 + length (filter (fun o => match o with Clear => true | _ => false end) os).
Proof.
  intros Ha Hn H. destruct (new_base d c0 Ha Hn) as [H0 _]. destruct (history_heap p c0 h0 os H0 s H) as [_ ->]. split; reflexivity.
Qed.
Print Assumptions C81_leaks.

(** the histories are those of the model without the counters *)
Theorem C81_same_histories {A : Num} (p : platform) (d : dstruct) (c0 : correlator) (h0 : heap) (os : list op) (c : correlator) :
  accepted d -> new_Correlator d = Ok c0 -> (after p c0 os c <-> exists h, after_heap p (c0, h0) os (c, h)).
Proof.
  intros Ha Hn. destruct (new_base d c0 Ha Hn) as [H0 _]. split; [apply history_heap_back; exact H0|].
  intros [h H]. exact (proj1 (history_heap p c0 h0 os H0 (c, h) H)).
Qed.
Print Assumptions C81_same_histories.

(** why no iterator is lost: the C++ calculation raises in no history *)
Theorem C81_never_raises {A : Num} (p : platform) (d : dstruct) (c0 : correlator) (os : list op) (c c' : correlator) (r : res unit) :
  accepted d -> new_Correlator d = Ok c0 -> after p c0 os c -> run_op p c Calculate = (c', r) -> forall e, r <> Throw e.
Proof. intros Ha Hn. destruct (new_base d c0 Ha Hn) as [H0 _]. exact (calculate_no_throw p c0 os c c' r H0). Qed.
Print Assumptions C81_never_raises.

(** a calculation, two calls of clearCorrelation, an empty range, the calculation of nothing, a failing call *)
Example C81_case : exists c0 s, new_Correlator example_ds = Ok c0 /\
  after_heap clang (c0, {| iterators := 0; results := 0 |})
    [Calculate; Clear; Clear; SetMaxLag (fl (-100)); Calculate; Find "natural" "none"] s /\
  iterators (snd s) = 0 /\ results (snd s) = 2.
Proof.
  set (os := [Calculate; Clear; Clear; SetMaxLag (fl (-100)); Calculate; Find "natural" "none"]).
  destruct (ok_with_ok (new_Correlator example_ds) (fun c =>
    match steps_heap clang (c, {| iterators := 0; results := 0 |}) os with Some _ => true | None => false end)) as [c0 [En H]]; [vm_compute; reflexivity|].
  destruct (steps_heap clang (c0, {| iterators := 0; results := 0 |}) os) as [s|] eqn:E; [|discriminate]. exists c0, s.
  assert (K : after_heap clang (c0, {| iterators := 0; results := 0 |}) os s) by exact (steps_after _ _ os [] _ _ (after_heap_nil _ _) E).
  split; [exact En|]. split; [exact K|]. assert (Ha : accepted example_ds) by apply example_ok.
  destruct (C81_leaks clang example_ds c0 _ os s Ha En K) as [L1 L2]. split; [exact L1|rewrite L2; reflexivity].
Qed.
