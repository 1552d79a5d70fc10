(** Theorems: executions in which memory runs out (C97). *)
From Coq Require Import String.
From Coq Require Import ZArith List Bool Arith Lia.
From Flocq Require Import BinarySingleNaN.
From Verif Require Import Num Mem MemFacts XR B64 Spec DataStructure Correlator Sacf Api Examples StateFacts RelFacts Leak LeakFacts Alloc AllocFacts AllocState AllocThms Props01_Construction Props02_Lags.
Import ListNotations.
Local Open Scope list_scope.

(** ** C97: a call of autocorrelation raises MemoryError if and only if one of its requests fails; otherwise it does what it does with enough memory *)
Theorem C97_call {A : Num} (fails : nat -> bool) (p : platform) (d : dstruct) (mi ma re al : option num) (sel wgt : string)
  (h h' : heap) (q q' : nat) (r : ares (list num * py_corr * correlator)) :
  accepted d -> autocorrelation_a fails p d mi ma re al sel wgt h q = (h', q', r) ->
  (r = NoMemory <-> exists n, q <= n < q' /\ fails n = true) /\
  (r <> NoMemory -> r = Done (autocorrelation p d mi ma re al sel wgt)).
Proof.
  intros Ha E. pose proof (autocorrelation_local fails p d mi ma re al sel wgt h q) as [_ L]. rewrite E in L. split; [exact L|].
  intros Hn. destruct (autocorrelation_agrees fails p d mi ma re al sel wgt h q Ha) as [[H _]|[_ H]]; rewrite E in H; [contradiction|exact H].
Qed.
Print Assumptions C97_call.

(** ** C97: so does every operation on a correlator, in every history in which requests failed before *)
Theorem C97_operation {A : Num} (fails : nat -> bool) (p : platform) (d : dstruct) (c0 : correlator) (h0 : heap) (q0 : nat) (os : list op)
  (s s' : correlator * heap) (q q' : nat) (o : op) (r : ares unit) :
  accepted d -> new_Correlator d = Ok c0 -> after_a fails p (c0, h0) q0 os s q -> run_op_a fails p s o q = (s', q', r) ->
  (r = NoMemory <-> exists n, q <= n < q' /\ fails n = true) /\
  (r <> NoMemory -> r = Done (snd (run_op p (fst s) o)) /\ fst s' = fst (run_op p (fst s) o)).
Proof.
  intros Ha Hn H E. destruct (new_base d c0 Ha Hn) as [H0 _]. exact (op_same fails p c0 h0 q0 os s q o s' q' r H0 H E).
Qed.
Print Assumptions C97_operation.

(** ** C97: an operation that runs out of memory leaves the settings as they were, and as many numbers to read; no more than one iterator object is lost *)
Theorem C97_left_behind {A : Num} (fails : nat -> bool) (p : platform) (d : dstruct) (c0 : correlator) (h0 : heap) (q0 : nat) (os : list op)
  (c c' : correlator) (h h' : heap) (q q' : nat) (o : op) :
  accepted d -> new_Correlator d = Ok c0 -> after_a fails p (c0, h0) q0 os (c, h) q -> run_op_a fails p (c, h) o q = ((c', h'), q', NoMemory) ->
  min_lag c' = min_lag c /\ max_lag c' = max_lag c /\ lag_resolution c' = lag_resolution c /\ alpha c' = alpha c /\ c_values c' = c_values c /\
  (forall rows, correlations c = Ok rows -> exists rows', correlations c' = Ok rows' /\ map (@length num) rows' = map (@length num) rows) /\
  results h' = results h /\ (iterators h' = iterators h \/ o = Calculate /\ iterators h' = S (iterators h)).
Proof.
  intros Ha Hn H E. destruct (new_base d c0 Ha Hn) as [H0 _].
  destruct (after_a_inv fails p c0 h0 q0 os (c, h) q H0 H) as [I _].
  destruct (op_nomem fails p c h o q c' h' q' (inv_a_semi c0 c H0 I) E) as [[S1 [S2 [S3 [S4 [S5 S6]]]]] [M2 [M3 [M4 _]]]].
  repeat (split; [congruence|]). split; [unfold c_values; rewrite S1; reflexivity|]. split; [exact (correlations_lengths c c' S1 M2 M3)|].
  destruct M4 as [->|[-> ->]]; auto.
Qed.
Print Assumptions C97_left_behind.

(** ** C97: the calculation that ran out of memory can be repeated: it gives what it would have given *)
Theorem C97_retry {A : Num} (fails : nat -> bool) (p : platform) (d : dstruct) (c0 c1 : correlator) (h0 : heap) (q0 : nat) (os : list op)
  (s s' : correlator * heap) (q q' : nat) (o : op) :
  accepted d -> new_Correlator d = Ok c0 -> after_a fails p (c0, h0) q0 os s q -> is_calculation o ->
  run_op_a fails p s o q = (s', q', NoMemory) -> run_op p (fst s) o = (c1, Ok tt) ->
  run_op p (fst s') o = (c1, Ok tt).
Proof.
  intros Ha Hn H Ho E E1. destruct (new_base d c0 Ha Hn) as [H0 _]. exact (history_retry fails p c0 h0 q0 os s q o c1 s' q' H0 H Ho E1 E).
Qed.
Print Assumptions C97_retry.

(** ** C97: whatever failed before, a calculation that ends normally gives what it gives on a new correlator with these settings *)
Theorem C97_no_trace {A : Num} (fails : nat -> bool) (p : platform) (d : dstruct) (c0 : correlator) (h0 : heap) (q0 : nat) (os : list op)
  (s s' : correlator * heap) (q q' : nat) (o : op) :
  accepted d -> new_Correlator d = Ok c0 -> after_a fails p (c0, h0) q0 os s q -> is_calculation o ->
  run_op_a fails p s o q = (s', q', Done (Ok tt)) ->
  run_op p (set_up_correlation c0 (Some (min_lag (fst s))) (Some (max_lag (fst s))) (Some (lag_resolution (fst s))) (Some (alpha (fst s)))) o = (fst s', Ok tt).
Proof.
  intros Ha Hn H Ho E. destruct (new_base d c0 Ha Hn) as [H0 _]. exact (history_fresh fails p c0 h0 q0 os s q o s' q' H0 H Ho E).
Qed.
Print Assumptions C97_no_trace.

(** ** C97: objects lost over a history: no more iterators than calls of calculateStandardCorrelation, no more results than calls of clearCorrelation *)
Theorem C97_objects_lost {A : Num} (fails : nat -> bool) (p : platform) (d : dstruct) (c0 : correlator) (h0 : heap) (q0 : nat) (os : list op)
  (s : correlator * heap) (q : nat) :
  accepted d -> new_Correlator d = Ok c0 -> after_a fails p (c0, h0) q0 os s q ->
  iterators h0 <= iterators (snd s) <= iterators h0 + length (filter (fun o => match o with Calculate => true | _ => false end) os) /\
  results h0 <= results (snd s) <= results h0 + length (filter (fun o => match o with Clear => true | _ => false end) os).
Proof.
  intros Ha Hn H. destruct (new_base d c0 Ha Hn) as [H0 _]. exact (proj2 (after_a_inv fails p c0 h0 q0 os s q H0 H)).
Qed.
Print Assumptions C97_objects_lost.

(** ** C97: the methods that take an iterator: MemoryError if and only if a request fails, otherwise iterator and outcome are the usual ones *)
Theorem C97_iterator {A : Num} (fails : nat -> bool) (p : platform) (c : correlator) (it it' : cor_it) (o : it_op) (q q' : nat) (r : ares unit) :
  run_it_op_a fails p c it o q = (it', q', r) ->
  (r = NoMemory <-> exists n, q <= n < q' /\ fails n = true) /\
  (r <> NoMemory -> exists x, r = Done x /\ run_it_op p c it o = (it', x)).
Proof.
  intros E. pose proof (run_it_op_local fails p c it o q) as [_ L]. rewrite E in L. split; [exact L|].
  intros Hn. destruct (run_it_op_agrees fails p c it o q) as [H|H]; rewrite E in H; [exfalso; apply Hn, H|].
  destruct (run_it_op p c it o) as [it2 r2]. destruct H as [H1 H2]. cbn in H1, H2. subst. exists r2. split; reflexivity.
Qed.
Print Assumptions C97_iterator.

(** with enough memory the histories are those of the other theorems *)
Theorem C97_enough_memory {A : Num} (p : platform) (d : dstruct) (c0 : correlator) (h0 : heap) (q0 : nat) (os : list op) (c : correlator) :
  accepted d -> new_Correlator d = Ok c0 ->
  (after p c0 os c <-> exists h q, after_a (fun _ => false) p (c0, h0) q0 os (c, h) q).
Proof. intros Ha Hn. destruct (new_base d c0 Ha Hn) as [H0 _]. exact (enough_memory p c0 h0 q0 os c H0). Qed.
Print Assumptions C97_enough_memory.

(** ** C97 is false for the two results: after a failed request lag_timeseries() and the rows of correlations() can have different lengths *)
Theorem C97_lengths_refuted : exists (c0 : @correlator BB) (fails : nat -> bool) (c' : @correlator BB) (h' : heap) (q' : nat) (rows : list (list (@num BB))),
  new_Correlator example_ds = Ok c0 /\ run_op_a fails clang (c0, {| iterators := 0; results := 0 |}) Calculate 0 = ((c', h'), q', NoMemory) /\
  correlations c' = Ok rows /\ exists row, In row rows /\ length row <> length (lag_timeseries c').
Proof.
  set (h0 := {| iterators := 0; results := 0 |}).
  destruct (ok_with_ok (new_Correlator example_ds) (fun c =>
    let n := snd (fst (run_op_a (fun _ => false) clang (c, h0) Calculate 0)) in
    match run_op_a (fun m => m =? pred n) clang (c, h0) Calculate 0 with
    | ((c', h'), q', NoMemory) => match correlations c' with Ok (row :: _) => negb (length row =? length (lag_timeseries c')) | _ => false end
    | _ => false end)) as [c0 [En H]]; [vm_compute; reflexivity|]. cbv zeta in H.
  set (n := snd (fst (run_op_a (fun _ => false) clang (c0, h0) Calculate 0))) in H. exists c0, (fun m => m =? pred n).
  destruct (run_op_a (fun m => m =? pred n) clang (c0, h0) Calculate 0) as [[[c' h'] q'] [r|]]; [discriminate H|].
  destruct (correlations c') as [[|row rows]|e|u|] eqn:Ec; try discriminate H.
  exists c', h', q', (row :: rows). split; [exact En|]. split; [reflexivity|]. split; [exact Ec|]. exists row. split; [left; reflexivity|].
  intros C. rewrite C, Nat.eqb_refl in H. discriminate H.
Qed.
Print Assumptions C97_lengths_refuted.

(** ** C97 is false for an iterator: a selection that ran out of memory cannot be repeated on the same iterator *)
Theorem C97_iterator_refuted : exists (c0 : @correlator BB) (fails : nat -> bool) (it it1 it2 : @cor_it BB) (q : nat),
  let new := CorrelationIterator (fl 1) (N_datasets example_ds) in
  new_Correlator example_ds = Ok c0 /\ run_it_op clang c0 new NaturalSelection = (it, Ok tt) /\
  run_it_op_a fails clang c0 new NaturalSelection 0 = (it1, q, NoMemory) /\
  run_it_op clang c0 it1 NaturalSelection = (it2, Ok tt) /\ selection it2 <> selection it.
Proof.
  destruct (ok_with_ok (new_Correlator example_ds) (fun c =>
    let new := CorrelationIterator (fl 1) (N_datasets example_ds) in
    match run_it_op clang c new NaturalSelection, run_it_op_a (fun m => m =? 1) clang c new NaturalSelection 0 with
    | (it, Ok _), (it1, q, NoMemory) => match run_it_op clang c it1 NaturalSelection with
        | (it2, Ok _) => negb (length (selection it2) =? length (selection it)) | _ => false end
    | _, _ => false end)) as [c0 [En H]]; [vm_compute; reflexivity|]. cbv zeta in H.
  exists c0, (fun m => m =? 1). cbv zeta. set (new := CorrelationIterator (fl 1) (N_datasets example_ds)) in *.
  destruct (run_it_op clang c0 new NaturalSelection) as [it [[]|e|u|]]; try discriminate H.
  destruct (run_it_op_a (fun m => m =? 1) clang c0 new NaturalSelection 0) as [[it1 q] [r|]]; try discriminate H.
  destruct (run_it_op clang c0 it1 NaturalSelection) as [it2 [[]|e|u|]] eqn:E2; try discriminate H.
  exists it, it1, it2, q. repeat (split; [assumption || reflexivity|]). intros C. rewrite C, Nat.eqb_refl in H. discriminate H.
Qed.
Print Assumptions C97_iterator_refuted.

(** ** an execution: the 40th request fails, in the calculation; it is repeated *)
Example C97_case : exists (c0 : @correlator BB) (s1 s2 : @correlator BB * heap) (q1 q2 : nat),
  let fails := fun n => n =? 40 in let s0 := (c0, {| iterators := 0; results := 0 |}) in
  new_Correlator example_ds = Ok c0 /\
  run_op_a fails clang s0 Calculate 0 = (s1, q1, NoMemory) /\ iterators (snd s1) = 1 /\
  run_op_a fails clang s1 Calculate q1 = (s2, q2, Done (Ok tt)) /\ iterators (snd s2) = 1 /\
  after_a fails clang s0 0 [Calculate; Calculate] s2 q2 /\ run_op clang c0 Calculate = (fst s2, Ok tt) /\ lag_timeseries (fst s2) <> [].
Proof.
  set (h0 := {| iterators := 0; results := 0 |}). set (fails := fun n => n =? 40).
  destruct (ok_with_ok (new_Correlator example_ds) (fun c =>
    match run_op_a fails clang (c, h0) Calculate 0 with
    | (s1, q1, NoMemory) => (iterators (snd s1) =? 1) &&
        match run_op_a fails clang s1 Calculate q1 with (s2, q2, Done (Ok _)) => negb (length (lag_timeseries (fst s2)) =? 0) | _ => false end
    | _ => false end)) as [c0 [En H]]; [vm_compute; reflexivity|].
  destruct (run_op_a fails clang (c0, h0) Calculate 0) as [[s1 q1] [r|]] eqn:E1; [discriminate H|]. apply andb_prop in H. destruct H as [Hi H]. apply Nat.eqb_eq in Hi.
  destruct (run_op_a fails clang s1 Calculate q1) as [[s2 q2] [[[]|e|u|]|]] eqn:E2; try discriminate H.
  exists c0, s1, s2, q1, q2. cbv zeta.
  assert (Ha : accepted example_ds) by apply example_ok. destruct (new_base example_ds c0 Ha En) as [H0 _].
  assert (K1 : after_a fails clang (c0, h0) 0 [Calculate] s1 q1) by (apply (after_a_snoc fails clang (c0, h0) 0 [] (c0, h0) 0 Calculate s1 q1 NoMemory); [constructor|exact E1|auto]).
  assert (K2 : after_a fails clang (c0, h0) 0 [Calculate; Calculate] s2 q2) by (apply (after_a_snoc fails clang (c0, h0) 0 [Calculate] s1 q1 Calculate s2 q2 (Done (Ok tt))); [exact K1|exact E2|auto]).
  split; [exact En|]. split; [exact E1|]. split; [exact Hi|]. split; [exact E2|]. split.
  - destruct s1 as [c1 h1]. destruct (after_a_inv fails clang c0 h0 0 _ (c1, h1) q1 H0 K1) as [I _].
    destruct (done_step fails clang c1 h1 Calculate q1 s2 q2 (Ok tt) (inv_a_semi _ _ H0 I) E2 (or_introl eq_refl)) as [_ ->]. exact Hi.
  - split; [exact K2|]. split; [|intros C; rewrite C in H; discriminate H].
    pose proof (C97_no_trace fails clang example_ds c0 h0 0 [Calculate] s1 s2 q1 q2 Calculate Ha En K1 (or_introl eq_refl) E2) as Z.
    replace (set_up_correlation c0 _ _ _ _) with c0 in Z; [exact Z|].
    destruct s1 as [c1 h1]. destruct (op_nomem fails clang c0 h0 Calculate 0 c1 h1 q1 (inv_a_semi _ _ H0 (inv_a_refl _ H0)) E1) as [[S1 [S2 [S3 [S4 [S5 S6]]]]] _].
    cbn [fst]. rewrite S3, S4, S5, S6. destruct c0; reflexivity.
Qed.
