(** Theorems: memory runs out while data are loaded (C102). *)
From Coq Require Import String.
From Coq Require Import ZArith List Bool Arith Ascii Lia.
From Flocq Require Import BinarySingleNaN.
From Verif Require Import Num Mem XR B64 Spec DataStructure Correlator Sacf Api Examples FileReader SpecFile FileExamples FileErrors SpecStream Alloc LoadAlloc LoadAllocFacts.
Import ListNotations.
Local Open Scope list_scope.

(** ** C102: with lists, MemoryError or the same outcome as with enough memory *)
Theorem C102_lists {A : Num} (fails : nat -> bool) (q : nat) (ts v e : list num) (v2 e2 : list (list num)) :
  let same {R} (x : ameth unit R) (y : res R) := (snd x = NoMemory /\ exists n, fails n = true) \/ snd x = Done y in
  same (ds_1d_a fails ts v q) (SACF_1d ts v None) /\ same (ds_1d_err_a fails ts v e q) (SACF_1d ts v (Some e)) /\
  same (ds_2d_a fails ts v2 q) (SACF_2d ts v2 None) /\ same (ds_2d_err_a fails ts v2 e2 q) (SACF_2d ts v2 (Some e2)).
Proof.
  cbv zeta. split; [exact (ds_1d_ag fails ts v q)|]. split; [exact (ds_1d_err_ag fails ts v e q)|].
  split; [exact (ds_2d_ag fails ts v2 q)|exact (ds_2d_err_ag fails ts v2 e2 q)].
Qed.
Print Assumptions C102_lists.

(** ** C102: a file, when no request fails *)
Theorem C102_enough {A : Num} {D : Dec A} (fails : nat -> bool) (file : option (list bytes * ending)) (q : nat) :
  (forall n, fails n = false) -> snd (ds_file_a fails file q) = Done (ds_stream enough file).
Proof. intros H. exact (ds_file_ok fails H file q). Qed.
Print Assumptions C102_enough.

(** ** C102: every file and every failure: MemoryError, an exception of this project, or an object with as many values as times *)
Theorem C102_outcomes {A : Num} {D : Dec A} (fails : nat -> bool) (blocks : list bytes) (e : ending) (q : nat) : full blocks ->
  let x := snd (ds_file_a fails (Some (blocks, e)) q) in
  (x = NoMemory /\ exists n, fails n = true) \/ (x = Done (Throw BadDataFileReadException) /\ exists n, fails n = true) \/
  x = Done (Throw EmptyDataStructureException) \/
  exists d, x = Done (Ok d) /\ List.length (timeseries d) = List.length (data_ d) /\ timeseries d <> [].
Proof. exact (load_outcomes fails blocks q e). Qed.
Print Assumptions C102_outcomes.

(** ** C102: otherwise the file is read as if the last lines were missing and lines had lost their last numbers *)
Theorem C102_file {A : Num} {D : Dec A} (fails : nat -> bool) (ls : list line) (blocks : list bytes) (e : ending) (q : nat) :
  Forall line_ok ls -> Forall (fun l => Forall fits (literals_of l)) ls -> full blocks -> concat blocks = text_of_lines ls ->
  let x := snd (ds_file_a fails (Some (blocks, e)) q) in
  (x = NoMemory /\ exists n, fails n = true) \/ (x = Done (Throw BadDataFileReadException) /\ exists n, fails n = true) \/
  exists ls' n, Forall line_ok ls' /\ Forall (fun l => Forall fits (literals_of l)) ls' /\ Forall2 cut_short ls' (firstn n ls) /\
    x = Done (ds_file (Some (text_of_lines ls'))).
Proof. exact (load_file fails ls blocks q e). Qed.
Print Assumptions C102_file.

(** ** C102: with two or three columns, every point is a point of the file, in the order of the file *)
Theorem C102_points {A : Num} {D : Dec A} (fails : nat -> bool) (ls : list line) (blocks : list bytes) (e : ending) (q n : nat) (d0 d : dstruct) :
  n = 2 \/ n = 3 -> Forall line_ok ls -> Forall (fun l => Forall fits (literals_of l)) ls -> all_of n ls ->
  full blocks -> concat blocks = text_of_lines ls -> ds_file (Some (concat blocks)) = Ok d0 ->
  snd (ds_file_a fails (Some (blocks, e)) q) = Done (Ok d) -> sublist (points d) (points d0).
Proof. exact (load_points fails ls blocks q e n d0 d). Qed.
Print Assumptions C102_points.

(** ** C102 is false in that a lack of memory is reported: a point in the middle is missing, or an error, so that errors() reads behind the end *)
Definition done {R} (x : ares R) : res R := match x with Done r => r | NoMemory => Diverge end.
Lemma done_ok {R} (x : ares R) (d : R) : done x = Ok d -> x = Done (Ok d).
Proof. destruct x; cbn; [congruence|discriminate]. Qed.
Definition three_rows : bytes := txt "0 5 1
1 4 2
2 6 3
".
Theorem C102_reported_refuted : exists (f : bytes) (at1 at2 : nat) d0 d1 d2,
  ds_file (A := BB) (Some f) = Ok d0 /\ sames (timeseries d0) (ints [0; 1; 2]%Z) = true /\ sames (err d0) (ints [1; 2; 3]%Z) = true /\
  snd (ds_file_a (A := BB) (Nat.eqb at1) (Some ([f], AtEnd)) 0) = Done (Ok d1) /\ sames (timeseries d1) (ints [0; 2]%Z) = true /\
  snd (ds_file_a (A := BB) (Nat.eqb at2) (Some ([f], AtEnd)) 0) = Done (Ok d2) /\ sames (timeseries d2) (ints [0; 1; 2]%Z) = true /\
  sames (err d2) (ints [1; 3]%Z) = true /\ exists u, err_2d d2 = UB u.
Proof.
  exists three_rows, 14, 18.
  destruct (ok_with_ok (ds_file (A := BB) (Some three_rows)) (fun d => sames (timeseries d) (ints [0; 1; 2]%Z) && sames (err d) (ints [1; 2; 3]%Z))) as (d0 & E0 & H0); [vm_compute; reflexivity|].
  destruct (ok_with_ok (done (snd (ds_file_a (A := BB) (Nat.eqb 14) (Some ([three_rows], AtEnd)) 0))) (fun d => sames (timeseries d) (ints [0; 2]%Z))) as (d1 & E1 & H1); [vm_compute; reflexivity|].
  destruct (ok_with_ok (done (snd (ds_file_a (A := BB) (Nat.eqb 18) (Some ([three_rows], AtEnd)) 0)))
    (fun d => sames (timeseries d) (ints [0; 1; 2]%Z) && sames (err d) (ints [1; 3]%Z) && match err_2d d with UB _ => true | _ => false end)) as (d2 & E2 & H2); [vm_compute; reflexivity|].
  exists d0, d1, d2. apply andb_prop in H0 as [H01 H02]. apply andb_prop in H2 as [H2 H23]. apply andb_prop in H2 as [H21 H22].
  split; [exact E0|]. split; [exact H01|]. split; [exact H02|]. split; [apply done_ok, E1|]. split; [exact H1|]. split; [apply done_ok, E2|]. split; [exact H21|]. split; [exact H22|].
  destruct (err_2d d2) as [r|x|u|]; [discriminate H23|discriminate H23| |discriminate H23]. exists u. reflexivity.
Qed.
Print Assumptions C102_reported_refuted.

(** a file with a comment in two blocks meets the hypotheses; three ways in which it can end *)
Example C102_case :
  let f := [txt "# c
0 5
1"; txt " 4
2 6
"] in
  full f /\ ok_with (ds_file (A := BB) (Some (concat f))) (fun d => sames (timeseries d) (ints [0; 1; 2]%Z)) = true /\
  ok_with (done (snd (ds_file_a (A := BB) (fun n => n =? 18) (Some (f, AtEnd)) 0))) (fun d => sames (timeseries d) (ints [0; 1]%Z)) = true /\
  (match snd (ds_file_a (A := BB) (fun n => n =? 6) (Some (f, AtEnd)) 0) with Done (Throw EmptyDataStructureException) => false | NoMemory => false | Done (Ok _) => true | _ => false end) = true /\
  (match snd (ds_file_a (A := BB) (fun n => n =? 5) (Some (f, AtEnd)) 0) with NoMemory => true | _ => false end) = true /\
  (match snd (ds_file_a (A := BB) (fun n => n =? 1) (Some (f, AtEnd)) 0) with Done (Throw BadDataFileReadException) => true | _ => false end) = true.
Proof. cbv zeta. split; [repeat constructor; discriminate|]. split; [vm_compute; reflexivity|]. split; [vm_compute; reflexivity|]. split; [vm_compute; reflexivity|]. split; vm_compute; reflexivity. Qed.
Example C102_case_text :
  let row a b := Row {| r_fields := [([], a); (txt " ", b)]; r_tail := [] |} in
  let lit k := {| l_sign := NoSign; l_int := [k]; l_frac := None; l_exp := None |} in
  let ls := [Comment (txt " c"); row (lit 0) (lit 5); row (lit 1) (lit 4); row (lit 2) (lit 6)] in
  lines_okb ls = true /\ text_of_lines ls = txt "# c
0 5
1 4
2 6
" /\ all_of 2 ls.
Proof. cbv zeta. split; [vm_compute; reflexivity|]. split; [vm_compute; reflexivity|].
  constructor; [left; cbn; lia|]. repeat (constructor; [right; reflexivity|]). constructor. Qed.
