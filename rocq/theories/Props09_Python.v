(** C45, C51, C52: construction and calls with Python values. *)
From Coq Require Import String.
From Coq Require Import ZArith List Bool Arith Ascii Lia.
From Verif Require Import Num Mem Spec DataStructure Correlator Sacf Api FileReader SpecFile PyBind SpecPy PyFacts
  Examples FileExamples.
Import ListNotations.
Local Open Scope list_scope.

(** ** C45: which constructor a call reaches *)
Theorem C45_numbers {A : Num} {D : Dec A} open_file (t v : pyval) (ts vs : list num) :
  numbers t ts -> numbers v vs -> py_DataStructure open_file [t; v] = SACF_1d ts vs None.
Proof. exact (two_numbers open_file t v ts vs). Qed.
Print Assumptions C45_numbers.

Theorem C45_rows {A : Num} {D : Dec A} open_file (t v : pyval) (ts : list num) (vss : list (list num)) :
  numbers t ts -> rows v vss -> not_a_column v -> py_DataStructure open_file [t; v] = SACF_2d ts vss None.
Proof. exact (two_rows open_file t v ts vss). Qed.
Print Assumptions C45_rows.

Theorem C45_float_rows {A : Num} {D : Dec A} open_file (t v : pyval) (ts : list num) (vss : list (list num)) :
  floats t ts -> float_rows v vss -> vss <> [] -> py_DataStructure open_file [t; v] = SACF_2d ts vss None.
Proof. exact (two_float_rows open_file t v ts vss). Qed.
Print Assumptions C45_float_rows.

(** with times that are not all floats, an array of one-element arrays is taken for a list of numbers *)
Theorem C45_column_array {A : Num} {D : Dec A} open_file (t : pyval) (xs : list num) (ts : list num) :
  numbers t ts -> (forall ts', ~ floats t ts') ->
  py_DataStructure open_file [t; PyArray (map (fun x => PyArray [PyFloat x]) xs)] = SACF_1d ts xs None.
Proof.
  intros Ht Hn. apply (two_column open_file t _ ts xs Ht Hn). constructor.
  induction xs; constructor; [do 2 constructor; constructor|assumption].
Qed.
Print Assumptions C45_column_array.

Theorem C45_errors_numbers {A : Num} {D : Dec A} open_file (t v e : pyval) (ts vs es : list num) :
  numbers t ts -> numbers v vs -> numbers e es -> py_DataStructure open_file [t; v; e] = SACF_1d ts vs (Some es).
Proof. exact (three_numbers open_file t v e ts vs es). Qed.
Print Assumptions C45_errors_numbers.

Theorem C45_errors_rows {A : Num} {D : Dec A} open_file (t v e : pyval) (ts : list num) (vss ess : list (list num)) :
  numbers t ts -> rows v vss -> rows e ess -> not_a_column v \/ not_a_column e ->
  py_DataStructure open_file [t; v; e] = SACF_2d ts vss (Some ess).
Proof. exact (three_rows open_file t v e ts vss ess). Qed.
Print Assumptions C45_errors_rows.

Theorem C45_type_error {A : Num} {D : Dec A} open_file (t v : pyval) :
  py_DataStructure open_file [t; v] = Throw PyTypeError <->
  ~ ((exists ts, floatables t ts) /\ ((exists vs, floatables v vs) \/ (exists vss, floatable_rows v vss))).
Proof. exact (two_type_error open_file t v). Qed.
Print Assumptions C45_type_error.

Theorem C45_errors_type_error {A : Num} {D : Dec A} open_file (t v e : pyval) :
  py_DataStructure open_file [t; v; e] = Throw PyTypeError <->
  ~ ((exists ts, floatables t ts) /\
     ((exists vs, floatables v vs) /\ (exists es, floatables e es) \/
      (exists vss, floatable_rows v vss) /\ (exists ess, floatable_rows e ess))).
Proof. exact (three_type_error open_file t v e). Qed.
Print Assumptions C45_errors_type_error.

Theorem C45_other_calls {A : Num} {D : Dec A} open_file (args : list pyval) :
  length args = 0 \/ 3 < length args \/
    (exists v, args = [v] /\ (forall s, v <> PyStr s) /\ (forall s, v <> PyBytes s)) ->
  py_DataStructure open_file args = Throw PyTypeError.
Proof.
  intros [H|[H|(v & -> & H1 & H2)]]; try (apply other_arguments; tauto).
  rewrite one_argument. destruct v; try reflexivity; [exfalso; eapply H1; reflexivity|exfalso; eapply H2; reflexivity].
Qed.
Print Assumptions C45_other_calls.

(** a nested argument does not always reach the two-dimensional constructor *)
Theorem C45_rows_refuted :
  exists (t v : pyval (A := BB)) ts vss, numbers t ts /\ rows v vss /\ vss <> [] /\
    (forall o, exists d, py_DataStructure o [t; v] = Ok d /\ data_2d d = Ok [ints [5; 6]%Z]) /\
    SACF_2d ts vss None = UB OobRead.
Proof.
  exists (PySeq [PyInt 0; PyInt 1]), (PyArray [PyArray [PyFloat (fl 5)]; PyArray [PyFloat (fl 6)]]),
    (ints [0; 1]%Z), [[fl 5]; [fl 6]].
  split; [|split; [|split; [discriminate|split]]].
  - constructor. repeat constructor; vm_compute; discriminate.
  - repeat constructor.
  - intros o. rewrite (C45_column_array o (PySeq [PyInt 0; PyInt 1]) [fl 5; fl 6] (ints [0; 1]%Z)).
    + destruct (ok_with_ok (SACF_1d (A := BB) (ints [0; 1]%Z) [fl 5; fl 6] None)
        (fun d => ok_with (data_2d d) (sames2 [ints [5; 6]%Z]))) as (d & E & Hd); [vm_compute; reflexivity|].
      exists d. split; [exact E|]. destruct (ok_with_ok _ _ Hd) as (x & Ex & Hx). rewrite Ex. f_equal. symmetry. apply sames2_eq, Hx.
    + constructor. repeat constructor; vm_compute; discriminate.
    + intros ts' H. inversion H as [? ? K|]; subst. inversion K as [|? ? ? ? K' _]; subst. inversion K'.
  - apply undefined_eq. vm_compute. reflexivity.
Qed.
Print Assumptions C45_rows_refuted.

Section Cases.
Let nofile (s : bytes) : option bytes := None.
Let T : pyval (A := BB) := PySeq [PyInt 0; PyFloat (half 3); PyNumber (fl 4)].
Let V : pyval (A := BB) := PyArray [PyFloat (fl 5); PyFloat (fl 6); PyFloat (fl 7)].
Example C45_case_1d : numbers T [fl 0; half 3; fl 4] /\ numbers V (ints [5; 6; 7]%Z) /\
  ok_with (py_DataStructure nofile [T; V]) (fun d => sames (timeseries d) [fl 0; half 3; fl 4] &&
    ok_with (data_2d d) (sames2 [ints [5; 6; 7]%Z])) = true.
Proof.
  split; [constructor; repeat constructor; vm_compute; discriminate|].
  split; [constructor; repeat constructor|vm_compute; reflexivity].
Qed.
Example C45_case_2d : rows (PySeq [V; V]) [ints [5; 6; 7]%Z; ints [5; 6; 7]%Z] /\ not_a_column (PySeq [V; V]) /\
  ok_with (py_DataStructure nofile [T; PySeq [V; V]]) (fun d => ok_with (data_2d d) (sames2 [ints [5; 6; 7]%Z; ints [5; 6; 7]%Z])) = true.
Proof.
  split; [repeat constructor|]. split; [|vm_compute; reflexivity].
  exists V. split; [left; reflexivity|]. intros u. discriminate.
Qed.
Example C45_case_errors : ok_with (py_DataStructure nofile [T; PySeq [V]; PySeq [V]])
  (fun d => ok_with (err_2d d) (sames2 [ints [5; 6; 7]%Z])) = true /\
  ok_with (py_DataStructure nofile [T; V; V]) (fun d => ok_with (err_2d d) (sames2 [ints [5; 6; 7]%Z])) = true.
Proof. split; vm_compute; reflexivity. Qed.
Example C45_case_type_error :
  py_DataStructure nofile [T; V; PySeq [V]] = Throw PyTypeError /\
  py_DataStructure nofile [T; PySeq [PyInt 1; PyStr []]] = Throw PyTypeError /\
  py_DataStructure nofile [PyStr []; V] = Throw PyTypeError.
Proof. repeat split; apply thrown_eq; vm_compute; reflexivity. Qed.
End Cases.

(** ** C51: numeric arguments of autocorrelation() *)
Theorem C51_numbers {A : Num} p d (min_lag max_lag lag_resolution alpha : pyval) (x1 x2 x3 x4 : option num) sel wgt :
  optional min_lag x1 -> optional max_lag x2 -> optional lag_resolution x3 -> optional alpha x4 ->
  py_autocorrelation p d min_lag max_lag lag_resolution alpha sel wgt = autocorrelation p d x1 x2 x3 x4 sel wgt.
Proof. exact (py_auto_optional p d min_lag max_lag lag_resolution alpha x1 x2 x3 x4 sel wgt). Qed.
Print Assumptions C51_numbers.

Theorem C51_type_error {A : Num} p d (min_lag max_lag lag_resolution alpha : pyval) c sel wgt :
  new_Correlator d = Ok c ->
  (exists v, In v [min_lag; max_lag; lag_resolution; alpha] /\ v <> PyNone /\ forall x, ~ floatable v x) ->
  py_autocorrelation p d min_lag max_lag lag_resolution alpha sel wgt = Throw PyTypeError.
Proof.
  intros Hc (v & Hv & Hn & Hf). apply (py_auto_bad p d min_lag max_lag lag_resolution alpha c sel wgt Hc).
  exists v. split; [exact Hv|]. intros x K. destruct K; [congruence|exact (Hf _ H)].
Qed.
Print Assumptions C51_type_error.

Example C51_case : optional (A := BB) (PyInt 3) (Some (fl 3)) /\ optional (A := BB) PyNone None /\
  optional (A := BB) (PyArray [PyFloat (half 3)]) (Some (half 3)) /\
  (PyStr (A := BB) (txt "3") <> PyNone /\ forall x, ~ floatable (PyStr (A := BB) (txt "3")) x).
Proof.
  split; [|split; [constructor|split; [|split; [discriminate|]]]].
  - apply optional_some, floatable_number, (number_int (A := BB) 3). vm_compute. discriminate.
  - apply optional_some, floatable_array, floatable_number. constructor.
  - intros x K. inversion K as [? ? K'|]; subst. inversion K'.
Qed.

(** ** C52: SACF(timeseries, values, errors, filename) *)
Theorem C52_filename {A : Num} {D : Dec A} open_file t v e s : s <> [] ->
  py_SACF open_file t v e (PyStr s) = ds_file (open_file s).
Proof. exact (sacf_filename open_file t v e s). Qed.
Print Assumptions C52_filename.

Theorem C52_lists {A : Num} {D : Dec A} open_file t v e f : f = PyNone \/ f = PyStr [] ->
  py_SACF open_file t v e f =
  py_DataStructure open_file (match e with PyNone => [t; v] | _ => [t; v; e] end).
Proof.
  intros H. destruct e; try (rewrite (sacf_no_file_errors open_file t v _ f H); [reflexivity|discriminate]).
  exact (sacf_no_file open_file t v f H).
Qed.
Print Assumptions C52_lists.

Theorem C52_no_data {A : Num} {D : Dec A} open_file e f : f = PyNone \/ f = PyStr [] ->
  py_SACF open_file PyNone PyNone e f = Throw PyTypeError.
Proof. exact (sacf_nothing open_file e f). Qed.
Print Assumptions C52_no_data.

Theorem C52_empty_errors {A : Num} {D : Dec A} open_file t v e ts vs :
  numbers t ts -> numbers v vs -> numbers e [] ->
  py_SACF open_file t v e PyNone = py_SACF open_file t v PyNone PyNone.
Proof. exact (sacf_empty_errors open_file t v e ts vs). Qed.
Print Assumptions C52_empty_errors.

Example C52_case : ok_with (py_SACF (A := BB) (fun s => Some (txt "1,2
3,4")) PyNone PyNone PyNone (PyStr (txt "lightcurve.csv"))) (fun d => sames (timeseries d) (ints [1; 3]%Z)) = true /\
  ok_with (py_SACF (A := BB) (fun _ => None) (PySeq [PyInt 1; PyInt 3]) (PySeq [PyInt 2; PyInt 4]) (PySeq []) PyNone)
    (fun d => ok_with (data_2d d) (sames2 [ints [2; 4]%Z]) && ok_with (err_2d d) (sames2 [])) = true /\
  py_SACF (A := BB) (fun _ => None) (PySeq [PyInt 1]) (PySeq [PyInt 2]) PyNone (PyStr (txt "x")) = Throw BadDataFileReadException.
Proof. repeat split; try (vm_compute; reflexivity). Qed.
