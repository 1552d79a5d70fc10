(** Theorems: which constructor is reached for every pair and triple of arguments (C45), file names of any type (C52),
    weight functions of any type (C92). *)
From Coq Require Import String.
From Coq Require Import ZArith List Bool Arith Ascii Lia.
From Verif Require Import Num Mem Spec DataStructure Correlator Sacf Api FileReader PyBind SpecPy PyFacts PyCall SpecCall PyCallFacts PyMore
  B64 Examples FileExamples Props01_Construction.
Import ListNotations.
Local Open Scope list_scope.

(** ** C45 *)
(** a single str or bytes is the name of a file *)
Theorem C45_file {A : Num} {D : Dec A} open_file (s : bytes) :
  py_DataStructure open_file [PyStr s] = ds_file (open_file s) /\ py_DataStructure open_file [PyBytes s] = ds_file (open_file s).
Proof. split; [exact (one_argument open_file (PyStr s))|exact (one_argument open_file (PyBytes s))]. Qed.
Print Assumptions C45_file.

(** whatever can be read as a sequence of numbers (also an array of one-element arrays) is, unless times and values are floats and
    the values are nested; *)
Theorem C45_flat {A : Num} {D : Dec A} open_file (t v : pyval) (ts vs : list num) :
  floatables t ts -> floatables v vs -> ~ ((exists ts', floats t ts') /\ exists vss, float_rows v vss /\ vss <> []) ->
  py_DataStructure open_file [t; v] = SACF_1d ts vs None.
Proof. exact (two_flat open_file t v ts vs). Qed.
Print Assumptions C45_flat.

(** other nested sequences are datasets.  The remaining pairs: C45_float_rows, C45_type_error. *)
Theorem C45_nested {A : Num} {D : Dec A} open_file (t v : pyval) (ts : list num) (vss : list (list num)) :
  floatables t ts -> floatable_rows v vss -> (forall vs, ~ floatables v vs) ->
  py_DataStructure open_file [t; v] = SACF_2d ts vss None.
Proof. exact (two_nested open_file t v ts vss). Qed.
Print Assumptions C45_nested.

(** the same with errors; the remaining triples: C45_errors_type_error *)
Theorem C45_errors_flat {A : Num} {D : Dec A} open_file (t v e : pyval) (ts vs es : list num) :
  floatables t ts -> floatables v vs -> floatables e es ->
  ~ ((exists ts', floats t ts') /\ (exists vss, float_rows v vss /\ vss <> []) /\ exists ess, float_rows e ess) ->
  py_DataStructure open_file [t; v; e] = SACF_1d ts vs (Some es).
Proof. exact (three_flat' open_file t v e ts vs es). Qed.
Print Assumptions C45_errors_flat.

Theorem C45_errors_float_rows {A : Num} {D : Dec A} open_file (t v e : pyval) (ts : list num) (vss ess : list (list num)) :
  floats t ts -> float_rows v vss -> float_rows e ess -> vss <> [] -> py_DataStructure open_file [t; v; e] = SACF_2d ts vss (Some ess).
Proof. exact (three_float_rows open_file t v e ts vss ess). Qed.
Print Assumptions C45_errors_float_rows.

Theorem C45_errors_nested {A : Num} {D : Dec A} open_file (t v e : pyval) (ts : list num) (vss ess : list (list num)) :
  floatables t ts -> floatable_rows v vss -> floatable_rows e ess -> ~ ((exists vs, floatables v vs) /\ (exists es, floatables e es)) ->
  py_DataStructure open_file [t; v; e] = SACF_2d ts vss (Some ess).
Proof. exact (three_nested open_file t v e ts vss ess). Qed.
Print Assumptions C45_errors_nested.

(** ** C52: the file name is used exactly if it is true; a true object that is no name is an error (C45_other_calls) *)
Theorem C52_any_filename {A : Num} {D : Dec A} open_file (t v e f : pyval) (b : bool) : truth_value f b ->
  py_SACF open_file t v e f = py_DataStructure open_file (if b then [f] else match e with PyNone => [t; v] | _ => [t; v; e] end).
Proof. exact (sacf_any_filename open_file t v e f b). Qed.
Print Assumptions C52_any_filename.

Theorem C52_array_filename {A : Num} {D : Dec A} open_file (t v e u w : pyval) (l : list pyval) :
  py_SACF open_file t v e (PyArray (u :: w :: l)) = Throw PyValueError.
Proof. exact (sacf_ambiguous open_file t v e u w l). Qed.
Print Assumptions C52_array_filename.

(** ** C92: if the call succeeds with the name "gaussian", then with anything that is no name it fails with KeyError or TypeError;
    KeyError for None, numbers and strings *)
Theorem C92_weight_object {A : Num} hashable (p : platform) (d : dstruct) (pos : list pyval) (kws : list (string * pyval))
  (mi ma re al wgt : pyval) (x1 x2 x3 x4 : option num) (sel : string) r :
  let R := receives autocorrelation_parameters pos kws in
  well_called autocorrelation_parameters pos kws ->
  R "min_lag"%string mi -> R "max_lag"%string ma -> R "lag_resolution"%string re -> R "alpha"%string al ->
  R "selection_function"%string (PyStr (list_ascii_of_string sel)) -> R "weight_function"%string wgt ->
  optional mi x1 -> optional ma x2 -> optional re x3 -> optional al x4 -> (sel = "natural" \/ sel = "fast")%string ->
  ~ is_str wgt "gaussian" -> ~ is_str wgt "fractional" -> ~ is_str wgt "fractional_squared" ->
  autocorrelation p d x1 x2 x3 x4 sel "gaussian" = Ok r ->
  (call_autocorrelation hashable p d pos kws = Throw PyKeyError \/ call_autocorrelation hashable p d pos kws = Throw PyTypeError) /\
  (wgt = PyNone \/ (exists x, wgt = PyFloat x) \/ (exists z, wgt = PyInt z) \/ (exists s, wgt = PyStr s) \/ (exists s, wgt = PyBytes s) ->
   call_autocorrelation hashable p d pos kws = Throw PyKeyError).
Proof.
  intros R W H1 H2 H3 H4 H5 H6 O1 O2 O3 O4 Hs N1 N2 N3 E. unfold R in *.
  rewrite (call_bad_weight hashable p d pos kws mi ma re al x1 x2 x3 x4 sel wgt r W H1 H2 H3 H4 H5 H6 O1 O2 O3 O4 Hs N1 N2 N3 E). split.
  - destruct (bad_key_exn hashable wgt) as [->| ->]; auto.
  - intros [->|[[x ->]|[[z ->]|[[s ->]|[s ->]]]]]; reflexivity.
Qed.
Print Assumptions C92_weight_object.

Section Cases.
Let nofile (s : bytes) : option bytes := None.
(** float times; a column of numpy.float32 is taken for numbers, a column of numpy.float64 for datasets of one point *)
Let T : pyval (A := BB) := PyArray [PyFloat (fl 0); PyFloat (fl 1)].
Let V32 : pyval (A := BB) := PyArray [PyArray [PyNumber (fl 5)]; PyArray [PyNumber (fl 6)]].
Let V64 : pyval (A := BB) := PyArray [PyArray [PyFloat (fl 5)]; PyArray [PyFloat (fl 6)]].
Example C45_case_column : floatables T (ints [0; 1]%Z) /\ floatables V32 (ints [5; 6]%Z) /\
  ~ ((exists ts', floats T ts') /\ exists vss, float_rows V32 vss /\ vss <> []) /\
  ok_with (py_DataStructure nofile [T; V32]) (fun d => ok_with (data_2d d) (sames2 [ints [5; 6]%Z])) = true /\
  floats T (ints [0; 1]%Z) /\ float_rows V64 [[fl 5]; [fl 6]] /\
  match py_DataStructure nofile [T; V64] with UB OobRead => true | _ => false end = true.
Proof.
  split; [constructor; repeat constructor|].
  split; [constructor; (constructor; [apply floatable_array, floatable_number; constructor|]); (constructor; [apply floatable_array, floatable_number; constructor|constructor])|].
  split.
  - intros (_ & vss & H & _). inversion H as [|? ? K]; subst. inversion K as [|? ? ? ? K' _]; subst. inversion K' as [|? ? K2]; subst.
    inversion K2 as [|? ? ? ? K3 _]; subst. inversion K3.
  - split; [vm_compute; reflexivity|]. split; [constructor; repeat constructor|]. split; [constructor; repeat constructor|]. vm_compute. reflexivity.
Qed.

(** a list of rows of ints; with errors *)
Let T2 : pyval (A := BB) := PySeq [PyInt 0; PyInt 1].
Let V2 : pyval (A := BB) := PySeq [PySeq [PyInt 5; PyInt 6]].
Example C45_case_nested : floatables T2 (ints [0; 1]%Z) /\ floatable_rows V2 [ints [5; 6]%Z] /\ (forall vs, ~ floatables V2 vs) /\
  ok_with (py_DataStructure nofile [T2; V2; V2]) (fun d => ok_with (err_2d d) (sames2 [ints [5; 6]%Z])) = true.
Proof.
  split; [constructor; repeat constructor; vm_compute; discriminate|]. split; [constructor; repeat constructor; vm_compute; discriminate|]. split.
  - intros vs H. inversion H as [? ? K|]; subst. inversion K as [|? ? ? ? K' _]; subst. inversion K' as [? ? K2|]; subst. inversion K2.
  - vm_compute. reflexivity.
Qed.

(** filename=b"x", filename=0, filename=1 *)
Example C52_case_any : truth_value (A := BB) (PyBytes (txt "x")) true /\ truth_value (A := BB) (PyInt 0) false /\ truth_value (A := BB) (PyInt 1) true /\
  py_SACF nofile T2 V2 PyNone (PyBytes (txt "x")) = Throw BadDataFileReadException /\
  ok_with (py_SACF nofile T2 V2 PyNone (PyInt 0)) (fun d => ok_with (data_2d d) (sames2 [ints [5; 6]%Z])) = true /\
  py_SACF nofile T2 V2 PyNone (PyInt 1) = Throw PyTypeError.
Proof.
  split; [apply (truth_bytes (txt "x"))|]. split; [apply (truth_int 0)|]. split; [apply (truth_int 1)|].
  split; [reflexivity|]. split; [vm_compute; reflexivity|]. reflexivity.
Qed.

(** weight_function=None *)
Example C92_case_weight : let P := @autocorrelation_parameters BB in let kws := [("weight_function", @PyNone BB)]%string in
  well_called P [] kws /\ receives P [] kws "weight_function" PyNone /\ receives P [] kws "selection_function" (PyStr (list_ascii_of_string "natural")) /\
  ~ is_str (@PyNone BB) "gaussian" /\
  match autocorrelation (A := BB) gcc example_ds None None None None "natural" "gaussian" with Ok _ => true | _ => false end = true.
Proof.
  intros P kws. split.
  { split; [cbn; lia|]. split; [repeat constructor; cbn; tauto|]. intros x [<-|[]]. exists 5. split; [cbn; lia|reflexivity]. }
  split; [apply by_keyword; left; reflexivity|].
  split; [apply (by_default _ _ _ _ _ 4); [reflexivity|cbn; lia|cbn; intuition discriminate]|].
  split; [discriminate|]. vm_compute. reflexivity.
Qed.
End Cases.
