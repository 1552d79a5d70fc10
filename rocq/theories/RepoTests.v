(** The project's own test suite, /repo/tests/sacf_test.py, on the model: one example for each test, with its name.  This checks
    the model against the behaviour that the authors expect of the code; it proves nothing about other inputs. *)
From Coq Require Import String.
From Coq Require Import ZArith List Bool Arith Ascii.
From Flocq Require Import Core BinarySingleNaN.
From Verif Require Import Num Mem B64 DataStructure Correlator Sacf FileReader PyBind.
Import ListNotations.
Local Open Scope list_scope.

(** binary64 with an [exp] that is right at 0, the only argument it gets in the tests *)
Local Instance BT : Num := B64 (fun x => match x with B754_zero _ => b64_ofZ 1 | _ => x end).
Local Instance DT : Dec BT := dec64.

(** tests/csv_no_titles.csv *)
Definition csv_no_titles_csv : bytes := ["0"; ","; "0"; "010"; "1"; ","; "1"; "010"; "2"; ","; "2"; "010"; "3"; ","; "3"; "010"; "4"; ","; "4"]%char.
(** tests/csv_no_titles_with_err.csv *)
Definition csv_no_titles_with_err_csv : bytes := ["0"; ","; "0"; ","; "0"; "010"; "1"; ","; "1"; ","; "1"; "010"; "2"; ","; "2"; ","; "2"; "010"; "3"; ","; "3"; ","; "3"; "010"; "4"; ","; "4"; ","; "4"]%char.
(** tests/csv_with_titles.csv *)
Definition csv_with_titles_csv : bytes := ["t"; "i"; "m"; "e"; ","; "v"; "a"; "l"; "u"; "e"; "010"; "0"; " "; " "; " "; ","; "0"; "010"; "1"; " "; " "; " "; ","; "1"; "010"; "2"; " "; " "; " "; ","; "2"; "010"; "3"; " "; " "; " "; ","; "3"; "010"; "4"; " "; " "; " "; ","; "4"]%char.
(** tests/csv_with_titles_commented.csv *)
Definition csv_with_titles_commented_csv : bytes := ["#"; "t"; "i"; "m"; "e"; ","; "v"; "a"; "l"; "u"; "e"; "010"; "0"; " "; " "; " "; " "; ","; "0"; "010"; "1"; " "; " "; " "; " "; ","; "1"; "010"; "2"; " "; " "; " "; " "; ","; "2"; "010"; "3"; " "; " "; " "; " "; ","; "3"; "010"; "4"; " "; " "; " "; " "; ","; "4"]%char.
(** tests/csv_with_titles_with_err.csv *)
Definition csv_with_titles_with_err_csv : bytes := ["t"; "i"; "m"; "e"; ","; "v"; "a"; "l"; "u"; "e"; ","; "e"; "r"; "r"; "010"; "0"; " "; " "; " "; ","; "0"; " "; " "; " "; " "; ","; "0"; "010"; "1"; " "; " "; " "; ","; "1"; " "; " "; " "; " "; ","; "1"; "010"; "2"; " "; " "; " "; ","; "2"; " "; " "; " "; " "; ","; "2"; "010"; "3"; " "; " "; " "; ","; "3"; " "; " "; " "; " "; ","; "3"; "010"; "4"; " "; " "; " "; ","; "4"; " "; " "; " "; " "; ","; "4"]%char.
(** tests/tab_delim_no_titles.txt *)
Definition tab_delim_no_titles_txt : bytes := ["0"; "009"; "0"; "010"; "1"; "009"; "1"; "010"; "2"; "009"; "2"; "010"; "3"; "009"; "3"; "010"; "4"; "009"; "4"; "010"; "010"]%char.
(** tests/tab_delim_no_titles_with_err.txt *)
Definition tab_delim_no_titles_with_err_txt : bytes := ["0"; "009"; "0"; " "; " "; " "; "0"; "010"; "1"; "009"; "1"; " "; " "; " "; "1"; "010"; "2"; "009"; "2"; " "; " "; " "; "2"; "010"; "3"; "009"; "3"; " "; " "; " "; "3"; "010"; "4"; "009"; "4"; " "; " "; " "; "4"; "010"; "010"]%char.
(** tests/tab_delim_with_titles.txt *)
Definition tab_delim_with_titles_txt : bytes := ["t"; "i"; "m"; "e"; "009"; "v"; "a"; "l"; "u"; "e"; "010"; "0"; "009"; "0"; "010"; "1"; "009"; "1"; "010"; "2"; "009"; "2"; "010"; "3"; "009"; "3"; "010"; "4"; "009"; "4"; "010"; "010"]%char.
(** tests/tab_delim_with_titles_commented.txt *)
Definition tab_delim_with_titles_commented_txt : bytes := ["#"; "009"; "t"; "i"; "m"; "e"; "009"; "v"; "a"; "l"; "u"; "e"; "010"; "0"; "009"; "0"; "010"; "1"; "009"; "1"; "010"; "2"; "009"; "2"; "010"; "3"; "009"; "3"; "010"; "4"; "009"; "4"; "010"; "010"]%char.
(** tests/tab_delim_with_titles_with_err.txt *)
Definition tab_delim_with_titles_with_err_txt : bytes := ["t"; "i"; "m"; "e"; "009"; "v"; "a"; "l"; "u"; "e"; " "; " "; " "; "e"; "r"; "r"; "010"; "0"; "009"; "0"; " "; " "; " "; "0"; "010"; "1"; "009"; "1"; " "; " "; " "; "1"; "010"; "2"; "009"; "2"; " "; " "; " "; "2"; "010"; "3"; "009"; "3"; " "; " "; " "; "3"; "010"; "4"; "009"; "4"; " "; " "; " "; "N"; "a"; "N"; "010"; "010"]%char.

Definition path (s : string) : bytes := list_ascii_of_string s.
Definition open_file (name : bytes) : option bytes :=
  let n := string_of_list_ascii name in
  if String.eqb n "csv_with_titles.csv" then Some csv_with_titles_csv
  else if String.eqb n "csv_with_titles_commented.csv" then Some csv_with_titles_commented_csv
  else if String.eqb n "csv_no_titles.csv" then Some csv_no_titles_csv
  else if String.eqb n "csv_no_titles_with_err.csv" then Some csv_no_titles_with_err_csv
  else if String.eqb n "csv_with_titles_with_err.csv" then Some csv_with_titles_with_err_csv
  else if String.eqb n "tab_delim_with_titles.txt" then Some tab_delim_with_titles_txt
  else if String.eqb n "tab_delim_with_titles_commented.txt" then Some tab_delim_with_titles_commented_txt
  else if String.eqb n "tab_delim_no_titles.txt" then Some tab_delim_no_titles_txt
  else if String.eqb n "tab_delim_no_titles_with_err.txt" then Some tab_delim_no_titles_with_err_txt
  else if String.eqb n "tab_delim_with_titles_with_err.txt" then Some tab_delim_with_titles_with_err_txt
  else None.

(** Python's == on numbers and lists of numbers *)
Fixpoint eql (a b : list num) : bool :=
  match a, b with
  | [], [] => true
  | x :: a', y :: b' => neqb x y && eql a' b'
  | _, _ => false
  end.
Fixpoint eqll (a b : list (list num)) : bool :=
  match a, b with
  | [], [] => true
  | x :: a', y :: b' => eql x y && eqll a' b'
  | _, _ => false
  end.
Definition Zs (l : list Z) : list num := map nofZ l.
Definition half (z : Z) : num := ndiv (nofZ z) (nofZ 2).
Definition halves (l : list Z) : list num := map half l.
Definition raises {T} (r : res T) (e : exn) : Prop := match r with Throw e' => e' = e | _ => False end.
Definition holds {T} (r : res T) (P : T -> bool) : Prop := match r with Ok x => P x = true | _ => False end.
Definition passes {T} (r : res T) : Prop := holds r (fun _ => true).

(** Python values *)
Definition pints (l : list Z) : pyval := PySeq (map PyInt l).
Definition pfloats (l : list num) : pyval := PySeq (map PyFloat l).
Definition parray (l : list num) : pyval := PyArray (map PyFloat l).
Definition parray_int (l : list num) : pyval := PyArray (map PyNumber l).

(** tests/sacf_test.py:26-40 *)
Definition integer_list := pints [0; 1; 2; 3; 4]%Z.
Definition short_integer_list := pints [0; 1; 2]%Z.
Definition integer_list2 := pints [10; 11; 12; 13; 14]%Z.
Definition float_list := pfloats (Zs [0; 1; 2; 3; 4]%Z).
Definition numpy_float_array := parray (Zs [0; 1; 2; 3; 4]%Z).
Definition empty_list := PySeq [].
Definition empty_numpy_array := PyArray [].
Definition numpy_float_array_with_nan := parray (Zs [0; 1; 2; 3; 4]%Z ++ [B754_nan]).
Definition DataStructure (args : list pyval) : res dstruct := py_DataStructure open_file args.

Ltac run := vm_compute; reflexivity.

(** ** TestDataStructure, tests/sacf_test.py:44-180 *)
Example test_import_integer_lists : passes (DataStructure [integer_list; integer_list]). Proof. run. Qed.
Example test_import_float_lists : passes (DataStructure [float_list; float_list]). Proof. run. Qed.
Example test_import_numpy_float_array : passes (DataStructure [numpy_float_array; numpy_float_array]). Proof. run. Qed.
Example test_import_empty_list : raises (DataStructure [empty_list; empty_list]) EmptyDataStructureException. Proof. run. Qed.
Example test_import_empty_numpy_array : raises (DataStructure [empty_numpy_array; empty_numpy_array]) EmptyDataStructureException. Proof. run. Qed.
Example test_import_numpy_float_array_with_nan : passes (DataStructure [numpy_float_array_with_nan; numpy_float_array_with_nan]). Proof. run. Qed.
Example test_uneven_lists : raises (DataStructure [short_integer_list; integer_list]) BadDataInputException. Proof. run. Qed.
Example test_uneven_lists2 : raises (DataStructure [integer_list; short_integer_list]) BadDataInputException. Proof. run. Qed.
Example test_import_integer_lists_with_err : passes (DataStructure [integer_list; integer_list; integer_list]). Proof. run. Qed.
Example test_import_float_lists_with_err : passes (DataStructure [float_list; float_list; float_list]). Proof. run. Qed.
Example test_import_numpy_float_array_with_err : passes (DataStructure [numpy_float_array; numpy_float_array; numpy_float_array]). Proof. run. Qed.
Example test_import_empty_list_with_err : raises (DataStructure [empty_list; empty_list; empty_list]) EmptyDataStructureException. Proof. run. Qed.
Example test_import_empty_numpy_array_with_err :
  raises (DataStructure [empty_numpy_array; empty_numpy_array; empty_numpy_array]) EmptyDataStructureException. Proof. run. Qed.
Example test_import_numpy_float_array_with_nan_with_err :
  passes (DataStructure [numpy_float_array_with_nan; numpy_float_array_with_nan; numpy_float_array_with_nan]). Proof. run. Qed.

(** the tests only ask that the constructor succeeds; the contents are checked here as well *)
Definition read (name : string) (ts vs es : list Z) : Prop :=
  holds (DataStructure [PyStr (path name)]) (fun d =>
    eql (timeseries d) (Zs ts) && match data_2d d, err_2d d with Ok v, Ok e => eqll v [Zs vs] && eqll e (match es with [] => [] | _ => [Zs es] end) | _, _ => false end).
Example test_import_csv_with_title : read "csv_with_titles.csv" [0; 1; 2; 3; 4]%Z [0; 1; 2; 3; 4]%Z []. Proof. run. Qed.
Example test_import_csv_with_title_commented : read "csv_with_titles_commented.csv" [0; 1; 2; 3; 4]%Z [0; 1; 2; 3; 4]%Z []. Proof. run. Qed.
Example test_import_csv : read "csv_no_titles.csv" [0; 1; 2; 3; 4]%Z [0; 1; 2; 3; 4]%Z []. Proof. run. Qed.
Example test_import_csv_with_err : read "csv_no_titles_with_err.csv" [0; 1; 2; 3; 4]%Z [0; 1; 2; 3; 4]%Z [0; 1; 2; 3; 4]%Z. Proof. run. Qed.
Example test_import_csv_with_err_with_title : read "csv_with_titles_with_err.csv" [0; 1; 2; 3; 4]%Z [0; 1; 2; 3; 4]%Z [0; 1; 2; 3; 4]%Z. Proof. run. Qed.
Example test_import_tab_delim_file_with_title : read "tab_delim_with_titles.txt" [0; 1; 2; 3; 4]%Z [0; 1; 2; 3; 4]%Z []. Proof. run. Qed.
Example test_import_tab_delim_file_with_title_commented : read "tab_delim_with_titles_commented.txt" [0; 1; 2; 3; 4]%Z [0; 1; 2; 3; 4]%Z []. Proof. run. Qed.
Example test_import_tab_delim_file : read "tab_delim_no_titles.txt" [0; 1; 2; 3; 4]%Z [0; 1; 2; 3; 4]%Z []. Proof. run. Qed.
Example test_import_tab_delim_file_with_err : read "tab_delim_no_titles_with_err.txt" [0; 1; 2; 3; 4]%Z [0; 1; 2; 3; 4]%Z [0; 1; 2; 3; 4]%Z. Proof. run. Qed.
(** the last error in the file is NaN, which the reader does not read: there are five values and four errors *)
Example test_import_tab_delim_file_with_err_with_title :
  passes (DataStructure [PyStr (path "tab_delim_with_titles_with_err.txt")]). Proof. run. Qed.

Example test_data : holds (DataStructure [integer_list; integer_list2]) (fun d =>
  match data_2d d with Ok (v :: _) => eql v (Zs [10; 11; 12; 13; 14]%Z) | _ => false end). Proof. run. Qed.
Example test_data_2d : holds (DataStructure [integer_list; PySeq [integer_list2; integer_list]]) (fun d =>
  match data_2d d with Ok v => eqll v [Zs [10; 11; 12; 13; 14]%Z; Zs [0; 1; 2; 3; 4]%Z] | _ => false end). Proof. run. Qed.
Example test_timeseries : holds (DataStructure [integer_list2; integer_list]) (fun d => eql (timeseries d) (Zs [10; 11; 12; 13; 14]%Z)). Proof. run. Qed.
Example test_errors_empty : holds (DataStructure [integer_list2; integer_list]) (fun d => match err_2d d with Ok e => eqll e [] | _ => false end). Proof. run. Qed.
Example test_errors : holds (DataStructure [integer_list; integer_list; integer_list2]) (fun d =>
  match err_2d d with Ok (e :: _) => eql e (Zs [10; 11; 12; 13; 14]%Z) | _ => false end). Proof. run. Qed.
Example test_normalised_data : holds (DataStructure [integer_list; integer_list2]) (fun d =>
  match normalised_data_2d d with Ok (v :: _) => eql v (Zs [-2; -1; 0; 1; 2]%Z) | _ => false end). Proof. run. Qed.
Example test_normalised_timeseries : holds (DataStructure [integer_list2; integer_list]) (fun d => eql (normalised_timeseries d) (Zs [0; 1; 2; 3; 4]%Z)). Proof. run. Qed.
Example test_mean_data : holds (DataStructure [integer_list; integer_list2]) (fun d => match mean_data d with m :: _ => neqb m (nofZ 12) | [] => false end). Proof. run. Qed.
Example test_mean_data_nan : holds (DataStructure [parray_int (Zs [0; 1; 2; 3; 4; 4]%Z); numpy_float_array_with_nan]) (fun d =>
  match mean_data d with m :: _ => neqb m (nofZ 2) | [] => false end). Proof. run. Qed.
Example test_median_time : holds (DataStructure [float_list; integer_list]) (fun d => neqb (median_time d) (nofZ 2)). Proof. run. Qed.
Example test_median_time_nan : holds (DataStructure [numpy_float_array_with_nan; parray_int (Zs [0; 1; 2; 3; 4; 4]%Z)]) (fun d => neqb (median_time d) (half 5)). Proof. run. Qed.
Example test_max_time : holds (DataStructure [float_list; integer_list]) (fun d => neqb (max_time d) (nofZ 4)). Proof. run. Qed.

(** ** TestCorrelator, tests/sacf_test.py:283-370 *)
Definition data1 := pints [0; 1; 0; -1; 0]%Z.
Definition data2 := PySeq (map PyInt [0; 1; 2; 1]%Z ++ [PyFloat B754_nan]).
Definition ds1 := DataStructure [integer_list; data1].
Definition Correlator1 := do d <- ds1; new_Correlator d.
Definition set_to (f : correlator -> num -> correlator) (v : pyval) := do c <- Correlator1; py_set f c v.
Example setUp_ds2 : passes (DataStructure [integer_list; PySeq [data1; data2]]). Proof. run. Qed.
Example test_setup_correlator : passes Correlator1. Proof. run. Qed.
Example test_setup_correlationiterator : k (CorrelationIterator (nofZ 1) 1) = nofZ 1. Proof. reflexivity. Qed.
Example test_default_max_lag : holds Correlator1 (fun c => neqb (max_lag c) (nofZ 4)). Proof. run. Qed.
Example test_alter_max_lag : holds (set_to setMaxLag (PyInt 100)) (fun c => neqb (max_lag c) (nofZ 100)). Proof. run. Qed.
Example test_alter_min_lag : holds (set_to setMinLag (PyInt (-100))) (fun c => neqb (min_lag c) (nofZ (-100))). Proof. run. Qed.
Example test_default_lag_resolution : holds Correlator1 (fun c => neqb (lag_resolution c) (nofZ 1)). Proof. run. Qed.
Example test_alter_lag_resolution : holds (set_to setLagResolution (PyInt 100)) (fun c => neqb (lag_resolution c) (nofZ 100)). Proof. run. Qed.
Example test_default_alpha : holds Correlator1 (fun c => neqb (alpha c) (nofZ 2)). Proof. run. Qed.
Example test_alter_alpha : holds (set_to setAlpha (PyInt 100)) (fun c => neqb (alpha c) (nofZ 100)). Proof. run. Qed.

(** ** TestSACF, tests/sacf_test.py:373-490; on both kinds of [abs]; vectors are not checked, as in the build of setup.py
    (a checked build stops at the read of a cleared vector, see C20) *)
Definition platforms : list platform :=
  [{| p_abs := AbsInt; p_checked := false |}; {| p_abs := AbsFloat; p_checked := false |}].
Definition SACF (t v : pyval) := py_SACF open_file t v PyNone PyNone.
Definition everywhere (s : res dstruct) (mi ma re al : pyval) (sel wgt : string) (P : list num -> py_corr -> bool) : Prop :=
  holds s (fun d => forallb (fun p => match py_autocorrelation p d mi ma re al sel wgt with Ok (l, c, _) => P l c | _ => false end) platforms).
Definition simple_lags := Zs [0; 1; 2; 3; 4]%Z.
Definition simple_solution := halves [2; 0; -1; 0; 0]%Z.
Definition negative_lags := Zs [-4; -3; -2; -1; 0; 1; 2; 3; 4]%Z.
Definition negative_solution := halves [0; 0; -1; 0; 2; 0; -1; 0; 0]%Z.
Definition add_zero_lags := halves [-8; -5; -2; 0; 1; 4; 7]%Z.
Definition flat_is (s : list num) (c : py_corr) : bool := match c with Flat l => eql l s | Nested _ => false end.

Example test_SACF_init : passes (SACF integer_list data1). Proof. run. Qed.
Example test_SACF_correlation : everywhere (SACF integer_list data1) PyNone PyNone PyNone PyNone "natural" "fractional"
  (fun l c => eql l negative_lags && flat_is negative_solution c). Proof. run. Qed.
Example test_simple_correlation : everywhere (SACF integer_list data1) (PyInt 0) PyNone PyNone PyNone "natural" "fractional"
  (fun l c => eql l simple_lags && flat_is simple_solution c). Proof. run. Qed.
Example test_two_correlation : everywhere (SACF integer_list (PySeq [data1; data1])) (PyInt 0) PyNone PyNone PyNone "natural" "fractional"
  (fun l c => eql l simple_lags && match c with Nested r => eqll r [simple_solution; simple_solution] | Flat _ => false end). Proof. run. Qed.
Example test_add_zero_lag : everywhere (SACF integer_list data1) PyNone PyNone (PyFloat (half 3)) PyNone "natural" "fractional"
  (fun l c => eql l add_zero_lags). Proof. run. Qed.
Example test_creation_from_file : passes (py_SACF open_file PyNone PyNone PyNone (PyStr (path "csv_with_titles.csv"))). Proof. run. Qed.
Example test_specified_function_autocorrelation_gaussian : everywhere (SACF integer_list data1) PyNone PyNone PyNone PyNone "natural" "gaussian"
  (fun l c => eql l negative_lags && flat_is negative_solution c). Proof. run. Qed.
Example test_specified_function_autocorrelation_fractional_squared : everywhere (SACF integer_list data1) PyNone PyNone PyNone PyNone "natural" "fractional_squared"
  (fun l c => eql l negative_lags && flat_is negative_solution c). Proof. run. Qed.
Example test_specified_function_autocorrelation_fast : everywhere (SACF integer_list data1) PyNone PyNone PyNone PyNone "fast" "fractional"
  (fun l c => eql l negative_lags && negb (flat_is negative_solution c)). Proof. run. Qed.
