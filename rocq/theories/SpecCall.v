(** Vocabulary for calls with positional and keyword arguments (used in statements only). *)
From Coq Require Import String.
From Coq Require Import ZArith List Bool Arith Ascii.
From Verif Require Import Num Mem Spec PyBind.
Import ListNotations.

Section SpecCall.
Context {A : Num}.

(** the parameters of the two functions and their defaults *)
Definition SACF_parameters : list (string * @pyval A) :=
  [("timeseries", PyNone); ("values", PyNone); ("errors", PyNone); ("filename", PyNone)]%string.
Definition autocorrelation_parameters : list (string * @pyval A) :=
  [("min_lag", PyNone); ("max_lag", PyNone); ("lag_resolution", PyNone); ("alpha", PyNone);
   ("selection_function", PyStr (list_ascii_of_string "natural")); ("weight_function", PyStr (list_ascii_of_string "fractional"));
   ("return_correlator", PyInt 0)]%string.

(** no more arguments than parameters, no keyword twice, and each keyword is the name of a parameter not given by position *)
Definition well_called (ps : list (string * @pyval A)) (pos : list (@pyval A)) (kws : list (string * @pyval A)) : Prop :=
  length pos <= length ps /\ NoDup (map fst kws) /\
  forall x, In x (map fst kws) -> exists i, length pos <= i /\ nth_error (map fst ps) i = Some x.

(** the value a parameter has in the call *)
Inductive receives (ps : list (string * @pyval A)) (pos : list (@pyval A)) (kws : list (string * @pyval A)) (x : string) (v : @pyval A) : Prop :=
| by_position i : nth_error (map fst ps) i = Some x -> nth_error pos i = Some v -> receives ps pos kws x v
| by_keyword : In (x, v) kws -> receives ps pos kws x v
| by_default i : nth_error ps i = Some (x, v) -> length pos <= i -> ~ In x (map fst kws) -> receives ps pos kws x v.

(** v is the str [name] *)
Definition is_str (v : @pyval A) (name : string) : Prop := v = PyStr (list_ascii_of_string name).

(** bool(v) *)
Inductive truth_value : @pyval A -> bool -> Prop :=
| truth_none : truth_value PyNone false
| truth_int z : truth_value (PyInt z) (negb (z =? 0)%Z)
| truth_zero x : neqb x nzero = true -> truth_value (PyFloat x) false
| truth_float x : neqb x nzero = false -> truth_value (PyFloat x) true
| truth_number_zero x : neqb x nzero = true -> truth_value (PyNumber x) false
| truth_number x : neqb x nzero = false -> truth_value (PyNumber x) true
| truth_str s : truth_value (PyStr s) (match s with [] => false | _ => true end)
| truth_bytes s : truth_value (PyBytes s) (match s with [] => false | _ => true end)
| truth_seq l : truth_value (PySeq l) (match l with [] => false | _ => true end)
| truth_empty : truth_value (PyArray []) false
| truth_single v b : truth_value v b -> truth_value (PyArray [v]) b
| truth_object : truth_value PyOther true.
End SpecCall.
