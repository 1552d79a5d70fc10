(** Model of the Python side of construction: the overloads of
    datastructure_bindings.cpp, the argument conversion and overload
    resolution of pybind11, and SACF.__init__ (sacf.py:33-41). *)
From Coq Require Import String.
From Coq Require Import ZArith List Bool Arith Ascii.
From Verif Require Import Num Mem DataStructure Correlator Sacf FileReader.
Import ListNotations.
Local Open Scope list_scope.

Section PyBind.
Context {A : Num} {D : Dec A}.

(** Python values.  A bool is an [PyInt]; numpy.float64 is a subclass of
    float; the elements of a NumPy array are those along its first axis;
    zero-dimensional arrays and user classes are not modelled. *)
Inductive pyval :=
| PyNone
| PyFloat (x : num)              (* float and its subclasses *)
| PyInt (z : Z)                  (* int, bool *)
| PyNumber (x : num)             (* other objects with __float__, e.g. numpy.float32, numpy.int64, Fraction *)
| PyStr (s : bytes)              (* str, as UTF-8 *)
| PyBytes (s : bytes)            (* bytes *)
| PySeq (l : list pyval)         (* list, tuple *)
| PyArray (l : list pyval)       (* numpy.ndarray *)
| PyOther.                       (* neither a number nor a sequence, e.g. a dict *)

(** pybind11/cast.h:970-1018, type_caster<double>::load.  Without [convert]
    only floats; with it whatever PyFloat_AsDouble takes: an int (OverflowError
    when it is too large), an object with __float__, an array of size 1. *)
Fixpoint load_double (convert : bool) (v : pyval) : option num :=
  match v with
  | PyFloat x => Some x
  | PyInt z => if convert then match nfloor (nofZ z) with Some _ => Some (nofZ z) | None => None end else None
  | PyNumber x => if convert then Some x else None
  | PyArray [w] => if convert then load_double true w else None
  | _ => None
  end.

Fixpoint load_all {X} (f : pyval -> option X) (l : list pyval) : option (list X) :=
  match l with
  | [] => Some []
  | v :: l' => match f v with
               | Some x => match load_all f l' with Some xs => Some (x :: xs) | None => None end
               | None => None
               end
  end.

(** pybind11/stl.h:137-156, list_caster::load: any sequence but str and bytes *)
Definition load_list {X} (f : pyval -> option X) (v : pyval) : option (list X) :=
  match v with
  | PySeq l | PyArray l => load_all f l
  | _ => None
  end.
Definition load_vec (convert : bool) : pyval -> option (list num) := load_list (load_double convert).
Definition load_vec2 (convert : bool) : pyval -> option (list (list num)) := load_list (load_vec convert).

(** pybind11/cast.h:1155-1200, string_caster::load *)
Definition load_string (v : pyval) : option bytes :=
  match v with PyStr s | PyBytes s => Some s | _ => None end.

(** a candidate for a call; None: the next one is tried *)
Definition overload := bool -> list pyval -> option (res dstruct).

(** datastructure_bindings.cpp:9-13, in this order *)
Definition init_file (open_file : bytes -> option bytes) : overload := fun _ args =>
  match args with
  | [f] => match load_string f with Some s => Some (ds_file (open_file s)) | None => None end
  | _ => None
  end.
Definition init_1d : overload := fun convert args =>
  match args with
  | [a; b] => match load_vec convert a, load_vec convert b with
              | Some ts, Some vs => Some (ds_1d ts vs)
              | _, _ => None
              end
  | _ => None
  end.
Definition init_1d_err : overload := fun convert args =>
  match args with
  | [a; b; c] => match load_vec convert a, load_vec convert b, load_vec convert c with
                 | Some ts, Some vs, Some es => Some (ds_1d_err ts vs es)
                 | _, _, _ => None
                 end
  | _ => None
  end.
Definition init_2d : overload := fun convert args =>
  match args with
  | [a; b] => match load_vec convert a, load_vec2 convert b with
              | Some ts, Some vs => Some (ds_2d ts vs)
              | _, _ => None
              end
  | _ => None
  end.
Definition init_2d_err : overload := fun convert args =>
  match args with
  | [a; b; c] => match load_vec convert a, load_vec2 convert b, load_vec2 convert c with
                 | Some ts, Some vs, Some es => Some (ds_2d_err ts vs es)
                 | _, _, _ => None
                 end
  | _ => None
  end.
Definition init_overloads (open_file : bytes -> option bytes) : list overload :=
  [init_file open_file; init_1d; init_1d_err; init_2d; init_2d_err].

Fixpoint try_overloads (convert : bool) (os : list overload) (args : list pyval) : option (res dstruct) :=
  match os with
  | [] => None
  | o :: os' => match o convert args with Some r => Some r | None => try_overloads convert os' args end
  end.

(** pybind11/pybind11.h:446-640, dispatcher: a pass without conversions, then
    one with *)
Definition dispatch (os : list overload) (args : list pyval) : res dstruct :=
  match try_overloads false os args with
  | Some r => r
  | None => match try_overloads true os args with Some r => r | None => Throw PyTypeError end
  end.

(** DataStructure(...) called from Python; [open_file] gives the content of a
    file, None if it cannot be opened *)
Definition py_DataStructure (open_file : bytes -> option bytes) (args : list pyval) : res dstruct :=
  dispatch (init_overloads open_file) args.

(** bool(v) *)
Fixpoint truth (v : pyval) : res bool :=
  match v with
  | PyNone => Ok false
  | PyFloat x | PyNumber x => Ok (negb (neqb x nzero))
  | PyInt z => Ok (negb (z =? 0)%Z)
  | PyStr s | PyBytes s => Ok (match s with [] => false | _ => true end)
  | PySeq l => Ok (match l with [] => false | _ => true end)
  | PyArray [] => Ok false
  | PyArray [w] => truth w
  | PyArray _ => Throw PyValueError
  | PyOther => Ok true
  end.

(** sacf.py:33-41.  The data attribute is the result. *)
Definition py_SACF (open_file : bytes -> option bytes) (timeseries values errors filename : pyval) : res dstruct :=
  do named <- truth filename;
  if named then py_DataStructure open_file [filename]
  else match errors with
       | PyNone => py_DataStructure open_file [timeseries; values]
       | _ => py_DataStructure open_file [timeseries; values; errors]
       end.

(** corr.attribute = v for a property with a setter taking a double
    (correlator_bindings.cpp:42-45); a single overload is called with
    conversion allowed *)
Definition py_set (set : correlator -> num -> correlator) (c : correlator) (v : pyval) : res correlator :=
  match v with
  | PyNone => Ok c                       (* sacf.py:48-55: is not None *)
  | _ => match load_double true v with Some x => Ok (set c x) | None => Throw PyTypeError end
  end.

(** sacf.py:43-55 *)
Definition py_set_up_correlation (c : correlator) (min_lag max_lag lag_resolution alpha : pyval) : res correlator :=
  do c <- py_set setMaxLag c max_lag;
  do c <- py_set setMinLag c min_lag;
  do c <- py_set setLagResolution c lag_resolution;
  py_set setAlpha c alpha.

(** sacf.py:94-146 with Python numbers as arguments *)
Definition py_autocorrelation (p : platform) (d : dstruct) (min_lag max_lag lag_resolution alpha : pyval)
  (sel wgt : string) : res (list num * py_corr * correlator) :=
  do c0 <- new_Correlator d;
  do c1 <- py_set_up_correlation c0 min_lag max_lag lag_resolution alpha;
  let m := if String.eqb sel "natural"%string && String.eqb wgt "fractional"%string
           then calculateStandardCorrelation p c1
           else find_correlation p c1 sel wgt in
  do _u <- snd m;
  do r <- result_of (fst m);
  Ok (fst r, snd r, fst m).

End PyBind.
