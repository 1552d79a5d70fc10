(** Model of calls of SACF(...) and SACF.autocorrelation(...) with positional
    and keyword arguments, and with any Python values for the function names
    and return_correlator (sacf.py:33-41 and 94-146). *)
From Coq Require Import String.
From Coq Require Import ZArith List Bool Arith Ascii.
From Verif Require Import Num Mem DataStructure Correlator Sacf FileReader PyBind.
Import ListNotations.
Local Open Scope list_scope.

Section PyCall.
Context {A : Num} {D : Dec A}.

(** parameters with their defaults, in order, without self *)
Definition signature := list (string * @pyval A).

(** sacf.py:33 *)
Definition sig_SACF : signature :=
  [("timeseries", PyNone); ("values", PyNone); ("errors", PyNone); ("filename", PyNone)]%string.

(** sacf.py:94-103 *)
Definition sig_autocorrelation : signature :=
  [("min_lag", PyNone); ("max_lag", PyNone); ("lag_resolution", PyNone); ("alpha", PyNone);
   ("selection_function", PyStr (list_ascii_of_string "natural")); ("weight_function", PyStr (list_ascii_of_string "fractional"));
   ("return_correlator", PyInt 0)]%string.

(** CPython's binding of arguments to parameters: one slot per parameter; the
    positional arguments first, *)
Fixpoint place_positional (sig : signature) (pos : list pyval) : list (option pyval) :=
  match sig, pos with
  | [], _ => []
  | _ :: sig', [] => None :: place_positional sig' []
  | _ :: sig', v :: pos' => Some v :: place_positional sig' pos'
  end.

(** then the keywords in the order given: TypeError for an unknown name and
    for a slot that is taken, *)
Fixpoint place_keyword (sig : signature) (slots : list (option pyval)) (x : string) (v : pyval) : res (list (option pyval)) :=
  match sig, slots with
  | (y, _) :: sig', s :: slots' =>
      if String.eqb x y then match s with None => Ok (Some v :: slots') | Some _ => Throw PyTypeError end
      else do r <- place_keyword sig' slots' x v; Ok (s :: r)
  | _, _ => Throw PyTypeError
  end.
Fixpoint place_keywords (sig : signature) (slots : list (option pyval)) (kws : list (string * pyval)) : res (list (option pyval)) :=
  match kws with
  | [] => Ok slots
  | (x, v) :: kws' => do s <- place_keyword sig slots x v; place_keywords sig s kws'
  end.

(** then the defaults; TypeError for too many positional arguments.  All
    parameters have a default. *)
Fixpoint fill_defaults (sig : signature) (slots : list (option pyval)) : list pyval :=
  match sig, slots with
  | (_, v) :: sig', s :: slots' => match s with Some u => u | None => v end :: fill_defaults sig' slots'
  | _, _ => []
  end.
Definition bind_arguments (sig : signature) (pos : list pyval) (kws : list (string * pyval)) : res (list pyval) :=
  do slots <- place_keywords sig (place_positional sig pos) kws;
  if length sig <? length pos then Throw PyTypeError else Ok (fill_defaults sig slots).

(** SACF(...) *)
Definition call_SACF (open_file : bytes -> option bytes) (pos : list pyval) (kws : list (string * pyval)) : res dstruct :=
  do args <- bind_arguments sig_SACF pos kws;
  match args with
  | [t; v; e; f] => py_SACF open_file t v e f
  | _ => Throw PyTypeError
  end.

(** v == name for a string literal.  Only a str can be equal to it; NumPy
    arrays are not modelled as function names. *)
Definition py_is (v : pyval) (name : string) : bool :=
  match v with PyStr s => if list_eq_dec ascii_dec s (list_ascii_of_string name) then true else false | _ => false end.

(** the dictionaries of sacf.py:4-13: KeyError for a str that is no key and
    for other hashable objects, TypeError for those without a hash (list,
    dict); [hashable] decides for objects that are not str, bytes, None or
    numbers *)
Definition bad_key (hashable : pyval -> bool) (v : pyval) : exn :=
  match v with
  | PySeq _ | PyArray _ | PyOther => if hashable v then PyKeyError else PyTypeError
  | _ => PyKeyError
  end.
Definition py_SELECTION (hashable : pyval -> bool) (p : platform) (v : pyval) : res (correlator -> cor_it -> meth cor_it unit) :=
  if py_is v "fast" then Ok (fun c => fastSelectionFunctionIdx p (ds c))
  else if py_is v "natural" then Ok (fun c => naturalSelectionFunctionIdx p (ds c))
  else Throw (bad_key hashable v).
Definition py_WEIGHT (hashable : pyval -> bool) (v : pyval) : res (correlator -> cor_it -> cor_it) :=
  if py_is v "gaussian" then Ok getGaussianWeights
  else if py_is v "fractional" then Ok getFractionWeights
  else if py_is v "fractional_squared" then Ok getFractionSquaredWeights
  else Throw (bad_key hashable v).

(** sacf.py:85-90 *)
Definition py_find_correlation_at (h : pyval -> bool) (p : platform) (sel wgt : pyval) (c : correlator) (kk : num) (i : nat)
  : meth correlator unit :=
  let it0 := CorrelationIterator kk (N_datasets (ds c)) in
  mbind (c, py_SELECTION h p sel) (fun c f =>
      on_it c (f c it0) (fun it1 =>
      on_it c (deltaT p (ds c) it1) (fun it2 =>
      mbind (c, py_WEIGHT h wgt) (fun c w =>
          let it3 := w c it2 in
          on_it c (findCorrelation p c it3) (fun it4 =>
          addCorrelationData c it4 i))))).

(** sacf.py:82-84 *)
Fixpoint py_find_loop (h : pyval -> bool) (p : platform) (sel wgt : pyval) (fuel : nat) (maxl resl : num) (g : gen)
  (n : nat) (last : option nat) (c : correlator) : meth correlator (option nat) :=
  match fuel with
  | 0 => (c, Diverge)
  | S fuel' =>
      match gen_next maxl resl g with
      | None => (c, Ok last)
      | Some (kk, g') =>
          mbind (py_find_correlation_at h p sel wgt c kk n) (fun c1 _ =>
          py_find_loop h p sel wgt fuel' maxl resl g' (S n) (Some n) c1)
      end
  end.

(** sacf.py:57-92 *)
Definition py_find_correlation (h : pyval -> bool) (p : platform) (c : correlator) (sel wgt : pyval) : meth correlator unit :=
  mbind (py_find_loop h p sel wgt (S (length (timeseries_ c))) (max_lag c) (lag_resolution c)
           (gen_start (min_lag c)) 0 None c) (fun c1 last =>
  match last with
  | None => (c1, Throw PyUnboundLocalError)
  | Some i => cleanCorrelationData c1 (i + 1)
  end).

(** the returned tuple, of two or three elements *)
Inductive py_tuple :=
| Pair (lags : list num) (corr : py_corr)
| Triple (lags : list num) (corr : py_corr) (c : correlator).

(** sacf.autocorrelation(...), sacf.py:94-146 *)
Definition call_autocorrelation (h : pyval -> bool) (p : platform) (d : dstruct) (pos : list pyval) (kws : list (string * pyval)) : res py_tuple :=
  do args <- bind_arguments sig_autocorrelation pos kws;
  match args with
  | [min_lag; max_lag; lag_resolution; alpha; sel; wgt; return_correlator] =>
      do c0 <- new_Correlator d;
      do c1 <- py_set_up_correlation c0 min_lag max_lag lag_resolution alpha;
      let m := if py_is sel "natural" && py_is wgt "fractional"
               then calculateStandardCorrelation p c1
               else py_find_correlation h p c1 sel wgt in
      do _u <- snd m;
      do b <- truth return_correlator;
      do r <- result_of (fst m);
      Ok (if b then Triple (fst r) (snd r) (fst m) else Pair (fst r) (snd r))
  | _ => Throw PyTypeError
  end.

End PyCall.
