(** Model of sacf/sacf.py. *)
From Coq Require Import String.
From Coq Require Import ZArith List Bool Arith.
From Verif Require Import Num Mem DataStructure Correlator.
Import ListNotations.
Local Open Scope list_scope.

Section Sacf.
Context {A : Num}.

(** sacf.py:4-7 *)
Definition SELECTION_FUNCTIONS (p : platform) (name : string)
  : option (correlator -> cor_it -> meth cor_it unit) :=
  if String.eqb name "fast"%string then Some (fun c => fastSelectionFunctionIdx p (ds c))
  else if String.eqb name "natural"%string then Some (fun c => naturalSelectionFunctionIdx p (ds c))
  else None.

(** sacf.py:9-13 *)
Definition WEIGHT_FUNCTIONS (name : string) : option (correlator -> cor_it -> cor_it) :=
  if String.eqb name "gaussian"%string then Some getGaussianWeights
  else if String.eqb name "fractional"%string then Some getFractionWeights
  else if String.eqb name "fractional_squared"%string then Some getFractionSquaredWeights
  else None.

(** sacf.py:43-55 *)
Definition set_up_correlation (c : correlator) (min_l max_l res_l al : option num) : correlator :=
  let c := match max_l with Some x => setMaxLag c x | None => c end in
  let c := match min_l with Some x => setMinLag c x | None => c end in
  let c := match res_l with Some x => setLagResolution c x | None => c end in
  match al with Some x => setAlpha c x | None => c end.

(** sacf.py:70-80: the generator as a resumable state machine.  The program
    counter says where execution resumes: at the loop test, after "yield 0",
    after "yield k". *)
Inductive gen_pc := GTest | GAfterZero | GAfterK.
Record gen := { g_k : num; g_pos : bool; g_pc : gen_pc }.

Definition gen_start (minl : num) : gen := {| g_k := minl; g_pos := false; g_pc := GTest |}.

(** from the loop test on *)
Definition gen_test (maxl kk : num) (pos : bool) : option (num * gen) :=
  if nle kk maxl then
    let pos := if neqb kk nzero then true else pos in
    if nlt nzero kk && negb pos then
      Some (nzero, {| g_k := kk; g_pos := true; g_pc := GAfterZero |})
    else Some (kk, {| g_k := kk; g_pos := pos; g_pc := GAfterK |})
  else None.

(** next(generator); None is StopIteration *)
Definition gen_next (maxl resl : num) (g : gen) : option (num * gen) :=
  match g_pc g with
  | GTest => gen_test maxl (g_k g) (g_pos g)
  | GAfterZero => Some (g_k g, {| g_k := g_k g; g_pos := g_pos g; g_pc := GAfterK |})
  | GAfterK => gen_test maxl (nadd (g_k g) resl) (g_pos g)
  end.

(** sacf.py:85-90, body of the for loop.  The dictionary look-ups raise
    KeyError; a new iterator is made per lag. *)
Definition find_correlation_at (p : platform) (sel wgt : string) (c : correlator) (kk : num) (i : nat)
  : meth correlator unit :=
  let it0 := CorrelationIterator kk (N_datasets (ds c)) in
  match SELECTION_FUNCTIONS p sel with
  | None => (c, Throw PyKeyError)
  | Some f =>
      on_it c (f c it0) (fun it1 =>
      on_it c (deltaT p (ds c) it1) (fun it2 =>
      match WEIGHT_FUNCTIONS wgt with
      | None => (c, Throw PyKeyError)
      | Some w =>
          let it3 := w c it2 in
          on_it c (findCorrelation p c it3) (fun it4 =>
          addCorrelationData c it4 i)
      end))
  end.

(** sacf.py:82-84: for i, k in enumerate(...); [last] is the Python variable
    i of the previous iterations (None: unbound). *)
Fixpoint find_loop (p : platform) (sel wgt : string) (fuel : nat) (maxl resl : num) (g : gen)
  (n : nat) (last : option nat) (c : correlator) : meth correlator (option nat) :=
  match fuel with
  | 0 => (c, Diverge)
  | S fuel' =>
      match gen_next maxl resl g with
      | None => (c, Ok last)
      | Some (kk, g') =>
          mbind (find_correlation_at p sel wgt c kk n) (fun c1 _ =>
          find_loop p sel wgt fuel' maxl resl g' (S n) (Some n) c1)
      end
  end.

(** sacf.py:57-92 *)
Definition find_correlation (p : platform) (c : correlator) (sel wgt : string) : meth correlator unit :=
  mbind (find_loop p sel wgt (S (length (timeseries_ c))) (max_lag c) (lag_resolution c)
           (gen_start (min_lag c)) 0 None c) (fun c1 last =>
  match last with
  | None => (c1, Throw PyUnboundLocalError)
  | Some i => cleanCorrelationData c1 (i + 1)
  end).

(** The second component of the returned tuple. *)
Inductive py_corr := Flat (l : list num) | Nested (l : list (list num)).

(** sacf.py:133-146 *)
Definition result_of (c : correlator) : res (list num * py_corr) :=
  do cs <- correlations c;
  if 1 <? length cs then Ok (lag_timeseries c, Nested cs)
  else match cs with
       | [] => Throw PyIndexError
       | row :: _ => Ok (lag_timeseries c, Flat row)
       end.

(** sacf.py:94-146.  Result: the tuple, and the correlator
    (return_correlator=True). *)
Definition autocorrelation (p : platform) (d : dstruct) (min_l max_l res_l al : option num)
  (sel wgt : string) : res (list num * py_corr * correlator) :=
  do c0 <- new_Correlator d;
  let c1 := set_up_correlation c0 min_l max_l res_l al in
  let m := if String.eqb sel "natural"%string && String.eqb wgt "fractional"%string
           then calculateStandardCorrelation p c1
           else find_correlation p c1 sel wgt in
  do _u <- snd m;
  do r <- result_of (fst m);
  Ok (fst r, snd r, fst m).

(** sacf.py:33-41 for list inputs (the overload resolution is in PyBind.v,
    the file constructor in FileReader.v) *)
Definition SACF_1d (t_in v_in : list num) (e_in : option (list num)) : res dstruct :=
  match e_in with None => ds_1d t_in v_in | Some e => ds_1d_err t_in v_in e end.
Definition SACF_2d (t_in : list num) (v_in : list (list num)) (e_in : option (list (list num)))
  : res dstruct :=
  match e_in with None => ds_2d t_in v_in | Some e => ds_2d_err t_in v_in e end.

End Sacf.
