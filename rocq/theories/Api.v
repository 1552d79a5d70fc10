(** Vocabulary of the statements that refers to the public interface. *)
From Coq Require Import String.
From Coq Require Import ZArith List Bool Arith.
From Verif Require Import Num Mem XR B64 Spec DataStructure Correlator Sacf.
Import ListNotations.
Local Open Scope list_scope.

(** the names of the weight functions *)
Definition known_weight (wgt : string) : Prop :=
  wgt = "fractional"%string \/ wgt = "fractional_squared"%string \/ wgt = "gaussian"%string.

(** the two arithmetics: IEEE-754 binary64 (for any [exp]), and exact *)
Inductive arith : Num -> Prop :=
| arith_binary64 exp64 : arith (B64 exp64)
| arith_exact : arith XR.

Section Api.
Context {A : Num}.

(** data structures that can be built from lists *)
Definition accepted (d : dstruct) : Prop :=
  (exists t v e, SACF_1d t v e = Ok d) \/ (exists t v e, SACF_2d t v e = Ok d).

(** neither NaN nor infinite *)
Definition finite (a : num) : Prop := nfloor a <> None.

(** time stamps finite and in order, and so are the differences to the first *)
Definition times_ok (d : dstruct) : Prop :=
  ordered (timeseries d) /\ (forall x, In x (timeseries d) -> finite x) /\
  (forall x, In x (normalised_timeseries d) -> finite x).

(** the selected indices and the time offsets held by an iterator *)
Definition selection (it : cor_it) : list nat := vlive (selection_indices it).
Definition offsets (it : cor_it) : list num := vlive (delta_t it).

(** an optional argument or its default *)
Definition opt_or (o : option num) (d : num) : num := match o with Some x => x | None => d end.

(** the conversions to [int] made by the C function [abs] are defined for all distances at lag [kk]
    (nothing is required when [abs] is the floating one) *)
Definition abs_defined (p : platform) (d : dstruct) (kk : num) : Prop :=
  p_abs p = AbsInt -> forall x y, In x (normalised_timeseries d) -> In y (normalised_timeseries d) ->
  exists z, ntrunc (nsub (nadd x kk) y) = Some z /\ (Z.abs z <= INT_MAX)%Z.

(** the returned correlations, one list per dataset, and entry [i] of dataset [j] *)
Definition rows_of (r : py_corr) : list (list num) :=
  match r with Flat l => [l] | Nested l => l end.
Definition corr_at (r : py_corr) (j i : nat) : option num :=
  match nth_error (rows_of r) j with Some row => nth_error row i | None => None end.

(** the selection and weight functions behind the names *)
Definition selection_function (p : platform) (sel : string) (d : dstruct) : option (cor_it -> meth cor_it unit) :=
  if String.eqb sel "natural" then Some (naturalSelectionFunctionIdx p d)
  else if String.eqb sel "fast" then Some (fastSelectionFunctionIdx p d) else None.
Definition weight_function (wgt : string) : option (num -> num -> num) :=
  if String.eqb wgt "fractional" then Some fractionWeightFunction
  else if String.eqb wgt "fractional_squared" then Some fractionSquaredWeightFunction
  else if String.eqb wgt "gaussian" then Some gaussianWeightFunction else None.

(** what is assumed of [exp] where nothing is said about its precision: values in [0,1] on numbers
    [<= 0], 1 at zero, and monotone *)
Definition good_exp : Prop :=
  (forall x, nle x nzero = true -> nle nzero (nexp x) = true /\ nle (nexp x) none_ = true) /\
  (forall x, neqb x nzero = true -> neqb (nexp x) none_ = true) /\
  (forall x y, nle x y = true -> nle (nexp x) (nexp y) = true).

(** the weight of offset zero is 1: alpha is positive, and for the gaussian so is 2*alpha*alpha as computed *)
Definition proper_alpha (wgt : string) (a : num) : Prop :=
  ((wgt = "fractional"%string \/ wgt = "fractional_squared"%string) /\ nlt nzero a = true) \/
  (wgt = "gaussian"%string /\ good_exp /\ nlt nzero (nmul (nmul (nofZ 2) a) a) = true).

(** operations on a correlator that can be used from Python (those on iterators leave the correlator as it
    is), correlator_bindings.cpp:24-47.  A negative [int] becomes a huge index, for which operator[] is out
    of bounds and resize throws. *)
Inductive op :=
| SetMaxLag (x : num) | SetMinLag (x : num) | SetLagResolution (x : num) | SetAlpha (x : num)
| Calculate | Find (sel wgt : string) | AddData (it : cor_it) (i : Z) | CleanData (i : Z) | Clear.

Definition run_op (p : platform) (c : correlator) (o : op) : meth correlator unit :=
  match o with
  | SetMaxLag x => (setMaxLag c x, Ok tt)
  | SetMinLag x => (setMinLag c x, Ok tt)
  | SetLagResolution x => (setLagResolution c x, Ok tt)
  | SetAlpha x => (setAlpha c x, Ok tt)
  | Calculate => calculateStandardCorrelation p c
  | Find sel wgt => find_correlation p c sel wgt
  | AddData it i => if (i <? 0)%Z then (c, UB OobWrite) else addCorrelationData c it (Z.to_nat i)
  | CleanData i => if (i <? 0)%Z then (c, Throw LengthError) else cleanCorrelationData c (Z.to_nat i)
  | Clear => (clearCorrelation c, Ok tt)
  end.

Definition is_calculation (o : op) : Prop := o = Calculate \/ exists sel wgt, o = Find sel wgt.

(** states after a sequence of operations; an exception ends an operation but not the program *)
Inductive after (p : platform) (c : correlator) : list op -> correlator -> Prop :=
| after_nil : after p c [] c
| after_snoc os c1 o c2 r : after p c os c1 -> run_op p c1 o = (c2, r) ->
    (r = Ok tt \/ exists e, r = Throw e) -> after p c (os ++ [o]) c2.

(** operations on an iterator that can be used from Python, correlator_bindings.cpp:14-33; [c] is the correlator
    whose method is called *)
Inductive it_op :=
| SetK (x : num) | NaturalSelection | FastSelection | DeltaT
| FractionWeights | FractionSquaredWeights | GaussianWeights | FindCorrelation.

Definition run_it_op (p : platform) (c : correlator) (it : cor_it) (o : it_op) : meth cor_it unit :=
  match o with
  | SetK x => (set_k it x, Ok tt)
  | NaturalSelection => naturalSelectionFunctionIdx p (ds c) it
  | FastSelection => fastSelectionFunctionIdx p (ds c) it
  | DeltaT => deltaT p (ds c) it
  | FractionWeights => (getFractionWeights c it, Ok tt)
  | FractionSquaredWeights => (getFractionSquaredWeights c it, Ok tt)
  | GaussianWeights => (getGaussianWeights c it, Ok tt)
  | FindCorrelation => findCorrelation p c it
  end.

(** the operations behind the names of a selection and a weight function *)
Definition selection_op (sel : string) : option it_op :=
  if String.eqb sel "natural" then Some NaturalSelection
  else if String.eqb sel "fast" then Some FastSelection else None.
Definition weights_op (wgt : string) : option it_op :=
  if String.eqb wgt "fractional" then Some FractionWeights
  else if String.eqb wgt "fractional_squared" then Some FractionSquaredWeights
  else if String.eqb wgt "gaussian" then Some GaussianWeights else None.

Definition is_weights (o : it_op) : Prop := o = FractionWeights \/ o = FractionSquaredWeights \/ o = GaussianWeights.

(** one operation after the other, up to the first failure *)
Fixpoint run_it (p : platform) (c : correlator) (it : cor_it) (os : list it_op) : meth cor_it unit :=
  match os with
  | [] => (it, Ok tt)
  | o :: os' =>
      match run_it_op p c it o with
      | (it1, Ok _) => run_it p c it1 os'
      | r => r
      end
  end.

(** states of an iterator after a sequence of operations, with any correlators, in which exceptions are caught *)
Inductive it_after (p : platform) (it : cor_it) : list (correlator * it_op) -> cor_it -> Prop :=
| it_after_nil : it_after p it [] it
| it_after_snoc os it1 c o it2 r : it_after p it os it1 -> run_it_op p c it1 o = (it2, r) ->
    (r = Ok tt \/ exists e, r = Throw e) -> it_after p it (os ++ [(c, o)]) it2.

(** what a call returns when the correlator is not asked for *)
Definition visible {X Y} (r : res (X * Y)) : res X := do x <- r; Ok (fst x).

(** two outcomes are both results related by [R], or the same failure *)
Definition same_outcome {X Y} (R : X -> Y -> Prop) (r : res X) (r' : res Y) : Prop :=
  match r, r' with
  | Ok x, Ok y => R x y
  | Throw e, Throw e' => e = e'
  | UB u, UB u' => u = u'
  | Diverge, Diverge => True
  | _, _ => False
  end.

(** the same value: equal as numbers, or both NaN *)
Definition same_value (x y : num) : Prop := neqb x y = true \/ nisnan x = true /\ nisnan y = true.

(** the same data structure with other errors *)
Definition with_errors (d : dstruct) (er : list num) : dstruct :=
  {| t := t d; data_ := data_ d; err := er; data_mean := data_mean d; t_median := t_median d; t_max := t_max d;
     norm_t := norm_t d; norm_data := norm_data d; N_datasets := N_datasets d; M_datapoints := M_datapoints d |}.

(** the pairs and their time offsets at a lag, as a selection function and then [deltaT] leave them *)
Definition pairs_by (p : platform) (d : dstruct) (f : cor_it -> meth cor_it unit) (kk : num) (n : nat) : res (list nat * list num) :=
  let (it, r) := f (CorrelationIterator kk n) in
  do _ <- r;
  let (it', r') := deltaT p d it in
  do _ <- r';
  Ok (selection it', offsets it').

End Api.
