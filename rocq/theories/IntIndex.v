(** The int expressions of sacf/correlator/Correlator.cpp: positions in the result buffers computed in type int, where
    overflow is undefined.  Correlator.v computes them as natural numbers; here the methods that contain such
    expressions, and those that call them, are written once more with the overflow.

    Not int, hence not repeated: DataStructure::getVectorIndex computes in long (DataStructure.cpp:44-46, DataStructure.h:66-67),
    N_datasets * num_lag_steps and N_datasets * i are products of double and int (Correlator.h:71, Correlator.cpp:53, 245). *)
From Coq Require Import String.
From Coq Require Import ZArith List Bool Arith.
From Verif Require Import Num Mem DataStructure Correlator Sacf Api.
Import ListNotations.
Local Open Scope list_scope.

(** [a * b] and [a + b] in type int, for non-negative operands *)
Definition imul (a b : nat) : res nat :=
  if (Z.of_nat a * Z.of_nat b <=? INT_MAX)%Z then Ok (a * b) else UB BadConversion.
Definition iadd (a b : nat) : res nat :=
  if (Z.of_nat a + Z.of_nat b <=? INT_MAX)%Z then Ok (a + b) else UB BadConversion.

Section IntIndex.
Context {A : Num}.

(** Correlator.cpp:237-239: timestep_number + num_lag_steps * j *)
Fixpoint add_loop_int (nls ts : nat) (cor : list num) (n j : nat) (cs : list num) : res (list num) :=
  match n with
  | 0 => Ok cs
  | S n' =>
      do x <- lget cor j;
      do m <- imul nls j;
      do i <- iadd ts m;
      do cs' <- lset cs i x;
      add_loop_int nls ts cor n' (S j) cs'
  end.
(** Correlator.cpp:235-240 *)
Definition addCorrelationData_int (c : correlator) (it : cor_it) (ts : nat) : meth correlator unit :=
  mlift c (lset (timeseries_ c) ts (k it)) (fun tsv =>
  let c1 := set_data c tsv (correlations_ c) (num_lag_steps c) in
  mlift c1 (add_loop_int (num_lag_steps c) ts (correlation it) (N_datasets (ds c)) 0 (correlations_ c))
    (fun cs => (set_data c tsv cs (num_lag_steps c), Ok tt))).

(** Correlator.cpp:246-249: j * num_lag_steps, j * i; start + i is iterator arithmetic *)
Fixpoint clean_loop_int (cs : list num) (nls i : nat) (n j : nat) (copy : list num) : res (list num) :=
  match n with
  | 0 => Ok copy
  | S n' =>
      do start <- imul j nls;
      do dest <- imul j i;
      do xs <- slice cs start (start + i);
      do copy' <- write_slice copy dest xs;
      clean_loop_int cs nls i n' (S j) copy'
  end.
(** Correlator.cpp:242-252 *)
Definition cleanCorrelationData_int (c : correlator) (i : nat) : meth correlator unit :=
  let tsv := lresize nzero (timeseries_ c) i in
  let c1 := set_data c tsv (correlations_ c) (num_lag_steps c) in
  mlift c1 (clean_loop_int (correlations_ c) (num_lag_steps c) i (N_datasets (ds c)) 0
              (repeat nzero (N_datasets (ds c) * i))) (fun copy =>
  (set_data c tsv copy i, Ok tt)).

(** Correlator.cpp:67-77: i + j*num_lag_steps *)
Definition correlations_int (c : correlator) : res (list (list num)) :=
  mapM (fun j => mapM (fun i => do m <- imul j (num_lag_steps c); do q <- iadd i m; lget (correlations_ c) q)
                      (seq 0 (num_lag_steps c)))
       (seq 0 (N_datasets (ds c))).

(** Correlator.cpp:276-287 *)
Definition calculateStandardCorrelation_at_int (p : platform) (c : correlator) (kk : num) (i : nat)
  : meth correlator unit :=
  on_it c (naturalSelectionFunctionIdx p (ds c) (CorrelationIterator kk (N_datasets (ds c)))) (fun it1 =>
  on_it c (deltaT p (ds c) it1) (fun it2 =>
  let it3 := getFractionWeights c it2 in
  on_it c (findCorrelation p c it3) (fun it4 =>
  addCorrelationData_int c it4 i))).

(** Correlator.cpp:259-272; i++ in type int *)
Fixpoint std_loop_int (p : platform) (fuel : nat) (kk : num) (is_positive : bool) (i : nat) (c : correlator)
  : meth correlator nat :=
  match fuel with
  | 0 => (c, Diverge)
  | S fuel' =>
      if nle kk (max_lag c) then
        let is_positive1 := if neqb kk nzero then true else is_positive in
        if nlt nzero kk && negb is_positive1 then
          mbind (calculateStandardCorrelation_at_int p c nzero i) (fun c1 _ =>
          mlift c1 (iadd i 1) (fun i1 =>
          mbind (calculateStandardCorrelation_at_int p c1 kk i1) (fun c2 _ =>
          mlift c2 (iadd i1 1) (fun i2 =>
          std_loop_int p fuel' (nadd kk (lag_resolution c)) true i2 c2))))
        else
          mbind (calculateStandardCorrelation_at_int p c kk i) (fun c1 _ =>
          mlift c1 (iadd i 1) (fun i1 =>
          std_loop_int p fuel' (nadd kk (lag_resolution c)) is_positive1 i1 c1))
      else (c, Ok i)
  end.
(** Correlator.cpp:254-274 *)
Definition calculateStandardCorrelation_int (p : platform) (c : correlator) : meth correlator unit :=
  mbind (std_loop_int p (S (length (timeseries_ c))) (min_lag c) false 0 c) (fun c1 i =>
  cleanCorrelationData_int c1 i).

(** sacf.py:85-90 *)
Definition find_correlation_at_int (p : platform) (sel wgt : string) (c : correlator) (kk : num) (i : nat)
  : meth correlator unit :=
  let it0 := CorrelationIterator kk (N_datasets (ds c)) in
  match SELECTION_FUNCTIONS p sel with
  | None => (c, Throw PyKeyError)
  | Some f =>
      on_it c (f c it0) (fun it1 =>
      on_it c (deltaT p (ds c) it1) (fun it2 =>
      match WEIGHT_FUNCTIONS wgt with
      | None => (c, Throw PyKeyError)
      | Some w =>
          let it3 := w c it2 in
          on_it c (findCorrelation p c it3) (fun it4 =>
          addCorrelationData_int c it4 i)
      end))
  end.
(** sacf.py:82-84; the counter is a Python number *)
Fixpoint find_loop_int (p : platform) (sel wgt : string) (fuel : nat) (maxl resl : num) (g : gen)
  (n : nat) (last : option nat) (c : correlator) : meth correlator (option nat) :=
  match fuel with
  | 0 => (c, Diverge)
  | S fuel' =>
      match gen_next maxl resl g with
      | None => (c, Ok last)
      | Some (kk, g') =>
          mbind (find_correlation_at_int p sel wgt c kk n) (fun c1 _ =>
          find_loop_int p sel wgt fuel' maxl resl g' (S n) (Some n) c1)
      end
  end.
(** sacf.py:57-92 *)
Definition find_correlation_int (p : platform) (c : correlator) (sel wgt : string) : meth correlator unit :=
  mbind (find_loop_int p sel wgt (S (length (timeseries_ c))) (max_lag c) (lag_resolution c)
           (gen_start (min_lag c)) 0 None c) (fun c1 last =>
  match last with
  | None => (c1, Throw PyUnboundLocalError)
  | Some i => cleanCorrelationData_int c1 (i + 1)
  end).

(** sacf.py:133-146 *)
Definition result_of_int (c : correlator) : res (list num * py_corr) :=
  do cs <- correlations_int c;
  if 1 <? length cs then Ok (lag_timeseries c, Nested cs)
  else match cs with
       | [] => Throw PyIndexError
       | row :: _ => Ok (lag_timeseries c, Flat row)
       end.
(** sacf.py:94-146 *)
Definition autocorrelation_int (p : platform) (d : dstruct) (min_l max_l res_l al : option num)
  (sel wgt : string) : res (list num * py_corr * correlator) :=
  do c0 <- new_Correlator d;
  let c1 := set_up_correlation c0 min_l max_l res_l al in
  let m := if String.eqb sel "natural"%string && String.eqb wgt "fractional"%string
           then calculateStandardCorrelation_int p c1
           else find_correlation_int p c1 sel wgt in
  do _u <- snd m;
  do r <- result_of_int (fst m);
  Ok (fst r, snd r, fst m).

(** the operations of Api.v; pybind11 converts the argument [i] to int *)
Definition run_op_int (p : platform) (c : correlator) (o : op) : meth correlator unit :=
  match o with
  | SetMaxLag x => (setMaxLag c x, Ok tt)
  | SetMinLag x => (setMinLag c x, Ok tt)
  | SetLagResolution x => (setLagResolution c x, Ok tt)
  | SetAlpha x => (setAlpha c x, Ok tt)
  | Calculate => calculateStandardCorrelation_int p c
  | Find sel wgt => find_correlation_int p c sel wgt
  | AddData it i => if (i <? 0)%Z then (c, UB OobWrite) else addCorrelationData_int c it (Z.to_nat i)
  | CleanData i => if (i <? 0)%Z then (c, Throw LengthError) else cleanCorrelationData_int c (Z.to_nat i)
  | Clear => (clearCorrelation c, Ok tt)
  end.

End IntIndex.
