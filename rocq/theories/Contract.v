(** Model of a build in which the compiler contracts multiplications and additions into one operation (fused multiply-add).

    GCC does so by default (-ffp-contract=fast) and clang within an expression (-ffp-contract=on) where the target has such an instruction:
    aarch64, ppc64, s390x, and x86-64 with -mfma or -march=native.  setup.py and CMakeLists.txt do not set -ffp-contract.  The statements of
    the library with a product as an operand of an addition are the three below; there is none in the other files.  Each may or may not be
    contracted; the functions in which they occur, and the callers of these, are written out again with the operation x*y+z as a parameter.
    Everything else is shared with Correlator.v and Sacf.v. *)
From Coq Require Import String.
From Coq Require Import ZArith List Bool Arith.
From Flocq Require Import BinarySingleNaN.
From Verif Require Import Num Mem DataStructure Correlator Sacf B64.
Import ListNotations.
Local Open Scope list_scope.

(** how x*y + z is computed in the three places *)
Record contraction {A : Num} := {
  ma_norm : num -> num -> num -> num;      (* Correlator.cpp:44  N[j] += (X - mean) * (X - mean) *)
  ma_square : num -> num -> num -> num;    (* Correlator.cpp:155 1 + (delta_t / alpha) * (delta_t / alpha) *)
  ma_sum : num -> num -> num -> num        (* Correlator.cpp:142 correlation[j] += (weight * x) * y *)
}.

(** two operations, each rounded *)
Definition two_steps {A : Num} (x y z : num) : num := nadd z (nmul x y).

Section Contract.
Context {A : Num} (K : contraction).

(** Correlator.cpp:39-47 (norm_loop) *)
Fixpoint norm_loop_k (d : dstruct) (j : nat) (n i : nat) (acc : num) : res num :=
  match n with
  | 0 => Ok acc
  | S n' =>
      do x <- lat (data_ d) (getVectorIndex (M_datapoints d) i j);
      let X := nf32 x in
      if nisnan X then norm_loop_k d j n' (S i) acc
      else
        do m <- lget (data_mean d) j;
        norm_loop_k d j n' (S i) (ma_norm K (nsub X m) (nsub X m) acc)
  end.

(** Correlator.cpp:33-55 (new_Correlator) *)
Definition new_Correlator_k (d : dstruct) : res correlator :=
  do N <- mapM (fun j => norm_loop_k d j (M_datapoints d) 0 nzero) (seq 0 (N_datasets d));
  do maxl <- lback (norm_t d);
  let minl := nneg maxl in
  let lres := findMinDiff (norm_t d) in
  do q <- to_int (nfloor (ndiv (nsub maxl minl) lres));
  do nls <- int_add q 3;
  if (nls <? 0)%Z then UB BadConversion
  else
    let n := Z.to_nat nls in
    Ok {| ds := d;
          correlations_ := repeat nzero (N_datasets d * n);
          timeseries_ := repeat nzero n;
          Nvec := N; max_lag := maxl; min_lag := minl; lag_resolution := lres;
          alpha := t_median d; num_lag_steps := n |}.

(** Correlator.cpp:154-156 (fractionSquaredWeightFunction) and 181-188 *)
Definition fractionSquaredWeightFunction_k (al delta : num) : num :=
  ndiv none_ (ma_square K (ndiv delta al) (ndiv delta al) none_).
Definition getFractionSquaredWeights_k (c : correlator) : cor_it -> cor_it :=
  getWeights (fractionSquaredWeightFunction_k (alpha c)).

(** Correlator.cpp:140-144 (findCorrelation_sum) *)
Fixpoint findCorrelation_sum_k (p : platform) (d : dstruct) (sel : vec nat) (j : nat)
  (ws : list num) (i : nat) (acc : num) : meth num unit :=
  match ws with
  | [] => (acc, Ok tt)
  | w :: ws' =>
      mlift acc (lat (norm_data d) (getVectorIndex (M_datapoints d) i j)) (fun x =>
      mlift acc (vget p sel i) (fun si =>
      mlift acc (lat (norm_data d) (getVectorIndex (M_datapoints d) si j)) (fun y =>
      findCorrelation_sum_k p d sel j ws' (S i) (ma_sum K (nmul w x) y acc))))
  end.

(** Correlator.cpp:137-147 (findCorrelation) *)
Fixpoint findCorrelation_loop_k (p : platform) (c : correlator) (n j : nat) (it : cor_it) : meth cor_it unit :=
  match n with
  | 0 => (it, Ok tt)
  | S n' =>
      mlift it (lget (correlation it) j) (fun acc =>
      let sum := findCorrelation_sum_k p (ds c) (selection_indices it) j (vlive (weights it)) 0 acc in
      mlift it (lset (correlation it) j (fst sum)) (fun cs =>
      let it1 := set_correlation it cs in
      mlift it1 (snd sum) (fun _ =>
      mlift it1 (lget (Nvec c) j) (fun Nj =>
      mlift it1 (lset cs j (nmul (fst sum) (ndiv none_ Nj))) (fun cs' =>
      findCorrelation_loop_k p c n' (S j) (set_correlation it cs'))))))
  end.
Definition findCorrelation_k (p : platform) (c : correlator) (it : cor_it) : meth cor_it unit :=
  findCorrelation_loop_k p c (N_datasets (ds c)) 0 it.

(** Correlator.cpp:276-287, 259-272, 254-274 *)
Definition calculateStandardCorrelation_at_k (p : platform) (c : correlator) (kk : num) (i : nat) : meth correlator unit :=
  on_it c (naturalSelectionFunctionIdx p (ds c) (CorrelationIterator kk (N_datasets (ds c)))) (fun it1 =>
  on_it c (deltaT p (ds c) it1) (fun it2 =>
  let it3 := getFractionWeights c it2 in
  on_it c (findCorrelation_k p c it3) (fun it4 =>
  addCorrelationData c it4 i))).

Fixpoint std_loop_k (p : platform) (fuel : nat) (kk : num) (is_positive : bool) (i : nat) (c : correlator) : meth correlator nat :=
  match fuel with
  | 0 => (c, Diverge)
  | S fuel' =>
      if nle kk (max_lag c) then
        let is_positive1 := if neqb kk nzero then true else is_positive in
        if nlt nzero kk && negb is_positive1 then
          mbind (calculateStandardCorrelation_at_k p c nzero i) (fun c1 _ =>
          mbind (calculateStandardCorrelation_at_k p c1 kk (S i)) (fun c2 _ =>
          std_loop_k p fuel' (nadd kk (lag_resolution c)) true (S (S i)) c2))
        else
          mbind (calculateStandardCorrelation_at_k p c kk i) (fun c1 _ =>
          std_loop_k p fuel' (nadd kk (lag_resolution c)) is_positive1 (S i) c1)
      else (c, Ok i)
  end.

Definition calculateStandardCorrelation_k (p : platform) (c : correlator) : meth correlator unit :=
  mbind (std_loop_k p (S (length (timeseries_ c))) (min_lag c) false 0 c) (fun c1 i =>
  cleanCorrelationData c1 i).

(** sacf.py:9-13 *)
Definition WEIGHT_FUNCTIONS_k (name : string) : option (correlator -> cor_it -> cor_it) :=
  if String.eqb name "gaussian"%string then Some getGaussianWeights
  else if String.eqb name "fractional"%string then Some getFractionWeights
  else if String.eqb name "fractional_squared"%string then Some getFractionSquaredWeights_k
  else None.

(** sacf.py:85-90, 82-84, 57-92, 94-146 *)
Definition find_correlation_at_k (p : platform) (sel wgt : string) (c : correlator) (kk : num) (i : nat) : meth correlator unit :=
  let it0 := CorrelationIterator kk (N_datasets (ds c)) in
  match SELECTION_FUNCTIONS p sel with
  | None => (c, Throw PyKeyError)
  | Some f =>
      on_it c (f c it0) (fun it1 =>
      on_it c (deltaT p (ds c) it1) (fun it2 =>
      match WEIGHT_FUNCTIONS_k wgt with
      | None => (c, Throw PyKeyError)
      | Some w =>
          let it3 := w c it2 in
          on_it c (findCorrelation_k p c it3) (fun it4 =>
          addCorrelationData c it4 i)
      end))
  end.

Fixpoint find_loop_k (p : platform) (sel wgt : string) (fuel : nat) (maxl resl : num) (g : gen)
  (n : nat) (last : option nat) (c : correlator) : meth correlator (option nat) :=
  match fuel with
  | 0 => (c, Diverge)
  | S fuel' =>
      match gen_next maxl resl g with
      | None => (c, Ok last)
      | Some (kk, g') =>
          mbind (find_correlation_at_k p sel wgt c kk n) (fun c1 _ =>
          find_loop_k p sel wgt fuel' maxl resl g' (S n) (Some n) c1)
      end
  end.

Definition find_correlation_k (p : platform) (c : correlator) (sel wgt : string) : meth correlator unit :=
  mbind (find_loop_k p sel wgt (S (length (timeseries_ c))) (max_lag c) (lag_resolution c)
           (gen_start (min_lag c)) 0 None c) (fun c1 last =>
  match last with
  | None => (c1, Throw PyUnboundLocalError)
  | Some i => cleanCorrelationData c1 (i + 1)
  end).

Definition autocorrelation_k (p : platform) (d : dstruct) (min_l max_l res_l al : option num)
  (sel wgt : string) : res (list num * py_corr * correlator) :=
  do c0 <- new_Correlator_k d;
  let c1 := set_up_correlation c0 min_l max_l res_l al in
  let m := if String.eqb sel "natural"%string && String.eqb wgt "fractional"%string
           then calculateStandardCorrelation_k p c1
           else find_correlation_k p c1 sel wgt in
  do _u <- snd m;
  do r <- result_of (fst m);
  Ok (fst r, snd r, fst m).

(** sacf.py:9-13: the weight functions of the build, by name *)
Definition weight_function_k (wgt : string) : option (num -> num -> num) :=
  if String.eqb wgt "fractional"%string then Some fractionWeightFunction
  else if String.eqb wgt "fractional_squared"%string then Some fractionSquaredWeightFunction_k
  else if String.eqb wgt "gaussian"%string then Some gaussianWeightFunction else None.

(** two results of the same form: the same lags, and as many values per dataset *)
Definition same_form (r r' : list num * py_corr) : Prop :=
  fst r = fst r' /\
  match snd r, snd r' with
  | Flat l, Flat l' => length l = length l'
  | Nested l, Nested l' => map (@length num) l = map (@length num) l'
  | _, _ => False
  end.
End Contract.

(** The contractions a compiler can make: at each place one fused operation (IEEE-754 fusedMultiplyAdd, rounded once) or two. *)
Definition fused (x y z : b64) : b64 := Bfma mode_NE x y z.
Definition fused_at {exp64 : b64 -> b64} (b : bool) : @num (B64 exp64) -> @num (B64 exp64) -> @num (B64 exp64) -> @num (B64 exp64) :=
  if b then fused else two_steps.
Definition contractions (exp64 : b64 -> b64) (norm square sum : bool) : @contraction (B64 exp64) :=
  {| ma_norm := fused_at norm; ma_square := fused_at square; ma_sum := fused_at sum |}.
