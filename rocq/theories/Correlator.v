(** Model of sacf/correlator/Correlator.cpp and sacf/include/Correlator.h. *)
From Coq Require Import ZArith List Bool Arith.
From Verif Require Import Num Mem DataStructure.
Import ListNotations.

Section Correlator.
Context {A : Num}.

(** A method of an object with state [S]: the state it leaves (also when it
    throws) and its outcome. *)
Definition meth (S R : Type) : Type := (S * res R)%type.

Definition mbind {S R Q} (x : meth S R) (f : S -> R -> meth S Q) : meth S Q :=
  match x with
  | (s, Ok r) => f s r
  | (s, Throw e) => (s, Throw e)
  | (s, UB u) => (s, UB u)
  | (s, Diverge) => (s, Diverge)
  end.

(** Evaluate an expression inside a method. *)
Definition mlift {S R Q} (s : S) (x : res R) (f : R -> meth S Q) : meth S Q :=
  mbind (s, x) (fun _ r => f r).

(** Correlator.cpp:10-23 *)
Fixpoint findMinDiff_loop (arr : list num) (diff : num) : num :=
  match arr with
  | a :: ((b :: _) as rest) =>
      let tdiff := nsub b a in
      findMinDiff_loop rest (if nlt tdiff diff then tdiff else diff)
  | _ => diff
  end.
Definition findMinDiff (arr : list num) : num := findMinDiff_loop arr ndblmax.

(** Correlator.h:29-39 (struct CorrelationIterator) *)
Record cor_it := {
  k : num;
  correlation : list num;
  shifted_timeseries : vec num;
  selection_indices : vec nat;
  delta_t : vec num;
  weights : vec num
}.

(** Correlator.cpp:28-30: the loop, [n] iterations from [i]; an int that counts past INT_MAX overflows *)
Fixpoint zero_loop (vec_size : num) (n i : nat) (v : list num) : res (list num) :=
  if nlt (nofZ (Z.of_nat i)) vec_size then
    match n with
    | 0 => Diverge
    | S n' =>
        do v' <- lset v i nzero;
        if (Z.of_nat i =? INT_MAX)%Z then UB BadConversion else zero_loop vec_size n' (S i) v'
    end
  else Ok v.

(** Correlator.cpp:25-31 as called from Python (correlator_bindings.cpp:12).  The conversion of [vec_size] to
    size_t is undefined unless its truncation is representable; std::vector throws length_error above max_size(),
    2^60 - 1.  That the allocation of less than this may fail is not modelled.  Every iteration writes an element,
    so fuel [length + 1] suffices. *)
Definition new_CorrelationIterator (k_in vec_size : num) : res cor_it :=
  match ntrunc vec_size with
  | None => UB BadConversion
  | Some z =>
      if ((z <? 0) || (18446744073709551615 <? z))%Z then UB BadConversion
      else if (1152921504606846975 <? z)%Z then Throw LengthError
      else
        do cs <- zero_loop vec_size (S (Z.to_nat z)) 0 (repeat nzero (Z.to_nat z));
        Ok {| k := k_in; correlation := cs; shifted_timeseries := vempty;
              selection_indices := vempty; delta_t := vempty; weights := vempty |}
  end.

(** the same for a [vec_size] that is a small natural number, such as N_datasets (C55) *)
Definition CorrelationIterator (k_in : num) (vec_size : nat) : cor_it :=
  {| k := k_in; correlation := repeat nzero vec_size; shifted_timeseries := vempty;
     selection_indices := vempty; delta_t := vempty; weights := vempty |}.

(** correlator_bindings.cpp:14: assignment to the attribute k *)
Definition set_k (it : cor_it) (x : num) : cor_it :=
  {| k := x; correlation := correlation it; shifted_timeseries := shifted_timeseries it;
     selection_indices := selection_indices it; delta_t := delta_t it; weights := weights it |}.
Definition set_shifted (it : cor_it) (v : vec num) : cor_it :=
  {| k := k it; correlation := correlation it; shifted_timeseries := v;
     selection_indices := selection_indices it; delta_t := delta_t it; weights := weights it |}.
Definition set_selection (it : cor_it) (v : vec nat) : cor_it :=
  {| k := k it; correlation := correlation it; shifted_timeseries := shifted_timeseries it;
     selection_indices := v; delta_t := delta_t it; weights := weights it |}.
Definition set_delta (it : cor_it) (v : vec num) : cor_it :=
  {| k := k it; correlation := correlation it; shifted_timeseries := shifted_timeseries it;
     selection_indices := selection_indices it; delta_t := v; weights := weights it |}.
Definition set_weights (it : cor_it) (v : vec num) : cor_it :=
  {| k := k it; correlation := correlation it; shifted_timeseries := shifted_timeseries it;
     selection_indices := selection_indices it; delta_t := delta_t it; weights := v |}.
Definition set_correlation (it : cor_it) (c : list num) : cor_it :=
  {| k := k it; correlation := c; shifted_timeseries := shifted_timeseries it;
     selection_indices := selection_indices it; delta_t := delta_t it; weights := weights it |}.

(** Correlator.h:62-74 (class Correlator) and Correlator.h:54-56
    (CorrelationData: [correlations_], [timeseries_]).  N_datasets and
    M_datapoints are doubles in the code, always equal to the ones of [ds];
    num_lag_steps is an int, never negative after construction. *)
Record correlator := {
  ds : dstruct;
  correlations_ : list num;
  timeseries_ : list num;
  Nvec : list num;
  max_lag : num;
  min_lag : num;
  lag_resolution : num;
  alpha : num;
  num_lag_steps : nat
}.

(** Correlator.cpp:39-47: N[j], the loop over [i].  [float X] is [nf32]. *)
Fixpoint norm_loop (d : dstruct) (j : nat) (n i : nat) (acc : num) : res num :=
  match n with
  | 0 => Ok acc
  | S n' =>
      do x <- lat (data_ d) (getVectorIndex (M_datapoints d) i j);
      let X := nf32 x in
      if nisnan X then norm_loop d j n' (S i) acc
      else
        do m <- lget (data_mean d) j;
        norm_loop d j n' (S i) (nadd acc (nmul (nsub X m) (nsub X m)))
  end.

(** Correlator.cpp:33-55.  num_lag_steps: the conversion of floor(..) to int
    is undefined out of range, so is overflow of "+ 3"; a negative
    num_lag_steps makes the conversion of N_datasets * num_lag_steps to
    size_t undefined. *)
Definition new_Correlator (d : dstruct) : res correlator :=
  do N <- mapM (fun j => norm_loop d j (M_datapoints d) 0 nzero) (seq 0 (N_datasets d));
  do maxl <- lback (norm_t d);
  let minl := nneg maxl in
  let lres := findMinDiff (norm_t d) in
  do q <- to_int (nfloor (ndiv (nsub maxl minl) lres));
  do nls <- int_add q 3;
  if (nls <? 0)%Z then UB BadConversion
  else
    let n := Z.to_nat nls in
    Ok {| ds := d;
          correlations_ := repeat nzero (N_datasets d * n);
          timeseries_ := repeat nzero n;
          Nvec := N; max_lag := maxl; min_lag := minl; lag_resolution := lres;
          alpha := t_median d; num_lag_steps := n |}.

(** Correlator.cpp:199-225 *)
Definition setMaxLag (c : correlator) (x : num) : correlator :=
  {| ds := ds c; correlations_ := correlations_ c; timeseries_ := timeseries_ c; Nvec := Nvec c;
     max_lag := x; min_lag := min_lag c; lag_resolution := lag_resolution c; alpha := alpha c;
     num_lag_steps := num_lag_steps c |}.
Definition setMinLag (c : correlator) (x : num) : correlator :=
  {| ds := ds c; correlations_ := correlations_ c; timeseries_ := timeseries_ c; Nvec := Nvec c;
     max_lag := max_lag c; min_lag := x; lag_resolution := lag_resolution c; alpha := alpha c;
     num_lag_steps := num_lag_steps c |}.
Definition setLagResolution (c : correlator) (x : num) : correlator :=
  {| ds := ds c; correlations_ := correlations_ c; timeseries_ := timeseries_ c; Nvec := Nvec c;
     max_lag := max_lag c; min_lag := min_lag c; lag_resolution := x; alpha := alpha c;
     num_lag_steps := num_lag_steps c |}.
Definition setAlpha (c : correlator) (x : num) : correlator :=
  {| ds := ds c; correlations_ := correlations_ c; timeseries_ := timeseries_ c; Nvec := Nvec c;
     max_lag := max_lag c; min_lag := min_lag c; lag_resolution := lag_resolution c; alpha := x;
     num_lag_steps := num_lag_steps c |}.
Definition set_data (c : correlator) (ts cs : list num) (n : nat) : correlator :=
  {| ds := ds c; correlations_ := cs; timeseries_ := ts; Nvec := Nvec c;
     max_lag := max_lag c; min_lag := min_lag c; lag_resolution := lag_resolution c; alpha := alpha c;
     num_lag_steps := n |}.

(** the unqualified [abs]; see Num.v.  int abs(INT_MIN) overflows. *)
Definition cabs (p : platform) (x : num) : res num :=
  match p_abs p with
  | AbsFloat => Ok (nabs x)
  | AbsInt =>
      do z <- to_int (ntrunc x);
      if (z =? INT_MIN)%Z then UB BadConversion else Ok (nofZ (Z.abs z))
  end.

(** std::lower_bound(begin, end, val) as an offset from begin: the binary
    search of libstdc++ bits/stl_algobase.h __lower_bound.  The element read
    is always inside the vector. *)
Fixpoint lower_bound_loop (fuel : nat) (l : list num) (val : num) (first len : nat) : res nat :=
  match fuel with
  | 0 => Diverge
  | S fuel' =>
      if len =? 0 then Ok first
      else
        let half := len / 2 in
        let middle := first + half in
        do m <- lget l middle;
        if nlt m val then lower_bound_loop fuel' l val (S middle) (len - half - 1)
        else lower_bound_loop fuel' l val first half
  end.
Definition lower_bound (l : list num) (val : num) : res nat :=
  lower_bound_loop (S (length l)) l val 0 (length l).

(** Correlator.cpp:84-89: push the shifted times up to the first one beyond
    the last time. *)
Fixpoint natural_shift (ts : list num) (back kk : num) (v : vec num) : vec num :=
  match ts with
  | [] => v
  | tp :: ts' =>
      if nlt back (nadd tp kk) then v
      else natural_shift ts' back kk (vpush v (nadd tp kk))
  end.

(** Correlator.cpp:93-103 for one shifted time [s].  [idx < 0] cannot happen
    and is not modelled.  Evaluation order of the two abs operands is not
    fixed by C++; both orders have the same outcome up to the kind of UB. *)
Definition natural_index (p : platform) (nt : list num) (s : num) : res nat :=
  do idx <- lower_bound nt s;
  if idx =? 0 then Ok idx
  else
    do a <- lat nt (idx - 1);
    do da <- cabs p (nsub s a);
    do b <- lat nt idx;
    do db <- cabs p (nsub s b);
    Ok (if nlt da db then idx - 1 else idx).

(** Correlator.cpp:92-104, [n] iterations from [i] *)
Fixpoint natural_loop (p : platform) (nt : list num) (n i : nat) (it : cor_it) : meth cor_it unit :=
  match n with
  | 0 => (it, Ok tt)
  | S n' =>
      mlift it (vget p (shifted_timeseries it) i) (fun s =>
      mlift it (natural_index p nt s) (fun idx =>
      natural_loop p nt n' (S i) (set_selection it (vpush (selection_indices it) idx))))
  end.

(** Correlator.cpp:79-107.  The test for emptiness only skips an empty loop. *)
Definition naturalSelectionFunctionIdx (p : platform) (d : dstruct) (it : cor_it) : meth cor_it unit :=
  mlift it (lback (norm_t d)) (fun back =>
  let it1 := set_shifted it (natural_shift (norm_t d) back (k it) (shifted_timeseries it)) in
  mbind (natural_loop p (norm_t d) (vsize (shifted_timeseries it1)) 0 it1) (fun it2 _ =>
  (set_shifted it2 (vclear (shifted_timeseries it2)), Ok tt))).

(** Correlator.cpp:114-119: as above with >= *)
Fixpoint fast_shift (ts : list num) (back kk : num) (v : vec num) : vec num :=
  match ts with
  | [] => v
  | tp :: ts' =>
      if nle back (nadd tp kk) then v
      else fast_shift ts' back kk (vpush v (nadd tp kk))
  end.

(** Correlator.cpp:130-132: [n] iterations from [i] *)
Fixpoint fast_fill (idx : nat) (n i : nat) (v : vec nat) : res (vec nat) :=
  match n with
  | 0 => Ok v
  | S n' => do v' <- vset v i (idx + i); fast_fill idx n' (S i) v'
  end.

(** Correlator.cpp:109-135.  The fill loop runs for i = 0 .. max_idx - idx
    where max_idx = size - 1, i.e. size - idx times (not at all if negative). *)
Definition fastSelectionFunctionIdx (p : platform) (d : dstruct) (it : cor_it) : meth cor_it unit :=
  mlift it (lback (norm_t d)) (fun back =>
  let it1 := set_shifted it (fast_shift (norm_t d) back (k it) (shifted_timeseries it)) in
  let size := vsize (shifted_timeseries it1) in
  mbind
    (if size =? 0 then (it1, Ok tt)
     else
       mlift it1 (vget p (shifted_timeseries it1) 0) (fun s =>
       mlift it1 (lower_bound (norm_t d) s) (fun idx =>
       mlift it1 (lat (norm_t d) (idx + 1)) (fun b =>
       mlift it1 (cabs p (nsub s b)) (fun db =>
       mlift it1 (lat (norm_t d) idx) (fun a =>
       mlift it1 (cabs p (nsub s a)) (fun da =>
       let idx' := if nlt db da then idx + 1 else idx in
       let it2 := set_selection it1 (vresize 0 (selection_indices it1) size) in
       mlift it2 (fast_fill idx' (size - idx') 0 (selection_indices it2)) (fun v =>
       (set_selection it2 v, Ok tt)))))))))
    (fun it3 _ => (set_shifted it3 (vclear (shifted_timeseries it3)), Ok tt))).

(** Correlator.cpp:162-170; loop over the selection indices *)
Fixpoint deltaT_loop (p : platform) (nt : list num) (vals : list nat) (t_i : nat) (it : cor_it)
  : meth cor_it unit :=
  match vals with
  | [] => (it, Ok tt)
  | value :: vals' =>
      mlift it (lat nt value) (fun a =>
      mlift it (vget p (shifted_timeseries it) t_i) (fun s =>
      mlift it (cabs p (nsub a s)) (fun dt =>
      deltaT_loop p nt vals' (S t_i) (set_delta it (vpush (delta_t it) dt)))))
  end.
Definition deltaT (p : platform) (d : dstruct) (it : cor_it) : meth cor_it unit :=
  mbind (deltaT_loop p (norm_t d) (vlive (selection_indices it)) 0 it) (fun it1 _ =>
  (set_shifted it1 (vclear (shifted_timeseries it1)), Ok tt)).

(** Correlator.cpp:150-152 *)
Definition fractionWeightFunction (al delta : num) : num :=
  ndiv none_ (nadd none_ (ndiv delta al)).
(** Correlator.cpp:154-156 *)
Definition fractionSquaredWeightFunction (al delta : num) : num :=
  ndiv none_ (nadd none_ (nmul (ndiv delta al) (ndiv delta al))).
(** Correlator.cpp:158-160 *)
Definition gaussianWeightFunction (al delta : num) : num :=
  nexp (ndiv (nneg (nmul delta delta)) (nmul (nmul ntwo al) al)).

(** Correlator.cpp:172-197: the three weight loops differ only in the weight
    function [w]. *)
Definition getWeights (w : num -> num) (it : cor_it) : cor_it :=
  let it1 := set_weights it (fold_left (fun v d => vpush v (w d)) (vlive (delta_t it)) (weights it)) in
  set_delta it1 (vclear (delta_t it1)).
Definition getFractionWeights (c : correlator) : cor_it -> cor_it :=
  getWeights (fractionWeightFunction (alpha c)).
Definition getFractionSquaredWeights (c : correlator) : cor_it -> cor_it :=
  getWeights (fractionSquaredWeightFunction (alpha c)).
Definition getGaussianWeights (c : correlator) : cor_it -> cor_it :=
  getWeights (gaussianWeightFunction (alpha c)).

(** Correlator.cpp:140-144: the sum over the weights for dataset [j]; the
    state is cor_it->correlation[j]. *)
Fixpoint findCorrelation_sum (p : platform) (d : dstruct) (sel : vec nat) (j : nat)
  (ws : list num) (i : nat) (acc : num) : meth num unit :=
  match ws with
  | [] => (acc, Ok tt)
  | w :: ws' =>
      mlift acc (lat (norm_data d) (getVectorIndex (M_datapoints d) i j)) (fun x =>
      mlift acc (vget p sel i) (fun si =>
      mlift acc (lat (norm_data d) (getVectorIndex (M_datapoints d) si j)) (fun y =>
      findCorrelation_sum p d sel j ws' (S i) (nadd acc (nmul (nmul w x) y)))))
  end.

(** Correlator.cpp:137-147, [n] datasets from [j] *)
Fixpoint findCorrelation_loop (p : platform) (c : correlator) (n j : nat) (it : cor_it)
  : meth cor_it unit :=
  match n with
  | 0 => (it, Ok tt)
  | S n' =>
      mlift it (lget (correlation it) j) (fun acc =>
      let sum := findCorrelation_sum p (ds c) (selection_indices it) j (vlive (weights it)) 0 acc in
      mlift it (lset (correlation it) j (fst sum)) (fun cs =>
      let it1 := set_correlation it cs in
      mlift it1 (snd sum) (fun _ =>
      mlift it1 (lget (Nvec c) j) (fun Nj =>
      mlift it1 (lset cs j (nmul (fst sum) (ndiv none_ Nj))) (fun cs' =>
      findCorrelation_loop p c n' (S j) (set_correlation it cs'))))))
  end.
Definition findCorrelation (p : platform) (c : correlator) (it : cor_it) : meth cor_it unit :=
  findCorrelation_loop p c (N_datasets (ds c)) 0 it.

(** Correlator.cpp:235-240.  [ts] is an int; the callers modelled here pass
    non-negative values. *)
Fixpoint add_loop (nls ts : nat) (cor : list num) (n j : nat) (cs : list num) : res (list num) :=
  match n with
  | 0 => Ok cs
  | S n' =>
      do x <- lget cor j;
      do cs' <- lset cs (ts + nls * j) x;
      add_loop nls ts cor n' (S j) cs'
  end.
Definition addCorrelationData (c : correlator) (it : cor_it) (ts : nat) : meth correlator unit :=
  mlift c (lset (timeseries_ c) ts (k it)) (fun tsv =>
  let c1 := set_data c tsv (correlations_ c) (num_lag_steps c) in
  mlift c1 (add_loop (num_lag_steps c) ts (correlation it) (N_datasets (ds c)) 0 (correlations_ c))
    (fun cs => (set_data c tsv cs (num_lag_steps c), Ok tt))).

(** Correlator.cpp:242-252.  The resized _timeseries is kept even if the copy
    below is undefined. *)
Fixpoint clean_loop (cs : list num) (nls i : nat) (n j : nat) (copy : list num) : res (list num) :=
  match n with
  | 0 => Ok copy
  | S n' =>
      do xs <- slice cs (j * nls) (j * nls + i);
      do copy' <- write_slice copy (j * i) xs;
      clean_loop cs nls i n' (S j) copy'
  end.
Definition cleanCorrelationData (c : correlator) (i : nat) : meth correlator unit :=
  let tsv := lresize nzero (timeseries_ c) i in
  let c1 := set_data c tsv (correlations_ c) (num_lag_steps c) in
  mlift c1 (clean_loop (correlations_ c) (num_lag_steps c) i (N_datasets (ds c)) 0
              (repeat nzero (N_datasets (ds c) * i))) (fun copy =>
  (set_data c tsv copy i, Ok tt)).

(** Correlator.h:89 *)
Definition clearCorrelation (c : correlator) : correlator :=
  set_data c [] [] (num_lag_steps c).

(** Correlator.cpp:65 *)
Definition lag_timeseries (c : correlator) : list num := timeseries_ c.
(** Correlator.cpp:67-77 *)
Definition correlations (c : correlator) : res (list (list num)) :=
  mapM (fun j => mapM (fun i => lget (correlations_ c) (i + j * num_lag_steps c))
                      (seq 0 (num_lag_steps c)))
       (seq 0 (N_datasets (ds c))).
(** Correlator.cpp:63, 64 *)
Definition c_normalised_timeseries (c : correlator) : list num := normalised_timeseries (ds c).
Definition c_values (c : correlator) : res (list (list num)) := data_2d (ds c).

(** Run a method of a local iterator object inside a method of the
    correlator; an exception loses the iterator. *)
Definition on_it {R} (c : correlator) (x : meth cor_it unit) (f : cor_it -> meth correlator R)
  : meth correlator R :=
  match x with
  | (it, Ok _) => f it
  | (_, Throw e) => (c, Throw e)
  | (_, UB u) => (c, UB u)
  | (_, Diverge) => (c, Diverge)
  end.

(** Correlator.cpp:276-287 *)
Definition calculateStandardCorrelation_at (p : platform) (c : correlator) (kk : num) (i : nat)
  : meth correlator unit :=
  on_it c (naturalSelectionFunctionIdx p (ds c) (CorrelationIterator kk (N_datasets (ds c)))) (fun it1 =>
  on_it c (deltaT p (ds c) it1) (fun it2 =>
  let it3 := getFractionWeights c it2 in
  on_it c (findCorrelation p c it3) (fun it4 =>
  addCorrelationData c it4 i))).

(** Correlator.cpp:259-272, the while loop; result: the final counter i. *)
Fixpoint std_loop (p : platform) (fuel : nat) (kk : num) (is_positive : bool) (i : nat) (c : correlator)
  : meth correlator nat :=
  match fuel with
  | 0 => (c, Diverge)
  | S fuel' =>
      if nle kk (max_lag c) then
        let is_positive1 := if neqb kk nzero then true else is_positive in
        if nlt nzero kk && negb is_positive1 then
          mbind (calculateStandardCorrelation_at p c nzero i) (fun c1 _ =>
          mbind (calculateStandardCorrelation_at p c1 kk (S i)) (fun c2 _ =>
          std_loop p fuel' (nadd kk (lag_resolution c)) true (S (S i)) c2))
        else
          mbind (calculateStandardCorrelation_at p c kk i) (fun c1 _ =>
          std_loop p fuel' (nadd kk (lag_resolution c)) is_positive1 (S i) c1)
      else (c, Ok i)
  end.

(** Correlator.cpp:254-274.  Fuel: every iteration writes a new element of
    _timeseries, so more than length + 1 iterations are impossible (proved in
    LoopFacts.v). *)
Definition calculateStandardCorrelation (p : platform) (c : correlator) : meth correlator unit :=
  mbind (std_loop p (S (length (timeseries_ c))) (min_lag c) false 0 c) (fun c1 i =>
  cleanCorrelationData c1 i).

End Correlator.
