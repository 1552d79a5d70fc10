(** Model of the work done by a call: the functions of Correlator.v and Sacf.v written again with counters.

    Counted are the lags worked on, the comparisons between doubles in the selection functions (the tests of
    Correlator.cpp:85, 100-101, 115, 124-125 and those inside std::lower_bound), the evaluations of the weight function, the
    products added up in findCorrelation, and the doubles copied by DataStructure::mean_data() (which returns a vector by
    value).  Everything else - allocation, bounds checks, moving of indices, Python's own work - is not. *)
From Coq Require Import String.
From Coq Require Import ZArith List Bool Arith.
From Verif Require Import Num Mem DataStructure Correlator Sacf.
Import ListNotations.
Local Open Scope list_scope.

Record cost := { started : nat; compared : nat; weighed : nat; multiplied : nat; copied : nat }.
Definition free : cost := {| started := 0; compared := 0; weighed := 0; multiplied := 0; copied := 0 |}.
Definition plus (a b : cost) : cost :=
  {| started := started a + started b; compared := compared a + compared b; weighed := weighed a + weighed b;
     multiplied := multiplied a + multiplied b; copied := copied a + copied b |}.
Definition a_lag : cost := {| started := 1; compared := 0; weighed := 0; multiplied := 0; copied := 0 |}.
Definition a_comparison : cost := {| started := 0; compared := 1; weighed := 0; multiplied := 0; copied := 0 |}.
Definition some_weights (n : nat) : cost := {| started := 0; compared := 0; weighed := n; multiplied := 0; copied := 0 |}.
Definition a_product : cost := {| started := 0; compared := 0; weighed := 0; multiplied := 1; copied := 0 |}.
Definition some_copies (n : nat) : cost := {| started := 0; compared := 0; weighed := 0; multiplied := 0; copied := n |}.

(** what a method does, and what it costs; an exception ends the counting *)
Definition counted (S R : Type) : Type := (meth S R * cost)%type.
Definition charge {X : Type} (n : cost) (x : X * cost) : X * cost := (fst x, plus n (snd x)).
Definition cbind {S R Q} (x : counted S R) (f : S -> R -> counted S Q) : counted S Q :=
  match x with
  | ((s, Ok r), n) => charge n (f s r)
  | ((s, Throw e), n) => ((s, Throw e), n)
  | ((s, UB u), n) => ((s, UB u), n)
  | ((s, Diverge), n) => ((s, Diverge), n)
  end.
(** an expression that costs something, and one that does not, inside a method *)
Definition ccall {S R Q} (s : S) (x : res R * cost) (f : R -> counted S Q) : counted S Q :=
  cbind ((s, fst x), snd x) (fun _ r => f r).
Definition clift {S R Q} (s : S) (x : res R) (f : R -> counted S Q) : counted S Q := ccall s (x, free) f.

Section Cost.
Context {A : Num}.

(** Correlator.cpp:39-47: mean_data() is called twice for every value that is not NaN *)
Fixpoint norm_loop_c (d : dstruct) (j : nat) (n i : nat) (acc : num) : counted unit num :=
  match n with
  | 0 => ((tt, Ok acc), free)
  | S n' =>
      clift tt (lat (data_ d) (getVectorIndex (M_datapoints d) i j)) (fun x =>
      let X := nf32 x in
      if nisnan X then norm_loop_c d j n' (S i) acc
      else
        charge (some_copies (2 * length (data_mean d)))
          (clift tt (lget (data_mean d) j) (fun m =>
           norm_loop_c d j n' (S i) (nadd acc (nmul (nsub X m) (nsub X m))))))
  end.
Fixpoint norms_c (d : dstruct) (js : list nat) : counted unit (list num) :=
  match js with
  | [] => ((tt, Ok []), free)
  | j :: js' =>
      cbind (norm_loop_c d j (M_datapoints d) 0 nzero) (fun _ x =>
      cbind (norms_c d js') (fun _ xs => ((tt, Ok (x :: xs)), free)))
  end.
(** Correlator.cpp:33-55; the rest of the constructor compares in findMinDiff only, which is not counted *)
Definition new_Correlator_c (d : dstruct) : res correlator * cost :=
  let x := cbind (norms_c d (seq 0 (N_datasets d))) (fun _ N =>
    ((tt, do maxl <- lback (norm_t d);
          let minl := nneg maxl in
          let lres := findMinDiff (norm_t d) in
          do q <- to_int (nfloor (ndiv (nsub maxl minl) lres));
          do nls <- int_add q 3;
          if (nls <? 0)%Z then UB BadConversion
          else
            let n := Z.to_nat nls in
            Ok {| ds := d;
                  correlations_ := repeat nzero (N_datasets d * n);
                  timeseries_ := repeat nzero n;
                  Nvec := N; max_lag := maxl; min_lag := minl; lag_resolution := lres;
                  alpha := t_median d; num_lag_steps := n |}), free)) in
  (snd (fst x), snd x).

(** std::lower_bound, bits/stl_algobase.h __lower_bound *)
Fixpoint lower_bound_loop_c (fuel : nat) (l : list num) (val : num) (first len : nat) : res nat * cost :=
  match fuel with
  | 0 => (Diverge, free)
  | S fuel' =>
      if len =? 0 then (Ok first, free)
      else
        let half := len / 2 in
        let middle := first + half in
        match lget l middle with
        | Ok m =>
            charge a_comparison
              (if nlt m val then lower_bound_loop_c fuel' l val (S middle) (len - half - 1)
               else lower_bound_loop_c fuel' l val first half)
        | Throw e => (Throw e, free)
        | UB u => (UB u, free)
        | Diverge => (Diverge, free)
        end
  end.
Definition lower_bound_c (l : list num) (val : num) : res nat * cost :=
  lower_bound_loop_c (S (length l)) l val 0 (length l).

(** Correlator.cpp:84-89 *)
Fixpoint natural_shift_c (ts : list num) (back kk : num) (v : vec num) : vec num * cost :=
  match ts with
  | [] => (v, free)
  | tp :: ts' =>
      charge a_comparison
        (if nlt back (nadd tp kk) then (v, free) else natural_shift_c ts' back kk (vpush v (nadd tp kk)))
  end.

(** Correlator.cpp:93-103 *)
Definition natural_index_c (p : platform) (nt : list num) (s : num) : res nat * cost :=
  let x := ccall tt (lower_bound_c nt s) (fun idx =>
    if idx =? 0 then ((tt, Ok idx), free)
    else
      clift tt (lat nt (idx - 1)) (fun a =>
      clift tt (cabs p (nsub s a)) (fun da =>
      clift tt (lat nt idx) (fun b =>
      clift tt (cabs p (nsub s b)) (fun db =>
      charge a_comparison ((tt, Ok (if nlt da db then idx - 1 else idx)), free)))))) in
  (snd (fst x), snd x).

(** Correlator.cpp:92-104 *)
Fixpoint natural_loop_c (p : platform) (nt : list num) (n i : nat) (it : cor_it) : counted cor_it unit :=
  match n with
  | 0 => ((it, Ok tt), free)
  | S n' =>
      clift it (vget p (shifted_timeseries it) i) (fun s =>
      ccall it (natural_index_c p nt s) (fun idx =>
      natural_loop_c p nt n' (S i) (set_selection it (vpush (selection_indices it) idx))))
  end.

(** Correlator.cpp:79-107 *)
Definition naturalSelection_c (p : platform) (d : dstruct) (it : cor_it) : counted cor_it unit :=
  clift it (lback (norm_t d)) (fun back =>
  let sh := natural_shift_c (norm_t d) back (k it) (shifted_timeseries it) in
  let it1 := set_shifted it (fst sh) in
  charge (snd sh)
    (cbind (natural_loop_c p (norm_t d) (vsize (shifted_timeseries it1)) 0 it1) (fun it2 _ =>
    ((set_shifted it2 (vclear (shifted_timeseries it2)), Ok tt), free)))).

(** Correlator.cpp:114-119 *)
Fixpoint fast_shift_c (ts : list num) (back kk : num) (v : vec num) : vec num * cost :=
  match ts with
  | [] => (v, free)
  | tp :: ts' =>
      charge a_comparison
        (if nle back (nadd tp kk) then (v, free) else fast_shift_c ts' back kk (vpush v (nadd tp kk)))
  end.

(** Correlator.cpp:109-135 *)
Definition fastSelection_c (p : platform) (d : dstruct) (it : cor_it) : counted cor_it unit :=
  clift it (lback (norm_t d)) (fun back =>
  let sh := fast_shift_c (norm_t d) back (k it) (shifted_timeseries it) in
  let it1 := set_shifted it (fst sh) in
  let size := vsize (shifted_timeseries it1) in
  charge (snd sh)
   (cbind
    (if size =? 0 then ((it1, Ok tt), free)
     else
       clift it1 (vget p (shifted_timeseries it1) 0) (fun s =>
       ccall it1 (lower_bound_c (norm_t d) s) (fun idx =>
       clift it1 (lat (norm_t d) (idx + 1)) (fun b =>
       clift it1 (cabs p (nsub s b)) (fun db =>
       clift it1 (lat (norm_t d) idx) (fun a =>
       clift it1 (cabs p (nsub s a)) (fun da =>
       charge a_comparison
        (let idx' := if nlt db da then idx + 1 else idx in
         let it2 := set_selection it1 (vresize 0 (selection_indices it1) size) in
         clift it2 (fast_fill idx' (size - idx') 0 (selection_indices it2)) (fun v =>
         ((set_selection it2 v, Ok tt), free))))))))))
    (fun it3 _ => ((set_shifted it3 (vclear (shifted_timeseries it3)), Ok tt), free)))).

(** Correlator.cpp:172-197: one evaluation per time offset *)
Definition weights_c (w : cor_it -> cor_it) (it : cor_it) : cor_it * cost :=
  (w it, some_weights (length (vlive (delta_t it)))).

(** Correlator.cpp:140-144 *)
Fixpoint findCorrelation_sum_c (p : platform) (d : dstruct) (sel : vec nat) (j : nat)
  (ws : list num) (i : nat) (acc : num) : counted num unit :=
  match ws with
  | [] => ((acc, Ok tt), free)
  | w :: ws' =>
      clift acc (lat (norm_data d) (getVectorIndex (M_datapoints d) i j)) (fun x =>
      clift acc (vget p sel i) (fun si =>
      clift acc (lat (norm_data d) (getVectorIndex (M_datapoints d) si j)) (fun y =>
      charge a_product
        (findCorrelation_sum_c p d sel j ws' (S i) (nadd acc (nmul (nmul w x) y))))))
  end.

(** Correlator.cpp:137-147 *)
Fixpoint findCorrelation_loop_c (p : platform) (c : correlator) (n j : nat) (it : cor_it) : counted cor_it unit :=
  match n with
  | 0 => ((it, Ok tt), free)
  | S n' =>
      clift it (lget (correlation it) j) (fun acc =>
      let sum := findCorrelation_sum_c p (ds c) (selection_indices it) j (vlive (weights it)) 0 acc in
      charge (snd sum)
       (clift it (lset (correlation it) j (fst (fst sum))) (fun cs =>
        let it1 := set_correlation it cs in
        clift it1 (snd (fst sum)) (fun _ =>
        clift it1 (lget (Nvec c) j) (fun Nj =>
        clift it1 (lset cs j (nmul (fst (fst sum)) (ndiv none_ Nj))) (fun cs' =>
        findCorrelation_loop_c p c n' (S j) (set_correlation it cs')))))))
  end.
Definition findCorrelation_c (p : platform) (c : correlator) (it : cor_it) : counted cor_it unit :=
  findCorrelation_loop_c p c (N_datasets (ds c)) 0 it.

Definition on_it_c {R} (c : correlator) (x : counted cor_it unit) (f : cor_it -> counted correlator R)
  : counted correlator R :=
  match x with
  | ((it, Ok _), n) => charge n (f it)
  | ((_, Throw e), n) => ((c, Throw e), n)
  | ((_, UB u), n) => ((c, UB u), n)
  | ((_, Diverge), n) => ((c, Diverge), n)
  end.

(** Correlator.cpp:276-287 *)
Definition calculateStandardCorrelation_at_c (p : platform) (c : correlator) (kk : num) (i : nat) : counted correlator unit :=
  charge a_lag
   (on_it_c c (naturalSelection_c p (ds c) (CorrelationIterator kk (N_datasets (ds c)))) (fun it1 =>
    on_it_c c (deltaT p (ds c) it1, free) (fun it2 =>
    let w := weights_c (getFractionWeights c) it2 in
    charge (snd w)
     (on_it_c c (findCorrelation_c p c (fst w)) (fun it4 =>
      (addCorrelationData c it4 i, free)))))).

(** Correlator.cpp:259-272 *)
Fixpoint std_loop_c (p : platform) (fuel : nat) (kk : num) (is_positive : bool) (i : nat) (c : correlator)
  : counted correlator nat :=
  match fuel with
  | 0 => ((c, Diverge), free)
  | S fuel' =>
      if nle kk (max_lag c) then
        let is_positive1 := if neqb kk nzero then true else is_positive in
        if nlt nzero kk && negb is_positive1 then
          cbind (calculateStandardCorrelation_at_c p c nzero i) (fun c1 _ =>
          cbind (calculateStandardCorrelation_at_c p c1 kk (S i)) (fun c2 _ =>
          std_loop_c p fuel' (nadd kk (lag_resolution c)) true (S (S i)) c2))
        else
          cbind (calculateStandardCorrelation_at_c p c kk i) (fun c1 _ =>
          std_loop_c p fuel' (nadd kk (lag_resolution c)) is_positive1 (S i) c1)
      else ((c, Ok i), free)
  end.
(** Correlator.cpp:254-274 *)
Definition calculateStandardCorrelation_c (p : platform) (c : correlator) : counted correlator unit :=
  cbind (std_loop_c p (S (length (timeseries_ c))) (min_lag c) false 0 c) (fun c1 i =>
  (cleanCorrelationData c1 i, free)).

(** sacf.py:4-7 *)
Definition SELECTION_FUNCTIONS_c (p : platform) (name : string) : option (correlator -> cor_it -> counted cor_it unit) :=
  if String.eqb name "fast"%string then Some (fun c => fastSelection_c p (ds c))
  else if String.eqb name "natural"%string then Some (fun c => naturalSelection_c p (ds c))
  else None.

(** sacf.py:85-90 *)
Definition find_correlation_at_c (p : platform) (sel wgt : string) (c : correlator) (kk : num) (i : nat)
  : counted correlator unit :=
  let it0 := CorrelationIterator kk (N_datasets (ds c)) in
  charge a_lag
   (match SELECTION_FUNCTIONS_c p sel with
    | None => ((c, Throw PyKeyError), free)
    | Some f =>
        on_it_c c (f c it0) (fun it1 =>
        on_it_c c (deltaT p (ds c) it1, free) (fun it2 =>
        match WEIGHT_FUNCTIONS wgt with
        | None => ((c, Throw PyKeyError), free)
        | Some w =>
            let x := weights_c (w c) it2 in
            charge (snd x)
             (on_it_c c (findCorrelation_c p c (fst x)) (fun it4 =>
              (addCorrelationData c it4 i, free)))
        end))
    end).

(** sacf.py:82-84 *)
Fixpoint find_loop_c (p : platform) (sel wgt : string) (fuel : nat) (maxl resl : num) (g : gen)
  (n : nat) (last : option nat) (c : correlator) : counted correlator (option nat) :=
  match fuel with
  | 0 => ((c, Diverge), free)
  | S fuel' =>
      match gen_next maxl resl g with
      | None => ((c, Ok last), free)
      | Some (kk, g') =>
          cbind (find_correlation_at_c p sel wgt c kk n) (fun c1 _ =>
          find_loop_c p sel wgt fuel' maxl resl g' (S n) (Some n) c1)
      end
  end.
(** sacf.py:57-92 *)
Definition find_correlation_c (p : platform) (c : correlator) (sel wgt : string) : counted correlator unit :=
  cbind (find_loop_c p sel wgt (S (length (timeseries_ c))) (max_lag c) (lag_resolution c)
           (gen_start (min_lag c)) 0 None c) (fun c1 last =>
  match last with
  | None => ((c1, Throw PyUnboundLocalError), free)
  | Some i => (cleanCorrelationData c1 (i + 1), free)
  end).

(** sacf.py:94-146 *)
Definition autocorrelation_c (p : platform) (d : dstruct) (min_l max_l res_l al : option num)
  (sel wgt : string) : res (list num * py_corr * correlator) * cost :=
  match new_Correlator_c d with
  | (Ok c0, n) =>
      let c1 := set_up_correlation c0 min_l max_l res_l al in
      let m := if String.eqb sel "natural"%string && String.eqb wgt "fractional"%string
               then calculateStandardCorrelation_c p c1
               else find_correlation_c p c1 sel wgt in
      (do _u <- snd (fst m);
       do r <- result_of (fst (fst m));
       Ok (fst r, snd r, fst (fst m)), plus n (snd m))
  | (Throw e, n) => (Throw e, n)
  | (UB u, n) => (UB u, n)
  | (Diverge, n) => (Diverge, n)
  end.

End Cost.
