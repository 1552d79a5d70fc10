(** Model of executions in which memory runs out: std::bad_alloc, MemoryError in Python.

    The model of the other files, with every request for memory made explicit.  [fails n] says whether the n-th request
    fails; nothing is assumed of it, so every execution in which requests fail at some points is one of these.  A push_back
    is taken as a request each time (a vector with spare room makes none: then [fails] says no); if it fails the vector is as
    before.  Only the functions that request memory are written out again, with the same structure and the number of
    the next request in the state; the others are those of Correlator.v and Sacf.v. *)
From Coq Require Import String.
From Coq Require Import ZArith List Bool Arith.
From Verif Require Import Num Mem DataStructure Correlator Sacf Api Leak.
Import ListNotations.
Local Open Scope list_scope.

(** the outcomes of the other files, or bad_alloc *)
Inductive ares (R : Type) := Done (r : res R) | NoMemory.
Arguments Done {R} r. Arguments NoMemory {R}.

(** the state a method leaves, the number of the next request, the outcome *)
Definition ameth (S R : Type) : Type := (S * nat * ares R)%type.

Definition abind {S R Q} (x : ameth S R) (f : S -> nat -> R -> ameth S Q) : ameth S Q :=
  match x with
  | (s, n, Done (Ok r)) => f s n r
  | (s, n, Done (Throw e)) => (s, n, Done (Throw e))
  | (s, n, Done (UB u)) => (s, n, Done (UB u))
  | (s, n, Done Diverge) => (s, n, Done Diverge)
  | (s, n, NoMemory) => (s, n, NoMemory)
  end.
Definition alift {S R Q} (s : S) (n : nat) (x : res R) (f : R -> ameth S Q) : ameth S Q :=
  abind (s, n, Done x) (fun _ _ r => f r).

Section Alloc.
Context {A : Num} (fails : nat -> bool).

(** a request for memory in state [s] *)
Definition arequest {St Q} (s : St) (n : nat) (f : nat -> ameth St Q) : ameth St Q :=
  if fails n then (s, S n, NoMemory) else f (S n).

(** Correlator.cpp:39-47.  ds->mean_data() returns a copy of the vector: two requests per value (line 44) *)
Fixpoint norm_loop_a (d : dstruct) (j : nat) (n i : nat) (acc : num) (q : nat) : ameth unit num :=
  match n with
  | 0 => (tt, q, Done (Ok acc))
  | S n' =>
      alift tt q (lat (data_ d) (getVectorIndex (M_datapoints d) i j)) (fun x =>
      let X := nf32 x in
      if nisnan X then norm_loop_a d j n' (S i) acc q
      else
        arequest tt q (fun q => arequest tt q (fun q =>
        alift tt q (lget (data_mean d) j) (fun m =>
        norm_loop_a d j n' (S i) (nadd acc (nmul (nsub X m) (nsub X m))) q))))
  end.
Fixpoint norms_a (d : dstruct) (js : list nat) (q : nat) : ameth unit (list num) :=
  match js with
  | [] => (tt, q, Done (Ok []))
  | j :: js' =>
      abind (norm_loop_a d j (M_datapoints d) 0 nzero q) (fun _ q x =>
      abind (norms_a d js' q) (fun _ q xs => (tt, q, Done (Ok (x :: xs)))))
  end.

(** Correlator.cpp:33-55: the object itself and the vectors of lines 38, 53, 54.  An exception in a constructor leaves no object. *)
Definition new_Correlator_a (d : dstruct) (q : nat) : ameth unit correlator :=
  arequest tt q (fun q => arequest tt q (fun q =>
  abind (norms_a d (seq 0 (N_datasets d)) q) (fun _ q N =>
  alift tt q (lback (norm_t d)) (fun maxl =>
  let minl := nneg maxl in
  let lres := findMinDiff (norm_t d) in
  alift tt q (do z <- to_int (nfloor (ndiv (nsub maxl minl) lres)); int_add z 3) (fun nls =>
  if (nls <? 0)%Z then (tt, q, Done (UB BadConversion))
  else
    let n := Z.to_nat nls in
    arequest tt q (fun q => arequest tt q (fun q =>
    (tt, q, Done (Ok {| ds := d;
          correlations_ := repeat nzero (N_datasets d * n);
          timeseries_ := repeat nzero n;
          Nvec := N; max_lag := maxl; min_lag := minl; lag_resolution := lres;
          alpha := t_median d; num_lag_steps := n |}))))))))).

(** Correlator.cpp:84-89 *)
Fixpoint natural_shift_a (ts : list num) (back kk : num) (it : cor_it) (q : nat) : ameth cor_it unit :=
  match ts with
  | [] => (it, q, Done (Ok tt))
  | tp :: ts' =>
      if nlt back (nadd tp kk) then (it, q, Done (Ok tt))
      else arequest it q (fun q => natural_shift_a ts' back kk (set_shifted it (vpush (shifted_timeseries it) (nadd tp kk))) q)
  end.

(** Correlator.cpp:92-104 *)
Fixpoint natural_loop_a (p : platform) (nt : list num) (n i : nat) (it : cor_it) (q : nat) : ameth cor_it unit :=
  match n with
  | 0 => (it, q, Done (Ok tt))
  | S n' =>
      alift it q (vget p (shifted_timeseries it) i) (fun s =>
      alift it q (natural_index p nt s) (fun idx =>
      arequest it q (fun q =>
      natural_loop_a p nt n' (S i) (set_selection it (vpush (selection_indices it) idx)) q)))
  end.

(** Correlator.cpp:79-107; line 106 is not reached when a push_back throws *)
Definition naturalSelectionFunctionIdx_a (p : platform) (d : dstruct) (it : cor_it) (q : nat) : ameth cor_it unit :=
  alift it q (lback (norm_t d)) (fun back =>
  abind (natural_shift_a (norm_t d) back (k it) it q) (fun it1 q _ =>
  abind (natural_loop_a p (norm_t d) (vsize (shifted_timeseries it1)) 0 it1 q) (fun it2 q _ =>
  (set_shifted it2 (vclear (shifted_timeseries it2)), q, Done (Ok tt))))).

(** Correlator.cpp:114-119 *)
Fixpoint fast_shift_a (ts : list num) (back kk : num) (it : cor_it) (q : nat) : ameth cor_it unit :=
  match ts with
  | [] => (it, q, Done (Ok tt))
  | tp :: ts' =>
      if nle back (nadd tp kk) then (it, q, Done (Ok tt))
      else arequest it q (fun q => fast_shift_a ts' back kk (set_shifted it (vpush (shifted_timeseries it) (nadd tp kk))) q)
  end.

(** Correlator.cpp:109-135; the request of line 129 *)
Definition fastSelectionFunctionIdx_a (p : platform) (d : dstruct) (it : cor_it) (q : nat) : ameth cor_it unit :=
  alift it q (lback (norm_t d)) (fun back =>
  abind (fast_shift_a (norm_t d) back (k it) it q) (fun it1 q _ =>
  let size := vsize (shifted_timeseries it1) in
  abind
    (if size =? 0 then (it1, q, Done (Ok tt))
     else
       alift it1 q (vget p (shifted_timeseries it1) 0) (fun s =>
       alift it1 q (lower_bound (norm_t d) s) (fun idx =>
       alift it1 q (lat (norm_t d) (idx + 1)) (fun b =>
       alift it1 q (cabs p (nsub s b)) (fun db =>
       alift it1 q (lat (norm_t d) idx) (fun a =>
       alift it1 q (cabs p (nsub s a)) (fun da =>
       let idx' := if nlt db da then idx + 1 else idx in
       arequest it1 q (fun q =>
       let it2 := set_selection it1 (vresize 0 (selection_indices it1) size) in
       alift it2 q (fast_fill idx' (size - idx') 0 (selection_indices it2)) (fun v =>
       (set_selection it2 v, q, Done (Ok tt))))))))))) 
    (fun it3 q _ => (set_shifted it3 (vclear (shifted_timeseries it3)), q, Done (Ok tt))))).

(** Correlator.cpp:162-170 *)
Fixpoint deltaT_loop_a (p : platform) (nt : list num) (vals : list nat) (t_i : nat) (it : cor_it) (q : nat) : ameth cor_it unit :=
  match vals with
  | [] => (it, q, Done (Ok tt))
  | value :: vals' =>
      alift it q (lat nt value) (fun a =>
      alift it q (vget p (shifted_timeseries it) t_i) (fun s =>
      alift it q (cabs p (nsub a s)) (fun dt =>
      arequest it q (fun q =>
      deltaT_loop_a p nt vals' (S t_i) (set_delta it (vpush (delta_t it) dt)) q))))
  end.
Definition deltaT_a (p : platform) (d : dstruct) (it : cor_it) (q : nat) : ameth cor_it unit :=
  abind (deltaT_loop_a p (norm_t d) (vlive (selection_indices it)) 0 it q) (fun it1 q _ =>
  (set_shifted it1 (vclear (shifted_timeseries it1)), q, Done (Ok tt))).

(** Correlator.cpp:172-197 *)
Fixpoint weights_loop_a (w : num -> num) (ds : list num) (it : cor_it) (q : nat) : ameth cor_it unit :=
  match ds with
  | [] => (it, q, Done (Ok tt))
  | d :: ds' => arequest it q (fun q => weights_loop_a w ds' (set_weights it (vpush (weights it) (w d))) q)
  end.
Definition getWeights_a (w : num -> num) (it : cor_it) (q : nat) : ameth cor_it unit :=
  abind (weights_loop_a w (vlive (delta_t it)) it q) (fun it1 q _ =>
  (set_delta it1 (vclear (delta_t it1)), q, Done (Ok tt))).

(** the operations on an iterator, correlator_bindings.cpp:14-33 *)
Definition run_it_op_a (p : platform) (c : correlator) (it : cor_it) (o : it_op) (q : nat) : ameth cor_it unit :=
  match o with
  | NaturalSelection => naturalSelectionFunctionIdx_a p (ds c) it q
  | FastSelection => fastSelectionFunctionIdx_a p (ds c) it q
  | DeltaT => deltaT_a p (ds c) it q
  | FractionWeights => getWeights_a (fractionWeightFunction (alpha c)) it q
  | FractionSquaredWeights => getWeights_a (fractionSquaredWeightFunction (alpha c)) it q
  | GaussianWeights => getWeights_a (gaussianWeightFunction (alpha c)) it q
  | SetK _ | FindCorrelation => let (it', r) := run_it_op p c it o in (it', q, Done r)
  end.

(** one operation after the other on an iterator made in a method of the correlator *)
Fixpoint run_it_a (p : platform) (c : correlator) (it : cor_it) (os : list it_op) (q : nat) : ameth cor_it unit :=
  match os with
  | [] => (it, q, Done (Ok tt))
  | o :: os' => abind (run_it_op_a p c it o q) (fun it q _ => run_it_a p c it os' q)
  end.

(** the methods of a correlator; [heap] counts the objects that were made with [new] in a method and not deleted *)
Definition cstate : Type := (correlator * heap)%type.

(** Correlator.cpp:276-287: the request of [new] (line 280; for the object, and for the vector of line 27), the
    methods, and delete (line 286), which is not reached if one of the methods throws *)
Definition calculate_at_a (p : platform) (s : cstate) (kk : num) (i : nat) (q : nat) : ameth cstate unit :=
  arequest s q (fun q => arequest s q (fun q =>
  let h1 := new_iterator (snd s) in
  match run_it_a p (fst s) (CorrelationIterator kk (N_datasets (ds (fst s)))) [NaturalSelection; DeltaT; FractionWeights; FindCorrelation] q with
  | (it, q, Done (Ok _)) =>
      match addCorrelationData (fst s) it i with
      | (c', Ok _) => ((c', delete_iterator h1), q, Done (Ok tt))
      | (c', r) => ((c', h1), q, Done r)
      end
  | (_, q, r) => ((fst s, h1), q, r)
  end)).

(** Correlator.cpp:259-272 *)
Fixpoint std_loop_a (p : platform) (fuel : nat) (kk : num) (is_positive : bool) (i : nat) (s : cstate) (q : nat) : ameth cstate nat :=
  match fuel with
  | 0 => (s, q, Done Diverge)
  | S fuel' =>
      if nle kk (max_lag (fst s)) then
        let is_positive1 := if neqb kk nzero then true else is_positive in
        if nlt nzero kk && negb is_positive1 then
          abind (calculate_at_a p s nzero i q) (fun s1 q _ =>
          abind (calculate_at_a p s1 kk (S i) q) (fun s2 q _ =>
          std_loop_a p fuel' (nadd kk (lag_resolution (fst s))) true (S (S i)) s2 q))
        else
          abind (calculate_at_a p s kk i q) (fun s1 q _ =>
          std_loop_a p fuel' (nadd kk (lag_resolution (fst s))) is_positive1 (S i) s1 q)
      else (s, q, Done (Ok i))
  end.

(** Correlator.cpp:242-252: the requests of lines 244 (when the vector grows), 245 and 250 (when the new vector is longer).
    Line 244 has happened when the second fails, line 250 has not when the third fails. *)
Definition clean_a (c : correlator) (i : nat) (q : nat) : ameth correlator unit :=
  (fun f => if length (timeseries_ c) <? i then arequest c q f else f q) (fun q =>
  let c1 := set_data c (lresize nzero (timeseries_ c) i) (correlations_ c) (num_lag_steps c) in
  arequest c1 q (fun q =>
  match cleanCorrelationData c i with
  | (c2, Ok _) =>
      if length (correlations_ c) <? length (correlations_ c2) then arequest c1 q (fun q => (c2, q, Done (Ok tt)))
      else (c2, q, Done (Ok tt))
  | (c2, r) => (c2, q, Done r)
  end)).

(** with the other objects, which it leaves alone *)
Definition beside {R} (h : heap) (x : ameth correlator R) : ameth cstate R :=
  let '(c, q, r) := x in ((c, h), q, r).

(** Correlator.cpp:254-274 *)
Definition calculate_a (p : platform) (s : cstate) (q : nat) : ameth cstate unit :=
  abind (std_loop_a p (S (length (timeseries_ (fst s)))) (min_lag (fst s)) false 0 s q) (fun s1 q i =>
  beside (snd s1) (clean_a (fst s1) i q)).

(** sacf.py:85-90.  The iterator is a Python object: lost with the frame when an exception is raised, so not counted in [heap].
    Requests: the Python object, the C++ object and its vector.  The generator's number is a request as well. *)
Definition find_at_a (p : platform) (sel wgt : string) (s : cstate) (kk : num) (i : nat) (q : nat) : ameth cstate unit :=
  arequest s q (fun q => arequest s q (fun q => arequest s q (fun q => arequest s q (fun q =>
  let run it os q := run_it_a p (fst s) it os q in
  match selection_op sel with
  | None => (s, q, Done (Throw PyKeyError))
  | Some f =>
      match run (CorrelationIterator kk (N_datasets (ds (fst s)))) [f; DeltaT] q with
      | (it, q, Done (Ok _)) =>
          match weights_op wgt with
          | None => (s, q, Done (Throw PyKeyError))
          | Some w =>
              match run it [w; FindCorrelation] q with
              | (it, q, Done (Ok _)) => let (c', r) := addCorrelationData (fst s) it i in ((c', snd s), q, Done r)
              | (_, q, r) => (s, q, r)
              end
          end
      | (_, q, r) => (s, q, r)
      end
  end)))).

(** sacf.py:82-84 *)
Fixpoint find_loop_a (p : platform) (sel wgt : string) (fuel : nat) (maxl resl : num) (g : gen)
  (n : nat) (last : option nat) (s : cstate) (q : nat) : ameth cstate (option nat) :=
  match fuel with
  | 0 => (s, q, Done Diverge)
  | S fuel' =>
      match gen_next maxl resl g with
      | None => (s, q, Done (Ok last))
      | Some (kk, g') =>
          abind (find_at_a p sel wgt s kk n q) (fun s1 q _ =>
          find_loop_a p sel wgt fuel' maxl resl g' (S n) (Some n) s1 q)
      end
  end.

(** sacf.py:57-92; the generator object is a request *)
Definition find_a (p : platform) (sel wgt : string) (s : cstate) (q : nat) : ameth cstate unit :=
  arequest s q (fun q =>
  abind (find_loop_a p sel wgt (S (length (timeseries_ (fst s)))) (max_lag (fst s)) (lag_resolution (fst s))
           (gen_start (min_lag (fst s))) 0 None s q) (fun s1 q last =>
  match last with
  | None => (s1, q, Done (Throw PyUnboundLocalError))
  | Some i => beside (snd s1) (clean_a (fst s1) (i + 1) q)
  end)).

(** the operations on a correlator, as [run_op].  Correlator.h:90: the object of clearCorrelation is not deleted (Leak.v);
    the assignment from an empty object makes no request. *)
Definition run_op_a (p : platform) (s : cstate) (o : op) (q : nat) : ameth cstate unit :=
  match o with
  | Calculate => calculate_a p s q
  | Find sel wgt => find_a p sel wgt s q
  | CleanData i => if (i <? 0)%Z then (s, q, Done (Throw LengthError)) else beside (snd s) (clean_a (fst s) (Z.to_nat i) q)
  | Clear => arequest s q (fun q => ((clearCorrelation (fst s), new_results (snd s)), q, Done (Ok tt)))
  | SetMaxLag _ | SetMinLag _ | SetLagResolution _ | SetAlpha _ | AddData _ _ =>
      let (c', r) := run_op p (fst s) o in ((c', snd s), q, Done r)
  end.

(** sacf.py:94-146.  The correlator is lost when an exception is raised.  Requests of the results: corr.lag_timeseries(),
    corr.correlations(), twice, the tuple. *)
Definition autocorrelation_a (p : platform) (d : dstruct) (min_l max_l res_l al : option num) (sel wgt : string) (h : heap) (q : nat)
  : ameth heap (list num * py_corr * correlator) :=
  match new_Correlator_a d q with
  | (_, q, Done (Ok c0)) =>
      let c1 := set_up_correlation c0 min_l max_l res_l al in
      match (if String.eqb sel "natural"%string && String.eqb wgt "fractional"%string
             then calculate_a p (c1, h) q else find_a p sel wgt (c1, h) q) with
      | (s, q, Done (Ok _)) =>
          arequest (snd s) q (fun q => arequest (snd s) q (fun q =>
          alift (snd s) q (result_of (fst s)) (fun r =>
          arequest (snd s) q (fun q => arequest (snd s) q (fun q =>
          (snd s, q, Done (Ok (fst r, snd r, fst s))))))))
      | (s, q, Done (Throw e)) => (snd s, q, Done (Throw e))
      | (s, q, Done (UB u)) => (snd s, q, Done (UB u))
      | (s, q, Done Diverge) => (snd s, q, Done Diverge)
      | (s, q, NoMemory) => (snd s, q, NoMemory)
      end
  | (_, q, Done (Throw e)) => (h, q, Done (Throw e))
  | (_, q, Done (UB u)) => (h, q, Done (UB u))
  | (_, q, Done Diverge) => (h, q, Done Diverge)
  | (_, q, NoMemory) => (h, q, NoMemory)
  end.

(** states after a sequence of operations on a correlator in which exceptions, also bad_alloc, are caught *)
Inductive after_a (p : platform) (s : cstate) (q : nat) : list op -> cstate -> nat -> Prop :=
| after_a_nil : after_a p s q [] s q
| after_a_snoc os s1 q1 o s2 q2 r : after_a p s q os s1 q1 -> run_op_a p s1 o q1 = (s2, q2, r) ->
    (r = NoMemory \/ r = Done (Ok tt) \/ exists e, r = Done (Throw e)) -> after_a p s q (os ++ [o]) s2 q2.

End Alloc.
