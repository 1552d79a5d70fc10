(** Python threads.  The bindings never release the global interpreter lock (correlator_bindings.cpp and datastructure_bindings.cpp
    have no call_guard and no gil_scoped_release), so a method of the extension is one step; between two steps any other thread may
    run.  The functions of sacf.py are not one step: they are cut here at every use of the correlator. *)
From Coq Require Import String.
From Coq Require Import ZArith List Bool Arith.
From Verif Require Import Num Mem DataStructure Correlator Sacf Api.
Import ListNotations.
Local Open Scope list_scope.

Section Threads.
Context {A : Num}.
Variable p : platform.

(** ** sacf.py:57-92, one step at a time *)
(** The variables of find_correlation: max_lag and lag_resolution of the generator, its state, the counter of enumerate, the variable i *)
Record locals := { l_max : num; l_res : num; l_gen : gen; l_count : nat; l_i : option nat }.

Inductive find_at :=
| ReadMin | ReadMax (minl : num) | ReadRes (minl maxl : num)     (* sacf.py:83 *)
| NextLag (l : locals)                                           (* sacf.py:82-85 *)
| Select (l : locals) (it : cor_it)                              (* sacf.py:86 *)
| Delta (l : locals) (it : cor_it)                               (* sacf.py:87 *)
| Weigh (l : locals) (it : cor_it)                               (* sacf.py:88 *)
| Sum (l : locals) (it : cor_it)                                 (* sacf.py:89 *)
| Store (l : locals) (it : cor_it)                               (* sacf.py:90 *)
| Clean (n : nat)                                                (* sacf.py:92 *)
| Stop (r : res unit).

(** the rest of the body after a method of the iterator *)
Definition and_then (x : meth cor_it unit) (f : cor_it -> find_at) : find_at :=
  match x with
  | (it, Ok _) => f it
  | (_, Throw e) => Stop (Throw e)
  | (_, UB u) => Stop (UB u)
  | (_, Diverge) => Stop Diverge
  end.

Definition find_step (sel wgt : string) (c : correlator) (s : find_at) : correlator * find_at :=
  match s with
  | ReadMin => (c, ReadMax (min_lag c))
  | ReadMax minl => (c, ReadRes minl (max_lag c))
  | ReadRes minl maxl => (c, NextLag {| l_max := maxl; l_res := lag_resolution c; l_gen := gen_start minl; l_count := 0; l_i := None |})
  | NextLag l =>
      match gen_next (l_max l) (l_res l) (l_gen l) with
      | None => (c, match l_i l with None => Stop (Throw PyUnboundLocalError) | Some i => Clean (i + 1) end)
      | Some (kk, g) => (c, Select {| l_max := l_max l; l_res := l_res l; l_gen := g; l_count := l_count l; l_i := Some (l_count l) |}
                              (CorrelationIterator kk (N_datasets (ds c))))
      end
  | Select l it => (c, match SELECTION_FUNCTIONS p sel with None => Stop (Throw PyKeyError) | Some f => and_then (f c it) (Delta l) end)
  | Delta l it => (c, and_then (deltaT p (ds c) it) (Weigh l))
  | Weigh l it => (c, match WEIGHT_FUNCTIONS wgt with None => Stop (Throw PyKeyError) | Some w => Sum l (w c it) end)
  | Sum l it => (c, and_then (findCorrelation p c it) (Store l))
  | Store l it =>
      let (c', r) := addCorrelationData c it (l_count l) in
      (c', match r with
           | Ok _ => NextLag {| l_max := l_max l; l_res := l_res l; l_gen := l_gen l; l_count := S (l_count l); l_i := l_i l |}
           | _ => Stop r
           end)
  | Clean n => let (c', r) := cleanCorrelationData c n in (c', Stop r)
  | Stop r => (c, Stop r)
  end.

(** ** Threads *)
(** the Correlator objects; an object stays where it is *)
Definition heap := list correlator.
Fixpoint replace (h : heap) (a : nat) (c : correlator) : heap :=
  match h, a with
  | [], _ => []
  | _ :: h', 0 => c :: h'
  | c' :: h', S a' => c' :: replace h' a' c
  end.

(** What a thread does: methods of a Correlator it was given, and calls of autocorrelation() on a SACF object whose data are [d].
    What it gets to see: the outcome of each. *)
Inductive work :=
| Call (a : nat) (o : op)
| Auto (d : dstruct) (mi ma re al : option num) (sel wgt : string).
Inductive report := Ended (r : res unit) | Returned (r : res (list num * py_corr)).

(** where it is; [a] is the object the local variable corr stands for *)
Inductive control :=
| Idle
| InFind (a : nat) (sel wgt : string) (s : find_at)
| SetUp (a : nat) (os : list op) (sel wgt : string)              (* sacf.py:48-55, then 125-127 *)
| AutoFind (a : nat) (sel wgt : string) (s : find_at)            (* sacf.py:130 *)
| ReadLags (a : nat)                                             (* sacf.py:134, 142 *)
| ReadLen (a : nat) (lags : list num)                            (* sacf.py:136, 144 *)
| ReadRows (a : nat) (lags : list num) (n : nat).                (* sacf.py:135 or 137, 143 or 145 *)
Record thread := { doing : control; todo : list work; log : list report }.

Definition undefined {X} (r : res X) : bool := match r with UB _ | Diverge => true | _ => false end.
(** the next line; nothing follows undefined behaviour *)
Definition finish (t : thread) (ws : list work) (u : bool) (rep : report) : thread :=
  {| doing := Idle; todo := if u then [] else ws; log := log t ++ [rep] |}.
Definition goes_on (t : thread) (ws : list work) (k : control) : thread := {| doing := k; todo := ws; log := log t |}.
Definition failed {X Y} (r : res X) : res Y := match r with Throw e => Throw e | UB u => UB u | _ => Diverge end.

(** sacf.py:48-55 *)
Definition assignments (mi ma re al : option num) : list op :=
  match ma with Some x => [SetMaxLag x] | None => [] end ++
  match mi with Some x => [SetMinLag x] | None => [] end ++
  match re with Some x => [SetLagResolution x] | None => [] end ++
  match al with Some x => [SetAlpha x] | None => [] end.

Definition on (h : heap) (t : thread) (a : nat) (f : correlator -> heap * thread) : heap * thread :=
  match nth_error h a with Some c => f c | None => (h, t) end.

Definition thread_step (h : heap) (t : thread) : heap * thread :=
  match doing t with
  | Idle =>
      match todo t with
      | [] => (h, t)
      | Call a o :: ws =>
          on h t a (fun c =>
          match o with
          | Find sel wgt => (h, goes_on t ws (InFind a sel wgt ReadMin))
          | _ => let (c', r) := run_op p c o in (replace h a c', finish t ws (undefined r) (Ended r))
          end)
      | Auto d mi ma re al sel wgt :: ws =>                                      (* sacf.py:122 *)
          match new_Correlator d with
          | Ok c0 => (h ++ [c0], goes_on t ws (SetUp (length h) (assignments mi ma re al) sel wgt))
          | r => (h, finish t ws (undefined r) (Returned (failed r)))
          end
      end
  | InFind a sel wgt s =>
      on h t a (fun c =>
      let (c', s') := find_step sel wgt c s in
      (replace h a c', match s' with Stop r => finish t (todo t) (undefined r) (Ended r) | _ => goes_on t (todo t) (InFind a sel wgt s') end))
  | SetUp a (o :: os) sel wgt =>
      on h t a (fun c => (replace h a (fst (run_op p c o)), goes_on t (todo t) (SetUp a os sel wgt)))
  | SetUp a [] sel wgt =>
      on h t a (fun c =>
      if String.eqb sel "natural" && String.eqb wgt "fractional" then
        let (c', r) := calculateStandardCorrelation p c in
        (replace h a c', match r with Ok _ => goes_on t (todo t) (ReadLags a) | _ => finish t (todo t) (undefined r) (Returned (failed r)) end)
      else (h, goes_on t (todo t) (AutoFind a sel wgt ReadMin)))
  | AutoFind a sel wgt s =>
      on h t a (fun c =>
      let (c', s') := find_step sel wgt c s in
      (replace h a c', match s' with
                       | Stop (Ok _) => goes_on t (todo t) (ReadLags a)
                       | Stop r => finish t (todo t) (undefined r) (Returned (failed r))
                       | _ => goes_on t (todo t) (AutoFind a sel wgt s')
                       end))
  | ReadLags a => on h t a (fun c => (h, goes_on t (todo t) (ReadLen a (lag_timeseries c))))
  | ReadLen a lags =>
      on h t a (fun c =>
      match correlations c with
      | Ok cs => (h, goes_on t (todo t) (ReadRows a lags (length cs)))
      | r => (h, finish t (todo t) (undefined r) (Returned (failed r)))
      end)
  | ReadRows a lags n =>
      on h t a (fun c =>
      match correlations c with
      | Ok cs =>
          (h, finish t (todo t) false (Returned (if 1 <? n then Ok (lags, Nested cs)
                                                else match cs with [] => Throw PyIndexError | row :: _ => Ok (lags, Flat row) end)))
      | r => (h, finish t (todo t) (undefined r) (Returned (failed r)))
      end)
  end.

(** ** All threads: who takes the next step is arbitrary *)
Record system := { mem : heap; threads : list thread }.
Fixpoint set_thread (ts : list thread) (i : nat) (t : thread) : list thread :=
  match ts, i with
  | [], _ => []
  | _ :: ts', 0 => t :: ts'
  | t' :: ts', S i' => t' :: set_thread ts' i' t
  end.
Definition system_step (s : system) (i : nat) : system :=
  match nth_error (threads s) i with
  | None => s
  | Some t => let (h, t') := thread_step (mem s) t in {| mem := h; threads := set_thread (threads s) i t' |}
  end.
Definition run_threads (schedule : list nat) (s : system) : system := fold_left system_step schedule s.

Definition begin (h : heap) (progs : list (list work)) : system :=
  {| mem := h; threads := map (fun ws => {| doing := Idle; todo := ws; log := [] |}) progs |}.

End Threads.
