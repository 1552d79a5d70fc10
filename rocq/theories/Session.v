(** Python programs that use several objects: names, reference counts, and the pointer from a Correlator to its DataStructure. *)
From Coq Require Import String.
From Coq Require Import ZArith List Bool Arith.
From Verif Require Import Num Mem DataStructure Correlator Sacf Api FileReader.
Import ListNotations.
Local Open Scope list_scope.

(** A finite table of optional entries: the namespace of the program, the heap. *)
Definition lookup {X} (l : list (option X)) (i : nat) : option X := nth i l None.
Fixpoint assign {X} (l : list (option X)) (i : nat) (v : option X) : list (option X) :=
  match i, l with
  | 0, [] => [v]
  | 0, _ :: l' => v :: l'
  | S i', [] => None :: assign [] i' v
  | S i', w :: l' => w :: assign l' i' v
  end.

(** Addresses are never used again after an object is freed, so that an access to a freed object is always noticed. *)
Notation addr := nat (only parsing).

Section Session.
Context {A : Num} {D : Dec A}.

(** What a name or an attribute stands for. *)
Inductive val := VNone | VRef (a : addr).

(** Objects.  [OSacf v]: sacf.py:29-41, the attribute data; the program may give it any value, or delete it.  [OCorr c a kept]: Correlator.h:62-74, where [a] is the pointer
    [ds] (the field [ds] of [c] is not used) and [kept] are the patients of the Python object, pybind11/detail/class.h:289-311. *)
Inductive obj :=
| ODs (d : dstruct)
| OSacf (data : option val)
| OCorr (c : correlator) (pds : addr) (kept : list addr)
| OIt (it : cor_it).

(** References that are counted.  The C++ pointer from a Correlator to its DataStructure is not. *)
Definition children (o : obj) : list addr :=
  match o with ODs _ => [] | OSacf (Some (VRef a)) => [a] | OSacf _ => [] | OCorr _ _ kept => kept | OIt _ => [] end.

(** An object and its reference count; [None]: freed, or not made yet. *)
Definition heap := list (option (obj * nat)).

Record state := { names : list (option val); mem : heap }.
Definition start : state := {| names := []; mem := [] |}.

(** Py_INCREF *)
Definition incref (h : heap) (a : addr) : heap :=
  match lookup h a with Some (o, n) => assign h a (Some (o, S n)) | None => h end.
Definition hold (h : heap) (v : val) : heap := match v with VRef a => incref h a | VNone => h end.

(** Py_DECREF of each of [todo]; an object whose count becomes zero is freed, then its references are given up
    (pybind11/detail/class.h:312-342 for the patients).  [fuel]: every step lowers the sum of the counts. *)
Fixpoint release (fuel : nat) (todo : list addr) (h : heap) : heap :=
  match fuel, todo with
  | S fuel', a :: todo' =>
      match lookup h a with
      | Some (o, S (S n)) => release fuel' todo' (assign h a (Some (o, S n)))
      | Some (o, _) => release fuel' (children o ++ todo') (assign h a None)
      | None => release fuel' todo' h
      end
  | _, _ => h
  end.
Definition total (h : heap) : nat := list_sum (map (fun c => match c with Some (_, n) => n | None => 0 end) h).
Definition decref (h : heap) (v : option val) : heap :=
  match v with Some (VRef a) => release (total h) [a] h | _ => h end.

(** A new object, with one reference to it, and its address. *)
Definition alloc (h : heap) (o : obj) : heap * addr :=
  (assign (fold_left incref (children o) h) (length h) (Some (o, 1)), length h).

(** x = v, where the new reference is already counted: the old value of x is given up afterwards. *)
Definition bind_name (s : state) (h : heap) (x : nat) (v : option val) : state :=
  {| names := assign (names s) x v; mem := decref h (lookup (names s) x) |}.

(** What a command does, besides changing the state.  [PyFail]: NameError, TypeError or AttributeError of Python. *)
Inductive view := Nothing | SeeDs (d : dstruct) | SeeCorr (c : correlator) | SeeIt (it : cor_it) | Result (r : list num * py_corr).
Inductive outcome :=
| Done (v : view) | Raised (e : exn) | PyFail
| Undefined (u : ub) | Hangs
| NullPointer   (* None given for a pointer, pybind11/cast.h:642-647, and dereferenced *)
| Dangling.     (* a freed object is accessed *)
Definition of_res {X} (f : X -> view) (r : res X) : outcome :=
  match r with Ok x => Done (f x) | Throw e => Raised e | UB u => Undefined u | Diverge => Hangs end.

(** Arguments of SACF() or DataStructure() that are lists or the content of a file (see PyBind.v for others). *)
Inductive source :=
| Lists (t v : list num) (e : option (list num))
| Rows (t : list num) (v : list (list num)) (e : option (list (list num)))
| File (f : option bytes).
Definition build (src : source) : res dstruct :=
  match src with
  | Lists t v e => SACF_1d t v e
  | Rows t v e => SACF_2d t v e
  | File f => ds_file f
  end.

(** [AutoCorr x y ..]: _, _, x = y.autocorrelation(.., return_correlator=True).  The iterator in [Method y (AddData it i)] is
    made for the call; [AddIt y z i] uses the one named z.  [SetData y z]: y.data = z; [DelData y]: del y.data (a SACF is an
    ordinary Python object; the classes of the extension have no such attribute). *)
Inductive cmd :=
| NewDs (x : nat) (src : source)
| NewSacf (x : nat) (src : source)
| GetData (x y : nat)
| NewCorr (x y : nat)
| NewIt (x : nat) (kk size : num)
| AutoCorr (x y : nat) (mi ma re al : option num) (sel wgt : string)
| Method (y : nat) (o : op)
| AddIt (y z : nat) (i : Z)
| ItMethod (y z : nat) (o : it_op)
| SetData (y z : nat)
| DelData (y : nat)
| Look (y : nat)
| Copy (x y : nat)
| SetNone (x : nat)
| Del (x : nat).

(** the object with a given name *)
Definition on_object (s : state) (y : nat) (f : obj -> addr -> state * outcome) : state * outcome :=
  match lookup (names s) y with
  | Some (VRef a) => match lookup (mem s) a with Some (o, _) => f o a | None => (s, Dangling) end
  | _ => (s, PyFail)
  end.
Definition is_none (s : state) (y : nat) : bool := match lookup (names s) y with Some VNone => true | _ => false end.

(** *ds, for a pointer of the C++ code *)
Definition deref (h : heap) (a : addr) : option dstruct :=
  match lookup h a with Some (ODs d, _) => Some d | _ => None end.

Definition with_ds (c : correlator) (d : dstruct) : correlator :=
  {| ds := d; correlations_ := correlations_ c; timeseries_ := timeseries_ c; Nvec := Nvec c; max_lag := max_lag c; min_lag := min_lag c;
     lag_resolution := lag_resolution c; alpha := alpha c; num_lag_steps := num_lag_steps c |}.

(** overwrite an object in place *)
Definition put (h : heap) (a : addr) (o : obj) : heap :=
  match lookup h a with Some (_, n) => assign h a (Some (o, n)) | None => h end.

(** run a method of the correlator at [a]: fetch the data structure through the pointer, write both objects back *)
Definition on_corr (s : state) (a : addr) (c : correlator) (pds : addr) (kept : list addr) (f : correlator -> meth correlator unit)
  : state * outcome :=
  match deref (mem s) pds with
  | None => (s, Dangling)
  | Some d =>
      let (c', r) := f (with_ds c d) in
      ({| names := names s; mem := put (put (mem s) pds (ODs (ds c'))) a (OCorr c' pds kept) |}, of_res (fun _ => Nothing) r)
  end.

Section Step.
(** [keep]: whether correlator_bindings.cpp:22 has py::keep_alive<1, 2>(), as it does *)
Variable (p : platform) (keep : bool).

Definition patients (a : addr) : list addr := if keep then [a] else [].

Definition step (s : state) (c : cmd) : state * outcome :=
  match c with
  | NewDs x src =>
      match build src with
      | Ok d => let (h, a) := alloc (mem s) (ODs d) in (bind_name s h x (Some (VRef a)), Done Nothing)
      | r => (s, of_res (fun _ => Nothing) r)
      end
  | NewSacf x src =>                                                     (* sacf.py:32-41 *)
      match build src with
      | Ok d =>
          let (h1, a) := alloc (mem s) (ODs d) in
          let (h2, b) := alloc h1 (OSacf (Some (VRef a))) in
          (bind_name s (decref h2 (Some (VRef a))) x (Some (VRef b)), Done Nothing)
      | r => (s, of_res (fun _ => Nothing) r)
      end
  | GetData x y =>
      on_object s y (fun o _ =>
      match o with
      | OSacf (Some v) => (bind_name s (hold (mem s) v) x (Some v), Done Nothing)
      | _ => (s, PyFail)
      end)
  | NewCorr x y =>                                                       (* correlator_bindings.cpp:22 *)
      if is_none s y then (s, NullPointer)
      else
        on_object s y (fun o a =>
        match o with
        | ODs d =>
            match new_Correlator d with
            | Ok c0 => let (h, b) := alloc (mem s) (OCorr c0 a (patients a)) in (bind_name s h x (Some (VRef b)), Done Nothing)
            | r => (s, of_res (fun _ => Nothing) r)
            end
        | _ => (s, PyFail)
        end)
  | NewIt x kk size =>                                                   (* correlator_bindings.cpp:13 *)
      match new_CorrelationIterator kk size with
      | Ok it => let (h, a) := alloc (mem s) (OIt it) in (bind_name s h x (Some (VRef a)), Done Nothing)
      | r => (s, of_res (fun _ => Nothing) r)
      end
  | AutoCorr x y mi ma re al sel wgt =>                                  (* sacf.py:94-146 *)
      on_object s y (fun o _ =>
      match o with
      | OSacf (Some VNone) => (s, NullPointer)                           (* Correlator(None) *)
      | OSacf (Some (VRef a)) =>
          match lookup (mem s) a with
          | None => (s, Dangling)
          | Some (ODs d, _) =>
              match autocorrelation p d mi ma re al sel wgt with
              | Ok (r, c') =>
                  let (h, b) := alloc (put (mem s) a (ODs (ds c'))) (OCorr c' a (patients a)) in
                  (bind_name s h x (Some (VRef b)), Done (Result r))
              | r => (s, of_res (fun _ => Nothing) r)
              end
          | Some _ => (s, PyFail)
          end
      | _ => (s, PyFail)
      end)
  | Method y o =>
      on_object s y (fun oy a =>
      match oy with
      | OCorr c pds kept => on_corr s a c pds kept (fun c => run_op p c o)
      | _ => (s, PyFail)
      end)
  | AddIt y z i =>
      on_object s y (fun oy a =>
      match oy with
      | OCorr c pds kept =>
          if is_none s z then (s, NullPointer)
          else
            on_object s z (fun oz _ =>
            match oz with
            | OIt it => on_corr s a c pds kept (fun c => run_op p c (AddData it i))
            | _ => (s, PyFail)
            end)
      | _ => (s, PyFail)
      end)
  | ItMethod y z o =>
      on_object s y (fun oy _ =>
      match oy with
      | OCorr c pds kept =>
          if is_none s z then (s, NullPointer)
          else
            on_object s z (fun oz b =>
            match oz with
            | OIt it =>
                match deref (mem s) pds with
                | None => (s, Dangling)
                | Some d =>
                    let (it', r) := run_it_op p (with_ds c d) it o in
                    ({| names := names s; mem := put (mem s) b (OIt it') |}, of_res (fun _ => Nothing) r)
                end
            | _ => (s, PyFail)
            end)
      | _ => (s, PyFail)
      end)
  | SetData y z =>                                                       (* the new value is held before the old one is given up *)
      on_object s y (fun oy b =>
      match oy, lookup (names s) z with
      | OSacf v, Some w => ({| names := names s; mem := decref (put (hold (mem s) w) b (OSacf (Some w))) v |}, Done Nothing)
      | _, _ => (s, PyFail)
      end)
  | DelData y =>
      on_object s y (fun oy b =>
      match oy with
      | OSacf (Some v) => ({| names := names s; mem := decref (put (mem s) b (OSacf None)) (Some v) |}, Done Nothing)
      | _ => (s, PyFail)
      end)
  | Look y =>
      on_object s y (fun oy _ =>
      match oy with
      | ODs d => (s, Done (SeeDs d))
      | OSacf (Some (VRef a)) => match lookup (mem s) a with Some (ODs d, _) => (s, Done (SeeDs d)) | Some _ => (s, PyFail) | None => (s, Dangling) end
      | OSacf _ => (s, PyFail)
      | OCorr c pds _ => match deref (mem s) pds with Some d => (s, Done (SeeCorr (with_ds c d))) | None => (s, Dangling) end
      | OIt it => (s, Done (SeeIt it))
      end)
  | Copy x y =>
      match lookup (names s) y with
      | Some (VRef a) => (bind_name s (incref (mem s) a) x (Some (VRef a)), Done Nothing)
      | Some VNone => (bind_name s (mem s) x (Some VNone), Done Nothing)
      | None => (s, PyFail)
      end
  | SetNone x => (bind_name s (mem s) x (Some VNone), Done Nothing)
  | Del x =>
      match lookup (names s) x with
      | Some _ => (bind_name s (mem s) x None, Done Nothing)
      | None => (s, PyFail)
      end
  end.

(** A program; exceptions are caught, undefined behaviour ends it. *)
Fixpoint run (s : state) (cs : list cmd) : option state :=
  match cs with
  | [] => Some s
  | c :: cs' =>
      match step s c with
      | (s', Done _) | (s', Raised _) | (s', PyFail) => run s' cs'
      | _ => None
      end
  end.
End Step.
End Session.
