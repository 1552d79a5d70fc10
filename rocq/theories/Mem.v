(** Outcomes and std::vector. *)
From Coq Require Import ZArith List Bool Arith Lia.
From Verif Require Import Num.
Import ListNotations.

(** Exceptions that reach the Python caller. *)
Inductive exn :=
| EmptyDataStructureException          (* DataStructure.h:11-13 *)
| BadDataFileReadException             (* DataStructure.h:15-17 *)
| BadDataInputException                (* DataStructure.h:19-21 *)
| OutOfRange                           (* std::out_of_range from .at(), IndexError in Python *)
| LengthError                          (* std::length_error from resize, ValueError in Python *)
| PyKeyError
| PyUnboundLocalError
| PyIndexError
| PyTypeError
| PyValueError.

(** Kinds of undefined behaviour the code can reach. *)
Inductive ub :=
| StaleRead        (* operator[] past size() but inside still initialised storage, checked build *)
| OobRead          (* read outside the storage of a vector *)
| OobWrite         (* write outside the elements of a vector *)
| BadConversion.   (* floating to integer conversion out of range, or signed overflow *)

(** [Diverge] is not an outcome of the code: it marks exhausted loop fuel in
    the model and is proved unreachable. *)
Inductive res (A : Type) :=
| Ok (a : A)
| Throw (e : exn)
| UB (u : ub)
| Diverge.
Arguments Ok {A} a. Arguments Throw {A} e. Arguments UB {A} u. Arguments Diverge {A}.

Definition bind {A B} (x : res A) (f : A -> res B) : res B :=
  match x with
  | Ok a => f a
  | Throw e => Throw e
  | UB u => UB u
  | Diverge => Diverge
  end.

Notation "'do' x <- e ; f" := (bind e (fun x => f))
  (at level 200, x name, e at level 100, f at level 200, right associativity).

(** Run [f] on the elements of [l] from left to right, stop at the first
    failure. *)
Fixpoint mapM {A B} (f : A -> res B) (l : list A) : res (list B) :=
  match l with
  | [] => Ok []
  | a :: l' => do b <- f a; do bs <- mapM f l'; Ok (b :: bs)
  end.

(** ** Plain vectors: a list of the elements.  [operator[]] outside is UB,
    [at] outside throws. *)
Definition lget {A} (l : list A) (i : nat) : res A :=       (* v[i] *)
  match nth_error l i with Some a => Ok a | None => UB OobRead end.

Definition lat {A} (l : list A) (i : nat) : res A :=        (* v.at(i) *)
  match nth_error l i with Some a => Ok a | None => Throw OutOfRange end.

Definition lback {A} (l : list A) : res A :=                (* v.back() *)
  match l with [] => UB OobRead | _ => lget l (length l - 1) end.

Definition lset {A} (l : list A) (i : nat) (a : A) : res (list A) :=   (* v[i] = a *)
  if i <? length l then Ok (firstn i l ++ a :: skipn (S i) l) else UB OobWrite.

(** elements [a, b) through iterators begin()+a, begin()+b *)
Definition slice {A} (l : list A) (a b : nat) : res (list A) :=
  if b <=? length l then Ok (firstn (b - a) (skipn a l)) else UB OobRead.

(** store [xs] through an iterator begin()+a *)
Definition write_slice {A} (l : list A) (a : nat) (xs : list A) : res (list A) :=
  if a + length xs <=? length l
  then Ok (firstn a l ++ xs ++ skipn (a + length xs) l) else UB OobWrite.

(** v.resize(n) *)
Definition lresize {A} (d : A) (l : list A) (n : nat) : list A :=
  firstn n l ++ repeat d (n - length l).

(** ** Vectors that remember stale storage.
    [vbuf] is the initialised part of the heap block, the first [vsize]
    entries are the elements.  clear() and shrinking keep the block.
    A push_back into the block overwrites one stale entry; when
    [vsize = length vbuf] it extends the block (a reallocation copies the
    elements only, and there are no stale entries then). *)
Record vec (A : Type) := { vbuf : list A; vsize : nat }.
Arguments vbuf {A} v. Arguments vsize {A} v. Arguments Build_vec {A} vbuf vsize.

Definition vempty {A} : vec A := {| vbuf := []; vsize := 0 |}.
Definition vlive {A} (v : vec A) : list A := firstn (vsize v) (vbuf v).
Definition vpush {A} (v : vec A) (a : A) : vec A :=
  {| vbuf := firstn (vsize v) (vbuf v) ++ a :: skipn (S (vsize v)) (vbuf v);
     vsize := S (vsize v) |}.
Definition vclear {A} (v : vec A) : vec A := {| vbuf := vbuf v; vsize := 0 |}.

(** v.resize(n): shrinking keeps the block, growing value-initialises the new
    elements. *)
Definition vresize {A} (d : A) (v : vec A) (n : nat) : vec A :=
  if n <=? vsize v then {| vbuf := vbuf v; vsize := n |}
  else {| vbuf := firstn (vsize v) (vbuf v) ++ repeat d (n - vsize v) ++ skipn n (vbuf v);
          vsize := n |}.

(** v[i], read.  Past size() it is undefined behaviour in C++; a checked
    build stops, an unchecked build returns the stale entry if there is one. *)
Definition vget {A} (p : platform) (v : vec A) (i : nat) : res A :=
  if i <? vsize v then lget (vbuf v) i
  else if p_checked p then UB StaleRead
  else lget (vbuf v) i.

(** v[i] = a *)
Definition vset {A} (v : vec A) (i : nat) (a : A) : res (vec A) :=
  if i <? vsize v then do b <- lset (vbuf v) i a; Ok {| vbuf := b; vsize := vsize v |}
  else UB OobWrite.

(** ** int *)
Definition INT_MIN : Z := (- 2147483648)%Z.
Definition INT_MAX : Z := 2147483647%Z.
Definition in_int (z : Z) : bool := ((INT_MIN <=? z) && (z <=? INT_MAX))%Z.

(** conversion of a floating value, given by its truncation, to int *)
Definition to_int (o : option Z) : res Z :=
  match o with
  | Some z => if in_int z then Ok z else UB BadConversion
  | None => UB BadConversion
  end.
Definition int_add (a b : Z) : res Z :=
  if in_int (a + b) then Ok (a + b)%Z else UB BadConversion.
