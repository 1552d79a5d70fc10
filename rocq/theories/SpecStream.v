(** Vocabulary for files read in blocks (used in statements only). *)
From Coq Require Import List Ascii.
From Verif Require Import Num DataStructure FileReader SpecFile.
Import ListNotations.
Local Open Scope list_scope.

(** no block is empty *)
Definition full (bs : list bytes) : Prop := Forall (fun b => b <> []) bs.

(** empty, or ends with a newline *)
Definition whole_lines (a : bytes) : Prop := a = [] \/ exists a', a = a' ++ ["010"%char].

Definition prefix {X} (l l' : list X) : Prop := exists r, l' = l ++ r.

(** the points of [d] are the first points of [d'], and both or neither have errors *)
Definition first_points {A : Num} (d d' : dstruct) : Prop :=
  prefix (timeseries d) (timeseries d') /\ prefix (data_ d) (data_ d') /\ prefix (err d) (err d') /\
  length (timeseries d) = length (data_ d) /\ length (timeseries d') = length (data_ d') /\ (err d = [] <-> err d' = []).

(** some elements of a list, in their order *)
Inductive sublist {X} : list X -> list X -> Prop :=
| sub_nil : sublist [] []
| sub_keep x l l' : sublist l l' -> sublist (x :: l) (x :: l')
| sub_drop x l l' : sublist l l' -> sublist l (x :: l').

(** a line with only the first numbers of another *)
Definition cut_short (l' l : line) : Prop := exists k, literals_of l' = firstn k (literals_of l).

(** the points of a data structure with one dataset *)
Definition points {A : Num} (d : dstruct) : list (num * num) := combine (timeseries d) (data_ d).
