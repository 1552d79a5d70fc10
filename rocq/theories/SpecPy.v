(** Vocabulary for Python arguments (used in statements only). *)
From Coq Require Import ZArith List Bool Arith Ascii.
From Verif Require Import Num Mem Spec Correlator Api PyBind.
Import ListNotations.

Section SpecPy.
Context {A : Num}.

(** Python numbers and the double they stand for; an int must not be too large *)
Inductive number : pyval -> num -> Prop :=
| number_float x : number (PyFloat x) x
| number_int z : finite (nofZ z) -> number (PyInt z) (nofZ z)
| number_other x : number (PyNumber x) x.

(** whatever float() accepts: numbers, and arrays with a single element *)
Inductive floatable : pyval -> num -> Prop :=
| floatable_number v x : number v x -> floatable v x
| floatable_array v x : floatable v x -> floatable (PyArray [v]) x.

(** sequences (list, tuple, array) of such *)
Inductive sequence_of {X} (P : pyval -> X -> Prop) : pyval -> list X -> Prop :=
| sequence_list l xs : Forall2 P l xs -> sequence_of P (PySeq l) xs
| sequence_array l xs : Forall2 P l xs -> sequence_of P (PyArray l) xs.

Definition numbers : pyval -> list num -> Prop := sequence_of number.
Definition rows : pyval -> list (list num) -> Prop := sequence_of numbers.

(** the same with floats only *)
Inductive is_float : pyval -> num -> Prop := is_float_intro x : is_float (PyFloat x) x.
Definition floats : pyval -> list num -> Prop := sequence_of is_float.
Definition float_rows : pyval -> list (list num) -> Prop := sequence_of floats.

Definition floatables : pyval -> list num -> Prop := sequence_of floatable.
Definition floatable_rows : pyval -> list (list num) -> Prop := sequence_of floatables.

Definition elements (v : pyval) : list pyval := match v with PySeq l | PyArray l => l | _ => [] end.

(** some row is not an array with a single element *)
Definition not_a_column (v : pyval) : Prop := exists w, In w (elements v) /\ forall u, w <> PyArray [u].

(** an optional numeric argument: None, or a number *)
Inductive optional : pyval -> option num -> Prop :=
| optional_none : optional PyNone None
| optional_some v x : floatable v x -> optional v (Some x).

End SpecPy.
