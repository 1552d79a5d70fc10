(** Vocabulary for statements about every ordering of a list of values. *)
From Coq Require Import Reals List Bool Arith.
Import ListNotations.

(** all lists of [n] numbers below [k] *)
Fixpoint words (k n : nat) : list (list nat) :=
  match n with
  | O => [[]]
  | S m => flat_map (fun i => map (cons i) (words k m)) (seq 0 k)
  end.

(** no number occurs twice *)
Fixpoint distinct (l : list nat) : bool :=
  match l with
  | [] => true
  | x :: m => negb (existsb (Nat.eqb x) m) && distinct m
  end.

(** all orders of [0 .. n-1]: the lists of [n] numbers below [n] without repetition *)
Definition orders (n : nat) : list (list nat) :=
  filter distinct (words n n).

(** the list [rs] in every order (equal values in different places count as different) *)
Definition orderings (rs : list R) : list (list R) :=
  map (map (fun i => nth i rs 0%R)) (orders (length rs)).
