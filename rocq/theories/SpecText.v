(** Vocabulary for the layout of data files (used in statements only). *)
From Coq Require Import List Bool Arith Ascii.
From Verif Require Import FileReader.
Import ListNotations.
Local Open Scope list_scope.

(** the pieces of a text between the characters with [p]; one piece more than there are such characters *)
Fixpoint split (p : ascii -> bool) (s : bytes) : list bytes :=
  match s with
  | [] => [[]]
  | c :: r =>
      if p c then [] :: split p r
      else match split p r with
           | w :: ws => (c :: w) :: ws
           | [] => [[c]]
           end
  end.

Definition nonempty {X} (l : list X) : bool := match l with [] => false | _ => true end.

(** comma, space, horizontal and vertical tab, form feed, carriage return *)
Definition is_separator (c : ascii) : bool :=
  existsb (Ascii.eqb c) [","; " "; "009"; "011"; "012"; "013"]%char.
Definition is_newline (c : ascii) : bool := Ascii.eqb c "010"%char.

(** the words of a line, and the rows of words of a file: the lines that have a word *)
Definition words (s : bytes) : list bytes := filter nonempty (split is_separator s).
Definition rows (s : bytes) : list (list bytes) := filter nonempty (map words (split is_newline s)).

(** line ends as written by other systems *)
Definition CR : ascii := "013"%char.
Definition with_crlf (s : bytes) : bytes := flat_map (fun c => if is_newline c then [CR; c] else [c]) s.
Definition with_cr (s : bytes) : bytes := map (fun c => if is_newline c then CR else c) s.

(** the same character, or both separators *)
Definition same_char (c c' : ascii) : Prop := c = c' \/ (is_separator c = true /\ is_separator c' = true).
