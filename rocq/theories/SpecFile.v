(** Vocabulary for the text of data files (used in statements only). *)
From Coq Require Import String.
From Coq Require Import ZArith Reals List Bool Arith Ascii.
From Flocq Require Import Core BinarySingleNaN.
From Verif Require Import Num B64 FileReader.
Import ListNotations.
Local Open Scope list_scope.

(** ** Decimal literals: digits with an optional sign, point and exponent *)
Definition digits := list nat.
Definition char_of_digit (d : nat) : ascii := ascii_of_nat (48 + d).
Definition text_of_digits (ds : digits) : bytes := map char_of_digit ds.
Definition value_of_digits (ds : digits) : Z := fold_left (fun a d => (10 * a + Z.of_nat d)%Z) ds 0%Z.

Inductive sgn := NoSign | Plus | Minus.
Definition text_of_sign (s : sgn) : bytes :=
  match s with NoSign => [] | Plus => ["+"%char] | Minus => ["-"%char] end.
Definition negative (s : sgn) : bool := match s with Minus => true | _ => false end.

Record exponent := { e_mark : ascii; e_sign : sgn; e_digits : digits }.
Record literal := { l_sign : sgn; l_int : digits; l_frac : option digits; l_exp : option exponent }.

Definition frac_digits (l : literal) : digits := match l_frac l with Some f => f | None => [] end.
Definition text_of_exponent (e : exponent) : bytes :=
  e_mark e :: text_of_sign (e_sign e) ++ text_of_digits (e_digits e).
Definition text_of_literal (l : literal) : bytes :=
  text_of_sign (l_sign l) ++ text_of_digits (l_int l) ++
  match l_frac l with Some f => "."%char :: text_of_digits f | None => [] end ++
  match l_exp l with Some e => text_of_exponent e | None => [] end.

Definition digits_ok (ds : digits) : Prop := Forall (fun d => d < 10) ds.
(** at least one digit before or after the point, and in the exponent *)
Definition literal_ok (l : literal) : Prop :=
  digits_ok (l_int l) /\ digits_ok (frac_digits l) /\ l_int l ++ frac_digits l <> [] /\
  match l_exp l with
  | Some e => (e_mark e = "e"%char \/ e_mark e = "E"%char) /\ digits_ok (e_digits e) /\ e_digits e <> []
  | None => True
  end.

(** the literal stands for (-1)^sign * mantissa * 10^scale *)
Definition mantissa (l : literal) : Z := value_of_digits (l_int l ++ frac_digits l).
Definition scale (l : literal) : Z :=
  (match l_exp l with
   | Some e => if negative (e_sign e) then - value_of_digits (e_digits e) else value_of_digits (e_digits e)
   | None => 0
   end - Z.of_nat (List.length (frac_digits l)))%Z.

(** the real number a literal stands for *)
Definition literal_real (l : literal) : R :=
  (IZR (if negative (l_sign l) then - mantissa l else mantissa l) * powerRZ 10 (scale l))%R.

(** the double nearest to it (ties to even), if the exponent range has no end *)
Definition nearest_double (l : literal) : R := round radix2 (FLT_exp (-1074) 53) ZnearestE (literal_real l).
Definition in_range (l : literal) : Prop := (Rabs (nearest_double l) < bpow radix2 1024)%R.
(** the double [x] is the literal, rounded; a zero has the sign of the literal *)
Definition reads_as (l : literal) (x : b64) : Prop :=
  is_finite x = true /\ B2R x = nearest_double l /\ Bsign x = negative (l_sign l).
(** the double [x] is the literal without rounding *)
Definition denotes (l : literal) (x : b64) : Prop :=
  is_finite x = true /\ B2R x = literal_real l /\ Bsign x = negative (l_sign l).

(** ** Lines *)
Definition separator (c : ascii) : Prop :=
  c = ","%char \/ c = " "%char \/ c = "009"%char \/ c = "011"%char \/ c = "012"%char \/ c = "013"%char.
(** a character a number can begin with *)
Definition starts_number (c : ascii) : bool :=
  existsb (Ascii.eqb c) (list_ascii_of_string "0123456789+-."%string).

Definition no_newline (s : bytes) : Prop := ~ In NL s.

(** text on which reading numbers ends: nothing but separators, or separators
    and then a character that cannot begin a number *)
Inductive unreadable : bytes -> Prop :=
| unreadable_end s : Forall separator s -> unreadable s
| unreadable_text s c r : Forall separator s -> ~ separator c -> starts_number c = false -> unreadable (s ++ c :: r).

(** fields with separators in front of each (at least one between two fields),
    then text that does not belong to the last field and cannot be read *)
Record row := { r_fields : list (bytes * literal); r_tail : bytes }.
Definition text_of_row (r : row) : bytes :=
  concat (map (fun f => fst f ++ text_of_literal (snd f)) (r_fields r)) ++ r_tail r.
Definition no_exponent (s : bytes) : Prop :=
  match s with [] => True | c :: _ => c <> "e"%char /\ c <> "E"%char end.

Record row_ok (r : row) : Prop := {
  ro_seps : Forall (fun f => Forall separator (fst f)) (r_fields r);
  ro_between : Forall (fun f => fst f <> []) (tl (r_fields r));
  ro_lits : Forall (fun f => literal_ok (snd f)) (r_fields r);
  ro_tail : unreadable (r_tail r);
  ro_tail_sep : r_fields r <> [] -> no_exponent (r_tail r);
  ro_nl : no_newline (r_tail r);
  ro_first : r_fields r = [] -> match r_tail r with c :: _ => c <> "#"%char | [] => True end
}.

Inductive line := Comment (text : bytes) | Row (r : row).
Definition text_of_line (l : line) : bytes :=
  match l with Comment s => "#"%char :: s | Row r => text_of_row r end.
Definition line_ok (l : line) : Prop :=
  match l with Comment s => no_newline s | Row r => row_ok r end.
Definition literals_of (l : line) : list literal :=
  match l with Comment _ => [] | Row r => map snd (r_fields r) end.

(** every line is followed by a newline *)
Definition text_of_lines (ls : list line) : bytes := concat (map (fun l => text_of_line l ++ [NL]) ls).

(** every line with at least two numbers has [n] of them *)
Definition all_of (n : nat) (ls : list line) : Prop :=
  Forall (fun l => List.length (literals_of l) < 2 \/ List.length (literals_of l) = n) ls.

(** field [i] of the lines with at least two numbers *)
Definition column (i : nat) (ls : list line) : list literal :=
  flat_map (fun l => if 2 <=? List.length (literals_of l)
                     then match nth_error (literals_of l) i with Some x => [x] | None => [] end else []) ls.

Section Columns.
Context {A : Num} {D : Dec A}.

Definition value_of (l : literal) : num := ndec (negative (l_sign l)) (mantissa l) (scale l).
(** its value is not too large *)
Definition fits (l : literal) : Prop := nfloor (value_of l) <> None.

Definition numbers_of (l : line) : list num := map value_of (literals_of l).
Definition is_data (l : list num) : bool := 2 <=? List.length l.

(** the data lines of a file, each given by its numbers *)
Definition data_lines (ls : list line) : list (list num) := filter is_data (map numbers_of ls).

(** the points of a data line when the file has no errors: of each three numbers the third is dropped *)
Fixpoint points_of (l : list num) : list (num * num) :=
  match l with
  | a :: b :: r => (a, b) :: match r with _ :: r' => points_of r' | [] => [] end
  | _ => []
  end.

(** the columns of a file from the numbers on its data lines *)
Definition with_errors_column (dl : list (list num)) : Prop :=
  match dl with l :: _ => 3 <= List.length l | [] => False end.
Definition times_col (dl : list (list num)) : list num := map (fun l => nth 0 l nzero) dl.
Definition values_col (dl : list (list num)) : list num := map (fun l => nth 1 l nzero) dl.
Definition errors_col (dl : list (list num)) : list num := concat (map (skipn 2) dl).

End Columns.
