(** Model of the file constructor, sacf/datastructure/DataStructure.cpp:90-138.

    A file is a list of bytes.  The formatted input operator for [double] is
    the one of libstdc++ in the classic locale (bits/locale_facets.tcc:
    num_get::_M_extract_float, and __convert_to_v, which calls strtod). *)
From Coq Require Import ZArith List Bool Arith Ascii String Reals.
From Coq Require Import Floats.SpecFloat.
From Flocq Require Import Core BinarySingleNaN Div.
From Verif Require Import Num Mem XR B64 DataStructure.
Import ListNotations.
Local Open Scope list_scope.

Definition bytes := list ascii.

Definition NL : ascii := "010".            (* '\n' *)
Definition ch_hash : ascii := "#".
Definition ch_comma : ascii := ",".
Definition ch_space : ascii := " ".
Definition ch_dot : ascii := ".".
Definition ch_plus : ascii := "+".
Definition ch_minus : ascii := "-".
Definition ch_e : ascii := "e".
Definition ch_E : ascii := "E".
Definition ch_0 : ascii := "0".

Definition code (c : ascii) : Z := Z.of_nat (nat_of_ascii c).
Definition is_space (c : ascii) : bool :=            (* isspace, C locale *)
  (code c =? 32)%Z || ((9 <=? code c)%Z && (code c <=? 13)%Z).
Definition is_digit (c : ascii) : bool := (48 <=? code c)%Z && (code c <=? 57)%Z.
Definition is_sign (c : ascii) : bool := Ascii.eqb c ch_plus || Ascii.eqb c ch_minus.

(** the conversion made by strtod: the number (-1)^neg * mant * 10^expo,
    correctly rounded *)
Class Dec (A : Num) := ndec : forall (neg : bool) (mant expo : Z), num.

(** ** The characters taken by _M_extract_float *)

(** optional sign *)
Definition take_sign (s : bytes) : bytes * bytes :=
  match s with
  | c :: r => if is_sign c then ([c], r) else ([], s)
  | [] => ([], [])
  end.

(** leading zeros: only the first is kept *)
Fixpoint take_zeros (found_mantissa : bool) (s : bytes) : bytes * bool * bytes :=
  match s with
  | c :: r =>
      if Ascii.eqb c ch_0 then
        let '(x, f, r') := take_zeros true r in
        ((if found_mantissa then x else ch_0 :: x), f, r')
      else ([], found_mantissa, s)
  | [] => ([], found_mantissa, [])
  end.

(** digits, one decimal point before the exponent, one exponent mark after a
    digit, with an optional sign *)
Fixpoint take_body (found_mantissa found_dec found_sci : bool) (s : bytes) : bytes * bytes :=
  match s with
  | [] => ([], [])
  | c :: r =>
      if is_digit c then
        let (x, r') := take_body true found_dec found_sci r in (c :: x, r')
      else if Ascii.eqb c ch_dot && negb found_dec && negb found_sci then
        let (x, r') := take_body found_mantissa true found_sci r in (ch_dot :: x, r')
      else if (Ascii.eqb c ch_e || Ascii.eqb c ch_E) && negb found_sci && found_mantissa then
        match r with
        | d :: r1 =>
            if is_sign d
            then let (x, r') := take_body found_mantissa found_dec true r1 in (ch_e :: d :: x, r')
            else let (x, r') := take_body found_mantissa found_dec true r in (ch_e :: x, r')
        | [] => ([ch_e], [])
        end
      else ([], s)
  end.

Definition take_float (s : bytes) : bytes * bytes :=
  let (x1, r1) := take_sign s in
  let '(x2, f, r2) := take_zeros false r1 in
  let (x3, r3) := take_body f false false r2 in
  (x1 ++ x2 ++ x3, r3).

(** ** strtod on such characters; None: not all of them are consumed *)
Fixpoint span_digits (s : bytes) : bytes * bytes :=
  match s with
  | c :: r => if is_digit c then let (x, r') := span_digits r in (c :: x, r') else ([], s)
  | [] => ([], [])
  end.
Definition digits_value (s : bytes) : Z :=
  fold_left (fun a c => (10 * a + (code c - 48))%Z) s 0%Z.
Definition sign_and_rest (s : bytes) : bool * bytes :=
  match s with
  | c :: r => if Ascii.eqb c ch_minus then (true, r) else if Ascii.eqb c ch_plus then (false, r) else (false, s)
  | [] => (false, [])
  end.

Definition strtod_all (s : bytes) : option (bool * Z * Z) :=
  let (neg, r) := sign_and_rest s in
  let (ip, r1) := span_digits r in
  let (fp, r2) := match r1 with
                  | c :: r' => if Ascii.eqb c ch_dot then span_digits r' else ([], r1)
                  | [] => ([], r1)
                  end in
  match ip ++ fp with
  | [] => None
  | _ =>
      let m := digits_value (ip ++ fp) in
      let e0 := (- Z.of_nat (List.length fp))%Z in
      match r2 with
      | [] => Some (neg, m, e0)
      | c :: r3 =>
          if Ascii.eqb c ch_e then
            let (eneg, r4) := sign_and_rest r3 in
            let (ep, r5) := span_digits r4 in
            match ep, r5 with
            | _ :: _, [] =>
                let ev := digits_value ep in
                Some (neg, m, (if eneg then - ev else ev) + e0)%Z
            | _, _ => None
            end
          else None
      end
  end.

Section Reader.
Context {A : Num} {D : Dec A}.

Fixpoint skip_ws (s : bytes) : bytes :=
  match s with
  | c :: r => if is_space c then skip_ws r else s
  | [] => []
  end.

(** [linestream >> x]: None sets failbit, after which every extraction fails.
    An overflow to infinity also sets failbit. *)
Definition extract (s : bytes) : option (num * bytes) :=
  match skip_ws s with
  | [] => None
  | s1 =>
      let (x, r) := take_float s1 in
      match strtod_all x with
      | None => None
      | Some (neg, m, e) =>
          let v := ndec neg m e in
          match nfloor v with None => None | Some _ => Some (v, r) end
      end
  end.

(** the local variables of the constructor *)
Record rstate := {
  t_in : list num; data_in : list num; data_err_in : list num;
  has_errors : bool; update_has_errors : bool
}.

(** DataStructure.cpp:116-119; the second component is the stream, None when
    an extraction has failed *)
Fixpoint read_errors (fuel : nat) (s : bytes) (st : rstate) : res (rstate * option bytes) :=
  match fuel with
  | 0 => Diverge
  | S fuel' =>
      match extract s with
      | None => Ok (st, None)
      | Some (x, s') =>
          if has_errors st then
            read_errors fuel' s'
              {| t_in := t_in st; data_in := data_in st; data_err_in := data_err_in st ++ [x];
                 has_errors := has_errors st; update_has_errors := false |}
          else Ok (st, Some s')
      end
  end.

(** DataStructure.cpp:113-123 *)
Fixpoint read_points (fuel : nat) (s : bytes) (st : rstate) : res rstate :=
  match fuel with
  | 0 => Diverge
  | S fuel' =>
      match extract s with
      | None => Ok st
      | Some (t_val, s1) =>
          match extract s1 with
          | None => Ok st
          | Some (x_val, s2) =>
              do r <- read_errors fuel' s2
                 {| t_in := t_in st ++ [t_val]; data_in := data_in st ++ [x_val];
                    data_err_in := data_err_in st;
                    has_errors := has_errors st; update_has_errors := update_has_errors st |};
              let st1 := fst r in
              let st2 := if update_has_errors st1
                         then {| t_in := t_in st1; data_in := data_in st1; data_err_in := data_err_in st1;
                                 has_errors := false; update_has_errors := update_has_errors st1 |}
                         else st1 in
              match snd r with
              | None => Ok st2
              | Some s3 => read_points fuel' s3 st2
              end
          end
      end
  end.

(** DataStructure.cpp:103-124 for one line.  [line[0]] of an empty line is
    the terminating NUL. *)
Definition read_line (st : rstate) (line : bytes) : res rstate :=
  let commented := match line with c :: _ => Ascii.eqb c ch_hash | [] => false end in
  if commented then Ok st
  else
    let line' := map (fun c => if Ascii.eqb c ch_comma then ch_space else c) line in
    read_points (S (List.length line')) line' st.

(** DataStructure.cpp:102: what the calls of getline deliver; nothing after a
    final newline *)
Fixpoint lines (s : bytes) : list bytes :=
  match s with
  | [] => []
  | c :: r =>
      if Ascii.eqb c NL then [] :: lines r
      else match lines r with
           | [] => [[c]]
           | l :: ls => (c :: l) :: ls
           end
  end.

Fixpoint read_lines (ls : list bytes) (st : rstate) : res rstate :=
  match ls with
  | [] => Ok st
  | l :: ls' => do st' <- read_line st l; read_lines ls' st'
  end.

Definition rstart : rstate :=
  {| t_in := []; data_in := []; data_err_in := []; has_errors := true; update_has_errors := true |}.

(** DataStructure.cpp:90-138; [file] is None when it cannot be opened *)
Definition ds_file (file : option bytes) : res dstruct :=
  match file with
  | None => Throw BadDataFileReadException
  | Some s =>
      do st <- read_lines (lines s) rstart;
      setUp (t_in st) (data_in st) (if has_errors st then data_err_in st else []) 1 (List.length (t_in st))
  end.

End Reader.

(** ** The decimal conversion *)

(** correctly rounded quotient of two positive integers *)
Definition quotient64 (neg : bool) (n d : Z) : b64 :=
  let '(m, e, l) := @Fdiv radix2 (SpecFloat.fexp 53 1024) (Float radix2 n 0) (Float radix2 d 0) in
  match binary_round_aux 53 1024 mode_NE neg m e l with
  | S754_finite s m' e' =>
      (match bounded 53 1024 m' e' as b return bounded 53 1024 m' e' = b -> b64 with
       | true => fun H => B754_finite s m' e' H
       | false => fun _ => B754_nan
       end) eq_refl
  | S754_zero s => B754_zero s
  | S754_infinity s => B754_infinity s
  | S754_nan => B754_nan
  end.

Definition dec64 (neg : bool) (m e : Z) : b64 :=
  if (m =? 0)%Z then B754_zero neg
  else if (0 <=? e)%Z then quotient64 neg (m * 10 ^ e) 1
  else quotient64 neg m (10 ^ (- e)).

#[export] Instance Dec_B64 (exp64 : b64 -> b64) : Dec (B64 exp64) := dec64.

(** m * 10^e *)
Definition decR (neg : bool) (m e : Z) : R :=
  (IZR (if neg then - m else m) * (if 0 <=? e then IZR (10 ^ e) else / IZR (10 ^ (- e)))%Z)%R.
#[export] Instance Dec_XR : Dec XR := fun neg m e => Fin (decR neg m e).
