(** Concrete data files, used to show that hypotheses of theorems can be met. *)
From Coq Require Import String.
From Coq Require Import ZArith List Bool Arith Ascii Lia.
From Verif Require Import Num Mem B64 DataStructure Examples FileReader SpecFile.
Import ListNotations.
Local Open Scope list_scope.

#[export] Instance Dec_BB : Dec BB := dec64.

Definition separatorb (c : ascii) : bool :=
  existsb (Ascii.eqb c) [","; " "; "009"; "011"; "012"; "013"]%char.
Definition digits_okb (ds : digits) : bool := forallb (fun d => d <? 10) ds.
Definition nonempty {X} (l : list X) : bool := match l with [] => false | _ => true end.
Definition literal_okb (l : literal) : bool :=
  digits_okb (l_int l) && digits_okb (frac_digits l) && nonempty (l_int l ++ frac_digits l) &&
  match l_exp l with
  | Some e => (Ascii.eqb (e_mark e) "e" || Ascii.eqb (e_mark e) "E") && digits_okb (e_digits e) && nonempty (e_digits e)
  | None => true
  end.
Fixpoint unreadableb (s : bytes) : bool :=
  match s with
  | [] => true
  | c :: r => if separatorb c then unreadableb r else negb (starts_number c)
  end.
Definition no_newlineb (s : bytes) : bool := forallb (fun c => negb (Ascii.eqb c NL)) s.
Definition row_okb (r : row) : bool :=
  forallb (fun f => forallb separatorb (fst f)) (r_fields r) &&
  forallb (fun f => nonempty (fst f)) (tl (r_fields r)) &&
  forallb (fun f => literal_okb (snd f)) (r_fields r) &&
  unreadableb (r_tail r) &&
  (if nonempty (r_fields r)
   then match r_tail r with c :: _ => negb (Ascii.eqb c "e") && negb (Ascii.eqb c "E") | [] => true end
   else match r_tail r with c :: _ => negb (Ascii.eqb c "#") | [] => true end) &&
  no_newlineb (r_tail r).
Definition line_okb (l : line) : bool :=
  match l with Comment s => no_newlineb s | Row r => row_okb r end.

Lemma separatorb_ok c : separatorb c = true -> separator c.
Proof.
  unfold separatorb. cbn. intros H. unfold separator.
  repeat (apply orb_prop in H; destruct H as [H|H]; [apply Ascii.eqb_eq in H; tauto|]). discriminate.
Qed.
Lemma separatorb_no c : separatorb c = false -> ~ separator c.
Proof. intros H [->|[->|[->|[->|[->| ->]]]]]; discriminate. Qed.
Lemma forallb_Forall {X} (f : X -> bool) (P : X -> Prop) l : (forall x, f x = true -> P x) -> forallb f l = true -> Forall P l.
Proof.
  intros Hf H. apply Forall_forall. intros x Hx. apply Hf. rewrite forallb_forall in H. apply H. exact Hx.
Qed.
Lemma nonempty_ok {X} (l : list X) : nonempty l = true -> l <> [].
Proof. destruct l; [discriminate|]. intros _ H. discriminate. Qed.
Lemma digits_okb_ok ds : digits_okb ds = true -> digits_ok ds.
Proof. apply forallb_Forall. intros x H. apply Nat.ltb_lt. exact H. Qed.
Lemma no_newlineb_ok s : no_newlineb s = true -> no_newline s.
Proof.
  intros H Hi. unfold no_newlineb in H. rewrite forallb_forall in H. apply H in Hi. discriminate.
Qed.
Lemma literal_okb_ok l : literal_okb l = true -> literal_ok l.
Proof.
  unfold literal_okb. intros H. apply andb_prop in H as [H H4]. apply andb_prop in H as [H H3]. apply andb_prop in H as [H1 H2].
  repeat split; [apply digits_okb_ok, H1|apply digits_okb_ok, H2|apply nonempty_ok, H3|].
  destruct (l_exp l) as [e|]; [|exact I]. apply andb_prop in H4 as [H4 H6]. apply andb_prop in H4 as [H4 H5].
  split; [|split; [apply digits_okb_ok, H5|apply nonempty_ok, H6]].
  apply orb_prop in H4 as [H4|H4]; apply Ascii.eqb_eq in H4; [left|right]; exact H4.
Qed.
Lemma unreadableb_ok s : unreadableb s = true -> unreadable s.
Proof.
  induction s as [|c s IH]; cbn [unreadableb]; intros H; [constructor; constructor|].
  destruct (separatorb c) eqn:E.
  - destruct (IH H) as [s0 H0|s0 c0 r H0 Hc Hn].
    + constructor. constructor; [apply separatorb_ok, E|exact H0].
    + apply (unreadable_text (c :: s0) c0 r); try assumption. constructor; [apply separatorb_ok, E|exact H0].
  - apply (unreadable_text [] c s); [constructor|apply separatorb_no, E|]. destruct (starts_number c); [discriminate|reflexivity].
Qed.
Lemma row_okb_ok r : row_okb r = true -> row_ok r.
Proof.
  unfold row_okb. intros H. apply andb_prop in H as [H H6]. apply andb_prop in H as [H H5]. apply andb_prop in H as [H H4].
  apply andb_prop in H as [H H3]. apply andb_prop in H as [H1 H2]. constructor.
  - revert H1. apply forallb_Forall. intros f. apply forallb_Forall. exact separatorb_ok.
  - revert H2. apply forallb_Forall. intros f. apply nonempty_ok.
  - revert H3. apply forallb_Forall. intros f. apply literal_okb_ok.
  - apply unreadableb_ok, H4.
  - intros Hn. destruct (r_fields r); [congruence|]. cbn [nonempty] in H5. destruct (r_tail r) as [|c s]; [exact I|].
    apply andb_prop in H5 as [H5 H7]. cbn. split; apply Ascii.eqb_neq; [destruct (c =? "e")%char|destruct (c =? "E")%char];
      (reflexivity || discriminate).
  - apply no_newlineb_ok, H6.
  - intros E. rewrite E in H5. cbn [nonempty] in H5. destruct (r_tail r) as [|c s]; [exact I|].
    apply Ascii.eqb_neq. destruct (c =? "#")%char; (reflexivity || discriminate).
Qed.
Lemma line_okb_ok l : line_okb l = true -> line_ok l.
Proof. destruct l; [apply no_newlineb_ok|apply row_okb_ok]. Qed.

Definition fitsb (l : literal) : bool := match nfloor (value_of (A := BB) l) with Some _ => true | None => false end.
Lemma fitsb_ok l : fitsb l = true -> fits (A := BB) l.
Proof. unfold fitsb, fits. destruct (nfloor (value_of l)); [discriminate 2|discriminate]. Qed.

Definition lines_okb (ls : list line) : bool := forallb line_okb ls && forallb (fun l => forallb fitsb (literals_of l)) ls.
Lemma lines_okb_ok ls : lines_okb ls = true ->
  Forall line_ok ls /\ Forall (fun l => Forall (fits (A := BB)) (literals_of l)) ls.
Proof.
  unfold lines_okb. intros H. apply andb_prop in H as [H1 H2]. split.
  - revert H1. apply forallb_Forall. exact line_okb_ok.
  - revert H2. apply forallb_Forall. intros l. apply forallb_Forall. exact fitsb_ok.
Qed.

(** ** Lines *)
Definition txt (s : string) : bytes := list_ascii_of_string s.
Definition whole (n : list nat) : literal := {| l_sign := NoSign; l_int := n; l_frac := None; l_exp := None |}.
Definition lit_1_5 : literal := {| l_sign := Plus; l_int := [1]; l_frac := Some [5; 0]; l_exp := None |}.
Definition lit_25e_2 : literal :=
  {| l_sign := Minus; l_int := [0; 2; 5]; l_frac := None; l_exp := Some {| e_mark := "E"; e_sign := Minus; e_digits := [2] |} |}.

Definition comment_line : line := Comment (txt " from the telescope").
Definition header_line : line := Row {| r_fields := []; r_tail := txt "time,flux" |}.
Definition lone_line : line := Row {| r_fields := [([], whole [8])]; r_tail := txt "th night" |}.
(** " 0, -025E-2 nan" *)
Definition line_a : line :=
  Row {| r_fields := [(txt " ", whole [0]); (txt ", ", lit_25e_2)]; r_tail := txt " nan" |}.
(** "+1.50<tab>7<cr>" *)
Definition line_b : line :=
  Row {| r_fields := [([], lit_1_5); ([("009")%char], whole [7])]; r_tail := [("013")%char] |}.
(** "2 3 4" *)
Definition line_c : line :=
  Row {| r_fields := [([], whole [2]); (txt " ", whole [3]); (txt " ", whole [4])]; r_tail := [] |}.
(** "4 5 6 7 8" *)
Definition line_d : line :=
  Row {| r_fields := [([], whole [4]); (txt " ", whole [5]); (txt " ", whole [6]); (txt " ", whole [7]); (txt " ", whole [8])];
         r_tail := [] |}.
