(** The numbers of a file depend on the rows of words only. *)
From Coq Require Import String.
From Coq Require Import ZArith List Bool Arith Ascii Lia.
From Verif Require Import Num Mem DataStructure Correlator Sacf FileReader SpecFile SpecText DSFacts FileFacts ConstrFacts FileThms.
Import ListNotations.
Local Open Scope list_scope.

(** ** Splitting *)
Lemma split_some p s : exists w ws, split p s = w :: ws.
Proof.
  induction s as [|c s (w & ws & E)]; cbn [split]; [eauto|]. destruct (p c); [eauto|]. rewrite E. eauto.
Qed.

Definition free (p : ascii -> bool) (s : bytes) : Prop := forallb (fun c => negb (p c)) s = true.
Definition ends (p : ascii -> bool) (s : bytes) : Prop := match s with [] => True | c :: _ => p c = true end.

Lemma split_app p w rest : free p w -> split p (w ++ rest) =
  match split p rest with v :: vs => (w ++ v) :: vs | [] => [w] end.
Proof.
  unfold free. induction w as [|c w IH]; cbn [forallb app split]; intros H.
  - destruct (split_some p rest) as (v & vs & ->). reflexivity.
  - apply andb_prop in H as [H1 H2]. apply negb_true_iff in H1. rewrite H1, IH by exact H2.
    destruct (split_some p rest) as (v & vs & ->). reflexivity.
Qed.

Lemma words_sep c s : is_separator c = true -> words (c :: s) = words s.
Proof. intros H. unfold words. cbn [split]. rewrite H. reflexivity. Qed.
Lemma words_seps sp s : forallb is_separator sp = true -> words (sp ++ s) = words s.
Proof.
  induction sp as [|c sp IH]; [reflexivity|]. cbn [forallb app]. intros H. apply andb_prop in H as [H1 H2].
  rewrite words_sep by exact H1. apply IH, H2.
Qed.
Lemma words_word w rest : free is_separator w -> ends is_separator rest ->
  words (w ++ rest) = (if nonempty w then [w] else []) ++ words rest.
Proof.
  intros H He. unfold words. rewrite split_app by exact H. destruct rest as [|c r].
  - cbn [split]. rewrite app_nil_r. destruct w; reflexivity.
  - cbn [ends] in He. cbn [split]. rewrite He, app_nil_r. cbn [filter nonempty]. destruct w; reflexivity.
Qed.

(** the first word *)
Lemma words_form s :
  (words s = [] /\ forallb is_separator s = true) \/
  exists sp w rest, s = sp ++ w ++ rest /\ forallb is_separator sp = true /\ free is_separator w /\
    w <> [] /\ ends is_separator rest /\ words s = w :: words rest.
Proof.
  induction s as [|c s IH]; [left; split; reflexivity|]. destruct (is_separator c) eqn:Ec.
  - rewrite words_sep by exact Ec. destruct IH as [[IH1 IH2]|(sp & w & rest & -> & H2 & H3 & H4 & H5 & H6)].
    + left. split; [exact IH1|]. cbn [forallb]. rewrite Ec, IH2. reflexivity.
    + right. exists (c :: sp), w, rest. split; [reflexivity|]. split; [cbn [forallb]; rewrite Ec, H2; reflexivity|]. auto.
  - right. assert (K : exists w rest, c :: s = w ++ rest /\ free is_separator w /\ w <> [] /\ ends is_separator rest).
    { clear IH. revert c Ec. induction s as [|d s IH]; intros c Ec.
      - exists [c], []. repeat split; [unfold free; cbn [forallb]; rewrite Ec; reflexivity|discriminate].
      - destruct (is_separator d) eqn:Ed.
        + exists [c], (d :: s). repeat split; [unfold free; cbn [forallb]; rewrite Ec; reflexivity|discriminate|exact Ed].
        + destruct (IH d Ed) as (w & rest & E & H1 & H2 & H3). exists (c :: w), rest.
          split; [cbn [app]; rewrite <- E; reflexivity|]. split; [unfold free; cbn [forallb]; rewrite Ec; exact H1|].
          split; [discriminate|exact H3]. }
    destruct K as (w & rest & E & H1 & H2 & H3). exists [], w, rest. cbn [app]. repeat split; try assumption.
    rewrite E, words_word by assumption. destruct w; [contradiction|reflexivity].
Qed.

(** ** Characters *)
Lemma is_separator_spec c : is_separator c = true <-> separator c.
Proof.
  unfold is_separator, separator. cbn [existsb]. rewrite !orb_true_iff, !Ascii.eqb_eq. intuition discriminate.
Qed.
Lemma not_sep c : is_separator c = false -> c <> NL -> Ascii.eqb c ch_comma = false /\ is_space c = false.
Proof.
  intros H Hn. apply not_separator; [|exact Hn]. intros K. apply is_separator_spec in K. congruence.
Qed.
Lemma seps_spaces s : forallb is_separator s = true -> forallb is_space (uncomma s) = true.
Proof.
  intros H. apply separators_spaces. rewrite forallb_forall in H. apply Forall_forall. intros c Hc.
  apply is_separator_spec, H, Hc.
Qed.

Lemma free_uncomma w : free is_separator w -> no_newline w -> uncomma w = w.
Proof.
  unfold free, no_newline. induction w as [|c w IH]; [reflexivity|]. cbn [forallb uncomma map]. intros H Hn.
  apply andb_prop in H as [H1 H2]. apply negb_true_iff in H1.
  destruct (not_sep c H1) as [-> _]; [intros ->; apply Hn; left; reflexivity|]. f_equal. apply IH; [exact H2|].
  intros K. apply Hn. right. exact K.
Qed.

(** ** A number ends inside its word *)
Lemma ends_uncomma rest : ends is_separator rest -> ends is_space (uncomma rest).
Proof. destruct rest as [|c r]; [trivial|]. cbn [ends uncomma map]. intros H. apply separator_space, is_separator_spec, H. Qed.

Lemma space_plain c : is_space c = true -> is_digit c = false /\ is_sign c = false /\ Ascii.eqb c ch_dot = false /\
  Ascii.eqb c ch_e = false /\ Ascii.eqb c ch_E = false /\ Ascii.eqb c ch_0 = false.
Proof. destruct c as [[] [] [] [] [] [] [] []]; vm_compute; intros H; try discriminate; repeat split; reflexivity. Qed.

Definition glue (p : bytes * bytes) (rest : bytes) : bytes * bytes := (fst p, snd p ++ rest).

Lemma take_body_app rest : ends is_space rest -> forall w fm fd fs,
  take_body fm fd fs (w ++ rest) = glue (take_body fm fd fs w) rest.
Proof.
  intros He.
  assert (H0 : forall fm fd fs, take_body fm fd fs rest = ([], rest)).
  { intros fm fd fs. destruct rest as [|c r]; [reflexivity|]. cbn [ends] in He.
    destruct (space_plain c He) as (H1 & _ & H2 & H3 & H4 & _). apply take_body_stop. repeat split; assumption. }
  intros w. remember (length w) as n eqn:En. revert w En.
  induction n as [n IH] using (well_founded_induction lt_wf). intros w En fm fd fs.
  destruct w as [|c w]; [apply H0|]. cbn [app]. cbn [length] in En. cbn [take_body].
  assert (IHw : forall fm fd fs, take_body fm fd fs (w ++ rest) = glue (take_body fm fd fs w) rest)
    by (intros; apply (IH (length w)); [lia|reflexivity]).
  destruct (is_digit c).
  - rewrite IHw. destruct (take_body true fd fs w). reflexivity.
  - destruct (Ascii.eqb c ch_dot && negb fd && negb fs).
    + rewrite IHw. destruct (take_body fm true fs w). reflexivity.
    + destruct ((Ascii.eqb c ch_e || Ascii.eqb c ch_E) && negb fs && fm).
      * destruct w as [|d w].
        -- cbn [app]. destruct rest as [|d r]; [reflexivity|]. cbn [ends] in He.
           destruct (space_plain d He) as (_ & -> & _). rewrite H0. reflexivity.
        -- cbn [app]. destruct (is_sign d).
           ++ rewrite (IH (length w)) by (cbn [length] in En; lia || reflexivity).
              destruct (take_body fm fd true w). reflexivity.
           ++ specialize (IHw fm fd true). cbn [app] in IHw. rewrite IHw. destruct (take_body fm fd true (d :: w)). reflexivity.
      * reflexivity.
Qed.

Lemma take_zeros_app rest : ends is_space rest -> forall w fm,
  take_zeros fm (w ++ rest) = let '(x, f, r) := take_zeros fm w in (x, f, r ++ rest).
Proof.
  intros He. induction w as [|c w IH]; intros fm.
  - cbn [app take_zeros]. destruct rest as [|c r]; [reflexivity|]. cbn [ends] in He. cbn [take_zeros].
    destruct (space_plain c He) as (_ & _ & _ & _ & _ & ->). reflexivity.
  - cbn [app take_zeros]. destruct (Ascii.eqb c ch_0); [|reflexivity]. rewrite IH.
    destruct (take_zeros true w) as [[x f] r]. reflexivity.
Qed.

Lemma take_float_app w rest : w <> [] -> ends is_space rest -> take_float (w ++ rest) = glue (take_float w) rest.
Proof.
  intros Hw He. destruct w as [|c w]; [contradiction|]. unfold take_float. cbn [app take_sign].
  destruct (is_sign c).
  - rewrite take_zeros_app by exact He. destruct (take_zeros false w) as [[x f] r].
    rewrite take_body_app by exact He. destruct (take_body f false false r). reflexivity.
  - change (c :: w ++ rest) with ((c :: w) ++ rest). rewrite take_zeros_app by exact He.
    destruct (take_zeros false (c :: w)) as [[x f] r].
    rewrite take_body_app by exact He. destruct (take_body f false false r). reflexivity.
Qed.

(** what is left is the end of the word *)
Definition suffix (r s : bytes) : Prop := exists x, s = x ++ r.
Lemma suffix_refl s : suffix s s. Proof. exists []. reflexivity. Qed.
Lemma suffix_cons c r s : suffix r s -> suffix r (c :: s).
Proof. intros [x ->]. exists (c :: x). reflexivity. Qed.
Lemma suffix_trans a b c : suffix a b -> suffix b c -> suffix a c.
Proof. intros [x ->] [y ->]. exists (y ++ x). rewrite app_assoc. reflexivity. Qed.

Lemma take_body_suffix : forall s fm fd fs, suffix (snd (take_body fm fd fs s)) s.
Proof.
  intros s. remember (length s) as n eqn:En. revert s En.
  induction n as [n IH] using (well_founded_induction lt_wf). intros s En fm fd fs.
  destruct s as [|c s]; [apply suffix_refl|]. cbn [length] in En. cbn [take_body].
  assert (IHs : forall fm fd fs, suffix (snd (take_body fm fd fs s)) (c :: s))
    by (intros; apply suffix_cons, (IH (length s)); [lia|reflexivity]).
  destruct (is_digit c).
  - specialize (IHs true fd fs). destruct (take_body true fd fs s). exact IHs.
  - destruct (Ascii.eqb c ch_dot && negb fd && negb fs).
    + specialize (IHs fm true fs). destruct (take_body fm true fs s). exact IHs.
    + destruct ((Ascii.eqb c ch_e || Ascii.eqb c ch_E) && negb fs && fm); [|apply suffix_refl].
      destruct s as [|d s]; [exists [c]; reflexivity|]. destruct (is_sign d).
      * assert (K : suffix (snd (take_body fm fd true s)) s) by (apply (IH (length s)); [cbn [length] in En; lia|reflexivity]).
        destruct (take_body fm fd true s). apply suffix_cons, suffix_cons. exact K.
      * specialize (IHs fm fd true). destruct (take_body fm fd true (d :: s)). exact IHs.
Qed.
Lemma take_zeros_suffix : forall s fm, suffix (snd (take_zeros fm s)) s.
Proof.
  induction s as [|c s IH]; intros fm; cbn [take_zeros]; [apply suffix_refl|].
  destruct (Ascii.eqb c ch_0); [|apply suffix_refl]. specialize (IH true). destruct (take_zeros true s) as [[x f] r].
  apply suffix_cons. exact IH.
Qed.
Lemma take_float_suffix s : suffix (snd (take_float s)) s.
Proof.
  assert (K : forall t, suffix (snd (let '(x2, f, r2) := take_zeros false t in let (x3, r3) := take_body f false false r2 in (x2 ++ x3, r3))) t).
  { intros t. pose proof (take_zeros_suffix t false) as Z. destruct (take_zeros false t) as [[x f] r].
    pose proof (take_body_suffix r f false false) as Y. destruct (take_body f false false r). exact (suffix_trans _ _ _ Y Z). }
  unfold take_float. destruct s as [|c s]; cbn [take_sign].
  - apply suffix_refl.
  - destruct (is_sign c).
    + specialize (K s). destruct (take_zeros false s) as [[x f] r]. destruct (take_body f false false r). apply suffix_cons. exact K.
    + specialize (K (c :: s)). destruct (take_zeros false (c :: s)) as [[x f] r]. destruct (take_body f false false r). exact K.
Qed.

Lemma free_suffix p r s : suffix r s -> free p s -> free p r.
Proof. intros [x ->]. unfold free. rewrite forallb_app. intros H. apply andb_prop in H as [_ H]. exact H. Qed.
Lemma no_newline_suffix r s : suffix r s -> no_newline s -> no_newline r.
Proof. intros [x ->] H K. apply H, in_or_app. right. exact K. Qed.

Section Text.
Context {A : Num} {D : Dec A}.

(** what [extract] finds in a line with the given words *)
Definition extract_words (ws : list bytes) : option (num * list bytes) :=
  match ws with
  | [] => None
  | w :: ws' =>
      match extract w with
      | None => None
      | Some (v, r) => Some (v, (if nonempty r then [r] else []) ++ ws')
      end
  end.

Lemma extract_line s : no_newline s ->
  match extract_words (words s) with
  | None => extract (uncomma s) = None
  | Some (v, ws) => exists s', extract (uncomma s) = Some (v, uncomma s') /\ words s' = ws /\ no_newline s'
  end.
Proof.
  intros Hn. destruct (words_form s) as [[Ew Hs]|(sp & w & rest & -> & Hsp & Hw & Hne & Hr & Ew)]; rewrite Ew.
  - cbn [extract_words]. unfold extract. rewrite <- (app_nil_r (uncomma s)), skip_ws_spaces by (apply seps_spaces, Hs). reflexivity.
  - cbn [extract_words]. assert (Hnw : no_newline w) by (intros K; apply Hn, in_or_app; right; apply in_or_app; left; exact K).
    assert (Hnr : no_newline rest) by (intros K; apply Hn, in_or_app; right; apply in_or_app; right; exact K).
    rewrite !uncomma_app, (free_uncomma w) by assumption. unfold extract.
    rewrite skip_ws_spaces by (apply seps_spaces, Hsp). destruct w as [|c w]; [contradiction|].
    assert (Hc : is_space c = false).
    { unfold free in Hw. cbn [forallb] in Hw. apply andb_prop in Hw as [Hc _]. apply negb_true_iff in Hc.
      apply (not_sep c Hc). intros ->. apply Hnw. left. reflexivity. }
    cbn [app skip_ws]. rewrite Hc. change (c :: w ++ uncomma rest) with ((c :: w) ++ uncomma rest).
    rewrite take_float_app by (discriminate || apply ends_uncomma, Hr). pose proof (take_float_suffix (c :: w)) as S.
    destruct (take_float (c :: w)) as [x r]. cbn [glue fst snd] in S |- *.
    destruct (strtod_all x) as [[[neg m] e]|]; [|reflexivity]. cbv zeta. destruct (nfloor (ndec neg m e)); [|reflexivity].
    assert (Hfr : free is_separator r) by exact (free_suffix _ _ _ S Hw).
    assert (Hnn : no_newline r) by exact (no_newline_suffix _ _ S Hnw).
    exists (r ++ rest). split; [rewrite uncomma_app, (free_uncomma r) by assumption; reflexivity|].
    split; [apply words_word; assumption|]. apply no_newline_app; assumption.
Qed.

Lemma reads_words u l : reads u l -> forall s s', u = uncomma s -> no_newline s -> no_newline s' -> words s = words s' ->
  reads (uncomma s') l.
Proof.
  induction 1 as [u E|u v u' l E _ IH]; intros s s' -> Hn Hn' Ew; pose proof (extract_line s Hn) as K1;
    pose proof (extract_line s' Hn') as K2; rewrite <- Ew in K2.
  - destruct (extract_words (words s)) as [[v ws]|]; [|constructor; exact K2].
    destruct K1 as (t & K1 & _). congruence.
  - destruct (extract_words (words s)) as [[v0 ws]|]; [|congruence].
    destruct K1 as (t & K1 & W1 & N1). destruct K2 as (t' & K2 & W2 & N2). rewrite K1 in E. injection E as -> <-.
    econstructor; [exact K2|]. apply (IH t t' eq_refl N1 N2). congruence.
Qed.

Lemma reads_fun s l : reads s l -> forall l', reads s l' -> l = l'.
Proof.
  induction 1 as [s E|s v s' l E _ IH]; intros l' H'; inversion H'; subst; try congruence.
  rewrite E in H. injection H as -> ->. f_equal. apply IH. assumption.
Qed.

(** a comment reads as a line that starts with no number *)
Lemma line_reads_reads line l : line_reads line l <-> reads (uncomma line) l.
Proof.
  unfold line_reads. destruct line as [|c r]; [reflexivity|]. cbn [commented].
  destruct (Ascii.eqb_spec c ch_hash) as [->|_]; [|reflexivity].
  assert (K : extract (uncomma (ch_hash :: r)) = None) by (apply (extract_other [] ch_hash); reflexivity).
  split.
  - intros ->. constructor. exact K.
  - inversion 1; [reflexivity|congruence].
Qed.

Lemma line_reads_words line line' l : no_newline line -> no_newline line' -> words line = words line' ->
  line_reads line l -> line_reads line' l.
Proof. intros H1 H2 H. rewrite !line_reads_reads. intros K. exact (reads_words _ _ K _ _ eq_refl H1 H2 H). Qed.

(** ** Lines and rows *)
Lemma no_newline_lines s : Forall no_newline (lines s).
Proof.
  induction s as [|c s IH]; cbn [lines]; [constructor|]. destruct (Ascii.eqb_spec c NL) as [->|Hc].
  - constructor; [intros []|exact IH].
  - destruct (lines s) as [|l ls]; [constructor; [|constructor]; intros [E|[]]; congruence|].
    inversion IH; subst. constructor; [|assumption]. intros [E|E]; [congruence|contradiction].
Qed.

Lemma rows_lines s : rows s = filter nonempty (map words (lines s)).
Proof.
  unfold rows.
  assert (K : match lines s with [] => split is_newline s = [[]] | l :: ls => split is_newline s = lines s \/ split is_newline s = lines s ++ [[]] end).
  { induction s as [|c s IH]; [reflexivity|]. cbn [lines split]. change (is_newline c) with (Ascii.eqb c NL).
    destruct (Ascii.eqb c NL).
    - destruct (lines s) as [|l ls].
      + rewrite IH. right. reflexivity.
      + destruct IH as [-> | ->]; [left|right]; reflexivity.
    - destruct (lines s) as [|l ls].
      + rewrite IH. left. reflexivity.
      + destruct IH as [-> | ->]; [left|right]; reflexivity. }
  destruct (lines s) as [|l ls]; [rewrite K; reflexivity|]. destruct K as [-> | ->]; [reflexivity|].
  rewrite map_app, filter_app. cbn [map filter]. change (nonempty (words [])) with false. cbn iota. apply app_nil_r.
Qed.

Definition row_reads (ws : list bytes) (l : list num) : Prop :=
  forall line, no_newline line -> words line = ws -> line_reads line l.

Lemma rows_read ls ns : Forall no_newline ls -> Forall2 line_reads ls ns ->
  exists ns', Forall2 row_reads (filter nonempty (map words ls)) ns' /\ filter is_data ns = filter is_data ns' /\
  (Forall (fun ws => exists line, no_newline line /\ words line = ws) (filter nonempty (map words ls))).
Proof.
  intros Hn H. induction H as [|line l ls ns H HH IH]; [exists []; repeat split; constructor|].
  inversion Hn as [|? ? Hn1 Hn2]; subst. destruct (IH Hn2) as (ns' & K & E & W). cbn [map filter].
  destruct (nonempty (words line)) eqn:Ew.
  - exists (l :: ns'). split; [constructor; [|exact K]|].
    + intros line' Hl' Ewl. apply (line_reads_words line line'); auto.
    + split; [cbn [filter]; destruct (is_data l); rewrite E; reflexivity|]. constructor; [|exact W]. exists line. auto.
  - exists ns'. split; [exact K|]. split; [|exact W].
    assert (l = []) as ->.
    { apply line_reads_reads in H. pose proof (extract_line line Hn1) as X. destruct (words line); [|discriminate].
      cbn [extract_words] in X. inversion H; [reflexivity|congruence]. }
    exact E.
Qed.

Lemma row_reads_fun rs : Forall (fun ws => exists line, no_newline line /\ words line = ws) rs ->
  forall ns ns', Forall2 row_reads rs ns -> Forall2 row_reads rs ns' -> ns = ns'.
Proof.
  induction 1 as [|ws rs (line & Hl & E) _ IH]; intros ns ns' H H'; inversion H; inversion H'; subst; [reflexivity|].
  f_equal; [|apply IH; assumption]. 
  match goal with X : row_reads (words line) ?a, Y : row_reads (words line) ?b |- _ =>
    pose proof (proj1 (line_reads_reads _ _) (X line Hl eq_refl)) as X1; pose proof (proj1 (line_reads_reads _ _) (Y line Hl eq_refl)) as Y1 end.
  exact (reads_fun _ _ X1 _ Y1).
Qed.

Lemma file_rows f f' : rows f = rows f' -> ds_file (Some f) = ds_file (Some f').
Proof.
  intros E. destruct (lines_reads_exists (lines f)) as [ns H]. destruct (lines_reads_exists (lines f')) as [ns' H'].
  rewrite (ds_file_reads f ns H), (ds_file_reads f' ns' H').
  destruct (rows_read _ _ (no_newline_lines f) H) as (n1 & K1 & E1 & W1).
  destruct (rows_read _ _ (no_newline_lines f') H') as (n2 & K2 & E2 & W2).
  rewrite <- rows_lines in K1, K2, W1, W2. rewrite <- E in K2.
  rewrite E1, E2, (row_reads_fun _ W1 _ _ K1 K2). reflexivity.
Qed.

End Text.

(** ** Changes of layout that keep the rows *)
Lemma words_same s s' : Forall2 same_char s s' -> words s = words s'.
Proof.
  unfold words. intros H. assert (K : split is_separator s = split is_separator s'); [|rewrite K; reflexivity].
  induction H as [|c c' s s' Hc _ IH]; [reflexivity|]. cbn [split]. destruct Hc as [<-|[E1 E2]].
  - rewrite IH. reflexivity.
  - rewrite E1, E2, IH. reflexivity.
Qed.

Lemma sep_not_newline c : is_separator c = true -> is_newline c = false.
Proof. intros H. apply is_separator_spec in H. unfold separator in H. destruct H as [->|[->|[->|[->|[->| ->]]]]]; reflexivity. Qed.

Lemma split_newline_same s s' : Forall2 same_char s s' -> Forall2 (Forall2 same_char) (split is_newline s) (split is_newline s').
Proof.
  induction 1 as [|c c' s s' Hc H IH]; [repeat constructor|]. cbn [split].
  assert (E : is_newline c = is_newline c') by (destruct Hc as [<-|[E1 E2]]; [reflexivity|rewrite !sep_not_newline by assumption; reflexivity]).
  rewrite <- E. destruct (is_newline c); [constructor; [constructor|exact IH]|].
  destruct IH as [|w w' ws ws' Hw Hws]; [constructor; [constructor; [exact Hc|constructor]|constructor]|]. constructor; [constructor; assumption|exact Hws].
Qed.

Lemma rows_same s s' : Forall2 same_char s s' -> rows s = rows s'.
Proof.
  intros H. apply split_newline_same in H. unfold rows. f_equal. induction H as [|w w' ws ws' Hw _ IH]; [reflexivity|].
  cbn [map]. rewrite IH, (words_same w w') by exact Hw. reflexivity.
Qed.


Lemma words_trailing s c : is_separator c = true -> words (s ++ [c]) = words s.
Proof.
  intros H. unfold words. induction s as [|d s IH]; [cbn [app split]; rewrite H; reflexivity|]. cbn [app split].
  destruct (is_separator d); [cbn [filter nonempty]; exact IH|].
  destruct (split_some is_separator (s ++ [c])) as (w & ws & E). destruct (split_some is_separator s) as (v & vs & E').
  rewrite E, E' in IH |- *. assert (w = v /\ filter nonempty ws = filter nonempty vs).
  { clear IH. revert w ws v vs E E'. induction s as [|d' s IH]; intros w ws v vs E E'.
    - cbn [app split] in E, E'. rewrite H in E. injection E as <- <-. injection E' as <- <-. split; reflexivity.
    - cbn [app split] in E, E'. destruct (split_some is_separator (s ++ [c])) as (w1 & ws1 & E1).
      destruct (split_some is_separator s) as (v1 & vs1 & E1'). rewrite E1 in E. rewrite E1' in E'.
      destruct (IH _ _ _ _ E1 E1') as [-> K]. destruct (is_separator d').
      + injection E as <- <-. injection E' as <- <-. split; [reflexivity|]. cbn [filter]. rewrite K. reflexivity.
      + injection E as <- <-. injection E' as <- <-. split; [reflexivity|exact K]. }
  destruct H0 as [-> K]. cbn [filter nonempty]. rewrite K. reflexivity.
Qed.

Lemma rows_crlf s : rows (with_crlf s) = rows s.
Proof.
  unfold rows. f_equal.
  assert (K : forall w ws v vs, split is_newline (with_crlf s) = w :: ws -> split is_newline s = v :: vs ->
    map words ws = map words vs /\ (w = v \/ w = v ++ [CR])).
  { induction s as [|c s IH]; intros w ws v vs E E'.
    - cbn in E, E'. injection E as <- <-. injection E' as <- <-. auto.
    - cbn [with_crlf flat_map] in E. fold (with_crlf s) in E. cbn [split] in E'.
      destruct (split_some is_newline (with_crlf s)) as (w1 & ws1 & E1). destruct (split_some is_newline s) as (v1 & vs1 & E1').
      destruct (IH _ _ _ _ E1 E1') as [K1 K2]. rewrite E1' in E'. destruct (is_newline c) eqn:Ec.
      + cbn [app split] in E. change (is_newline CR) with false in E. rewrite Ec in E. cbn iota in E. rewrite E1 in E.
        injection E as <- <-. injection E' as <- <-. split; [|right; reflexivity]. cbn [map]. rewrite K1. f_equal.
        destruct K2 as [-> | ->]; [reflexivity|]. apply words_trailing. reflexivity.
      + cbn [app split] in E. rewrite Ec, E1 in E. injection E as <- <-. injection E' as <- <-. split; [exact K1|].
        destruct K2 as [-> | ->]; [left|right]; reflexivity. }
  destruct (split_some is_newline (with_crlf s)) as (w & ws & E). destruct (split_some is_newline s) as (v & vs & E').
  destruct (K _ _ _ _ E E') as [K1 K2]. rewrite E, E'. cbn [map]. rewrite K1. f_equal.
  destruct K2 as [-> | ->]; [reflexivity|]. apply words_trailing. reflexivity.
Qed.

Lemma rows_last_newline s : rows (s ++ [NL]) = rows s.
Proof.
  unfold rows.
  assert (K : split is_newline (s ++ [NL]) = split is_newline s ++ [[]]).
  { induction s as [|c s IH]; [reflexivity|]. cbn [app split]. rewrite IH. destruct (is_newline c); [reflexivity|].
    destruct (split_some is_newline s) as (w & ws & ->). reflexivity. }
  rewrite K, map_app, filter_app. cbn [map filter]. change (nonempty (words [])) with false. cbn iota. apply app_nil_r.
Qed.

(** ** Two files one after the other *)
Section Concat.
Context {A : Num} {D : Dec A}.

Lemma setUp_fields (t_in data_in err_in : list num) (N M : nat) (d : dstruct) : setUp t_in data_in err_in N M = Ok d ->
  t d = t_in /\ data_ d = data_in /\ err d = err_in /\ N_datasets d = N.
Proof.
  unfold setUp. destruct (_ || _); [discriminate|]. destruct (negb _); [discriminate|].
  destruct (setDataMean data_in N M); try discriminate. cbn [bind]. destruct (lback t_in); try discriminate. cbn [bind].
  destruct (calcNormt t_in); try discriminate. cbn [bind]. destruct (calcNormData data_in _ N M); try discriminate. cbn [bind].
  destruct (settMedian _); try discriminate. cbn [bind]. intros H. injection H as <-. repeat split; reflexivity.
Qed.

Lemma ds_file_lines f g : exists nf ng, ds_file (Some f) = ds_1d_err (file_times nf) (file_values nf) (file_errors nf) /\
  ds_file (Some g) = ds_1d_err (file_times ng) (file_values ng) (file_errors ng) /\
  ds_file (Some (f ++ NL :: g)) = ds_1d_err (file_times (nf ++ ng)) (file_values (nf ++ ng)) (file_errors (nf ++ ng)) /\
  Forall (fun l => is_data l = true) nf /\ Forall (fun l => is_data l = true) ng.
Proof.
  destruct (lines_reads_exists (lines (f ++ [NL]))) as [nf Hf]. destruct (lines_reads_exists (lines g)) as [ng Hg].
  exists (filter is_data nf), (filter is_data ng).
  split; [rewrite <- (ds_file_reads _ _ Hf); apply file_rows; symmetry; apply rows_last_newline|].
  split; [apply ds_file_reads, Hg|]. split.
  - rewrite <- filter_app. apply ds_file_reads.
    assert (E : lines (f ++ NL :: g) = lines (f ++ [NL]) ++ lines g).
    { clear. induction f as [|c a IH]; [reflexivity|]. cbn [app lines]. destruct (Ascii.eqb c NL).
      - rewrite IH. reflexivity.
      - rewrite IH. destruct (lines (a ++ [NL])) as [|l ls] eqn:E; [|reflexivity].
        exfalso. clear -E. destruct a as [|c a]; [discriminate|]. cbn [app lines] in E. destruct (Ascii.eqb c NL); [discriminate|].
        destruct (lines (a ++ [NL])); discriminate. }
    rewrite E. apply Forall2_app; assumption.
  - split; apply Forall_forall; intros l Hl; apply filter_In in Hl; apply Hl.
Qed.

Lemma errors_none dl : Forall (fun l : list num => is_data l = true) dl -> first_errors dl = false <-> file_errors dl = [].
Proof.
  intros H. unfold file_errors. destruct (first_errors dl) eqn:E; [|split; reflexivity]. split; [discriminate|]. intros K. exfalso.
  destruct dl as [|l dl]; [discriminate|]. cbn [first_errors] in E. destruct l as [|a [|b [|c l]]]; try discriminate.
Qed.

Lemma concat_files f g d e : ds_file (Some f) = Ok d -> ds_file (Some g) = Ok e -> (err d = [] <-> err e = []) ->
  ds_file (Some (f ++ NL :: g)) = ds_1d_err (t d ++ t e) (data_ d ++ data_ e) (err d ++ err e).
Proof.
  intros Hd He Hi. destruct (ds_file_lines f g) as (nf & ng & Ef & Eg & -> & Df & Dg).
  rewrite Hd in Ef. rewrite He in Eg. symmetry in Ef, Eg. apply setUp_fields in Ef as (F1 & F2 & F3 & _).
  apply setUp_fields in Eg as (G1 & G2 & G3 & _). rewrite F3, G3 in Hi. rewrite <- !errors_none in Hi by assumption.
  destruct nf as [|lf nf].
  { exfalso. unfold ds_file in Hd. clear -Hd F1 F2. cbn in F1. destruct (read_lines _ _); try discriminate. cbn [bind] in Hd.
    assert (K := Hd). destruct (has_errors a); apply setUp_fields in K as (K & _); rewrite F1 in K; unfold setUp in Hd;
      rewrite <- K in Hd; rewrite orb_true_r in Hd; discriminate. }
  rewrite F1, F2, F3, G1, G2, G3. f_equal.
  - unfold file_times. change (first_errors ((lf :: nf) ++ ng)) with (first_errors (lf :: nf)).
    assert (E : first_errors (lf :: nf) = first_errors ng)
      by (destruct (first_errors (lf :: nf)), (first_errors ng); try reflexivity; [apply Hi; reflexivity|symmetry; apply Hi; reflexivity]).
    rewrite <- E. destruct (first_errors (lf :: nf)); [apply map_app|]. rewrite flat_map_app, map_app. reflexivity.
  - unfold file_values. change (first_errors ((lf :: nf) ++ ng)) with (first_errors (lf :: nf)).
    assert (E : first_errors (lf :: nf) = first_errors ng)
      by (destruct (first_errors (lf :: nf)), (first_errors ng); try reflexivity; [apply Hi; reflexivity|symmetry; apply Hi; reflexivity]).
    rewrite <- E. destruct (first_errors (lf :: nf)); [apply map_app|]. rewrite flat_map_app, map_app. reflexivity.
  - unfold file_errors. change (first_errors ((lf :: nf) ++ ng)) with (first_errors (lf :: nf)).
    assert (E : first_errors (lf :: nf) = first_errors ng)
      by (destruct (first_errors (lf :: nf)), (first_errors ng); try reflexivity; [apply Hi; reflexivity|symmetry; apply Hi; reflexivity]).
    rewrite <- E. destruct (first_errors (lf :: nf)); [|reflexivity]. unfold errors_col. rewrite map_app, concat_app. reflexivity.
Qed.

Lemma file_no_data dl : ds_1d_err (file_times dl) (file_values dl) (file_errors dl) = Throw EmptyDataStructureException ->
  Forall (fun l : list num => is_data l = true) dl -> dl = [].
Proof.
  intros H Hd. destruct dl as [|l dl]; [reflexivity|]. exfalso. inversion Hd as [|? ? Hl _]; subst.
  destruct (data_line_form l Hl) as (a & b & r & ->).
  assert (K : exists t0 ts v0 vs, file_times ((a :: b :: r) :: dl) = t0 :: ts /\ file_values ((a :: b :: r) :: dl) = v0 :: vs /\ length ts = length vs).
  { unfold file_times, file_values. destruct (first_errors _).
    - cbn [times_col values_col map]. do 4 eexists. split; [reflexivity|]. split; [reflexivity|]. rewrite !map_length. reflexivity.
    - cbn [flat_map points_of app map fst snd]. do 4 eexists. split; [reflexivity|]. split; [reflexivity|]. rewrite !map_length. reflexivity. }
  destruct K as (t0 & ts & v0 & vs & Et & Ev & E). rewrite Et, Ev in H.
  assert (E' : length (v0 :: vs) mod length (t0 :: ts) = 0) by (cbn [length]; rewrite E; apply Nat.mod_same; discriminate).
  destruct (one_dataset (t0 :: ts) (v0 :: vs) (Some (file_errors ((a :: b :: r) :: dl)))) as (_ & _ & K).
  destruct K as (d & K & _); [discriminate|discriminate|exact E'|]. unfold SACF_1d in K. congruence.
Qed.

Lemma concat_empty f g : ds_file (Some f) = Throw EmptyDataStructureException ->
  ds_file (Some (f ++ NL :: g)) = ds_file (Some g) /\ ds_file (Some (g ++ NL :: f)) = ds_file (Some g).
Proof.
  intros H. split.
  - destruct (ds_file_lines f g) as (nf & ng & Ef & Eg & -> & Df & Dg). rewrite H in Ef. symmetry in Ef.
    rewrite (file_no_data nf Ef Df). cbn [app]. symmetry. exact Eg.
  - destruct (ds_file_lines g f) as (ng & nf & Eg & Ef & -> & Dg & Df). rewrite H in Ef. symmetry in Ef.
    rewrite (file_no_data nf Ef Df), app_nil_r. symmetry. exact Eg.
Qed.

Lemma err_2d_none (d : dstruct) f : ds_file (Some f) = Ok d -> err_2d d = Ok [] <-> err d = [].
Proof.
  intros H. assert (N : N_datasets d = 1).
  { unfold ds_file in H. destruct (read_lines _ _); try discriminate. cbn [bind] in H.
    destruct (has_errors a); apply setUp_fields in H; apply H. }
  unfold err_2d. destruct (err d) as [|x l]; [split; reflexivity|]. split; [|discriminate]. unfold rows_2d. rewrite N. cbn [seq mapM].
  intros K. exfalso. destruct (mapM _ (seq 0 (M_datapoints d))); discriminate.
Qed.
End Concat.
