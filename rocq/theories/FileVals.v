(** The numbers stored from a data file. *)
From Coq Require Import String.
From Coq Require Import ZArith Reals List Bool Arith Ascii Lia Lra.
From Flocq Require Import Core BinarySingleNaN.
From Verif Require Import Num Mem XR B64 Spec DataStructure Correlator Sacf Api ConstrFacts B64Facts
  FileReader SpecFile FileFacts DecFacts FileThms.
Import ListNotations.
Local Open Scope list_scope.

Section Columns.
Context {A : Num} {D : Dec A}.

Lemma column_values n i ls : all_of n ls -> 2 <= n -> i < n -> map (fun l => nth i l nzero) (data_lines ls) = map value_of (column i ls).
Proof.
  intros H Hn Hi. unfold data_lines. induction H as [|l ls H _ IH]; [reflexivity|]. cbn [map filter column flat_map]. fold (column i ls).
  unfold is_data at 1, numbers_of at 1. rewrite map_length. destruct (Nat.leb_spec 2 (length (literals_of l))) as [E|E].
  - assert (El : length (literals_of l) = n) by lia. cbn [map]. rewrite map_app. unfold numbers_of at 1.
    destruct (nth_error (literals_of l) i) as [x|] eqn:Ex; [|apply nth_error_None in Ex; lia]. cbn [map app]. f_equal; [|exact IH].
    apply nth_error_nth. rewrite nth_error_map, Ex. reflexivity.
  - exact IH.
Qed.

Lemma column_length n i ls : all_of n ls -> 2 <= n -> i < n -> length (column i ls) = length (data_lines ls).
Proof. intros H Hn Hi. rewrite <- (map_length (fun l => nth i l nzero)), (column_values n i ls H Hn Hi), map_length. reflexivity. Qed.

(** everything stored, by literal *)
Lemma file_stored n ls : n = 2 \/ n = 3 -> Forall line_ok ls -> all_of n ls -> Forall (fun l => Forall fits (literals_of l)) ls -> column 0 ls <> [] ->
  exists d, ds_file (Some (text_of_lines ls)) = Ok d /\ timeseries d = map value_of (column 0 ls) /\ data_2d d = Ok [map value_of (column 1 ls)] /\
    err_2d d = Ok (if n =? 3 then [map value_of (column 2 ls)] else []).
Proof.
  intros Hn H1 H2 H3 H4.
  assert (N2 : 2 <= n) by lia.
  pose proof (column_values n 0 ls H2 N2 ltac:(lia)) as C0. pose proof (column_values n 1 ls H2 N2 ltac:(lia)) as C1.
  assert (L : length (map value_of (column 1 ls)) = length (map value_of (column 0 ls))) by (rewrite !map_length, !(column_length n) by (assumption || lia); reflexivity).
  assert (Ne : map value_of (column 0 ls) <> []) by (destruct (column 0 ls); [congruence|discriminate]).
  assert (Ne' : map value_of (column 1 ls) <> []) by (intros E; rewrite E in L; destruct (map value_of (column 0 ls)); [congruence|discriminate]).
  assert (M0 : length (map value_of (column 1 ls)) mod length (map value_of (column 0 ls)) = 0) by (rewrite L; apply Nat.mod_same; destruct (map value_of (column 0 ls)); [congruence|discriminate]).
  destruct Hn as [-> | ->].
  - rewrite (two_columns ls H1 H3 H2). unfold times_col, values_col. rewrite C0, C1.
    destruct (one_dataset (map value_of (column 0 ls)) (map value_of (column 1 ls)) None) as (_ & _ & K).
    destruct (K Ne Ne' M0) as (d & Ed & Et & Edata & _). exists d. split; [exact Ed|]. split; [exact Et|]. split; [rewrite Edata, <- L, firstn_all; reflexivity|].
    exact (proj2 (errors_1d (map value_of (column 0 ls)) (map value_of (column 1 ls)) []) d Ed).
  - rewrite (three_columns ls H1 H3 H2). unfold times_col, values_col. pose proof (column_values 3 2 ls H2 ltac:(lia) ltac:(lia)) as C2. rewrite C0, C1, C2.
    destruct (one_dataset (map value_of (column 0 ls)) (map value_of (column 1 ls)) (Some (map value_of (column 2 ls)))) as (_ & _ & K).
    destruct (K Ne Ne' M0) as (d & Ed & Et & Edata & _). exists d. split; [exact Ed|]. split; [exact Et|]. split; [rewrite Edata, <- L, firstn_all; reflexivity|].
    assert (L2 : length (map value_of (column 2 ls)) = length (map value_of (column 0 ls))) by (rewrite !map_length, !(column_length 3) by (assumption || lia); reflexivity).
    rewrite (proj2 (errors_1d (map value_of (column 0 ls)) (map value_of (column 1 ls)) (map value_of (column 2 ls))) d Ed).
    destruct (Nat.eqb_spec (length (map value_of (column 2 ls))) 0) as [E|E]; [rewrite L2 in E; destruct (map value_of (column 0 ls)); [congruence|discriminate]|].
    rewrite L2, Nat.leb_refl, <- L2, firstn_all. reflexivity.
Qed.

(** reading of a line ends at a number that is too large *)
Lemma extract_too_large sp l r : forallb is_space sp = true -> literal_ok l -> ~ fits l -> stops r -> extract (sp ++ text_of_literal l ++ r) = None.
Proof.
  intros Hs Hl Hfit Hr. unfold extract. rewrite skip_ws_spaces by exact Hs.
  destruct (literal_head l r Hl) as (c & s & E & Hc).
  destruct (take_float_literal l r Hl Hr) as (l' & Et & Hl' & Hm & Es & Emant & Esc).
  rewrite E in *. cbn [skip_ws]. rewrite Hc. rewrite Et. rewrite (strtod_literal l' Hl' Hm). rewrite Es, Emant, Esc.
  cbv zeta. unfold fits, value_of in *. destruct (nfloor (ndec (negative (l_sign l)) (mantissa l) (scale l))); [|reflexivity].
  exfalso. apply Hfit. discriminate.
Qed.

Lemma reads_too_large fs f fs2 tail :
  Forall (fun f => Forall separator (fst f)) (fs ++ f :: fs2) -> Forall (fun f => fst f <> []) (tl (fs ++ f :: fs2)) ->
  Forall (fun f => literal_ok (snd f)) (fs ++ f :: fs2) -> Forall (fun f => fits (snd f)) fs -> ~ fits (snd f) ->
  unreadable tail -> no_newline tail -> no_exponent tail ->
  reads (uncomma (concat (map (fun f => fst f ++ text_of_literal (snd f)) (fs ++ f :: fs2)) ++ tail)) (map (fun f => value_of (snd f)) fs).
Proof.
  intros H1 H2 H3 H4 Hf H5 H6 H7.
  assert (St : forall gs, Forall (fun f => Forall separator (fst f)) gs -> Forall (fun f => fst f <> []) gs -> Forall (fun f => literal_ok (snd f)) gs ->
     stops (uncomma (concat (map (fun f => fst f ++ text_of_literal (snd f)) gs) ++ tail))).
  { intros gs G1 G2 G3. destruct gs as [|[sp2 l2] gs].
    - cbn. apply stops_tail; assumption.
    - inversion G1; subst. inversion G2; subst. cbn [fst snd] in *. cbn [map concat fst snd]. rewrite !uncomma_app, <- !app_assoc. apply stops_separators; assumption. }
  induction fs as [|[sp l] fs IH].
  - destruct f as [sp l]. cbn [app map concat fst snd tl] in *. inversion H1; subst. inversion H3; subst. cbn [fst snd] in *.
    rewrite !uncomma_app, (uncomma_literal l) by assumption. rewrite <- !app_assoc, <- uncomma_app. apply reads_stop. apply extract_too_large; try assumption.
    + apply separators_spaces. assumption.
    + apply St; assumption.
  - cbn [app tl] in *. inversion H1 as [|? ? A1 A2]; subst. inversion H3 as [|? ? B1 B2]; subst. inversion H4 as [|? ? C1 C2]; subst.
    cbn [fst snd] in *. cbn [map concat fst snd]. rewrite !uncomma_app, (uncomma_literal l B1), <- !app_assoc.
    eapply reads_next.
    + apply extract_literal; [apply separators_spaces, A1|exact B1|exact C1|]. rewrite <- uncomma_app. apply St; assumption.
    + rewrite <- uncomma_app. apply IH; try assumption. destruct fs; cbn [app tl] in *; inversion H2; assumption.
Qed.

Lemma too_large_line (r : row) (l1 l2 : list literal) (x : literal) (before after : bytes) :
  row_ok r -> map snd (r_fields r) = l1 ++ x :: l2 -> length l1 < 2 -> Forall fits l1 -> ~ fits x ->
  ds_file (Some (text_of_row r ++ NL :: after)) = ds_file (Some after) /\
  ds_file (Some (before ++ NL :: text_of_row r ++ NL :: after)) = ds_file (Some (before ++ NL :: after)).
Proof.
  intros Hr E Hl Hf Hx.
  assert (K : forall st, read_line st (text_of_row r) = Ok st).
  { intros st. apply (read_line_short _ (map value_of l1)); [|rewrite map_length; exact Hl].
    unfold line_reads. rewrite row_head by exact Hr. unfold text_of_row.
    destruct (map_eq_app snd (r_fields r) l1 (x :: l2) E) as (fs1 & fs2 & E1 & E2 & E3).
    destruct fs2 as [|f fs2]; [discriminate|]. cbn [map] in E3. injection E3 as E3 E4.
    destruct Hr as [R1 R2 R3 R4 R5 R6 R7]. rewrite E1 in *. rewrite <- E2, map_map. apply reads_too_large; try assumption.
    - rewrite <- E2 in Hf. exact (proj1 (Forall_map snd fits fs1) Hf).
    - intros K. apply Hx. rewrite <- E3. exact K.
    - apply R5. destruct fs1; discriminate. }
  assert (NN : no_newline (text_of_row r)) by (apply (line_no_newline (Row r)), Hr).
  assert (E' : forall st, read_lines (lines (text_of_row r ++ NL :: after)) st = read_lines (lines after) st).
  { intros st. rewrite lines_cons by exact NN. cbn [read_lines]. rewrite K. reflexivity. }
  split; unfold ds_file.
  - rewrite E'. reflexivity.
  - rewrite (lines_app before (text_of_row r ++ NL :: after)), (lines_app before after), !read_lines_app.
    destruct (read_lines (lines (before ++ [NL])) rstart) as [st| | |]; cbn [bind]; try reflexivity. rewrite E'. reflexivity.
Qed.
End Columns.

(** ** in the two arithmetics *)
Lemma stored_exact n ls : n = 2 \/ n = 3 -> Forall line_ok ls -> all_of n ls -> column 0 ls <> [] ->
  exists d, ds_file (A := XR) (Some (text_of_lines ls)) = Ok d /\ timeseries d = map (fun l => Fin (literal_real l)) (column 0 ls) /\
    data_2d d = Ok [map (fun l => Fin (literal_real l)) (column 1 ls)] /\
    err_2d d = Ok (if n =? 3 then [map (fun l => Fin (literal_real l)) (column 2 ls)] else []).
Proof.
  intros Hn H1 H2 H4. destruct (file_stored (A := XR) n ls Hn H1 H2) as (d & E & Et & Ed & Ee); [|exact H4|].
  - apply Forall_forall. intros l _. apply Forall_forall. intros x _. unfold fits. rewrite literal_exact. discriminate.
  - assert (M : forall c, map (value_of (A := XR)) c = map (fun l => Fin (literal_real l)) c) by (intros c; apply map_ext; exact literal_exact).
    exists d. split; [exact E|]. rewrite Et, Ed, Ee, !M. auto.
Qed.

Lemma fits_in_range exp64 l : in_range l <-> fits (A := B64 exp64) l.
Proof.
  destruct (literal_rounded exp64 l) as [H1 H2]. fold (nearest_double l) in H1, H2. split; [intros H; apply H1; exact H|].
  intros H. unfold in_range. destruct (Rlt_or_le (Rabs (nearest_double l)) (bpow radix2 1024)) as [K|K]; [exact K|]. exfalso. exact (H2 K H).
Qed.

Lemma value_reads_as exp64 l : in_range l -> reads_as l (value_of (A := B64 exp64) l).
Proof. intros H. destruct (literal_rounded exp64 l) as [H1 _]. fold (nearest_double l) in H1. destruct (H1 H) as (_ & K). exact K. Qed.

Lemma in_column i ls x : In x (column i ls) -> exists l, In l ls /\ In x (literals_of l).
Proof.
  unfold column. intros H. apply in_flat_map in H as (l & Hl & Hx). exists l. split; [exact Hl|]. destruct (2 <=? length (literals_of l)); [|destruct Hx].
  destruct (nth_error (literals_of l) i) as [y|] eqn:E; [|destruct Hx]. destruct Hx as [<-|[]]. eapply nth_error_In. exact E.
Qed.

Lemma stored_double exp64 n ls : n = 2 \/ n = 3 -> Forall line_ok ls -> all_of n ls -> Forall (fun l => Forall in_range (literals_of l)) ls -> column 0 ls <> [] ->
  exists d row er, ds_file (A := B64 exp64) (Some (text_of_lines ls)) = Ok d /\ data_2d d = Ok [row] /\ err_2d d = Ok er /\
    Forall2 reads_as (column 0 ls) (timeseries d) /\ Forall2 reads_as (column 1 ls) row /\
    (n = 2 -> er = []) /\ (n = 3 -> exists e, er = [e] /\ Forall2 reads_as (column 2 ls) e).
Proof.
  intros Hn H1 H2 H3 H4. destruct (file_stored (A := B64 exp64) n ls Hn H1 H2) as (d & E & Et & Ed & Ee); [|exact H4|].
  - eapply Forall_impl; [|exact H3]. intros l Hl. eapply Forall_impl; [|exact Hl]. intros x. apply fits_in_range.
  - assert (M : forall i, Forall2 reads_as (column i ls) (map (value_of (A := B64 exp64)) (column i ls))).
    { intros i. assert (G : forall x, In x (column i ls) -> in_range x).
      { intros x Hx. apply in_column in Hx as (l & Hl & Hx). rewrite Forall_forall in H3. specialize (H3 l Hl). rewrite Forall_forall in H3. apply H3. exact Hx. }
      induction (column i ls) as [|x c IH]; cbn [map]; constructor; [apply value_reads_as, G; left; reflexivity|apply IH; intros y Hy; apply G; right; exact Hy]. }
    exists d, (map (value_of (A := B64 exp64)) (column 1 ls)), (if n =? 3 then [map (value_of (A := B64 exp64)) (column 2 ls)] else []).
    split; [exact E|]. split; [exact Ed|]. split; [exact Ee|]. split; [rewrite Et; apply M|]. split; [apply M|]. split.
    + intros ->. reflexivity.
    + intros ->. exists (map (value_of (A := B64 exp64)) (column 2 ls)). split; [reflexivity|apply M].
Qed.

Lemma reads_as_unique l x y : reads_as l x -> denotes l y -> x = y.
Proof.
  intros (F & E & S) (F' & E' & S'). apply B2R_Bsign_inj; try assumption; [|congruence].
  rewrite E. unfold nearest_double. rewrite <- E'. apply round_generic; [apply valid_rnd_N|apply (generic_format_B2R 53 1024)].
Qed.

Lemma stored_back exp64 n ls (ts vs : list b64) : n = 2 \/ n = 3 -> Forall line_ok ls -> all_of n ls -> Forall (fun l => Forall in_range (literals_of l)) ls -> ts <> [] ->
  Forall2 denotes (column 0 ls) ts -> Forall2 denotes (column 1 ls) vs ->
  exists d, ds_file (A := B64 exp64) (Some (text_of_lines ls)) = Ok d /\ timeseries d = ts /\ data_2d d = Ok [vs].
Proof.
  intros Hn H1 H2 H3 H4 Ht Hv.
  assert (Hne : column 0 ls <> []) by (destruct Ht; [congruence|discriminate]).
  destruct (stored_double exp64 n ls Hn H1 H2 H3 Hne) as (d & row & er & E & Ed & _ & Rt & Rv & _).
  assert (U : forall c (a b : list b64), Forall2 reads_as c a -> Forall2 denotes c b -> a = b).
  { intros c a b Ha. revert b. induction Ha as [|l x c a Hx Ha IH]; intros b Hb; inversion Hb; subst; [reflexivity|]. f_equal; [|apply IH; assumption].
    eapply reads_as_unique; eassumption. }
  exists d. split; [exact E|]. split; [exact (U _ _ _ Rt Ht)|]. rewrite Ed. f_equal. f_equal. exact (U _ _ _ Rv Hv).
Qed.

Lemma too_large exp64 (r : row) (l1 l2 : list literal) (x : literal) (before after : bytes) :
  row_ok r -> map snd (r_fields r) = l1 ++ x :: l2 -> length l1 < 2 -> Forall in_range l1 -> ~ in_range x ->
  ds_file (A := B64 exp64) (Some (text_of_row r ++ NL :: after)) = ds_file (Some after) /\
  ds_file (A := B64 exp64) (Some (before ++ NL :: text_of_row r ++ NL :: after)) = ds_file (Some (before ++ NL :: after)).
Proof.
  intros Hr E Hl Hf Hx. apply (too_large_line (A := B64 exp64) r l1 l2 x before after Hr E Hl).
  - eapply Forall_impl; [|exact Hf]. intros y. apply fits_in_range.
  - intros K. apply Hx. apply (fits_in_range exp64). exact K.
Qed.
