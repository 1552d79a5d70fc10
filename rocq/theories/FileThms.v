(** Proofs of the theorems about data files. *)
From Coq Require Import String.
From Coq Require Import ZArith Reals List Bool Arith Ascii Lia Lra.
From Coq Require Import Floats.SpecFloat.
From Flocq Require Import Core BinarySingleNaN.
From Verif Require Import Num Mem XR B64 Spec DataStructure Correlator Sacf Api ConstrFacts B64Facts
  FileReader SpecFile FileFacts DecFacts.
Import ListNotations.
Local Open Scope list_scope.

Section Files.
Context {A : Num} {D : Dec A}.

Lemma times_values_length (dl : list (list num)) : length (file_times dl) = length (file_values dl).
Proof. unfold file_times, file_values, times_col, values_col. destruct (first_errors dl); rewrite !map_length; reflexivity. Qed.

Lemma ds_1d_err_SACF (t v e : list num) : ds_1d_err t v e = SACF_1d t v (Some e).
Proof. reflexivity. Qed.

(** every file *)
Lemma file_outcomes (f : option bytes) :
  (ds_file f = Throw BadDataFileReadException <-> f = None) /\
  (ds_file f = Throw BadDataFileReadException \/ ds_file f = Throw EmptyDataStructureException \/
   exists t v e d, length t = length v /\ t <> [] /\ ds_file f = Ok d /\ SACF_1d t v (Some e) = Ok d).
Proof.
  destruct f as [s|]; [|split; [split; reflexivity|left; reflexivity]].
  destruct (lines_reads_exists (lines s)) as [ns Hns].
  pose proof (ds_file_reads s ns Hns) as E. rewrite ds_1d_err_SACF in E.
  pose proof (times_values_length (filter is_data ns)) as Hl.
  set (t := file_times (filter is_data ns)) in *. set (v := file_values (filter is_data ns)) in *.
  set (e := file_errors (filter is_data ns)) in *.
  destruct (one_dataset t v (Some e)) as (H1 & H2 & H3).
  destruct t as [|t0 ts] eqn:Et.
  - assert (K : SACF_1d [] v (Some e) = Throw EmptyDataStructureException) by (apply H1; left; reflexivity).
    rewrite K in E. split; [split; congruence|]. right. left. exact E.
  - destruct H3 as (d & K & _); [discriminate| | |].
    + intros Ev. rewrite Ev in Hl. discriminate.
    + rewrite <- Hl. apply Nat.mod_same. discriminate.
    + rewrite K in E. split; [split; congruence|]. right. right. exists (t0 :: ts), v, e, d.
      split; [exact Hl|]. split; [discriminate|]. split; [exact E|exact K].
Qed.

(** ** Lines that do not matter *)
Lemma read_line_short line l st : line_reads line l -> length l < 2 -> read_line st line = Ok st.
Proof.
  unfold line_reads, read_line. fold (commented line). destruct (commented line); intros H Hl; [reflexivity|].
  cbv zeta. fold (uncomma line). cbn [read_points].
  destruct H as [s E|s v s1 l E H]; rewrite E; [reflexivity|].
  destruct H as [s1 E1|s1 v1 s2 l E1 H]; rewrite E1; [reflexivity|]. cbn [length] in Hl. lia.
Qed.

Lemma lines_app a s : lines (a ++ NL :: s) = lines (a ++ [NL]) ++ lines s.
Proof.
  induction a as [|c a IH]; [reflexivity|]. cbn [app lines]. destruct (Ascii.eqb c NL).
  - rewrite IH. reflexivity.
  - rewrite IH. destruct (lines (a ++ [NL])) as [|l ls] eqn:E; [|reflexivity].
    exfalso. clear -E. destruct a as [|c a]; [discriminate|]. cbn [app lines] in E. destruct (Ascii.eqb c NL); [discriminate|].
    destruct (lines (a ++ [NL])); discriminate.
Qed.

Lemma read_lines_app ls1 ls2 st : read_lines (ls1 ++ ls2) st = (do st' <- read_lines ls1 st; read_lines ls2 st').
Proof.
  revert st. induction ls1 as [|l ls1 IH]; intros st; [reflexivity|]. cbn [app read_lines].
  destruct (read_line st l); cbn [bind]; try reflexivity. apply IH.
Qed.

(** the line [l] stands at the beginning, or after a newline *)
Lemma skipped_line (l : line) (before after : bytes) :
  line_ok l -> Forall fits (literals_of l) -> length (literals_of l) < 2 ->
  ds_file (Some (text_of_line l ++ NL :: after)) = ds_file (Some after) /\
  ds_file (Some (before ++ NL :: text_of_line l ++ NL :: after)) = ds_file (Some (before ++ NL :: after)).
Proof.
  intros Hl Hf Hn.
  assert (K : forall st, read_line st (text_of_line l) = Ok st).
  { intros st. apply (read_line_short _ (numbers_of l)); [apply line_reads_line; assumption|].
    unfold numbers_of. rewrite map_length. exact Hn. }
  assert (E : forall st, read_lines (lines (text_of_line l ++ NL :: after)) st = read_lines (lines after) st).
  { intros st. rewrite lines_cons by (apply line_no_newline, Hl). cbn [read_lines]. rewrite K. reflexivity. }
  split; unfold ds_file.
  - rewrite E. reflexivity.
  - rewrite (lines_app before (text_of_line l ++ NL :: after)), (lines_app before after), !read_lines_app.
    destruct (read_lines (lines (before ++ [NL])) rstart) as [st| | |]; cbn [bind]; try reflexivity. rewrite E. reflexivity.
Qed.

Lemma data_lines_none ls : Forall (fun l => length (literals_of l) < 2) ls -> data_lines ls = [].
Proof.
  unfold data_lines. induction 1 as [|l ls H _ IH]; [reflexivity|]. cbn [map filter].
  unfold is_data, numbers_of at 1. rewrite map_length. destruct (2 <=? length (literals_of l)) eqn:E; [apply Nat.leb_le in E; lia|exact IH].
Qed.

Lemma no_data ls : Forall line_ok ls -> Forall (fun l => Forall fits (literals_of l)) ls ->
  Forall (fun l => length (literals_of l) < 2) ls ->
  ds_file (Some (text_of_lines ls)) = Throw EmptyDataStructureException.
Proof. intros H1 H2 H3. rewrite file_lines by assumption. rewrite data_lines_none by exact H3. reflexivity. Qed.

(** ** Columns *)
Lemma data_lines_all n ls : all_of n ls -> Forall (fun l => length l = n) (data_lines ls).
Proof.
  unfold data_lines. induction 1 as [|l ls H _ IH]; [constructor|]. cbn [map filter]. unfold is_data at 1, numbers_of at 1.
  rewrite map_length. destruct (2 <=? length (literals_of l)) eqn:E; [|exact IH]. constructor; [|exact IH].
  unfold numbers_of. rewrite map_length. apply Nat.leb_le in E. lia.
Qed.

Lemma points_two dl : Forall (fun l => length l = 2) dl ->
  first_errors dl = false /\ map fst (flat_map points_of dl) = times_col dl /\ map snd (flat_map points_of dl) = values_col dl.
Proof.
  intros H. split.
  - destruct H as [|l dl H _]; [reflexivity|]. cbn. rewrite H. reflexivity.
  - induction H as [|l dl H _ IH]; [split; reflexivity|]. destruct l as [|a [|b [|]]]; try discriminate.
    cbn. destruct IH as [-> ->]. split; reflexivity.
Qed.

Lemma two_columns ls : Forall line_ok ls -> Forall (fun l => Forall fits (literals_of l)) ls -> all_of 2 ls ->
  ds_file (Some (text_of_lines ls)) = SACF_1d (times_col (data_lines ls)) (values_col (data_lines ls)) None.
Proof.
  intros H1 H2 H3. rewrite file_lines by assumption. cbv zeta. unfold file_times, file_values, file_errors.
  destruct (points_two _ (data_lines_all 2 ls H3)) as (-> & -> & ->). reflexivity.
Qed.

Lemma errors_three dl : Forall (fun l => length l = 3) dl -> errors_col dl = map (fun l => nth 2 l nzero) dl.
Proof.
  unfold errors_col. induction 1 as [|l dl H _ IH]; [reflexivity|]. destruct l as [|a [|b [|c [|]]]]; try discriminate.
  cbn [map concat skipn nth app]. f_equal. exact IH.
Qed.

Lemma three_columns ls : Forall line_ok ls -> Forall (fun l => Forall fits (literals_of l)) ls -> all_of 3 ls ->
  ds_file (Some (text_of_lines ls)) =
  SACF_1d (times_col (data_lines ls)) (values_col (data_lines ls)) (Some (map (fun l => nth 2 l nzero) (data_lines ls))).
Proof.
  intros H1 H2 H3. rewrite file_lines by assumption. cbv zeta. pose proof (data_lines_all 3 ls H3) as K.
  unfold file_times, file_values, file_errors. rewrite (errors_three _ K).
  destruct K as [|l dl K _]; [reflexivity|]. cbn [first_errors]. rewrite K. reflexivity.
Qed.

(** ** The error column *)
Lemma data_lines_app ls1 ls2 : data_lines (ls1 ++ ls2) = data_lines ls1 ++ data_lines ls2.
Proof. unfold data_lines. rewrite map_app, filter_app. reflexivity. Qed.

Lemma no_error_column ls (l : line) (rest : bytes) d :
  Forall line_ok (ls ++ [l]) -> Forall (fun l => Forall fits (literals_of l)) (ls ++ [l]) ->
  Forall (fun l => length (literals_of l) < 2) ls -> length (literals_of l) = 2 ->
  ds_file (Some (text_of_lines (ls ++ [l]) ++ rest)) = Ok d -> err_2d d = Ok [].
Proof.
  intros H1 H2 H3 H4 E. destruct (file_app (ls ++ [l]) rest H1 H2) as (ns & _ & Ef). cbv zeta in Ef. rewrite Ef in E.
  rewrite data_lines_app, data_lines_none in E by exact H3. cbn [app] in E.
  assert (Hd : data_lines [l] = [numbers_of l]).
  { unfold data_lines. cbn [map filter]. unfold is_data, numbers_of at 1. rewrite map_length, H4. reflexivity. }
  rewrite Hd in E. cbn [app] in E.
  assert (Hfe : file_errors (numbers_of l :: filter is_data ns) = []).
  { unfold file_errors. cbn [first_errors]. unfold numbers_of at 1. rewrite map_length, H4. reflexivity. }
  rewrite Hfe in E.
  rewrite (proj2 (errors_1d (file_times (numbers_of l :: filter is_data ns)) (file_values (numbers_of l :: filter is_data ns)) []) d E).
  reflexivity.
Qed.

Lemma error_column ls :
  Forall line_ok ls -> Forall (fun l => Forall fits (literals_of l)) ls -> with_errors_column (data_lines ls) ->
  let dl := data_lines ls in
  exists d, ds_file (Some (text_of_lines ls)) = Ok d /\
    timeseries d = times_col dl /\ data_2d d = Ok [values_col dl] /\
    err_2d d = if length dl <=? length (errors_col dl) then Ok [firstn (length dl) (errors_col dl)] else UB OobRead.
Proof.
  intros H1 H2 H3 dl. rewrite file_lines by assumption. fold dl. cbv zeta. fold dl in H3.
  assert (Hfe : first_errors dl = true).
  { destruct dl as [|l dl']; [contradiction|]. unfold first_errors. apply Nat.leb_le. exact H3. }
  unfold file_times, file_values, file_errors. rewrite Hfe.
  destruct (one_dataset (times_col dl) (values_col dl) (Some (errors_col dl))) as (_ & _ & K).
  assert (Hne : times_col dl <> []) by (destruct dl; [contradiction|discriminate]).
  assert (Hne' : values_col dl <> []) by (destruct dl; [contradiction|discriminate]).
  assert (Hlen : length (values_col dl) = length (times_col dl)) by (unfold values_col, times_col; rewrite !map_length; reflexivity).
  destruct (K Hne Hne') as (d & Ed & Et & Edata & _).
  { rewrite Hlen. apply Nat.mod_same. destruct (times_col dl); [congruence|discriminate]. }
  exists d. split; [exact Ed|]. split; [exact Et|]. split.
  - rewrite Edata, <- Hlen, firstn_all. reflexivity.
  - destruct (errors_1d (times_col dl) (values_col dl) (errors_col dl)) as [_ Ke]. rewrite (Ke d Ed).
    assert (length (times_col dl) = length dl) by apply map_length. rewrite H.
    destruct dl as [|l dl']; [contradiction|]. cbn in H3.
    assert (length (errors_col (l :: dl')) <> 0).
    { unfold errors_col. cbn [map concat]. rewrite app_length, skipn_length. lia. }
    destruct (Nat.eqb_spec (length (errors_col (l :: dl'))) 0); [congruence|]. reflexivity.
Qed.

(** without an error column every third number of a line is dropped, the others are points *)
Lemma extra_points ls :
  Forall line_ok ls -> Forall (fun l => Forall fits (literals_of l)) ls ->
  (match data_lines ls with l :: _ => length l = 2 | [] => False end) ->
  ds_file (Some (text_of_lines ls)) =
  SACF_1d (map fst (flat_map points_of (data_lines ls))) (map snd (flat_map points_of (data_lines ls))) None.
Proof.
  intros H1 H2 H3. rewrite file_lines by assumption. cbv zeta. unfold file_times, file_values, file_errors.
  destruct (data_lines ls) as [|l dl]; [contradiction|]. cbn [first_errors]. rewrite H3. reflexivity.
Qed.

Lemma points_of_length l : length (points_of l) = (length l + 1) / 3.
Proof.
  remember (length l) as n eqn:E. revert l E. induction n as [n IH] using (well_founded_induction lt_wf). intros l E.
  destruct l as [|a [|b r]]; cbn [length] in E; subst n; [reflexivity|reflexivity|]. cbn [points_of length].
  destruct r as [|c r']; [reflexivity|]. rewrite (IH (length r') ltac:(cbn [length]; lia) r' eq_refl).
  cbn [length]. replace (S (S (S (length r'))) + 1) with (length r' + 1 + 1 * 3) by lia. rewrite Nat.div_add by lia. lia.
Qed.

End Files.

(** ** The numbers *)
Lemma value_of_digits_nonneg ds : (0 <= value_of_digits ds)%Z.
Proof.
  unfold value_of_digits.
  assert (K : forall a, (0 <= a)%Z -> (0 <= fold_left (fun a d => (10 * a + Z.of_nat d)%Z) ds a)%Z).
  { induction ds as [|d ds IH]; intros a H; [exact H|]. cbn [fold_left]. apply IH. lia. }
  apply K. lia.
Qed.

Lemma literal_exact (l : literal) : value_of (A := XR) l = Fin (literal_real l).
Proof. unfold value_of, ndec, Dec_XR, literal_real. rewrite decR_power. reflexivity. Qed.

Lemma literal_rounded exp64 (l : literal) :
  let v := value_of (A := B64 exp64) l in
  let r := round radix2 (FLT_exp (-1074) 53) ZnearestE (literal_real l) in
  ((Rabs r < bpow radix2 1024)%R -> fits (A := B64 exp64) l /\ is_finite (v : b64) = true /\ B2R (v : b64) = r /\
     Bsign (v : b64) = negative (l_sign l)) /\
  ((bpow radix2 1024 <= Rabs r)%R -> ~ fits (A := B64 exp64) l).
Proof.
  intros v r.
  pose proof (dec64_correct (negative (l_sign l)) (mantissa l) (scale l) (value_of_digits_nonneg _)) as H.
  cbv zeta in H. rewrite decR_power in H. fold (literal_real l) in H.
  change (round radix2 (SpecFloat.fexp 53 1024) ZnearestE (literal_real l)) with r in H.
  change (dec64 (negative (l_sign l)) (mantissa l) (scale l)) with (v : b64) in H.
  unfold fits. fold v. split; intros Hr.
  - rewrite Rlt_bool_true in H by exact Hr. destruct H as (E & Ef & Es). split; [|split; [exact Ef|split; [exact E|exact Es]]].
    change (b64_floor v <> None). change (@num (B64 exp64)) with b64 in v. clearbody v. destruct v; cbn in Ef |- *; congruence.
  - rewrite Rlt_bool_false in H by exact Hr. change (~ (b64_floor v <> None)). rewrite H. cbn. intros K. apply K. reflexivity.
Qed.

(** a literal whose value is a double reads as that double *)
Lemma literal_of_double exp64 (l : literal) (x : b64) :
  is_finite x = true -> B2R x = literal_real l -> Bsign x = negative (l_sign l) -> value_of (A := B64 exp64) l = x.
Proof.
  intros Hf E Es. destruct (literal_rounded exp64 l) as [H _].
  assert (Er : round radix2 (FLT_exp (-1074) 53) ZnearestE (literal_real l) = B2R x).
  { rewrite <- E. apply round_generic; [apply valid_rnd_N|]. apply (generic_format_B2R 53 1024). }
  rewrite Er in H. destruct H as (_ & Hf' & E' & Es').
  { apply (abs_B2R_lt_emax 53 1024). }
  change (@num (B64 exp64)) with b64 in *. apply B2R_Bsign_inj; try assumption. rewrite Es', Es. reflexivity.
Qed.
