(** Theorems: data files (C42 - C44, C48 - C50). *)
From Coq Require Import String.
From Coq Require Import ZArith Reals List Bool Arith Ascii Lia Lra.
From Coq Require Import Floats.SpecFloat.
From Flocq Require Import Core BinarySingleNaN.
From Verif Require Import Num Mem XR B64 Spec SpecR DataStructure Correlator Sacf Api Examples
  FileReader SpecFile FileThms FileVals FileExamples.
Import ListNotations.
Local Open Scope list_scope.

(** ** C42: lines without two numbers contribute nothing, wherever they are *)
Theorem C42_skipped_lines {A : Num} {D : Dec A} (l : line) (before after : bytes) :
  line_ok l -> Forall fits (literals_of l) -> List.length (literals_of l) < 2 ->
  ds_file (Some (text_of_line l ++ NL :: after)) = ds_file (Some after) /\
  ds_file (Some (before ++ NL :: text_of_line l ++ NL :: after)) = ds_file (Some (before ++ NL :: after)).
Proof. exact (skipped_line l before after). Qed.
Print Assumptions C42_skipped_lines.

Theorem C42_no_data {A : Num} {D : Dec A} (ls : list line) :
  Forall line_ok ls -> Forall (fun l => Forall fits (literals_of l)) ls ->
  Forall (fun l => List.length (literals_of l) < 2) ls ->
  ds_file (Some (text_of_lines ls)) = Throw EmptyDataStructureException.
Proof. exact (no_data ls). Qed.
Print Assumptions C42_no_data.

Example C42_case : lines_okb [comment_line; header_line; lone_line; Row {| r_fields := []; r_tail := [] |}] = true /\
  text_of_lines [comment_line; header_line; lone_line; Row {| r_fields := []; r_tail := [] |}] = txt "# from the telescope
time,flux
8th night

".
Proof. split; vm_compute; reflexivity. Qed.
Example C42_case_read : ok_with (ds_file (A := BB) (Some (txt "1 2
time,flux
8th night
# 5 6
  # 5 6
3 4"))) (fun d => sames (timeseries d) (ints [1; 3]%Z) && ok_with (data_2d d) (sames2 [ints [2; 4]%Z])) = true.
Proof. vm_compute. reflexivity. Qed.

(** ** C43: two columns, three columns *)
Theorem C43_two_columns {A : Num} {D : Dec A} (ls : list line) :
  Forall line_ok ls -> Forall (fun l => Forall fits (literals_of l)) ls -> all_of 2 ls ->
  ds_file (Some (text_of_lines ls)) = SACF_1d (times_col (data_lines ls)) (values_col (data_lines ls)) None.
Proof. exact (two_columns ls). Qed.
Print Assumptions C43_two_columns.

Theorem C43_three_columns {A : Num} {D : Dec A} (ls : list line) :
  Forall line_ok ls -> Forall (fun l => Forall fits (literals_of l)) ls -> all_of 3 ls ->
  ds_file (Some (text_of_lines ls)) =
  SACF_1d (times_col (data_lines ls)) (values_col (data_lines ls)) (Some (map (fun l => nth 2 l nzero) (data_lines ls))).
Proof. exact (three_columns ls). Qed.
Print Assumptions C43_three_columns.

(** the newline of the last line may be missing *)
Theorem C43_last_newline {A : Num} {D : Dec A} (ls : list line) (l : line) :
  Forall line_ok (ls ++ [l]) ->
  ds_file (Some (text_of_lines ls ++ text_of_line l)) = ds_file (Some (text_of_lines (ls ++ [l]))).
Proof. exact (FileFacts.file_no_last_newline ls l). Qed.
Print Assumptions C43_last_newline.

Definition two_columns_file := [comment_line; header_line; line_a; line_b].
Example C43_case : lines_okb two_columns_file = true /\ all_of 2 two_columns_file /\
  ok_with (ds_file (A := BB) (Some (text_of_lines two_columns_file)))
    (fun d => sames (timeseries d) [fl 0; half 3] &&
              ok_with (data_2d d) (sames2 [[Bdiv mode_NE (fl (-1)) (fl 4); fl 7]])) = true /\
  sames2 (data_lines (A := BB) two_columns_file) [[fl 0; Bdiv mode_NE (fl (-1)) (fl 4)]; [half 3; fl 7]] = true.
Proof.
  split; [vm_compute; reflexivity|]. split; [|split; vm_compute; reflexivity].
  repeat constructor; cbn; lia.
Qed.
Example C43_case_text : text_of_lines [comment_line; line_a] = txt "# from the telescope
 0, -025E-2 nan
".
Proof. vm_compute. reflexivity. Qed.
Example C43_case_three : ok_with (ds_file (A := BB) (Some (txt "t,x,e
0,1,2
3,4,5")))
    (fun d => sames (timeseries d) (ints [0; 3]%Z) && ok_with (data_2d d) (sames2 [ints [1; 4]%Z]) &&
              ok_with (err_2d d) (sames2 [ints [2; 5]%Z])) = true /\
  lines_okb [header_line; line_c] = true /\ all_of 3 [header_line; line_c].
Proof. split; [vm_compute; reflexivity|]. split; [vm_compute; reflexivity|]. repeat constructor; cbn; lia. Qed.

(** ** C44: the first data line decides about the errors *)
Theorem C44_no_error_column {A : Num} {D : Dec A} (ls : list line) (l : line) (rest : bytes) (d : dstruct) :
  Forall line_ok (ls ++ [l]) -> Forall (fun l => Forall fits (literals_of l)) (ls ++ [l]) ->
  Forall (fun l => List.length (literals_of l) < 2) ls -> List.length (literals_of l) = 2 ->
  ds_file (Some (text_of_lines (ls ++ [l]) ++ rest)) = Ok d -> err_2d d = Ok [].
Proof. exact (no_error_column ls l rest d). Qed.
Print Assumptions C44_no_error_column.

Theorem C44_error_column {A : Num} {D : Dec A} (ls : list line) :
  Forall line_ok ls -> Forall (fun l => Forall fits (literals_of l)) ls -> with_errors_column (data_lines ls) ->
  let dl := data_lines ls in
  exists d, ds_file (Some (text_of_lines ls)) = Ok d /\
    timeseries d = times_col dl /\ data_2d d = Ok [values_col dl] /\
    err_2d d = if List.length dl <=? List.length (errors_col dl)
               then Ok [firstn (List.length dl) (errors_col dl)] else UB OobRead.
Proof. exact (error_column ls). Qed.
Print Assumptions C44_error_column.

Example C44_case : lines_okb [header_line; line_b] = true /\
  Forall (fun l => List.length (literals_of l) < 2) [header_line] /\ List.length (literals_of line_b) = 2 /\
  ok_with (ds_file (A := BB) (Some (text_of_lines [header_line; line_b] ++ txt "2 3 4
5 6 7"))) (fun d => ok_with (err_2d d) (sames2 []) && ok_with (data_2d d) (sames2 [ints [7; 3; 6]%Z])) = true.
Proof.
  split; [vm_compute; reflexivity|]. split; [repeat constructor|]. split; [reflexivity|]. vm_compute. reflexivity.
Qed.
Example C44_case_short : lines_okb [line_c; line_b] = true /\ with_errors_column (data_lines (A := BB) [line_c; line_b]) /\
  (exists d, ds_file (A := BB) (Some (text_of_lines [line_c; line_b])) = Ok d /\ err_2d d = UB OobRead).
Proof.
  split; [vm_compute; reflexivity|]. split; [cbn; lia|].
  destruct (ok_with_ok (ds_file (A := BB) (Some (text_of_lines [line_c; line_b])))
    (fun d => match undefined (err_2d d) with Some OobRead => true | _ => false end)) as (d & E & Hd);
    [vm_compute; reflexivity|].
  exists d. split; [exact E|]. apply undefined_eq. destruct (undefined (err_2d d)) as [[]|]; (reflexivity || discriminate).
Qed.

(** ** C48: without an error column, every third number of a line is dropped and the others are points *)
Theorem C48_extra_columns {A : Num} {D : Dec A} (ls : list line) :
  Forall line_ok ls -> Forall (fun l => Forall fits (literals_of l)) ls ->
  (match data_lines ls with l :: _ => List.length l = 2 | [] => False end) ->
  ds_file (Some (text_of_lines ls)) =
  SACF_1d (map fst (flat_map points_of (data_lines ls))) (map snd (flat_map points_of (data_lines ls))) None.
Proof. exact (extra_points ls). Qed.
Print Assumptions C48_extra_columns.

(** "one data point per line" does not hold *)
Theorem C48_one_point_per_line_refuted :
  exists ls d, lines_okb ls = true /\ ds_file (A := BB) (Some (text_of_lines ls)) = Ok d /\
    List.length (timeseries d) <> List.length ls /\ Forall (fun l => 2 <= List.length (literals_of l)) ls /\
    sames (timeseries d) [half 3; fl 4; fl 7] = true.
Proof.
  destruct (ok_with_ok (ds_file (A := BB) (Some (text_of_lines [line_b; line_d])))
    (fun d => sames (timeseries d) [half 3; fl 4; fl 7])) as (d & E & Hd); [vm_compute; reflexivity|].
  exists [line_b; line_d], d. split; [vm_compute; reflexivity|]. split; [exact E|].
  split; [rewrite (sames_eq _ _ Hd); discriminate|]. split; [repeat constructor|exact Hd].
Qed.
Print Assumptions C48_one_point_per_line_refuted.

Example C48_case : lines_okb [line_b; line_d] = true /\
  ok_with (ds_file (A := BB) (Some (text_of_lines [line_b; line_d])))
    (fun d => sames (timeseries d) [half 3; fl 4; fl 7] && ok_with (data_2d d) (sames2 [ints [7; 5; 8]%Z])) = true.
Proof. split; vm_compute; reflexivity. Qed.

(** ** C49: every number of a file is stored as the double nearest to it *)
Theorem C49_exact (n : nat) (ls : list line) :
  n = 2 \/ n = 3 -> Forall line_ok ls -> all_of n ls -> column 0 ls <> [] ->
  exists d, ds_file (A := XR) (Some (text_of_lines ls)) = Ok d /\
    timeseries d = map (fun l => Fin (literal_real l)) (column 0 ls) /\
    data_2d d = Ok [map (fun l => Fin (literal_real l)) (column 1 ls)] /\
    err_2d d = Ok (if n =? 3 then [map (fun l => Fin (literal_real l)) (column 2 ls)] else []).
Proof. exact (stored_exact n ls). Qed.
Print Assumptions C49_exact.

Theorem C49_nearest_double exp64 (n : nat) (ls : list line) :
  n = 2 \/ n = 3 -> Forall line_ok ls -> all_of n ls -> Forall (fun l => Forall in_range (literals_of l)) ls -> column 0 ls <> [] ->
  exists d row er, ds_file (A := B64 exp64) (Some (text_of_lines ls)) = Ok d /\ data_2d d = Ok [row] /\ err_2d d = Ok er /\
    Forall2 reads_as (column 0 ls) (timeseries d) /\ Forall2 reads_as (column 1 ls) row /\
    (n = 2 -> er = []) /\ (n = 3 -> exists e, er = [e] /\ Forall2 reads_as (column 2 ls) e).
Proof. exact (stored_double exp64 n ls). Qed.
Print Assumptions C49_nearest_double.

Theorem C49_doubles_read_back exp64 (n : nat) (ls : list line) (ts vs : list b64) :
  n = 2 \/ n = 3 -> Forall line_ok ls -> all_of n ls -> Forall (fun l => Forall in_range (literals_of l)) ls -> ts <> [] ->
  Forall2 denotes (column 0 ls) ts -> Forall2 denotes (column 1 ls) vs ->
  exists d, ds_file (A := B64 exp64) (Some (text_of_lines ls)) = Ok d /\ timeseries d = ts /\ data_2d d = Ok [vs].
Proof. exact (stored_back exp64 n ls ts vs). Qed.
Print Assumptions C49_doubles_read_back.

(** a line whose time or value is beyond the doubles contributes nothing *)
Theorem C49_overflow exp64 (r : row) (l1 l2 : list literal) (x : literal) (before after : bytes) :
  row_ok r -> map snd (r_fields r) = l1 ++ x :: l2 -> List.length l1 < 2 -> Forall in_range l1 -> ~ in_range x ->
  ds_file (A := B64 exp64) (Some (text_of_row r ++ NL :: after)) = ds_file (Some after) /\
  ds_file (A := B64 exp64) (Some (before ++ NL :: text_of_row r ++ NL :: after)) = ds_file (Some (before ++ NL :: after)).
Proof. exact (too_large exp64 r l1 l2 x before after). Qed.
Print Assumptions C49_overflow.

(** a comment, a header, " 0, -025E-2 nan", "+1.50<tab>7<cr>": times 0 and 3/2, values -1/4 and 7 *)
Example C49_case :
  let ls := [comment_line; header_line; line_a; line_b] in
  Forall line_ok ls /\ all_of 2 ls /\ Forall (fun l => Forall in_range (literals_of l)) ls /\
  Forall2 denotes (column 0 ls) [fl 0; half 3] /\ column 1 ls = [lit_25e_2; whole [7]].
Proof.
  cbv zeta. destruct (lines_okb_ok [comment_line; header_line; line_a; line_b]) as [H1 H2]; [vm_compute; reflexivity|].
  split; [exact H1|]. split; [repeat (apply Forall_cons; [cbn; lia|]); apply Forall_nil|]. split.
  - eapply Forall_impl; [|exact H2]. intros l Hl. eapply Forall_impl; [|exact Hl]. intros x. apply (fits_in_range (fun x => x)).
  - split; [|reflexivity]. change (column 0 [comment_line; header_line; line_a; line_b]) with [whole [0]; lit_1_5].
    repeat apply Forall2_cons; [| |apply Forall2_nil]; (split; [reflexivity|]; split; [|reflexivity]).
    + rewrite <- SF2R_B2SF. replace (B2SF (fl 0)) with (S754_zero false) by (vm_compute; reflexivity). unfold literal_real. cbn. lra.
    + rewrite <- SF2R_B2SF. replace (B2SF (half 3)) with (S754_finite false 6755399441055744 (-52)) by (vm_compute; reflexivity).
      unfold literal_real. cbn. unfold Defs.F2R. cbn. change (Pos.to_nat 2) with 2. lra.
Qed.
(** 0.1 is a rounded number; 1.7e+308 is read, 1.8e+308 is not *)
Example C49_case_rounded :
  B2SF (value_of (A := BB) {| l_sign := NoSign; l_int := [0]; l_frac := Some [1]; l_exp := None |}) =
    S754_finite false 7205759403792794 (-56) /\
  in_range {| l_sign := NoSign; l_int := [1]; l_frac := Some [7]; l_exp := Some {| e_mark := "e"; e_sign := Plus; e_digits := [3; 0; 8] |} |} /\
  ~ in_range {| l_sign := NoSign; l_int := [1]; l_frac := Some [8]; l_exp := Some {| e_mark := "e"; e_sign := Plus; e_digits := [3; 0; 8] |} |}.
Proof.
  split; [vm_compute; reflexivity|]. split.
  - apply (fits_in_range (fun x => x)), fitsb_ok. vm_compute. reflexivity.
  - intros H. apply (fits_in_range (fun x => x)) in H. apply H. vm_compute. reflexivity.
Qed.

(** ** C50: every file is read to the end, without undefined behaviour *)
Theorem C50_every_file {A : Num} {D : Dec A} (f : option bytes) :
  (ds_file f = Throw BadDataFileReadException <-> f = None) /\
  (ds_file f = Throw BadDataFileReadException \/ ds_file f = Throw EmptyDataStructureException \/
   exists t v e d, List.length t = List.length v /\ t <> [] /\ ds_file f = Ok d /\ SACF_1d t v (Some e) = Ok d).
Proof. exact (file_outcomes f). Qed.
Print Assumptions C50_every_file.

Example C50_case : ok_with (ds_file (A := BB) (Some (txt "1e+2.5.5-3e5e5 +.e1 7")))
  (fun d => sames (timeseries d) [fl 100] && ok_with (data_2d d) (sames2 [[half 1]])) = true.
Proof. vm_compute. reflexivity. Qed.
