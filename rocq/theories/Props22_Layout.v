(** Theorems: layout of data files (C82), files one after the other (C83). *)
From Coq Require Import String.
From Coq Require Import ZArith List Bool Arith Ascii Lia.
From Flocq Require Import BinarySingleNaN.
From Verif Require Import Num Mem XR B64 Spec DataStructure Correlator Sacf Api Examples FileReader SpecFile FileExamples SpecText TextFacts.
Import ListNotations.
Local Open Scope list_scope.

(** ** C82: a data file is its rows of words, whatever its bytes are *)
Theorem C82_rows {A : Num} {D : Dec A} (f f' : bytes) : rows f = rows f' -> ds_file (Some f) = ds_file (Some f').
Proof. exact (file_rows f f'). Qed.
Print Assumptions C82_rows.

(** commas, spaces, tabs and the like can be exchanged *)
Theorem C82_separators {A : Num} {D : Dec A} (f f' : bytes) : Forall2 same_char f f' -> ds_file (Some f) = ds_file (Some f').
Proof. intros H. exact (file_rows f f' (rows_same f f' H)). Qed.
Print Assumptions C82_separators.

(** lines can end with CR LF *)
Theorem C82_crlf {A : Num} {D : Dec A} (f : bytes) : ds_file (Some (with_crlf f)) = ds_file (Some f).
Proof. exact (file_rows _ _ (rows_crlf f)). Qed.
Print Assumptions C82_crlf.

(** the newline at the end of the file can be missing *)
Theorem C82_last_newline {A : Num} {D : Dec A} (f : bytes) : ds_file (Some (f ++ ["010"%char])) = ds_file (Some f).
Proof. exact (file_rows _ _ (rows_last_newline f)). Qed.
Print Assumptions C82_last_newline.

(** lines that end with CR alone are one line: the first two numbers are the only data point, the rest its errors *)
Theorem C82_cr_refuted : exists (f : bytes) d d',
  ds_file (A := BB) (Some f) = Ok d /\ ds_file (A := BB) (Some (with_cr f)) = Ok d' /\
  sames (timeseries d) (ints [0; 1; 2]%Z) = true /\ err d = [] /\
  sames (timeseries d') (ints [0]%Z) = true /\ sames (err d') (ints [1; 4; 2; 6]%Z) = true.
Proof.
  set (f := txt "0 5
1 4
2 6
"). exists f.
  destruct (ok_with_ok (ds_file (A := BB) (Some f))
    (fun d => sames (timeseries d) (ints [0; 1; 2]%Z) && sames (err d) [])) as (d & E & Hd); [vm_compute; reflexivity|].
  destruct (ok_with_ok (ds_file (A := BB) (Some (with_cr f)))
    (fun d => sames (timeseries d) (ints [0]%Z) && sames (err d) (ints [1; 4; 2; 6]%Z))) as (d' & E' & Hd'); [vm_compute; reflexivity|].
  exists d, d'. apply andb_prop in Hd as [H1 H2]. apply andb_prop in Hd' as [H3 H4].
  split; [exact E|]. split; [exact E'|]. split; [exact H1|]. split; [exact (sames_eq _ _ H2)|]. split; [exact H3|exact H4].
Qed.
Print Assumptions C82_cr_refuted.

(** a comment, a blank line, runs of separators, a word with two numbers, a missing last newline *)
Example C82_case :
  rows (txt "#c,d

 0,,1-2
 3	4") = rows (txt ",#c d
0 1-2
3, 4 , 
") /\
  ok_with (ds_file (A := BB) (Some (txt "#c,d

 0,,1-2
 3	4"))) (fun d => sames (timeseries d) (ints [0; 3]%Z) && sames (err d) (ints [-2]%Z)) = true /\
  Forall2 same_char (txt "0,1") (txt "0 1") /\ ~ same_char "0"%char "1"%char.
Proof.
  split; [vm_compute; reflexivity|]. split; [vm_compute; reflexivity|]. split.
  - apply Forall2_cons; [left; reflexivity|]. apply Forall2_cons; [right; split; reflexivity|].
    apply Forall2_cons; [left; reflexivity|constructor].
  - intros [H|[H _]]; discriminate.
Qed.

(** ** C83: files one after the other *)
(** the data of both, if both or neither have errors *)
Theorem C83_concatenated {A : Num} {D : Dec A} (f g : bytes) (d e : dstruct) :
  ds_file (Some f) = Ok d -> ds_file (Some g) = Ok e -> (err_2d d = Ok [] <-> err_2d e = Ok []) ->
  ds_file (Some (f ++ "010"%char :: g)) =
  SACF_1d (timeseries d ++ timeseries e) (data_ d ++ data_ e) (Some (err d ++ err e)).
Proof.
  intros Hf Hg H. rewrite (err_2d_none d f Hf), (err_2d_none e g Hg) in H. exact (concat_files f g d e Hf Hg H).
Qed.
Print Assumptions C83_concatenated.

(** a file without data changes nothing *)
Theorem C83_no_data {A : Num} {D : Dec A} (f g : bytes) : ds_file (Some f) = Throw EmptyDataStructureException ->
  ds_file (Some (f ++ "010"%char :: g)) = ds_file (Some g) /\ ds_file (Some (g ++ "010"%char :: f)) = ds_file (Some g).
Proof. exact (concat_empty f g). Qed.
Print Assumptions C83_no_data.

(** after a file without errors, the errors of the second file become data points *)
Theorem C83_mixed_refuted : exists (f g : bytes) d e de,
  ds_file (A := BB) (Some f) = Ok d /\ ds_file (A := BB) (Some g) = Ok e /\
  ds_file (A := BB) (Some (f ++ "010"%char :: g)) = Ok de /\
  sames (timeseries d) (ints [0; 1]%Z) = true /\ sames (timeseries e) (ints [2; 3]%Z) = true /\
  sames (timeseries de) (ints [0; 1; 2; 8; 3; 10]%Z) = true.
Proof.
  set (f := txt "0 5
1 4"). set (g := txt "2 6 7 8 9
3 7 9 10 11"). exists f, g.
  destruct (ok_with_ok (ds_file (A := BB) (Some f)) (fun d => sames (timeseries d) (ints [0; 1]%Z))) as (d & E & Hd); [vm_compute; reflexivity|].
  destruct (ok_with_ok (ds_file (A := BB) (Some g)) (fun d => sames (timeseries d) (ints [2; 3]%Z))) as (e & E' & He); [vm_compute; reflexivity|].
  destruct (ok_with_ok (ds_file (A := BB) (Some (f ++ "010"%char :: g)))
    (fun d => sames (timeseries d) (ints [0; 1; 2; 8; 3; 10]%Z))) as (de & E2 & Hde); [vm_compute; reflexivity|].
  exists d, e, de. repeat (split; [assumption|]). exact Hde.
Qed.
Print Assumptions C83_mixed_refuted.

Example C83_case :
  ok_with (ds_file (A := BB) (Some (txt "0 1 1
1 2 1"))) (fun d => ok_with (err_2d d) (sames2 [ints [1; 1]%Z])) = true /\
  ok_with (ds_file (A := BB) (Some (txt "2 3 2"))) (fun d => ok_with (err_2d d) (sames2 [ints [2]%Z])) = true /\
  ds_file (A := BB) (Some (txt "# nothing")) = Throw EmptyDataStructureException.
Proof. repeat split; vm_compute; reflexivity. Qed.
