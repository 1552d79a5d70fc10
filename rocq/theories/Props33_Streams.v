(** Theorems: data files read in blocks, read errors, truncated files (C101). *)
From Coq Require Import String.
From Coq Require Import ZArith List Bool Arith Ascii Lia.
From Flocq Require Import BinarySingleNaN.
From Verif Require Import Num Mem XR B64 Spec DataStructure Correlator Sacf Api Examples FileReader SpecFile FileExamples FileErrors SpecStream FileErrorFacts.
Import ListNotations.
Local Open Scope list_scope.

(** ** C101: the sizes of the blocks in which a file is fetched do not matter *)
Theorem C101_blocks {A : Num} {D : Dec A} (blocks : list bytes) : full blocks ->
  ds_stream enough (Some (blocks, AtEnd)) = ds_file (Some (concat blocks)).
Proof. exact (stream_blocks blocks). Qed.
Print Assumptions C101_blocks.

(** a block of length 0 is the end: what would come after it is not read *)
Theorem C101_empty_block {A : Num} {D : Dec A} (mem : nat -> bool) (e : ending) (a rest : list bytes) : full a ->
  ds_stream mem (Some (a ++ [] :: rest, e)) = ds_stream mem (Some (a, AtEnd)).
Proof. exact (stream_empty mem e a rest). Qed.
Print Assumptions C101_empty_block.

(** ** C101: when reading fails the lines that were complete are used, the last incomplete one is not *)
Theorem C101_read_error {A : Num} {D : Dec A} (blocks : list bytes) (a r : bytes) : full blocks ->
  concat blocks = a ++ r -> whole_lines a -> ~ In "010"%char r ->
  ds_stream enough (Some (blocks, ReadError)) = ds_file (Some a).
Proof. exact (stream_error blocks a r). Qed.
Print Assumptions C101_read_error.

(** every text is cut like this *)
Theorem C101_cut_exists (s : bytes) : exists a r, s = a ++ r /\ whole_lines a /\ ~ In "010"%char r.
Proof. exact (cut_lines s). Qed.
Print Assumptions C101_cut_exists.

(** ** C101: whatever fails, reading or the memory for a line, the points are the first points of the file, or there are none *)
Theorem C101_first_points {A : Num} {D : Dec A} (mem : nat -> bool) (e : ending) (blocks : list bytes) (f : bytes) : full blocks ->
  (e = ReadError /\ prefix (concat blocks) f \/ concat blocks = f) ->
  ds_stream mem (Some (blocks, e)) = Throw EmptyDataStructureException \/
  exists d d', ds_stream mem (Some (blocks, e)) = Ok d /\ ds_file (Some f) = Ok d' /\ first_points d d'.
Proof. exact (stream_prefix mem e blocks f). Qed.
Print Assumptions C101_first_points.

(** ** C101: a directory, or a file of which nothing can be read, is taken for a file without data *)
Theorem C101_directory {A : Num} {D : Dec A} (mem : nat -> bool) : ds_stream mem (Some ([], ReadError)) = Throw EmptyDataStructureException.
Proof.
  destruct (stream_prefix mem ReadError [] [] (Forall_nil _) (or_intror eq_refl)) as [K|(d & d' & _ & K & _)]; [exact K|discriminate K].
Qed.
Print Assumptions C101_directory.

(** ** C101: a file that stops after a whole line *)
Theorem C101_whole_lines {A : Num} {D : Dec A} (a rest : bytes) : whole_lines a ->
  ds_file (Some a) = Throw EmptyDataStructureException \/
  exists d d', ds_file (Some a) = Ok d /\ ds_file (Some (a ++ rest)) = Ok d' /\ first_points d d'.
Proof. exact (whole_prefix a rest). Qed.
Print Assumptions C101_whole_lines.

(** ** C101 is false for a file that stops within a line: the last value is read from half of its digits *)
Theorem C101_truncated_refuted : exists (f rest : bytes) d d',
  ds_file (A := BB) (Some f) = Ok d /\ ds_file (A := BB) (Some (f ++ rest)) = Ok d' /\
  sames (timeseries d) (ints [0; 1]%Z) = true /\ sames (data_ d) (ints [5; 1]%Z) = true /\
  sames (timeseries d') (ints [0; 1]%Z) = true /\ sames (data_ d') (ints [5; 123]%Z) = true.
Proof.
  exists (txt "0 5
1 1"), (txt "23").
  destruct (ok_with_ok (ds_file (A := BB) (Some (txt "0 5
1 1"))) (fun d => sames (timeseries d) (ints [0; 1]%Z) && sames (data_ d) (ints [5; 1]%Z))) as (d & E & Hd); [vm_compute; reflexivity|].
  destruct (ok_with_ok (ds_file (A := BB) (Some (txt "0 5
1 1" ++ txt "23"))) (fun d => sames (timeseries d) (ints [0; 1]%Z) && sames (data_ d) (ints [5; 123]%Z))) as (d' & E' & Hd'); [vm_compute; reflexivity|].
  exists d, d'. apply andb_prop in Hd as [H1 H2]. apply andb_prop in Hd' as [H3 H4].
  split; [exact E|]. split; [exact E'|]. split; [exact H1|]. split; [exact H2|]. split; [exact H3|exact H4].
Qed.
Print Assumptions C101_truncated_refuted.

(** ** C101 is false in that a read error, or a lack of memory for a line, is reported: the file has three points, the object two *)
Theorem C101_reported_refuted : exists (blocks : list bytes) (rest : bytes) (mem : nat -> bool) d d' d'',
  full blocks /\ ds_stream (A := BB) enough (Some (blocks, ReadError)) = Ok d /\ ds_file (A := BB) (Some (concat blocks ++ rest)) = Ok d' /\
  ds_stream (A := BB) mem (Some (blocks ++ [rest], AtEnd)) = Ok d'' /\
  sames (timeseries d) (ints [0; 1]%Z) = true /\ sames (timeseries d') (ints [0; 1; 2]%Z) = true /\ sames (timeseries d'') (ints [0; 1]%Z) = true.
Proof.
  set (blocks := [txt "0 5
1 "; txt "4
2 "]). exists blocks, (txt "7"), (fun k => k <? 2).
  destruct (ok_with_ok (ds_stream (A := BB) enough (Some (blocks, ReadError))) (fun d => sames (timeseries d) (ints [0; 1]%Z))) as (d & E & Hd); [vm_compute; reflexivity|].
  destruct (ok_with_ok (ds_file (A := BB) (Some (concat blocks ++ txt "7"))) (fun d => sames (timeseries d) (ints [0; 1; 2]%Z))) as (d' & E' & Hd'); [vm_compute; reflexivity|].
  destruct (ok_with_ok (ds_stream (A := BB) (fun k => k <? 2) (Some (blocks ++ [txt "7"], AtEnd))) (fun d => sames (timeseries d) (ints [0; 1]%Z))) as (d'' & E'' & Hd''); [vm_compute; reflexivity|].
  exists d, d', d''. split; [repeat constructor; discriminate|]. split; [exact E|]. split; [exact E'|]. split; [exact E''|]. split; [exact Hd|]. split; [exact Hd'|exact Hd''].
Qed.
Print Assumptions C101_reported_refuted.

(** a comment, numbers split over three blocks, an error in the last line *)
Example C101_case :
  let blocks := [txt "# c
0 1"; txt "5"; txt " 2
3"; txt "0 7 1
40 "] in
  full blocks /\ concat blocks = txt "# c
0 15 2
30 7 1
" ++ txt "40 " /\
  whole_lines (txt "# c
0 15 2
30 7 1
") /\ ~ In "010"%char (txt "40 ") /\
  ok_with (ds_stream (A := BB) enough (Some (blocks, ReadError))) (fun d => sames (timeseries d) (ints [0; 30]%Z) && sames (data_ d) (ints [15; 7]%Z) && sames (err d) (ints [2; 1]%Z)) = true /\
  ok_with (ds_file (A := BB) (Some (concat blocks ++ txt "8 3"))) (fun d => sames (timeseries d) (ints [0; 30; 40]%Z)) = true.
Proof.
  cbv zeta. split; [repeat constructor; discriminate|]. split; [vm_compute; reflexivity|].
  split; [right; exists (txt "# c
0 15 2
30 7 1"); vm_compute; reflexivity|].
  split; [intros H; vm_compute in H; repeat destruct H as [H|H]; try discriminate H; exact H|]. split; vm_compute; reflexivity.
Qed.
