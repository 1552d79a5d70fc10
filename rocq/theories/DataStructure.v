(** Model of sacf/datastructure/DataStructure.cpp (class DataStructure). *)
From Coq Require Import ZArith List Bool Arith.
From Verif Require Import Num Mem.
Import ListNotations.

Section DataStructure.
Context {A : Num}.

(** DataStructure.h:23-58.  [long] sizes are [nat]; [t_length] is never used
    by the code and left out. *)
Record dstruct := {
  t : list num;
  data_ : list num;
  err : list num;
  data_mean : list num;
  t_median : num;
  t_max : num;
  norm_t : list num;
  norm_data : list num;
  N_datasets : nat;
  M_datapoints : nat
}.

(** DataStructure.cpp:44-46 getVectorIndex, [M] is M_datapoints.  int/long
    overflow not modelled. *)
Definition getVectorIndex (M i j : nat) : nat := i + j * M.

(** DataStructure.cpp:143-147, body of the loop of setDataMean for dataset
    [j]: copy the non-NaN values, sum from 0.0, divide by their number. *)
Definition dataset_mean (data : list num) (M j : nat) : res num :=
  do xs <- slice data (getVectorIndex M 0 j) (getVectorIndex M M j);
  let x_copy := filter (fun d => negb (nisnan d)) xs in
  Ok (ndiv (fold_left nadd x_copy nzero) (nofZ (Z.of_nat (length x_copy)))).

(** DataStructure.cpp:140-149 *)
Definition setDataMean (data : list num) (N M : nat) : res (list num) :=
  mapM (dataset_mean data M) (seq 0 N).

(** DataStructure.cpp:153-155 *)
Definition calcNormt (ts : list num) : res (list num) :=
  do t0 <- lget ts 0; Ok (map (fun x => nsub x t0) ts).

(** DataStructure.cpp:157-163; [n] iterations starting with dataset [j],
    [nd] is norm_data so far. *)
Fixpoint calcNormData_loop (data means : list num) (M : nat) (n j : nat) (nd : list num)
  : res (list num) :=
  match n with
  | 0 => Ok nd
  | S n' =>
      do xs <- slice data (getVectorIndex M 0 j) (getVectorIndex M M j);
      do m <- lget means j;
      do nd' <- write_slice nd (getVectorIndex M 0 j) (map (fun x => nsub x m) xs);
      calcNormData_loop data means M n' (S j) nd'
  end.
Definition calcNormData (data means : list num) (N M : nat) : res (list num) :=
  calcNormData_loop data means M N 0 (repeat nzero (length data)).

(** DataStructure.cpp:165-169 *)
Definition settMedian (nt : list num) : res num :=
  let size := length nt in
  if size mod 2 =? 0 then
    do a <- lget nt (size / 2 - 1);
    do b <- lget nt (size / 2);
    Ok (ndiv (nadd a b) ntwo)
  else lget nt (size / 2).

(** DataStructure.cpp:33-42 *)
Definition setUp (t_in data_in err_in : list num) (N M : nat) : res dstruct :=
  if (length data_in =? 0) || (length t_in =? 0) then Throw EmptyDataStructureException
  else if negb (length data_in mod length t_in =? 0) then Throw BadDataInputException
  else
    do means <- setDataMean data_in N M;
    do tm <- lback t_in;
    do nt <- calcNormt t_in;
    do nd <- calcNormData data_in means N M;
    do med <- settMedian nt;
    Ok {| t := t_in; data_ := data_in; err := err_in; data_mean := means;
          t_median := med; t_max := tm; norm_t := nt; norm_data := nd;
          N_datasets := N; M_datapoints := M |}.

(** DataStructure.cpp:76-81 *)
Definition ds_1d (t_in data_in : list num) : res dstruct :=
  setUp t_in data_in [] 1 (length t_in).

(** DataStructure.cpp:83-88 *)
Definition ds_1d_err (t_in data_in data_err_in : list num) : res dstruct :=
  setUp t_in data_in data_err_in 1 (length t_in).

(** DataStructure.cpp:48-57.  The nested push_back loops are [concat]. *)
Definition ds_2d (t_in : list num) (data_in : list (list num)) : res dstruct :=
  setUp t_in (concat data_in) [] (length data_in) (length t_in).

(** DataStructure.cpp:59-74 *)
Definition ds_2d_err (t_in : list num) (data_in data_err_in : list (list num)) : res dstruct :=
  setUp t_in (concat data_in) (concat data_err_in) (length data_in) (length t_in).

(** DataStructure.cpp:180, datastructure_bindings.cpp:17 etc. *)
Definition timeseries (d : dstruct) : list num := t d.
Definition normalised_timeseries (d : dstruct) : list num := norm_t d.
Definition mean_data (d : dstruct) : list num := data_mean d.       (* :184 *)
Definition median_time (d : dstruct) : num := t_median d.           (* :185 *)
Definition max_time (d : dstruct) : num := t_max d.                 (* :186 *)

(** the common loops of data_2d, err_2d, normalised_data_2d *)
Definition rows_2d (v : list num) (N M : nat) : res (list (list num)) :=
  mapM (fun j => mapM (fun i => lget v (getVectorIndex M i j)) (seq 0 M)) (seq 0 N).

(** DataStructure.cpp:188-198, Python data() (datastructure_bindings.cpp:14) *)
Definition data_2d (d : dstruct) : res (list (list num)) :=
  rows_2d (data_ d) (N_datasets d) (M_datapoints d).

(** DataStructure.cpp:200-213, Python errors() *)
Definition err_2d (d : dstruct) : res (list (list num)) :=
  match err d with
  | [] => Ok []
  | _ => rows_2d (err d) (N_datasets d) (M_datapoints d)
  end.

(** DataStructure.cpp:215-225, Python normalised_data() *)
Definition normalised_data_2d (d : dstruct) : res (list (list num)) :=
  rows_2d (norm_data d) (N_datasets d) (M_datapoints d).

End DataStructure.
