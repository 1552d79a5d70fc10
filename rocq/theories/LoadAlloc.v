(** Model of running out of memory while data are loaded: the constructors of
    DataStructure, sacf/datastructure/DataStructure.cpp:33-168.

    As in Alloc.v, [fails n] says whether the n-th request for memory fails.
    Most failures are thrown as std::bad_alloc and become MemoryError.  Three
    are not:
    - fopen, without memory for its FILE, makes the opening of the file fail;
    - std::getline catches the exception and sets badbit (FileErrors.v);
    - so does [>>] for a double (libstdc++ bits/istream.tcc: _M_extract), whose
      buffer is a std::string (bits/locale_facets.tcc: do_get).
    The arguments have been converted from Python objects before. *)
From Coq Require Import ZArith List Bool Arith Ascii.
From Verif Require Import Num Mem DataStructure FileReader Alloc FileErrors.
Import ListNotations.
Local Open Scope list_scope.

Section LoadAlloc.
Context {A : Num} {D : Dec A} (fails : nat -> bool).

(** [n] requests one after the other *)
Fixpoint arequests {Q} (n q : nat) (f : nat -> ameth unit Q) : ameth unit Q :=
  match n with
  | 0 => f q
  | S n' => arequest fails tt q (fun q => arequests n' q f)
  end.

(** DataStructure.cpp:142-148: a vector per dataset *)
Fixpoint means_a (data : list num) (M : nat) (js : list nat) (q : nat) : ameth unit (list num) :=
  match js with
  | [] => (tt, q, Done (Ok []))
  | j :: js' =>
      arequest fails tt q (fun q =>
      alift tt q (dataset_mean data M j) (fun m =>
      abind (means_a data M js' q) (fun _ q ms => (tt, q, Done (Ok (m :: ms))))))
  end.

(** DataStructure.cpp:33-42; vectors of lines 141, 37, 38 and 158 *)
Definition setUp_a (t_in data_in err_in : list num) (N M : nat) (q : nat) : ameth unit dstruct :=
  if (length data_in =? 0) || (length t_in =? 0) then (tt, q, Done (Throw EmptyDataStructureException))
  else if negb (length data_in mod length t_in =? 0) then (tt, q, Done (Throw BadDataInputException))
  else
    arequest fails tt q (fun q =>
    abind (means_a data_in M (seq 0 N) q) (fun _ q means =>
    alift tt q (lback t_in) (fun tm =>
    arequests 2 q (fun q =>
    alift tt q (calcNormt t_in) (fun nt =>
    arequest fails tt q (fun q =>
    alift tt q (calcNormData data_in means N M) (fun nd =>
    alift tt q (settMedian nt) (fun med =>
    (tt, q, Done (Ok {| t := t_in; data_ := data_in; err := err_in; data_mean := means;
                        t_median := med; t_max := tm; norm_t := nt; norm_data := nd;
                        N_datasets := N; M_datapoints := M |})))))))))).

(** DataStructure.cpp:76-81: the object and two copies *)
Definition ds_1d_a (t_in data_in : list num) (q : nat) : ameth unit dstruct :=
  arequests 3 q (fun q => setUp_a t_in data_in [] 1 (length t_in) q).
(** DataStructure.cpp:83-88 *)
Definition ds_1d_err_a (t_in data_in data_err_in : list num) (q : nat) : ameth unit dstruct :=
  arequests 4 q (fun q => setUp_a t_in data_in data_err_in 1 (length t_in) q).
(** DataStructure.cpp:48-57: the object, the copy of the times, a push_back per value *)
Definition ds_2d_a (t_in : list num) (data_in : list (list num)) (q : nat) : ameth unit dstruct :=
  arequests (2 + length (concat data_in)) q (fun q => setUp_a t_in (concat data_in) [] (length data_in) (length t_in) q).
(** DataStructure.cpp:59-74 *)
Definition ds_2d_err_a (t_in : list num) (data_in data_err_in : list (list num)) (q : nat) : ameth unit dstruct :=
  arequests (2 + length (concat data_in) + length (concat data_err_in)) q (fun q =>
  setUp_a t_in (concat data_in) (concat data_err_in) (length data_in) (length t_in) q).

(** [linestream >> x] with a request for the buffer *)
Definition extract_a (s : bytes) (q : nat) : option (num * bytes) := if fails q then None else extract s.

(** DataStructure.cpp:116-119 *)
Fixpoint read_errors_a (fuel : nat) (s : bytes) (st : rstate) (q : nat) : ameth unit (rstate * option bytes) :=
  match fuel with
  | 0 => (tt, q, Done Diverge)
  | S fuel' =>
      match extract_a s q with
      | None => (tt, S q, Done (Ok (st, None)))
      | Some (x, s') =>
          if has_errors st then
            arequest fails tt (S q) (fun q =>
            read_errors_a fuel' s'
              {| t_in := t_in st; data_in := data_in st; data_err_in := data_err_in st ++ [x];
                 has_errors := has_errors st; update_has_errors := false |} q)
          else (tt, S q, Done (Ok (st, Some s')))
      end
  end.

(** DataStructure.cpp:113-123; push_back of lines 114 and 115 *)
Fixpoint read_points_a (fuel : nat) (s : bytes) (st : rstate) (q : nat) : ameth unit rstate :=
  match fuel with
  | 0 => (tt, q, Done Diverge)
  | S fuel' =>
      match extract_a s q with
      | None => (tt, S q, Done (Ok st))
      | Some (t_val, s1) =>
          match extract_a s1 (S q) with
          | None => (tt, S (S q), Done (Ok st))
          | Some (x_val, s2) =>
              arequests 2 (S (S q)) (fun q =>
              abind (read_errors_a fuel' s2
                 {| t_in := t_in st ++ [t_val]; data_in := data_in st ++ [x_val];
                    data_err_in := data_err_in st;
                    has_errors := has_errors st; update_has_errors := update_has_errors st |} q) (fun _ q r =>
              let st1 := fst r in
              let st2 := if update_has_errors st1
                         then {| t_in := t_in st1; data_in := data_in st1; data_err_in := data_err_in st1;
                                 has_errors := false; update_has_errors := update_has_errors st1 |}
                         else st1 in
              match snd r with
              | None => (tt, q, Done (Ok st2))
              | Some s3 => read_points_a fuel' s3 st2 q
              end))
          end
      end
  end.

(** DataStructure.cpp:103-124 for one line; the stringstream copies it *)
Definition read_line_a (st : rstate) (line : bytes) (q : nat) : ameth unit rstate :=
  let commented := match line with c :: _ => Ascii.eqb c ch_hash | [] => false end in
  if commented then (tt, q, Done (Ok st))
  else
    let line' := map (fun c => if Ascii.eqb c ch_comma then ch_space else c) line in
    arequest fails tt q (fun q => read_points_a (S (List.length line')) line' st q).

(** DataStructure.cpp:102-124; a request in each getline *)
Fixpoint read_stream_a (fuel : nat) (e : ending) (blocks : list bytes) (buf : bytes) (st : rstate) (q : nat) : ameth unit rstate :=
  match fuel with
  | 0 => (tt, q, Done Diverge)
  | S fuel' =>
      match (if fails q then Broken else getline e blocks [] buf) with
      | GotLine l buf' blocks' => abind (read_line_a st l (S q)) (fun _ q st' => read_stream_a fuel' e blocks' buf' st' q)
      | GotLast l => read_line_a st l (S q)
      | GotNothing | Broken => (tt, S q, Done (Ok st))
      end
  end.

(** DataStructure.cpp:90-138: the object, the FILE, the buffer of the stream,
    and the assignments of lines 127, 128 and 130 *)
Definition ds_file_a (file : option (list bytes * ending)) (q : nat) : ameth unit dstruct :=
  arequest fails tt q (fun q =>
  if fails q then (tt, S q, Done (Throw BadDataFileReadException))
  else match file with
  | None => (tt, S q, Done (Throw BadDataFileReadException))
  | Some (blocks, e) =>
      arequest fails tt (S q) (fun q =>
      abind (read_stream_a (S (List.length (concat blocks))) e blocks [] rstart q) (fun _ q st =>
      arequests (if has_errors st then 3 else 2) q (fun q =>
      setUp_a (t_in st) (data_in st) (if has_errors st then data_err_in st else []) 1 (List.length (t_in st)) q)))
  end).

End LoadAlloc.
