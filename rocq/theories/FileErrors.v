(** Model of the reading of a data file in blocks, and of what can go wrong
    while it is read, sacf/datastructure/DataStructure.cpp:96-124.

    The constructor calls [std::getline] on a [std::ifstream].  libstdc++
    (src/c++98/istream-string.cc: getline; bits/fstream.tcc: underflow) fetches
    the file in blocks with read(2).  A block of length 0 is the end of the
    file.  An error of read(2) is thrown as an exception inside [getline], as
    is a failure to get memory for the line.  [getline] catches every exception
    and sets badbit, the [while] of line 102 ends, and nothing looks at the
    state of the stream afterwards.

    The blocks are arbitrary: their sizes depend on the system, and a file can
    change while it is read.  Opening a directory succeeds on Linux; the first
    read(2) is then an error. *)
From Coq Require Import ZArith List Bool Arith Ascii.
From Verif Require Import Num Mem DataStructure FileReader.
Import ListNotations.
Local Open Scope list_scope.

(** how the blocks end: with a block of length 0, or with an error of read(2) *)
Inductive ending := AtEnd | ReadError.

(** the characters up to the delimiter; what follows it, if it is there *)
Fixpoint cut_nl (s : bytes) : bytes * option bytes :=
  match s with
  | [] => ([], None)
  | c :: r => if Ascii.eqb c NL then ([], Some r) else let (x, o) := cut_nl r in (c :: x, o)
  end.

(** what a call of getline leaves: a line and the rest of the buffer and of the
    blocks; the characters before the end of the file, with eofbit; failbit
    because there are none; badbit *)
Inductive got := GotLine (line buf : bytes) (blocks : list bytes) | GotLast (line : bytes) | GotNothing | Broken.

(** getline: [str] is what it has appended to the string so far, [buf] the rest
    of the buffer *)
Fixpoint getline (e : ending) (blocks : list bytes) (str buf : bytes) : got :=
  let at_end l := match l with [] => GotNothing | _ => GotLast l end in
  match cut_nl buf with
  | (x, Some buf') => GotLine (str ++ x) buf' blocks
  | (x, None) =>
      match blocks with
      | [] => match e with AtEnd => at_end (str ++ x) | ReadError => Broken end
      | [] :: _ => at_end (str ++ x)
      | b :: blocks' => getline e blocks' (str ++ x) b
      end
  end.

Section Stream.
Context {A : Num} {D : Dec A}.

(** DataStructure.cpp:102-124; [mem k]: the k-th call of getline gets the
    memory it asks for.  After eofbit the next call of getline fails at once. *)
Fixpoint read_stream (fuel k : nat) (mem : nat -> bool) (e : ending) (blocks : list bytes) (buf : bytes) (st : rstate) : res rstate :=
  match fuel with
  | 0 => Diverge
  | S fuel' =>
      match (if mem k then getline e blocks [] buf else Broken) with
      | GotLine l buf' blocks' => do st' <- read_line st l; read_stream fuel' (S k) mem e blocks' buf' st'
      | GotLast l => read_line st l
      | GotNothing | Broken => Ok st
      end
  end.

(** DataStructure.cpp:90-138; [file] is None when it cannot be opened *)
Definition ds_stream (mem : nat -> bool) (file : option (list bytes * ending)) : res dstruct :=
  match file with
  | None => Throw BadDataFileReadException
  | Some (blocks, e) =>
      do st <- read_stream (S (List.length (concat blocks))) 0 mem e blocks [] rstart;
      setUp (t_in st) (data_in st) (if has_errors st then data_err_in st else []) 1 (List.length (t_in st))
  end.

End Stream.

(** every call of getline gets memory *)
Definition enough : nat -> bool := fun _ => true.
