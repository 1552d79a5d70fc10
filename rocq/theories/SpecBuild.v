(** Vocabulary for the theorems about setup.py. *)
From Coq Require Import String Ascii.
From Coq Require Import ZArith List Bool Arith.
From Verif Require Import Build.
Import ListNotations.
Local Open Scope list_scope.

(** the programs run with check_call, in order *)
Definition calls (h : list event) : list event := filter (fun e => match e with CheckCall _ _ _ => true | _ => false end) h.

(** event [e], after the events [before], succeeded *)
Definition succeeded (w : surroundings) (before : list event) (e : event) : Prop := exists s, w (before ++ [e]) = Out s.

(** the directory was found or made *)
Definition directory_made (w : surroundings) (dir : string) (before : list event) : Prop :=
  exists h1 x h2, before = h1 ++ x :: h2 /\ (x = Exists dir \/ x = Makedirs dir) /\ succeeded w h1 x.

(** a run of cmake that configures extension [e] *)
Definition configures (b : builder) (e : extension) (x : event) : Prop :=
  exists args env, x = CheckCall ("cmake" :: sourcedir e :: args)%string (build_temp b) env /\
    (* the flags of the user come first, with nothing else changed *)
    env_get env "CXXFLAGS" = Some ((match env_get (environ b) "CXXFLAGS" with Some f => f | None => "" end) ++ " -DVERSION_INFO=\""" ++ version b ++ "\""")%string /\
    (forall y, y <> "CXXFLAGS"%string -> env_get env y = env_get (environ b) y) /\
    In ("-DCMAKE_LIBRARY_OUTPUT_DIRECTORY=" ++ ext_dir b (name e))%string args /\
    In ("-DPYTHON_EXECUTABLE=" ++ executable b)%string args /\
    (* the build type is given once, except on Windows *)
    filter (String.prefix "-DCMAKE_BUILD_TYPE=") args =
      (if String.eqb (system b) "Windows" then [] else [if debug b then "-DCMAKE_BUILD_TYPE=Debug" else "-DCMAKE_BUILD_TYPE=Release"])%string /\
    (In "x64"%string args <-> system b = "Windows"%string /\ (2 ^ 32 < maxsize b)%Z) /\
    (* both compilers are named, or neither *)
    ((filter (String.prefix "-DCMAKE_CXX_COMPILER=") args = [] /\ filter (String.prefix "-DCMAKE_C_COMPILER=") args = []) \/
     exists gpp gcc, filter (String.prefix "-DCMAKE_CXX_COMPILER=") args = ["-DCMAKE_CXX_COMPILER=" ++ gpp]%string /\
                     filter (String.prefix "-DCMAKE_C_COMPILER=") args = ["-DCMAKE_C_COMPILER=" ++ gcc]%string).

(** a run of cmake that builds what was configured *)
Definition builds (b : builder) (x : event) : Prop :=
  exists args, x = CheckCall ("cmake" :: "--build" :: "." :: "--config" :: (if debug b then "Debug" else "Release") :: "--" :: args)%string (build_temp b) (environ b) /\
    args = [if String.eqb (system b) "Windows" then "/m" else "-j2"]%string.

(** what was run for these extensions, in order: both programs for every extension; if not [all], it stops somewhere *)
Inductive progress (b : builder) : list extension -> forall all : bool, list event -> Prop :=
| everything : progress b [] true []
| next e es all c u l : configures b e c -> builds b u -> progress b es all l -> progress b (e :: es) all (c :: u :: l)
| stop_before e es : progress b (e :: es) false []
| stop_configure e es c : configures b e c -> progress b (e :: es) false [c]
| stop_build e es c u : configures b e c -> builds b u -> progress b (e :: es) false [c; u].

(** a shell command that always has this answer *)
Definition always (w : surroundings) (command : string) (r : reply) : Prop := forall before, w (before ++ [CheckOutputShell command]) = r.

(** no tab, newline or carriage return *)
Definition one_line (s : string) : Prop := forall c, In c (list_ascii_of_string s) -> ~ In (nat_of_ascii c) [9; 10; 13].

(** setup.py:115-118: the extensions of this package; [src] is the absolute path of the directory sacf *)
Definition sacf_extensions (src : string) : list extension :=
  [{| name := "sacf.correlator"; sourcedir := src |}; {| name := "sacf.datastructure"; sourcedir := src |}].

(** version numbers: digits, their value, the order *)
Definition decimal (s : string) : Prop := s <> ""%string /\ forall c, In c (list_ascii_of_string s) -> 48 <= nat_of_ascii c <= 57.
Definition blanks (s : string) : Prop := forall c, In c (list_ascii_of_string s) -> 9 <= nat_of_ascii c <= 13 \/ 28 <= nat_of_ascii c <= 32.
Definition no_v (s : string) : Prop := ~ In "v"%char (list_ascii_of_string s).
Definition numeral_ends (s : string) : Prop := match s with EmptyString => True | String c _ => ~ (48 <= nat_of_ascii c <= 57) /\ c <> "."%char end.
Definition value (s : string) : nat := fold_left (fun n c => 10 * n + (nat_of_ascii c - 48)) (list_ascii_of_string s) 0.
Inductive below : list nat -> list nat -> Prop :=
| below_end y m : below [] (y :: m)
| below_less x y l m : x < y -> below (x :: l) (y :: m)
| below_next x l m : below l m -> below (x :: l) (x :: m).
