(** Model of setup.py: the build_ext command that runs CMake.

    The program talks to its surroundings through [event]s: programs it runs and the file system.  What comes back is given
    by an arbitrary function of everything that happened so far ([surroundings]), so every surroundings is covered.
    Texts are ASCII.  Not modelled: os.path.abspath, os.path.dirname and get_ext_fullpath of distutils (a field of
    [builder] gives the resulting directory of each extension), the commands setuptools runs before and after, the class PyTest. *)
From Coq Require Import String Ascii.
From Coq Require Import ZArith List Bool Arith.
Import ListNotations.
Local Open Scope list_scope.

(** environment variables *)
Definition environment := list (string * string).
Fixpoint env_get (e : environment) (x : string) : option string :=
  match e with [] => None | (y, v) :: e' => if String.eqb y x then Some v else env_get e' x end.
Definition env_set (e : environment) (x v : string) : environment := (x, v) :: e.

Inductive event :=
| CheckOutput (argv : list string)                                                 (* subprocess.check_output *)
| CheckOutputShell (command : string)                                              (* subprocess.check_output(.., shell=True) *)
| CheckCall (argv : list string) (cwd : string) (env : environment)                (* subprocess.check_call *)
| Exists (path : string)                                                           (* os.path.exists *)
| Makedirs (path : string).                                                        (* os.makedirs *)

(** exit status zero with this output (also: the path exists, the directory was made); another exit status (also: the path does not exist); OSError *)
Inductive reply := Out (text : string) | Status | NoSuch.
Definition surroundings := list event -> reply.

Inductive error := RuntimeError (message : string) | CalledProcessError | OSError | AttributeError.

(** computations: from what happened so far to what has happened then, and a value or an exception *)
Definition io (R : Type) : Type := list event -> list event * (R + error).
Definition iret {R} (r : R) : io R := fun h => (h, inl r).
Definition raise {R} (e : error) : io R := fun h => (h, inr e).
Definition ibind {R Q} (m : io R) (f : R -> io Q) : io Q :=
  fun h => match m h with (h', inl r) => f r h' | (h', inr e) => (h', inr e) end.
Definition perform (w : surroundings) (e : event) : io reply := fun h => (h ++ [e], inl (w (h ++ [e]))).

(** setup.py:13-16; the name and the absolute path of the source directory *)
Record extension := { name : string; sourcedir : string }.

(** attributes of the command, and of sys, platform and os, that are read.  [ext_dir]: setup.py:55 *)
Record builder := {
  extensions : list extension;
  ext_dir : string -> string;
  debug : bool;
  build_temp : string;
  version : string;                 (* self.distribution.get_version() *)
  system : string;                  (* platform.system() *)
  executable : string;              (* sys.executable *)
  maxsize : Z;                      (* sys.maxsize *)
  environ : environment             (* os.environ *)
}.

(** ** setup.py:44-48: the regular expression version\s*([\d.]+), leftmost match, group 1 *)
Definition is_digit (c : ascii) : bool := (48 <=? nat_of_ascii c) && (nat_of_ascii c <=? 57).
Definition is_blank (c : ascii) : bool :=
  ((9 <=? nat_of_ascii c) && (nat_of_ascii c <=? 13)) || ((28 <=? nat_of_ascii c) && (nat_of_ascii c <=? 32)).
Definition is_numeral (c : ascii) : bool := is_digit c || Ascii.eqb c ".".
Fixpoint skip (f : ascii -> bool) (s : string) : string :=
  match s with String c s' => if f c then skip f s' else s | EmptyString => EmptyString end.
Fixpoint take (f : ascii -> bool) (s : string) : string :=
  match s with String c s' => if f c then String c (take f s') else EmptyString | EmptyString => EmptyString end.
Fixpoint after_prefix (p s : string) : option string :=
  match p, s with
  | EmptyString, _ => Some s
  | String a p', String b s' => if Ascii.eqb a b then after_prefix p' s' else None
  | _, _ => None
  end.
Definition match_here (s : string) : option string :=
  match after_prefix "version" s with
  | Some s' => match take is_numeral (skip is_blank s') with EmptyString => None | v => Some v end
  | None => None
  end.
Fixpoint search (s : string) : option string :=
  match match_here s with
  | Some v => Some v
  | None => match s with String _ s' => search s' | EmptyString => None end
  end.

(** distutils.version.LooseVersion on digits and dots: the numbers between the dots; [<] is that of lists *)
Definition digit (c : ascii) : nat := nat_of_ascii c - 48.
Fixpoint components (s : string) (cur : option nat) : list nat :=
  match s with
  | EmptyString => match cur with Some n => [n] | None => [] end
  | String c s' =>
      if is_digit c then components s' (Some (match cur with Some n => 10 * n + digit c | None => digit c end))
      else match cur with Some n => n :: components s' None | None => components s' None end
  end.
Fixpoint list_lt (l m : list nat) : bool :=
  match l, m with
  | [], [] => false
  | [], _ :: _ => true
  | _ :: _, [] => false
  | x :: l', y :: m' => if x =? y then list_lt l' m' else x <? y
  end.
Definition version_lt (a b : string) : bool := list_lt (components a None) (components b None).

(** ** setup.py:73-82: str.strip("\n\t\r") *)
Definition is_end (c : ascii) : bool := (nat_of_ascii c =? 9) || (nat_of_ascii c =? 10) || (nat_of_ascii c =? 13).
Fixpoint strip_right (s : string) : string :=
  match s with
  | EmptyString => EmptyString
  | String c s' => match strip_right s' with EmptyString => if is_end c then EmptyString else String c EmptyString | t => String c t end
  end.
Definition strip (s : string) : string := strip_right (skip is_end s).

(** setup.py:61, 66 (cfg.upper()) *)
Definition cfg (b : builder) : string := if debug b then "Debug" else "Release".
Definition cfg_upper (b : builder) : string := if debug b then "DEBUG" else "RELEASE".
Definition windows (b : builder) : bool := String.eqb (system b) "Windows".

Section Build.
Context (w : surroundings).

(** subprocess.check_output, check_call: the exceptions they raise *)
Definition check_output (e : event) : io string :=
  ibind (perform w e) (fun r => match r with Out s => iret s | Status => raise CalledProcessError | NoSuch => raise OSError end).
Definition check_call (argv : list string) (cwd : string) (env : environment) : io unit :=
  ibind (check_output (CheckCall argv cwd env)) (fun _ => iret tt).

(** setup.py:72-89: only CalledProcessError is caught; then no compiler is named *)
Definition compilers : io (list string) := fun h =>
  match ibind (check_output (CheckOutputShell "which g++")) (fun gpp =>
        ibind (check_output (CheckOutputShell "which gcc")) (fun gcc => iret (strip gpp, strip gcc))) h with
  | (h', inl (gpp, gcc)) => (h', inl ["-DCMAKE_CXX_COMPILER=" ++ gpp; "-DCMAKE_C_COMPILER=" ++ gcc]%string)
  | (h', inr CalledProcessError) => (h', inl [])
  | (h', inr e) => (h', inr e)
  end.

(** setup.py:54-104 *)
Definition build_extension (b : builder) (ext : extension) : io unit :=
  let extdir := ext_dir b (name ext) in
  let cmake_args := ["-DCMAKE_LIBRARY_OUTPUT_DIRECTORY=" ++ extdir; "-DPYTHON_EXECUTABLE=" ++ executable b]%string in
  let build_args := ["--config"; cfg b]%string in
  ibind
    (if windows b
     then iret (cmake_args ++ ["-DCMAKE_LIBRARY_OUTPUT_DIRECTORY_" ++ cfg_upper b ++ "=" ++ extdir]%string ++
                (if (2 ^ 32 <? maxsize b)%Z then ["-A"; "x64"]%string else []),
                build_args ++ ["--"; "/m"]%string)
     else ibind compilers (fun cs =>
          iret (cmake_args ++ cs ++ ["-DCMAKE_BUILD_TYPE=" ++ cfg b]%string, build_args ++ ["--"; "-j2"]%string)))
    (fun args =>
  let env := env_set (environ b) "CXXFLAGS"
    ((match env_get (environ b) "CXXFLAGS" with Some f => f | None => "" end) ++ " -DVERSION_INFO=\""" ++ version b ++ "\""")%string in
  ibind (perform w (Exists (build_temp b))) (fun r =>
  ibind (match r with
         | Out _ => iret tt
         | _ => ibind (perform w (Makedirs (build_temp b))) (fun r => match r with Out _ => iret tt | _ => raise OSError end)
         end) (fun _ =>
  ibind (check_call (["cmake"%string; sourcedir ext] ++ fst args) (build_temp b) env) (fun _ =>
  check_call (["cmake"; "--build"; "."]%string ++ snd args) (build_temp b) (environ b))))).

(** setup.py:51-52 *)
Fixpoint build_all (b : builder) (exts : list extension) : io unit :=
  match exts with
  | [] => iret tt
  | e :: exts' => ibind (build_extension b e) (fun _ => build_all b exts')
  end.

(** ", ".join(...) *)
Definition joined (l : list string) : string := String.concat ", " l.

(** setup.py:35-52 *)
Definition run (b : builder) : io unit := fun h =>
  match check_output (CheckOutput ["cmake"; "--version"]%string) h with
  | (h', inr OSError) => (h', inr (RuntimeError ("CMake must be installed to build the following extensions: " ++ joined (map name (extensions b)))))
  | (h', inr e) => (h', inr e)
  | (h', inl out) =>
      if windows b then
        match search out with
        | None => (h', inr AttributeError)                 (* None has no attribute group *)
        | Some v => if version_lt v "3.1.0" then (h', inr (RuntimeError "CMake >= 3.1.0 is required on Windows"))
                    else build_all b (extensions b) h'
        end
      else build_all b (extensions b) h'
  end.

End Build.
