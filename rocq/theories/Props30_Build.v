(** C98: building the extension (setup.py). *)
From Coq Require Import String Ascii.
From Coq Require Import ZArith List Bool Arith Lia.
From Verif Require Import Build SpecBuild BuildFacts.
Import ListNotations.
Local Open Scope list_scope.

Notation asks_version := (CheckOutput ["cmake"; "--version"]%string).

(** Without cmake: an error that names the extensions; nothing else is run and nothing is written.  This error never comes from anything else. *)
Theorem C98_cmake_missing w b : forall h r, run w b [] = (h, r) ->
  (w [asks_version] = NoSuch <->
   h = [asks_version] /\ r = inr (RuntimeError ("CMake must be installed to build the following extensions: " ++ String.concat ", " (map name (extensions b))))).
Proof.
  intros h r E. apply run_cases in E. destruct E as [evs [-> [_ [[-> [-> K]]|[[-> [-> K]]|[out [K K']]]]]]]; rewrite K.
  - split; auto.
  - split; [discriminate|]. intros [_ C]. discriminate C.
  - split; [discriminate|]. intros [_ C]. destruct K' as [[_ [-> _]]|[[_ [-> _]]|[_ [N _]]]]; [discriminate C|discriminate C|]. exfalso. exact (N _ C).
Qed.
Print Assumptions C98_cmake_missing.

(** On Windows a version of cmake below 3.1.0 is refused, with the numbers compared as numbers; before anything is written. *)
Theorem C98_version_windows w b pre bl ns post h r : system b = "Windows"%string ->
  w [asks_version] = Out (pre ++ "version" ++ bl ++ String.concat "." ns ++ post)%string ->
  no_v pre -> blanks bl -> ns <> [] -> Forall decimal ns -> numeral_ends post -> run w b [] = (h, r) ->
  (below (map value ns) [3; 1; 0] -> h = [asks_version] /\ r = inr (RuntimeError "CMake >= 3.1.0 is required on Windows")) /\
  (~ below (map value ns) [3; 1; 0] -> forall m, r <> inr (RuntimeError m)).
Proof.
  intros Hs Hw H1 H2 H3 H4 H5 E. pose proof (search_version pre bl ns post H1 H2 H3 H4 H5) as S. pose proof (version_below ns H4) as V.
  apply run_cases in E. destruct E as [evs [-> [_ [[_ [_ K]]|[[_ [_ K]]|[out [K K']]]]]]]; rewrite Hw in K; [discriminate K|discriminate K|].
  assert (K0 : out = (pre ++ "version" ++ bl ++ String.concat "." ns ++ post)%string) by congruence. clear K. subst out. destruct K' as [[_ [_ [_ C]]]|[[-> [-> [_ [v [C K]]]]]|[K [N _]]]].
  - rewrite S in C. discriminate C.
  - rewrite S in C. injection C as <-. split; [auto|]. intros C. apply V in K. contradiction.
  - destruct (K Hs) as [v [C L]]. rewrite S in C. injection C as <-. split; [|intros _; exact N]. intros C. apply V in C. congruence.
Qed.
Print Assumptions C98_version_windows.

(** Elsewhere the answer of cmake does not matter, as long as there is one. *)
Theorem C98_version_elsewhere w b out h r : system b <> "Windows"%string -> w [asks_version] = Out out -> run w b [] = (h, r) ->
  (forall m, r <> inr (RuntimeError m)) /\ r <> inr AttributeError.
Proof.
  intros Hs Hw E. apply run_cases in E. destruct E as [evs [-> [_ [[_ [_ K]]|[[_ [_ K]]|[o [K K']]]]]]]; rewrite Hw in K; [discriminate K|discriminate K|].
  destruct K' as [[_ [_ [C _]]]|[[_ [_ [C _]]]|[_ [N [N' _]]]]]; [congruence|congruence|auto].
Qed.
Print Assumptions C98_version_elsewhere.

(** The programs run: for every extension in order one that configures and one that builds; a failing command stops somewhere. *)
Theorem C98_commands w b h r : run w b [] = (h, r) ->
  (r = inl tt -> progress b (extensions b) true (calls h)) /\
  (r <> inl tt -> extensions b <> [] -> progress b (extensions b) false (calls h)) /\
  (r <> inl tt -> extensions b = [] -> calls h = []).
Proof.
  intros E. apply run_cases in E. destruct E as [evs [-> [_ K]]]. cbn [calls filter]. fold (calls evs).
  assert (Z0 : forall er : error, r = inr er -> evs = [] ->
    (r = inl tt -> progress b (extensions b) true (calls evs)) /\ (r <> inl tt -> extensions b <> [] -> progress b (extensions b) false (calls evs)) /\ (r <> inl tt -> extensions b = [] -> calls evs = [])).
  { intros er -> ->. split; [discriminate|]. split; [|reflexivity]. intros _ H. destruct (extensions b); [congruence|constructor]. }
  destruct K as [[K1 [K2 _]]|[[K1 [K2 _]]|[out [_ [[K1 [K2 _]]|[[K1 [K2 _]]|[_ [_ [_ P]]]]]]]]]; try (eapply Z0; eassumption).
  destruct r as [[]|er].
  - split; [intros _; exact P|]. split; congruence.
  - split; [discriminate|]. split; [intros _ _; exact P|]. intros _ H. rewrite H in P. inversion P.
Qed.
Print Assumptions C98_commands.

(** Nothing is run after a program that failed, and the command then fails. *)
Theorem C98_stops w b h r before argv cwd env rest : run w b [] = (h, r) -> h = before ++ CheckCall argv cwd env :: rest ->
  ~ succeeded w before (CheckCall argv cwd env) -> rest = [] /\ (r = inr CalledProcessError \/ r = inr OSError).
Proof.
  intros E Eh Hn. apply run_cases in E. destruct E as [evs [-> [F K]]]. destruct before as [|x before]; [discriminate Eh|]. injection Eh as <- Eh.
  pose proof (all_fine_at w r evs _ before _ rest F Eh) as G. cbn [fine] in G. destruct G as [G _]. cbn [app] in G.
  assert (Hr : rest = []) by (destruct rest; [reflexivity|exfalso; apply Hn, G; left; discriminate]). split; [exact Hr|].
  destruct r as [[]|er]; [exfalso; apply Hn, G; right; reflexivity|].
  assert (Z0 : evs <> []) by (rewrite Eh; destruct before; discriminate).
  destruct K as [[K _]|[[K _]|[out [_ [[K _]|[[K _]|[_ [N [N' _]]]]]]]]]; try contradiction.
  destruct er as [m| | |]; [exfalso; exact (N m eq_refl)|left; reflexivity|right; reflexivity|congruence].
Qed.
Print Assumptions C98_stops.

(** The directory a program runs in was found or made before. *)
Theorem C98_directory w b h r before argv cwd env rest : run w b [] = (h, r) -> h = before ++ CheckCall argv cwd env :: rest ->
  cwd = build_temp b /\ directory_made w cwd before.
Proof.
  intros E Eh. pose proof (C98_commands w b h r E) as P.
  assert (In (CheckCall argv cwd env) (calls h)) as Hi by (rewrite Eh; apply filter_In; split; [apply in_or_app; right; left; reflexivity|reflexivity]).
  split.
  - assert (G : forall es all l, progress b es all l -> forall x, In x l -> exists a v, x = CheckCall a (build_temp b) v).
    { intros es all l Q. induction Q as [|e es all c u l [a [v [-> _]]] [a2 [-> _]] Q IH| |e es c [a [v [-> _]]]|e es c u [a [v [-> _]]] [a2 [-> _]]]; intros x Hx; cbn in Hx.
      - destruct Hx.
      - destruct Hx as [<-|[<-|Hx]]; eauto.
      - destruct Hx.
      - destruct Hx as [<-|[]]; eauto.
      - destruct Hx as [<-|[<-|[]]]; eauto. }
    assert (exists all, progress b (extensions b) all (calls h) \/ calls h = []) as [all [Q|Q]].
    { destruct r as [[]|er]; [exists true; left; apply P; reflexivity|]. exists false. destruct (extensions b) eqn:Ee.
      - right. apply P; congruence.
      - left. apply P; congruence. }
    + destruct (G _ _ _ Q _ Hi) as [a [v C]]. congruence.
    + rewrite Q in Hi. destruct Hi.
  - apply run_cases in E. destruct E as [evs [-> [F K]]]. destruct before as [|x before]; [discriminate Eh|]. injection Eh as <- Eh.
    pose proof (all_fine_at w r evs _ before _ rest F Eh) as G. cbn [fine] in G. exact (proj2 G).
Qed.
Print Assumptions C98_directory.

(** The compilers named to cmake are the first answers of which, without the newline; none when one of the two is missing. *)
Theorem C98_compilers w b h gpp gcc : system b <> "Windows"%string -> one_line gpp -> one_line gcc ->
  run w b [] = (h, inl tt) ->
  (always w "which g++" (Out (gpp ++ String "010" "")) -> always w "which gcc" (Out (gcc ++ String "010" "")) ->
   forall args env src, In (CheckCall ("cmake" :: src :: args)%string (build_temp b) env) (calls h) -> src <> "--build"%string ->
     In ("-DCMAKE_CXX_COMPILER=" ++ gpp)%string args /\ In ("-DCMAKE_C_COMPILER=" ++ gcc)%string args) /\
  (forall r1 r2, always w "which g++" r1 -> always w "which gcc" r2 -> r1 <> NoSuch -> r2 <> NoSuch -> r1 = Status \/ r2 = Status ->
   forall args env src, In (CheckCall ("cmake" :: src :: args)%string (build_temp b) env) (calls h) -> src <> "--build"%string ->
     filter (String.prefix "-DCMAKE_CXX_COMPILER=") args = [] /\ filter (String.prefix "-DCMAKE_C_COMPILER=") args = []).
Proof.
  intros Hs H1 H2 E. assert (Hw : windows b = false) by (apply String.eqb_neq; exact Hs).
  assert (G : forall cs, same_compilers w b cs -> forall args env src, In (CheckCall ("cmake" :: src :: args)%string (build_temp b) env) (calls h) -> src <> "--build"%string ->
    exists e, args = ["-DCMAKE_LIBRARY_OUTPUT_DIRECTORY=" ++ ext_dir b (name e); "-DPYTHON_EXECUTABLE=" ++ executable b]%string ++ cs ++ ["-DCMAKE_BUILD_TYPE=" ++ cfg b]%string).
  { intros cs S args env src Hi Hb. rewrite (run_same w b cs h S E) in Hi. apply in_flat_map in Hi. destruct Hi as [e [_ [Hi|[Hi|[]]]]].
    - unfold conf_ev in Hi. rewrite Hw in Hi. injection Hi as _ <- _. exists e. reflexivity.
    - unfold build_ev in Hi. injection Hi as C _ _. congruence. }
  split.
  - intros A1 A2 args env src Hi Hb. pose proof (compilers_found w b _ _ A1 A2) as S. rewrite (strip_line gpp H1), (strip_line gcc H2) in S.
    destruct (G _ S _ _ _ Hi Hb) as [e ->]. split; cbn; auto 8.
  - intros r1 r2 A1 A2 N1 N2 N args env src Hi Hb. destruct (G _ (compilers_missing w b _ _ A1 A2 N1 N2 N) _ _ _ Hi Hb) as [e ->]. split; reflexivity.
Qed.
Print Assumptions C98_compilers.

(** On Windows the command lines are these; the output directory is given for the configuration that is built. *)
Theorem C98_windows w b h : system b = "Windows"%string -> run w b [] = (h, inl tt) ->
  exists envs, length envs = length (extensions b) /\
  calls h = flat_map (fun x : extension * environment => let dir := ext_dir b (name (fst x)) in
    [CheckCall (["cmake"; sourcedir (fst x); "-DCMAKE_LIBRARY_OUTPUT_DIRECTORY=" ++ dir; "-DPYTHON_EXECUTABLE=" ++ executable b;
       if debug b then "-DCMAKE_LIBRARY_OUTPUT_DIRECTORY_DEBUG=" ++ dir else "-DCMAKE_LIBRARY_OUTPUT_DIRECTORY_RELEASE=" ++ dir]%string ++
       (if Z_lt_dec (2 ^ 32) (maxsize b) then ["-A"; "x64"]%string else [])) (build_temp b) (snd x);
     CheckCall ["cmake"; "--build"; "."; "--config"; if debug b then "Debug" else "Release"; "--"; "/m"]%string (build_temp b) (environ b)])
    (combine (extensions b) envs).
Proof.
  intros Hs E. assert (Hw : windows b = true) by (apply String.eqb_eq; exact Hs).
  assert (S : same_compilers w b []) by (intros C; congruence). rewrite (run_same w b [] h S E).
  exists (map (fun _ => env_set (environ b) "CXXFLAGS" ((match env_get (environ b) "CXXFLAGS" with Some f => f | None => "" end) ++ " -DVERSION_INFO=\""" ++ version b ++ "\""")%string) (extensions b)).
  split; [apply map_length|]. unfold conf_ev, build_ev, cfg_upper, cfg. rewrite Hw. clear. induction (extensions b) as [|e es IH]; [reflexivity|].
  cbn [map combine flat_map fst snd]. rewrite IH. cbn [app]. destruct (debug b), (Z.ltb_spec (2 ^ 32) (maxsize b)), (Z_lt_dec (2 ^ 32) (maxsize b)); try lia; reflexivity.
Qed.
Print Assumptions C98_windows.

(** Both extensions of the package are in one directory: the same two programs are run twice. *)
Theorem C98_same_twice w b h src g c : extensions b = sacf_extensions src -> ext_dir b "sacf.correlator" = ext_dir b "sacf.datastructure" ->
  always w "which g++" (Out g) -> always w "which gcc" (Out c) -> run w b [] = (h, inl tt) ->
  exists x y, calls h = [x; y; x; y] /\ (exists e, In e (extensions b) /\ configures b e x) /\ builds b y.
Proof.
  intros He Hd A1 A2 E. pose proof (run_same w b _ h (compilers_found w b g c A1 A2) E) as R. rewrite He in R. cbn [sacf_extensions flat_map app sourcedir name] in R. rewrite Hd in R.
  eexists _, _. split; [exact R|]. pose proof (proj1 (C98_commands w b h _ E) eq_refl) as P. rewrite R, He in P. inversion P; subst.
  split; [|assumption]. eexists. split; [|eassumption]. rewrite He. left. reflexivity.
Qed.
Print Assumptions C98_same_twice.

(** ** A case *)
Definition newline (s : string) : string := (s ++ String "010" "")%string.
Definition case_world (cmake : string) (fails : nat) : surroundings := fun h =>
  match last h asks_version with
  | CheckOutput _ => Out (newline ("cmake version " ++ cmake))
  | CheckOutputShell c => Out (newline (if String.eqb c "which gcc" then "/usr/bin/gcc" else "/usr/bin/g++"))
  | Exists _ => if length (calls h) =? 0 then Status else Out ""
  | Makedirs _ => Out ""
  | CheckCall _ _ _ => if length (calls h) =? fails then Status else Out ""
  end.
Definition case_builder (sys : string) : builder :=
  {| extensions := sacf_extensions "/src/sacf"; ext_dir := fun _ => "/out/sacf"%string; debug := false; build_temp := "/tmp/b"; version := "2.0"; system := sys;
     executable := "/usr/bin/python3"; maxsize := 2 ^ 63 - 1; environ := [("CXXFLAGS", "-O0"); ("PATH", "/usr/bin")]%string |}.

Example C98_case :
  (exists h, run (case_world "3.10.2" 0) (case_builder "Linux") [] = (h, inl tt) /\ length h = 12 /\
     nth_error (calls h) 0 = Some (CheckCall ["cmake"; "/src/sacf"; "-DCMAKE_LIBRARY_OUTPUT_DIRECTORY=/out/sacf"; "-DPYTHON_EXECUTABLE=/usr/bin/python3";
        "-DCMAKE_CXX_COMPILER=/usr/bin/g++"; "-DCMAKE_C_COMPILER=/usr/bin/gcc"; "-DCMAKE_BUILD_TYPE=Release"]%string "/tmp/b"
        [("CXXFLAGS", "-O0 -DVERSION_INFO=\""2.0\"""); ("CXXFLAGS", "-O0"); ("PATH", "/usr/bin")]%string)) /\
  (exists h, run (case_world "3.10.2" 2) (case_builder "Linux") [] = (h, inr CalledProcessError) /\ length (calls h) = 2) /\
  (exists h, run (case_world "3.10.2" 0) (case_builder "Windows") [] = (h, inl tt) /\ length (calls h) = 4) /\
  run (case_world "3.0.12" 0) (case_builder "Windows") [] = ([asks_version], inr (RuntimeError "CMake >= 3.1.0 is required on Windows")) /\
  (exists h, run (case_world "3.0.12" 0) (case_builder "Linux") [] = (h, inl tt)) /\
  run (fun _ => NoSuch) (case_builder "Linux") [] = ([asks_version], inr (RuntimeError "CMake must be installed to build the following extensions: sacf.correlator, sacf.datastructure")) /\
  (* "3.10" is not below "3.1.0", "2.99" is; a text that is not what cmake prints *)
  run (fun _ => Out "no number") (case_builder "Windows") [] = ([asks_version], inr AttributeError) /\
  below [3; 0; 12] [3; 1; 0] /\ ~ below [3; 10; 2] [3; 1; 0] /\ Forall decimal ["3"; "10"; "2"]%string /\ map value ["3"; "10"; "2"]%string = [3; 10; 2] /\
  always (case_world "3.10.2" 0) "which g++" (Out (newline "/usr/bin/g++")).
Proof.
  split; [eexists; split; [vm_compute; reflexivity|split; vm_compute; reflexivity]|].
  split; [eexists; split; vm_compute; reflexivity|]. split; [eexists; split; vm_compute; reflexivity|]. split; [vm_compute; reflexivity|].
  split; [eexists; vm_compute; reflexivity|]. split; [vm_compute; reflexivity|]. split; [vm_compute; reflexivity|].
  split; [apply below_next, below_less; lia|]. split; [intros C; inversion C; subst; [lia|]; inversion H0; lia|].
  split; [repeat (apply Forall_cons; [split; [discriminate|intros ch Hc; cbn in Hc; intuition (subst; cbn; lia)]|]); apply Forall_nil|]. split; [reflexivity|].
  intros before. unfold case_world. rewrite last_last. reflexivity.
Qed.
