(** Proofs about [Build.v]. *)
From Coq Require Import String Ascii.
From Coq Require Import ZArith List Bool Arith Lia.
From Verif Require Import Build SpecBuild.
Import ListNotations.
Local Open Scope list_scope.

Section Facts.
Context (w : surroundings).

Lemma calls_app l m : calls (l ++ m) = calls l ++ calls m.
Proof. apply filter_app. Qed.

(** ** What is said of every event, with what came before, what came after and the outcome *)
Definition fine (r : unit + error) (before : list event) (a : event) (rest : list event) : Prop :=
  match a with
  | CheckCall _ cwd _ => ((rest <> [] \/ r = inl tt) -> succeeded w before a) /\ directory_made w cwd before
  | _ => True
  end.
Fixpoint all_fine (r : unit + error) (before l : list event) : Prop :=
  match l with [] => True | a :: l' => fine r before a l' /\ all_fine r (before ++ [a]) l' end.

Lemma all_fine_app r l : forall before m, all_fine (inl tt) before l -> all_fine r (before ++ l) m -> all_fine r before (l ++ m).
Proof.
  induction l as [|a l IH]; intros before m H1 H2; cbn [app all_fine] in *; [rewrite app_nil_r in H2; exact H2|].
  destruct H1 as [H1 H1']. split.
  - destruct a; try exact I. destruct H1 as [K1 K2]. split; [intros _; apply K1; right; reflexivity|exact K2].
  - apply IH; [exact H1'|]. rewrite <- app_assoc. exact H2.
Qed.

Lemma all_fine_at r : forall l before e1 a e2, all_fine r before l -> l = e1 ++ a :: e2 -> fine r (before ++ e1) a e2.
Proof.
  induction l as [|x l IH]; intros before e1 a e2 H E; [destruct e1; discriminate|]. destruct H as [H1 H2].
  destruct e1 as [|y e1]; injection E as -> ->.
  - rewrite app_nil_r. exact H1.
  - specialize (IH (before ++ [y]) e1 a e2 H2 eq_refl). rewrite <- app_assoc in IH. exact IH.
Qed.

(** ** The compilers *)
Lemma compilers_cases h h' r : compilers w h = (h', r) ->
  exists evs, h' = h ++ evs /\ calls evs = [] /\ (forall before r, all_fine r before evs) /\
   ((exists gpp gcc, r = inl ["-DCMAKE_CXX_COMPILER=" ++ gpp; "-DCMAKE_C_COMPILER=" ++ gcc]%string) \/ r = inl [] \/ r = inr OSError).
Proof.
  unfold compilers, check_output, ibind, perform, iret, raise.
  destruct (w (h ++ [CheckOutputShell "which g++"])) as [gpp| |] eqn:E1.
  - destruct (w ((h ++ [CheckOutputShell "which g++"]) ++ [CheckOutputShell "which gcc"])) as [gcc| |] eqn:E2; intros E; injection E as <- <-;
      (exists [CheckOutputShell "which g++"; CheckOutputShell "which gcc"]; split; [rewrite <- app_assoc; reflexivity|]; split; [reflexivity|]; split; [intros; cbn; auto|]).
    + left. eexists _, _. reflexivity.
    + right. left. reflexivity.
    + right. right. reflexivity.
  - intros E; injection E as <- <-. exists [CheckOutputShell "which g++"]. split; [reflexivity|]. split; [reflexivity|]. split; [intros; cbn; auto|auto].
  - intros E; injection E as <- <-. exists [CheckOutputShell "which g++"]. split; [reflexivity|]. split; [reflexivity|]. split; [intros; cbn; auto|auto].
Qed.

Lemma env_other b x v : x <> "CXXFLAGS"%string -> env_get (env_set (environ b) "CXXFLAGS" v) x = env_get (environ b) x.
Proof. intros H. cbn [env_set env_get]. destruct (String.eqb_spec "CXXFLAGS" x); [congruence|reflexivity]. Qed.

(** ** One extension *)
Definition tail (b : builder) (conf bu : event) : io unit :=
  ibind (perform w (Exists (build_temp b))) (fun r =>
  ibind (match r with
         | Out _ => iret tt
         | _ => ibind (perform w (Makedirs (build_temp b))) (fun r => match r with Out _ => iret tt | _ => raise OSError end)
         end) (fun _ =>
  ibind (ibind (check_output w conf) (fun _ => iret tt)) (fun _ => ibind (check_output w bu) (fun _ => iret tt)))).

Lemma call_cases a h h' r : ibind (check_output w a) (fun _ => iret tt) h = (h', r) ->
  h' = h ++ [a] /\ ((r = inl tt /\ succeeded w h a) \/ ((r = inr CalledProcessError \/ r = inr OSError) /\ ~ succeeded w h a)).
Proof.
  unfold check_output, ibind, perform, iret, raise, succeeded. destruct (w (h ++ [a])) as [s| |] eqn:E1; intros E; injection E as <- <-; (split; [reflexivity|]).
  - left. split; [reflexivity|eauto].
  - right. split; [auto|]. intros [s C]. discriminate C.
  - right. split; [auto|]. intros [s C]. discriminate C.
Qed.

Lemma tail_cases b a1 e1 a2 e2 h h' r :
  let conf := CheckCall a1 (build_temp b) e1 in let bu := CheckCall a2 (build_temp b) e2 in
  tail b conf bu h = (h', r) ->
  exists evs, h' = h ++ evs /\ all_fine r h evs /\ (forall m, r <> inr (RuntimeError m)) /\ r <> inr AttributeError /\
    ((calls evs = [conf; bu]) \/ (calls evs = [conf] /\ r <> inl tt) \/ (calls evs = [] /\ r <> inl tt)).
Proof.
  intros conf bu. unfold tail.
  assert (G : forall pre r', (forall before r, all_fine r before pre) -> calls pre = [] -> directory_made w (build_temp b) (h ++ pre) ->
    ibind (ibind (check_output w conf) (fun _ => iret tt)) (fun _ => ibind (check_output w bu) (fun _ => iret tt)) (h ++ pre) = (h', r') ->
    exists evs, h' = h ++ evs /\ all_fine r' h evs /\ (forall m, r' <> inr (RuntimeError m)) /\ r' <> inr AttributeError /\
    ((calls evs = [conf; bu]) \/ (calls evs = [conf] /\ r' <> inl tt) \/ (calls evs = [] /\ r' <> inl tt))).
  { intros pre r' Hp Hc Hd. unfold ibind at 1. destruct (ibind (check_output w conf) (fun _ => iret tt) (h ++ pre)) as [h1 r1] eqn:E1.
    apply call_cases in E1. destruct E1 as [-> E1]. destruct E1 as [[-> S1]|[F1 S1]].
    - intros E2. apply call_cases in E2. destruct E2 as [-> E2]. exists (pre ++ [conf; bu]).
      split; [rewrite <- !app_assoc; reflexivity|]. split; [|split; [|split; [|left; rewrite calls_app, Hc; reflexivity]]].
      + apply all_fine_app; [apply Hp|]. cbn [all_fine fine]. split; [split; [intros _; exact S1|exact Hd]|]. split; [|exact I]. split.
        * intros [C|C]; [congruence|]. destruct E2 as [[_ S2]|[F _]]; [exact S2|]. destruct F; congruence.
        * destruct Hd as [x [y [z [K1 [K2 K3]]]]]. exists x, y, (z ++ [conf]). split; [|split; assumption]. rewrite K1, <- app_assoc. reflexivity.
      + intros m C. destruct E2 as [[-> _]|[[-> | ->] _]]; discriminate C.
      + intros C. destruct E2 as [[-> _]|[[-> | ->] _]]; discriminate C.
    - intros E. assert (R : h' = (h ++ pre) ++ [conf] /\ (r' = inr CalledProcessError \/ r' = inr OSError)) by (destruct F1 as [-> | ->]; injection E as <- <-; auto).
      destruct R as [-> R]. exists (pre ++ [conf]). split; [rewrite <- app_assoc; reflexivity|]. split; [|split; [|split; [|right; left; split; [rewrite calls_app, Hc; reflexivity|]]]].
      + apply all_fine_app; [apply Hp|]. cbn [all_fine fine]. split; [|exact I]. split; [|exact Hd]. intros [C|C]; [congruence|]. destruct R; congruence.
      + intros m C. destruct R as [-> | ->]; discriminate C.
      + intros C. destruct R as [-> | ->]; discriminate C.
      + intros C. destruct R as [-> | ->]; discriminate C. }
  unfold ibind at 1, perform at 1. destruct (w (h ++ [Exists (build_temp b)])) as [s| |] eqn:Ex.
  - unfold ibind at 1, iret at 1. apply G; [intros; cbn; auto|reflexivity|]. exists h, (Exists (build_temp b)), []. split; [reflexivity|]. split; [auto|exists s; exact Ex].
  - unfold ibind at 1. unfold ibind at 1, perform at 1. destruct (w ((h ++ [Exists (build_temp b)]) ++ [Makedirs (build_temp b)])) as [s| |] eqn:Em.
    + unfold iret at 1. rewrite <- app_assoc. apply G; [intros; cbn; auto|reflexivity|].
      exists (h ++ [Exists (build_temp b)]), (Makedirs (build_temp b)), []. split; [rewrite <- app_assoc; reflexivity|]. split; [auto|exists s; exact Em].
    + unfold raise. intros E. injection E as <- <-. exists [Exists (build_temp b); Makedirs (build_temp b)]. split; [rewrite <- app_assoc; reflexivity|].
      split; [cbn; auto|]. split; [discriminate|]. split; [discriminate|]. right; right. split; [reflexivity|discriminate].
    + unfold raise. intros E. injection E as <- <-. exists [Exists (build_temp b); Makedirs (build_temp b)]. split; [rewrite <- app_assoc; reflexivity|].
      split; [cbn; auto|]. split; [discriminate|]. split; [discriminate|]. right; right. split; [reflexivity|discriminate].
  - unfold ibind at 1. unfold ibind at 1, perform at 1. destruct (w ((h ++ [Exists (build_temp b)]) ++ [Makedirs (build_temp b)])) as [s| |] eqn:Em.
    + unfold iret at 1. rewrite <- app_assoc. apply G; [intros; cbn; auto|reflexivity|].
      exists (h ++ [Exists (build_temp b)]), (Makedirs (build_temp b)), []. split; [rewrite <- app_assoc; reflexivity|]. split; [auto|exists s; exact Em].
    + unfold raise. intros E. injection E as <- <-. exists [Exists (build_temp b); Makedirs (build_temp b)]. split; [rewrite <- app_assoc; reflexivity|].
      split; [cbn; auto|]. split; [discriminate|]. split; [discriminate|]. right; right. split; [reflexivity|discriminate].
    + unfold raise. intros E. injection E as <- <-. exists [Exists (build_temp b); Makedirs (build_temp b)]. split; [rewrite <- app_assoc; reflexivity|].
      split; [cbn; auto|]. split; [discriminate|]. split; [discriminate|]. right; right. split; [reflexivity|discriminate].
Qed.

Lemma extension_cases b e h h' r : build_extension w b e h = (h', r) ->
  exists evs, h' = h ++ evs /\ all_fine r h evs /\ (forall m, r <> inr (RuntimeError m)) /\ r <> inr AttributeError /\
    ((exists conf bu, calls evs = [conf; bu] /\ configures b e conf /\ builds b bu) \/
     (exists conf, calls evs = [conf] /\ configures b e conf /\ r <> inl tt) \/ (calls evs = [] /\ r <> inl tt)).
Proof.
  assert (W : forall args, (forall env, (forall v, env_get env "CXXFLAGS" = Some v <-> v = (match env_get (environ b) "CXXFLAGS" with Some f => f | None => "" end ++ " -DVERSION_INFO=\""" ++ version b ++ "\""")%string) ->
      (forall x, x <> "CXXFLAGS"%string -> env_get env x = env_get (environ b) x) -> configures b e (CheckCall (["cmake"%string; sourcedir e] ++ fst args) (build_temp b) env)) ->
      builds b (CheckCall (["cmake"; "--build"; "."]%string ++ snd args) (build_temp b) (environ b)) ->
      forall pre h' r, (forall before r, all_fine r before pre) -> calls pre = [] ->
      tail b (CheckCall (["cmake"%string; sourcedir e] ++ fst args) (build_temp b) (env_set (environ b) "CXXFLAGS"
        ((match env_get (environ b) "CXXFLAGS" with Some f => f | None => "" end) ++ " -DVERSION_INFO=\""" ++ version b ++ "\""")%string))
        (CheckCall (["cmake"; "--build"; "."]%string ++ snd args) (build_temp b) (environ b)) (h ++ pre) = (h', r) ->
      exists evs, h' = h ++ evs /\ all_fine r h evs /\ (forall m, r <> inr (RuntimeError m)) /\ r <> inr AttributeError /\
        ((exists conf bu, calls evs = [conf; bu] /\ configures b e conf /\ builds b bu) \/
        (exists conf, calls evs = [conf] /\ configures b e conf /\ r <> inl tt) \/ (calls evs = [] /\ r <> inl tt))).
  { intros args HC HB pre h1 r1 Hp Hc E. apply tail_cases in E. destruct E as [evs [-> [F [Hr1 [Hr2 Hk]]]]]. exists (pre ++ evs).
    split; [rewrite app_assoc; reflexivity|]. split; [apply all_fine_app; [apply Hp|exact F]|]. split; [exact Hr1|]. split; [exact Hr2|].
    rewrite calls_app, Hc. cbn [app].
    match goal with H : calls evs = [?c; ?d] \/ _ |- _ => assert (HC' : configures b e c) end.
    { apply HC; [|intros x Hx; apply env_other; exact Hx]. intros v. cbn [env_set env_get]. rewrite String.eqb_refl. split; congruence. }
    destruct Hk as [Hk|[[Hk Hn]|[Hk Hn]]]; [left|right; left|right; right]; rewrite Hk; eauto 6. }
  unfold build_extension. destruct (windows b) eqn:Hw; unfold windows in Hw.
  - unfold ibind at 1, iret at 1. intros E. rewrite <- (app_nil_r h) in E.
    refine (W (_, _) _ _ [] h' r _ eq_refl E); cbn [fst snd].
    + intros env H1 H2. cbn [app]. eexists _, _. split; [reflexivity|]. split; [apply H1; reflexivity|]. split; [exact H2|].
      split; [left; reflexivity|]. split; [right; left; reflexivity|].
      rewrite Hw. destruct (2 ^ 32 <? maxsize b)%Z eqn:Hz; cbn [app filter String.prefix].
      * split; [reflexivity|]. split; [split; [intros _; split; [apply String.eqb_eq; exact Hw|apply Z.ltb_lt; exact Hz]|intros _; cbn; auto 8]|]. left. split; reflexivity.
      * split; [reflexivity|]. split; [split; [intros C; cbn in C; decompose [or] C; try discriminate; contradiction|intros [_ C]; apply Z.ltb_lt in C; congruence]|]. left. split; reflexivity.
    + eexists. split; [unfold cfg; cbn [app]; reflexivity|]. rewrite Hw. reflexivity.
    + intros. exact I.
  - unfold ibind at 1. unfold ibind at 1. destruct (compilers w h) as [h1 r1] eqn:Ec. apply compilers_cases in Ec.
    destruct Ec as [evs [-> [C1 [C2 C3]]]].
    destruct C3 as [[gpp [gcc ->]]|[-> | ->]].
    + unfold iret at 1. intros E. refine (W (_, _) _ _ evs h' r C2 C1 E); cbn [fst snd].
      * intros env H1 H2. cbn [app]. eexists _, _. split; [reflexivity|]. split; [apply H1; reflexivity|]. split; [exact H2|].
        split; [left; reflexivity|]. split; [right; left; reflexivity|]. rewrite Hw. cbn [app filter String.prefix].
        split; [unfold cfg; destruct (debug b); reflexivity|]. split; [split; [intros C; cbn in C; decompose [or] C; try discriminate; contradiction|intros [C _]; rewrite C in Hw; discriminate]|].
        right. exists gpp, gcc. split; [destruct gpp|destruct gcc]; reflexivity.
      * eexists. split; [unfold cfg; cbn [app]; reflexivity|]. rewrite Hw. reflexivity.
    + unfold iret at 1. intros E. refine (W (_, _) _ _ evs h' r C2 C1 E); cbn [fst snd].
      * intros env H1 H2. cbn [app]. eexists _, _. split; [reflexivity|]. split; [apply H1; reflexivity|]. split; [exact H2|].
        split; [left; reflexivity|]. split; [right; left; reflexivity|]. rewrite Hw. cbn [app filter String.prefix].
        split; [unfold cfg; destruct (debug b); reflexivity|]. split; [split; [intros C; cbn in C; decompose [or] C; try discriminate; contradiction|intros [C _]; rewrite C in Hw; discriminate]|].
        left. split; reflexivity.
      * eexists. split; [unfold cfg; cbn [app]; reflexivity|]. rewrite Hw. reflexivity.
    + intros E. injection E as <- <-. exists evs. split; [reflexivity|]. split; [apply C2|]. split; [discriminate|]. split; [discriminate|]. right; right. split; [exact C1|discriminate].
Qed.

(** ** All extensions *)
Lemma all_cases b : forall es h h' r, build_all w b es h = (h', r) ->
  exists evs, h' = h ++ evs /\ all_fine r h evs /\ (forall m, r <> inr (RuntimeError m)) /\ r <> inr AttributeError /\
    progress b es (match r with inl _ => true | inr _ => false end) (calls evs).
Proof.
  induction es as [|e es IH]; intros h h' r E; cbn [build_all] in E.
  - injection E as <- <-. exists []. rewrite app_nil_r. split; [reflexivity|]. split; [exact I|]. split; [discriminate|]. split; [discriminate|constructor].
  - unfold ibind at 1 in E. destruct (build_extension w b e h) as [h1 r1] eqn:E1. apply extension_cases in E1.
    destruct E1 as [evs [-> [F [N1 [N2 K]]]]]. destruct r1 as [[]|er].
    + apply IH in E. destruct E as [evs2 [-> [F2 [M1 [M2 P]]]]]. exists (evs ++ evs2). split; [rewrite app_assoc; reflexivity|].
      split; [apply all_fine_app; assumption|]. split; [exact M1|]. split; [exact M2|]. rewrite calls_app.
      destruct K as [[c [u [K1 [K2 K3]]]]|[[c [_ [_ C]]]|[_ C]]]; [|congruence|congruence]. rewrite K1. cbn [app]. constructor; assumption.
    + injection E as <- <-. exists evs. split; [reflexivity|]. split; [exact F|]. split; [exact N1|]. split; [exact N2|].
      destruct K as [[c [u [K1 [K2 K3]]]]|[[c [K1 [K2 _]]]|[K1 _]]]; rewrite K1; constructor; assumption.
Qed.

(** ** The whole command *)
Lemma run_cases b h' r : run w b [] = (h', r) ->
  exists evs, h' = CheckOutput ["cmake"; "--version"]%string :: evs /\ all_fine r [CheckOutput ["cmake"; "--version"]%string] evs /\
   ((evs = [] /\ r = inr (RuntimeError ("CMake must be installed to build the following extensions: " ++ String.concat ", " (map name (extensions b)))) /\
       w [CheckOutput ["cmake"; "--version"]%string] = NoSuch) \/
    (evs = [] /\ r = inr CalledProcessError /\ w [CheckOutput ["cmake"; "--version"]%string] = Status) \/
    (exists out, w [CheckOutput ["cmake"; "--version"]%string] = Out out /\
      ((evs = [] /\ r = inr AttributeError /\ system b = "Windows"%string /\ search out = None) \/
       (evs = [] /\ r = inr (RuntimeError "CMake >= 3.1.0 is required on Windows") /\ system b = "Windows"%string /\ exists v, search out = Some v /\ version_lt v "3.1.0" = true) \/
       ((system b = "Windows"%string -> exists v, search out = Some v /\ version_lt v "3.1.0" = false) /\
        (forall m, r <> inr (RuntimeError m)) /\ r <> inr AttributeError /\
        progress b (extensions b) (match r with inl _ => true | inr _ => false end) (calls evs))))).
Proof.
  unfold run, check_output, ibind, perform, iret, raise. cbn [app].
  destruct (w [CheckOutput ["cmake"; "--version"]%string]) as [out| |] eqn:E0.
  - assert (G : (system b = "Windows"%string -> exists v, search out = Some v /\ version_lt v "3.1.0" = false) ->
      build_all w b (extensions b) [CheckOutput ["cmake"; "--version"]%string] = (h', r) ->
      exists evs, h' = CheckOutput ["cmake"; "--version"]%string :: evs /\ all_fine r [CheckOutput ["cmake"; "--version"]%string] evs /\
       (forall m, r <> inr (RuntimeError m)) /\ r <> inr AttributeError /\ progress b (extensions b) (match r with inl _ => true | inr _ => false end) (calls evs)).
    { intros Hv E. apply all_cases in E. destruct E as [evs [-> E]]. exists evs. split; [reflexivity|exact E]. }
    destruct (windows b) eqn:Hw; unfold windows in Hw.
    + apply String.eqb_eq in Hw. destruct (search out) as [v|] eqn:Es.
      * destruct (version_lt v "3.1.0") eqn:Ev.
        -- intros E. injection E as <- <-. exists []. split; [reflexivity|]. split; [exact I|]. right; right. exists out. split; [reflexivity|]. right; left. eauto 8.
        -- intros E. apply G in E; [|eauto]. destruct E as [evs [-> [F K]]]. exists evs. split; [reflexivity|]. split; [exact F|]. right; right. exists out. split; [reflexivity|].
           right; right. split; [eauto|exact K].
      * intros E. injection E as <- <-. exists []. split; [reflexivity|]. split; [exact I|]. right; right. exists out. split; [reflexivity|]. left. auto.
    + intros E. apply G in E; [|intros C; rewrite C in Hw; discriminate]. destruct E as [evs [-> [F K]]]. exists evs. split; [reflexivity|]. split; [exact F|]. right; right.
      exists out. split; [reflexivity|]. right; right. split; [intros C; rewrite C in Hw; discriminate|exact K].
  - intros E. injection E as <- <-. exists []. split; [reflexivity|]. split; [exact I|]. auto.
  - intros E. injection E as <- <-. exists []. split; [reflexivity|]. split; [exact I|]. auto.
Qed.

(** ** With compilers that do not change *)
Definition conf_ev (b : builder) (src dir : string) (cs : list string) : event :=
  CheckCall (["cmake"%string; src] ++
    (if windows b
     then ["-DCMAKE_LIBRARY_OUTPUT_DIRECTORY=" ++ dir; "-DPYTHON_EXECUTABLE=" ++ executable b]%string ++ ["-DCMAKE_LIBRARY_OUTPUT_DIRECTORY_" ++ cfg_upper b ++ "=" ++ dir]%string ++
                (if (2 ^ 32 <? maxsize b)%Z then ["-A"; "x64"]%string else [])
     else ["-DCMAKE_LIBRARY_OUTPUT_DIRECTORY=" ++ dir; "-DPYTHON_EXECUTABLE=" ++ executable b]%string ++ cs ++ ["-DCMAKE_BUILD_TYPE=" ++ cfg b]%string))
   (build_temp b) (env_set (environ b) "CXXFLAGS"
    ((match env_get (environ b) "CXXFLAGS" with Some f => f | None => "" end) ++ " -DVERSION_INFO=\""" ++ version b ++ "\""")%string).
Definition build_ev (b : builder) : event :=
  CheckCall (["cmake"; "--build"; "."; "--config"]%string ++ [cfg b] ++ (if windows b then ["--"; "/m"] else ["--"; "-j2"])%string) (build_temp b) (environ b).

Definition same_compilers (b : builder) (cs : list string) : Prop :=
  windows b = false -> forall h, exists evs, compilers w h = (h ++ evs, inl cs) /\ calls evs = [].

Lemma extension_same b e cs h h' : same_compilers b cs -> build_extension w b e h = (h', inl tt) ->
  exists evs, h' = h ++ evs /\ calls evs = [conf_ev b (sourcedir e) (ext_dir b (name e)) cs; build_ev b].
Proof.
  intros S E. unfold build_extension in E. unfold conf_ev, build_ev. destruct (windows b) eqn:Hw.
  - unfold ibind at 1, iret at 1 in E.
    apply (tail_cases b) in E. destruct E as [evs [-> [_ [_ [_ [K|[[_ K]|[_ K]]]]]]]]; [|congruence|congruence]. exists evs. split; [reflexivity|exact K].
  - destruct (S Hw h) as [ev1 [S1 S2]]. unfold ibind at 1 in E. unfold ibind at 1 in E. rewrite S1 in E. unfold iret at 1 in E.
    apply (tail_cases b) in E. destruct E as [evs [-> [_ [_ [_ [K|[[_ K]|[_ K]]]]]]]]; [|congruence|congruence]. exists (ev1 ++ evs). split; [rewrite app_assoc; reflexivity|].
    rewrite calls_app, S2. exact K.
Qed.

Lemma all_same b cs : same_compilers b cs -> forall es h h', build_all w b es h = (h', inl tt) ->
  exists evs, h' = h ++ evs /\ calls evs = flat_map (fun e => [conf_ev b (sourcedir e) (ext_dir b (name e)) cs; build_ev b]) es.
Proof.
  intros S. induction es as [|e es IH]; intros h h' E; cbn [build_all] in E.
  - injection E as <-. exists []. rewrite app_nil_r. split; reflexivity.
  - unfold ibind at 1 in E. destruct (build_extension w b e h) as [h1 [[]|er]] eqn:E1; [|discriminate E].
    apply (extension_same _ _ cs) in E1; [|exact S]. destruct E1 as [ev1 [-> C1]]. apply IH in E. destruct E as [ev2 [-> C2]].
    exists (ev1 ++ ev2). split; [rewrite app_assoc; reflexivity|]. rewrite calls_app, C1, C2. reflexivity.
Qed.

Lemma run_same b cs h' : same_compilers b cs -> run w b [] = (h', inl tt) ->
  calls h' = flat_map (fun e => [conf_ev b (sourcedir e) (ext_dir b (name e)) cs; build_ev b]) (extensions b).
Proof.
  intros S. unfold run, check_output, ibind, perform, iret, raise. cbn [app].
  destruct (w [CheckOutput ["cmake"; "--version"]%string]) as [out| |]; [|discriminate|discriminate].
  assert (G : build_all w b (extensions b) [CheckOutput ["cmake"; "--version"]%string] = (h', inl tt) ->
    calls h' = flat_map (fun e => [conf_ev b (sourcedir e) (ext_dir b (name e)) cs; build_ev b]) (extensions b)).
  { intros E. apply (all_same b cs) in E; [|exact S]. destruct E as [evs [-> E]]. rewrite calls_app, E. reflexivity. }
  destruct (windows b); [|exact G]. destruct (search out) as [v|]; [|discriminate]. destruct (version_lt v "3.1.0"); [discriminate|exact G].
Qed.

Lemma compilers_found b g c : always w "which g++" (Out g) -> always w "which gcc" (Out c) ->
  same_compilers b ["-DCMAKE_CXX_COMPILER=" ++ strip g; "-DCMAKE_C_COMPILER=" ++ strip c]%string.
Proof.
  intros H1 H2 _ h. exists [CheckOutputShell "which g++"; CheckOutputShell "which gcc"]. split; [|reflexivity].
  unfold compilers, check_output, ibind, perform, iret, raise. rewrite H1, H2, <- app_assoc. reflexivity.
Qed.
Lemma compilers_missing b r1 r2 : always w "which g++" r1 -> always w "which gcc" r2 -> r1 <> NoSuch -> r2 <> NoSuch -> r1 = Status \/ r2 = Status ->
  same_compilers b [].
Proof.
  intros H1 H2 N1 N2 H _ h. unfold compilers, check_output, ibind, perform, iret, raise. destruct r1 as [g| |]; [|clear H|congruence].
  - destruct H as [H|H]; [discriminate H|]. subst r2. exists [CheckOutputShell "which g++"; CheckOutputShell "which gcc"]. rewrite H1, H2, <- app_assoc. split; reflexivity.
  - exists [CheckOutputShell "which g++"]. rewrite H1. split; reflexivity.
Qed.

End Facts.

(** ** Texts *)
Lemma skip_none f s t : (forall c, In c (list_ascii_of_string s) -> f c = true) -> match t with EmptyString => True | String c _ => f c = false end -> skip f (s ++ t)%string = t.
Proof.
  intros H Ht. induction s as [|c s IH]; cbn [append skip].
  - destruct t; [reflexivity|]. cbn [skip]. rewrite Ht. reflexivity.
  - rewrite (H c (or_introl eq_refl)). apply IH. intros d Hd. apply H. right. exact Hd.
Qed.
Lemma take_all f s t : (forall c, In c (list_ascii_of_string s) -> f c = true) -> match t with EmptyString => True | String c _ => f c = false end -> take f (s ++ t)%string = s.
Proof.
  intros H Ht. induction s as [|c s IH]; cbn [append take].
  - destruct t; [reflexivity|]. cbn [take]. rewrite Ht. reflexivity.
  - rewrite (H c (or_introl eq_refl)), IH; [reflexivity|]. intros d Hd. apply H. right. exact Hd.
Qed.

Lemma is_end_spec c : is_end c = true <-> In (nat_of_ascii c) [9; 10; 13].
Proof.
  unfold is_end. rewrite !orb_true_iff, !Nat.eqb_eq. cbn [In]. intuition.
Qed.

Lemma strip_line s : one_line s -> strip (s ++ String "010" "")%string = s.
Proof.
  intros H. unfold strip. assert (R : strip_right (s ++ String "010" "")%string = s).
  { clear - H. induction s as [|c s IH]; [reflexivity|]. cbn [append strip_right]. rewrite IH by (intros d Hd; apply H; right; exact Hd).
    destruct s; [|reflexivity]. destruct (is_end c) eqn:E; [|reflexivity]. apply is_end_spec in E. exfalso. apply (H c); [left; reflexivity|exact E]. }
  destruct s as [|c s]; [reflexivity|]. cbn [append skip]. destruct (is_end c) eqn:E.
  - apply is_end_spec in E. exfalso. apply (H c); [left; reflexivity|exact E].
  - exact R.
Qed.

(** ** Version numbers *)
Lemma is_digit_spec c : is_digit c = true <-> 48 <= nat_of_ascii c <= 57.
Proof. unfold is_digit. rewrite andb_true_iff, !Nat.leb_le. reflexivity. Qed.
Lemma is_blank_spec c : is_blank c = true <-> 9 <= nat_of_ascii c <= 13 \/ 28 <= nat_of_ascii c <= 32.
Proof. unfold is_blank. rewrite orb_true_iff, !andb_true_iff, !Nat.leb_le. reflexivity. Qed.

Lemma after_prefix_app p s : after_prefix p (p ++ s)%string = Some s.
Proof. induction p as [|c p IH]; [reflexivity|]. cbn [append after_prefix]. rewrite Ascii.eqb_refl. exact IH. Qed.

Lemma search_skips pre s : no_v pre -> search (pre ++ s)%string = search s.
Proof.
  intros H. induction pre as [|c pre IH]; [reflexivity|].
  change (search (String c pre ++ s)%string) with (match match_here (String c (pre ++ s)%string) with Some v => Some v | None => search (pre ++ s)%string end).
  assert (N : match_here (String c (pre ++ s)%string) = None).
  { unfold match_here. change "version"%string with (String "v" "ersion"). cbn [after_prefix].
    destruct (Ascii.eqb_spec "v" c) as [<-|_]; [|reflexivity]. exfalso. apply H. left. reflexivity. }
  rewrite N. apply IH. intros C. apply H. right. exact C.
Qed.

Lemma numerals ns : Forall decimal ns -> forall c, In c (list_ascii_of_string (String.concat "." ns)) -> is_numeral c = true.
Proof.
  unfold is_numeral. induction ns as [|n ns IH]; intros H c Hc; [destruct Hc|]. inversion H as [|? ? [Hn1 Hn2] H']; subst.
  assert (D : forall s t c, In c (list_ascii_of_string (s ++ t)%string) -> In c (list_ascii_of_string s) \/ In c (list_ascii_of_string t)).
  { intros s t d. induction s as [|x s IHs]; cbn; [auto|]. intuition. }
  destruct ns as [|m ns].
  - cbn [String.concat] in Hc. apply orb_true_iff. left. apply is_digit_spec. apply Hn2. exact Hc.
  - change (String.concat "." (n :: m :: ns)) with (n ++ "." ++ String.concat "." (m :: ns))%string in Hc.
    apply D in Hc. destruct Hc as [Hc|Hc]; [apply orb_true_iff; left; apply is_digit_spec; apply Hn2; exact Hc|].
    apply D in Hc. destruct Hc as [[<-|[]]|Hc]; [reflexivity|]. apply IH; assumption.
Qed.

Lemma concat_not_empty n ns : decimal n -> String.concat "." (n :: ns) <> EmptyString.
Proof. intros [H _]. destruct ns; cbn [String.concat]; destruct n; cbn; congruence. Qed.

Lemma search_version pre bl ns post : no_v pre -> blanks bl -> ns <> [] -> Forall decimal ns -> numeral_ends post ->
  search (pre ++ "version" ++ bl ++ String.concat "." ns ++ post)%string = Some (String.concat "." ns).
Proof.
  intros H1 H2 H3 H4 H5. rewrite search_skips by exact H1.
  assert (M : match_here ("version" ++ bl ++ String.concat "." ns ++ post)%string = Some (String.concat "." ns)).
  { unfold match_here. rewrite after_prefix_app. rewrite skip_none; [| |].
    - rewrite take_all; [| |].
      + destruct ns as [|n ns]; [congruence|]. inversion H4; subst. destruct (String.concat "." (n :: ns)) eqn:E; [|reflexivity]. exfalso. eapply concat_not_empty; eassumption.
      + intros c Hc. eapply numerals; eassumption.
      + destruct post as [|c post]; [exact I|]. destruct H5 as [K1 K2]. unfold is_numeral. apply orb_false_iff. split.
        * destruct (is_digit c) eqn:E; [|reflexivity]. exfalso. apply K1, is_digit_spec, E.
        * apply Ascii.eqb_neq. exact K2.
    - intros c Hc. apply is_blank_spec, H2, Hc.
    - destruct ns as [|n ns]; [congruence|]. inversion H4 as [|? ? [Hn1 Hn2] H']; subst.
      assert (X : exists d t, (String.concat "." (n :: ns) ++ post)%string = String d t /\ 48 <= nat_of_ascii d <= 57).
      { destruct n as [|d n]; [congruence|]. exists d. assert (Hd : 48 <= nat_of_ascii d <= 57) by (apply Hn2; left; reflexivity).
        destruct ns; cbn [String.concat append]; eauto. }
      destruct X as [d [t [-> Hd]]]. destruct (is_blank d) eqn:E; [|reflexivity]. apply is_blank_spec in E. lia. }
  change "version"%string with (String "v" "ersion") in *. cbn [append] in *. cbn [search]. rewrite M. reflexivity.
Qed.

Lemma components_digits n : (forall c, In c (list_ascii_of_string n) -> 48 <= nat_of_ascii c <= 57) -> forall a t,
  components (n ++ t)%string (Some a) = components t (Some (fold_left (fun n c => 10 * n + (nat_of_ascii c - 48)) (list_ascii_of_string n) a)).
Proof.
  intros H. induction n as [|c n IH]; intros a t; [reflexivity|]. cbn [append components list_ascii_of_string fold_left].
  assert (D : is_digit c = true) by (apply is_digit_spec, H; left; reflexivity). rewrite D, IH by (intros d Hd; apply H; right; exact Hd). reflexivity.
Qed.
Lemma components_decimal n t : decimal n -> components (n ++ t)%string None = components t (Some (value n)).
Proof.
  intros [H1 H2]. destruct n as [|c n]; [congruence|]. cbn [append components].
  assert (D : is_digit c = true) by (apply is_digit_spec, H2; left; reflexivity). rewrite D, components_digits by (intros d Hd; apply H2; right; exact Hd). reflexivity.
Qed.
Lemma append_empty s : (s ++ "")%string = s.
Proof. induction s as [|c s IH]; [reflexivity|]. cbn. rewrite IH. reflexivity. Qed.
Lemma components_concat ns : Forall decimal ns -> components (String.concat "." ns) None = map value ns.
Proof.
  induction ns as [|n ns IH]; intros H; [reflexivity|]. inversion H as [|? ? Hn H']; subst. destruct ns as [|m ns].
  - cbn [String.concat map]. rewrite <- (append_empty n) at 1. rewrite components_decimal by exact Hn. reflexivity.
  - change (String.concat "." (n :: m :: ns)) with (n ++ String "." (String.concat "." (m :: ns)))%string. rewrite components_decimal by exact Hn.
    cbn [components]. change (is_digit ".") with false. cbn iota. rewrite IH by exact H'. reflexivity.
Qed.

Lemma list_lt_below l : forall m, list_lt l m = true <-> below l m.
Proof.
  induction l as [|x l IH]; intros [|y m]; cbn [list_lt].
  - split; [discriminate|intros C; inversion C].
  - split; [constructor|reflexivity].
  - split; [discriminate|intros C; inversion C].
  - destruct (Nat.eqb_spec x y) as [<-|Hn].
    + rewrite IH. split; [apply below_next|]. intros C. inversion C; subst; [lia|assumption].
    + rewrite Nat.ltb_lt. split; [apply below_less|]. intros C. inversion C; subst; [assumption|congruence].
Qed.

Lemma version_below ns : Forall decimal ns -> version_lt (String.concat "." ns) "3.1.0" = true <-> below (map value ns) [3; 1; 0].
Proof. intros H. unfold version_lt. rewrite components_concat by exact H. apply list_lt_below. Qed.

