(** C99: Python threads. *)
From Coq Require Import String.
From Coq Require Import ZArith List Bool Arith Lia.
From Verif Require Import Num Mem Spec DataStructure Correlator Sacf Api Examples Props01_Construction Props02_Lags Props06_Calls.
From Verif Require Import Threads SpecThreads ThreadFacts ThreadShared ThreadSame.
Import ListNotations.
Local Open Scope list_scope.

(** No Correlator is given to two threads.  Whatever the schedule: what a thread has seen so far is the beginning of what it sees when it runs
    alone; once it has ended it has seen all of that, and its Correlators are as they are then. *)
Theorem C99_isolated {A : Num} (p : platform) (h : heap) (progs : list (list work)) (schedule : list nat) :
  (forall i ws a, nth_error progs i = Some ws -> uses ws a -> a < length h) ->
  (forall i j wi wj a, i <> j -> nth_error progs i = Some wi -> nth_error progs j = Some wj -> uses wi a -> ~ uses wj a) ->
  let s := run_threads p schedule (begin h progs) in
  forall i ws t, nth_error progs i = Some ws -> nth_error (threads s) i = Some t ->
  exists h' l, alone p h ws h' l /\ (exists l', l = log t ++ l') /\
    (finished t -> log t = l /\ forall a, uses ws a -> nth_error (mem s) a = nth_error h' a).
Proof.
  intros H1 H2 s i ws t Hw Ht. destruct (isolated p h progs schedule i ws t (conj H1 H2) Hw Ht) as [h' [l [K1 [K2 [K3 _]]]]]. exists h', l. auto.
Qed.
Print Assumptions C99_isolated.

(** running alone has one outcome *)
Theorem C99_alone_one {A : Num} (p : platform) (h : heap) (ws : list work) :
  (forall a, uses ws a -> a < length h) ->
  exists h' l, alone p h ws h' l /\ forall h'' l'', alone p h ws h'' l'' -> h'' = h' /\ l'' = l.
Proof.
  intros H. exists (fst (fst (seq_works p h ws))), (snd (fst (seq_works p h ws))). split; [apply seq_alone; exact H|].
  intros h'' l''. apply alone_det. apply seq_alone. exact H.
Qed.
Print Assumptions C99_alone_one.

(** A Correlator no thread is given stays as it is. *)
Theorem C99_untouched {A : Num} (p : platform) (h : heap) (progs : list (list work)) (schedule : list nat) (a : nat) :
  (forall i ws a, nth_error progs i = Some ws -> uses ws a -> a < length h) ->
  (forall i j wi wj a, i <> j -> nth_error progs i = Some wi -> nth_error progs j = Some wj -> uses wi a -> ~ uses wj a) ->
  a < length h -> (forall i ws, nth_error progs i = Some ws -> ~ uses ws a) ->
  nth_error (mem (run_threads p schedule (begin h progs))) a = nth_error h a.
Proof. intros H1 H2. exact (untouched p h progs schedule a (conj H1 H2)). Qed.
Print Assumptions C99_untouched.

(** A thread ends after a number of turns that does not depend on the others. *)
Theorem C99_progress {A : Num} (p : platform) (h : heap) (ws : list work) :
  exists n, forall progs schedule i,
  (forall i ws a, nth_error progs i = Some ws -> uses ws a -> a < length h) ->
  (forall i j wi wj a, i <> j -> nth_error progs i = Some wi -> nth_error progs j = Some wj -> uses wi a -> ~ uses wj a) ->
  nth_error progs i = Some ws -> n <= turns i schedule ->
  exists t, nth_error (threads (run_threads p schedule (begin h progs))) i = Some t /\ finished t.
Proof.
  exists (S (snd (seq_works p h ws))). intros progs schedule i H1 H2 Hw Hn.
  assert (Q1 : forall i a, mine progs i a -> a < length h) by (intros j a [w [K1 K2]]; eapply H1; eassumption).
  assert (Q2 : forall i j a, i <> j -> mine progs i a -> mine progs j a -> False) by (intros j k a Hjk [w [K1 K2]] [w' [K1' K2']]; eapply (H2 j k); eassumption).
  destruct (run_system p (mine progs) (length h) Q1 Q2 schedule (begin h progs) (begin_wf p h progs (conj H1 H2))) as [R _].
  destruct (R i {| doing := Idle; todo := ws; log := [] |}) as [t [Ht _]]; [apply begin_nth; eauto|]. exists t. split; [exact Ht|].
  destruct (isolated p h progs schedule i ws t (conj H1 H2) Hw Ht) as [h' [l [_ [_ [_ K]]]]]. apply K. lia.
Qed.
Print Assumptions C99_progress.

(** Threads that share Correlators as they like: as long as no call had undefined behaviour, each of these objects is in a state that one
    program could have brought about, with the calls the threads make and those find_correlation makes. *)
Theorem C99_shared_history {A : Num} (p : platform) (h : heap) (progs : list (list work)) (schedule : list nat) :
  let s := run_threads p schedule (begin h progs) in
  (forall i t r, nth_error (threads s) i = Some t -> In r (log t) -> ~ bad_report r) ->
  forall a c, nth_error h a = Some c ->
  exists os c', nth_error (mem s) a = Some c' /\ after p c os c' /\
    forall o, In o os -> (exists ws, In ws progs /\ In (Call a o) ws) \/ (exists it n, o = AddData it (Z.of_nat n)) \/ exists n, o = CleanData (Z.of_nat n).
Proof.
  intros s Hb a c Hc. destruct (history_run p h progs schedule _ (history_begin p h progs)) as [_ [_ H]].
  destruct (H (fun i t Ht => fun K => match K with ex_intro _ r (conj K1 K2) => Hb i t r Ht K1 K2 end) a c Hc) as [os [c' [K1 [K2 K3]]]].
  exists os, c'. split; [exact K1|]. split; [exact K2|]. intros o Ho. destruct (K3 o Ho) as [[i [ws [E Hin]]]|K]; [|right; exact K].
  left. exists ws. split; [eapply nth_error_In; exact E|exact Hin].
Qed.
Print Assumptions C99_shared_history.

(** So correlations() of a shared object does not read past the end and its rows are as long as the lags, if nobody clears it. *)
Theorem C99_shared_consistent {A : Num} (p : platform) (h : heap) (progs : list (list work)) (schedule : list nat) (d : dstruct) (a : nat) (c : correlator) :
  let s := run_threads p schedule (begin h progs) in
  (forall i t r, nth_error (threads s) i = Some t -> In r (log t) -> ~ bad_report r) ->
  accepted d -> new_Correlator d = Ok c -> nth_error h a = Some c -> (forall ws, In ws progs -> ~ In (Call a Clear) ws) ->
  exists c' rows, nth_error (mem s) a = Some c' /\ correlations c' = Ok rows /\ length rows = N_datasets d /\
    forall row, In row rows -> length row = length (lag_timeseries c').
Proof.
  intros s Hb Ha Hn Hc Hclr. destruct (C99_shared_history p h progs schedule Hb a c Hc) as [os [c' [K1 [K2 K3]]]].
  destruct (C38_consistent p d c os c' Ha Hn K2) as [rows [R1 [R2 R3]]].
  - intros Hin. destruct (K3 _ Hin) as [[ws [W1 W2]]|[[it [n K]]|[n K]]]; [exact (Hclr ws W1 W2)|discriminate K|discriminate K].
  - exists c', rows. auto.
Qed.
Print Assumptions C99_shared_consistent.

(** Threads that run the same calculation on one Correlator, any number of times: none fails; the result is there as soon as one of the calls
    has returned, and stays; each thread ends after 6 turns per lag and 6 more, for each call. *)
Theorem C99_same_calculation {A : Num} (p : platform) (d : dstruct) (c0 c cF : correlator) (os : list op) (sel wgt : string)
  (h : heap) (a : nat) (progs : list (list work)) (schedule : list nat) :
  accepted d -> new_Correlator d = Ok c0 -> after p c0 os c -> ~ In Clear os ->
  run_op p c (Find sel wgt) = (cF, Ok tt) -> nth_error h a = Some c ->
  (forall ws w, In ws progs -> In w ws -> w = Call a (Find sel wgt)) ->
  let s := run_threads p schedule (begin h progs) in
  forall i ws t, nth_error progs i = Some ws -> nth_error (threads s) i = Some t ->
  (forall r, In r (log t) -> r = Ended (Ok tt)) /\ (log t <> [] -> nth_error (mem s) a = Some cF) /\
  (finished t <-> length ws * (6 * length (lag_timeseries cF) + 6) <= turns i schedule).
Proof. intros H1 H2 H3 H4 H5 H6 H7 s i ws t. exact (same_calculation p d c0 os c sel wgt cF h a progs schedule i ws t H1 H2 H3 H4 H5 H6 H7). Qed.
Print Assumptions C99_same_calculation.

(** ** Sharing with changes of the settings *)
(** One thread calculates; the other lowers max_lag to min_lag and calculates.  One after the other, in either order, every call returns normally.
    Interleaved, the first thread writes past the end of the buffers: the second has cut them. *)
Definition calculating : list (@work BB) := [Call 0 (Find "natural" "fractional")].
Definition narrowing : list (@work BB) := [Call 0 (SetMaxLag (min_lag example_c)); Call 0 Calculate].
Definition interleaved : list nat := repeat 0 10 ++ [1; 1] ++ repeat 0 6.

Definition outcome (r : @report BB) : option (res unit) := match r with Ended r => Some r | Returned _ => None end.
Lemma outcomes l : forall rs, map outcome l = map Some rs -> l = map Ended rs.
Proof.
  induction l as [|x l IH]; intros [|r rs] H; try discriminate H; [reflexivity|]. cbn [map] in *. injection H as H1 H2. rewrite (IH rs H2).
  destruct x; cbn in H1; [injection H1 as ->; reflexivity|discriminate H1].
Qed.
Lemma outcomes2 l l1 l2 rs1 rs2 : map (map outcome) l = [map Some rs1; map Some rs2] -> l1 = map Ended rs1 -> l2 = map Ended rs2 -> l = [l1; l2].
Proof.
  intros H -> ->. destruct l as [|x [|y [|z l]]]; try discriminate H. cbn [map] in H. injection H as H1 H2. rewrite (outcomes x rs1 H1), (outcomes y rs2 H2). reflexivity.
Qed.

Theorem C99_shared_refuted :
  accepted example_ds /\ new_Correlator example_ds = Ok example_c /\
  (exists h l, alone (A := BB) gcc [example_c] (calculating ++ narrowing) h l /\ l = [Ended (Ok tt); Ended (Ok tt); Ended (Ok tt)]) /\
  (exists h l, alone (A := BB) gcc [example_c] (narrowing ++ calculating) h l /\ l = [Ended (Ok tt); Ended (Ok tt); Ended (Ok tt)]) /\
  (let s := run_threads gcc interleaved (begin [example_c] [calculating; narrowing]) in
   map log (threads s) = [[Ended (UB OobWrite)]; [Ended (Ok tt); Ended (Ok tt)]]).
Proof.
  assert (U : forall ws, (forall w, In w ws -> exists o, w = Call 0 o) -> forall a, uses (A := BB) ws a -> a < length [example_c]).
  { intros ws H a [o Ho]. destruct (H _ Ho) as [o' E]. injection E as -> _. cbn. lia. }
  split; [exact (proj1 C14_case)|]. split; [exact (proj1 (proj2 (proj2 C14_case)))|]. split; [|split].
  - eexists _, _. split; [apply seq_alone; apply U; intros w [<-|[<-|[<-|[]]]]; eauto|]. apply (outcomes _ [Ok tt; Ok tt; Ok tt]). vm_compute. reflexivity.
  - eexists _, _. split; [apply seq_alone; apply U; intros w [<-|[<-|[<-|[]]]]; eauto|]. apply (outcomes _ [Ok tt; Ok tt; Ok tt]). vm_compute. reflexivity.
  - apply (outcomes2 _ _ _ [UB OobWrite] [Ok tt; Ok tt]); [vm_compute; reflexivity|reflexivity|reflexivity].
Qed.
Print Assumptions C99_shared_refuted.

(** ** Concrete cases *)
(** two threads with a Correlator each, one of which also calls autocorrelation, and a third that only does that *)
Definition first_prog : list (@work BB) := [Call 0 (SetMaxLag (fl 3)); Call 0 (Find "natural" "gaussian"); Auto example_ds None None None None "natural" "fractional"].
Definition second_prog : list (@work BB) := [Call 1 Calculate; Call 1 (Find "natural" "nonsense")].
Definition third_prog : list (@work BB) := [Auto two_ds None (Some (fl 3)) None None "natural" "gaussian"].
Definition round_robin : list nat := concat (repeat [0; 1; 2] 250).

Definition ended (t : @thread BB) : bool := match doing t, todo t with Idle, [] => true | _, _ => false end.
Definition shape (r : @report BB) : option (option exn) :=
  match r with Ended (Ok _) | Returned (Ok _) => Some None | Ended (Throw e) | Returned (Throw e) => Some (Some e) | _ => None end.

Example C99_case :
  let progs := [first_prog; second_prog; third_prog] in let h := [example_c; example_c] in
  let s := run_threads gcc round_robin (begin h progs) in
  (forall i ws a, nth_error progs i = Some ws -> uses ws a -> a < length h) /\
  (forall i j wi wj a, i <> j -> nth_error progs i = Some wi -> nth_error progs j = Some wj -> uses wi a -> ~ uses wj a) /\
  forallb ended (threads s) = true /\
  map (fun t => map shape (log t)) (threads s) = [[Some None; Some None; Some None]; [Some None; Some (Some PyKeyError)]; [Some None]] /\
  length (mem s) = 4 /\
  (* in between *)
  map (fun t => length (log t)) (threads (run_threads gcc (firstn 60 round_robin) (begin h progs))) = [1; 2; 0].
Proof.
  cbv zeta. split; [|split].
  - intros i ws a Hi [o Ho]. destruct i as [|[|[|i]]]; cbn in Hi; try (injection Hi as <-); try (destruct i; discriminate Hi).
    + destruct Ho as [Ho|[Ho|[Ho|[]]]]; try discriminate Ho; injection Ho as <- _; cbn; lia.
    + destruct Ho as [Ho|[Ho|[]]]; injection Ho as <- _; cbn; lia.
    + destruct Ho as [Ho|[]]. discriminate Ho.
  - assert (U : forall i ws a, nth_error [first_prog; second_prog; third_prog] i = Some ws -> uses ws a -> a = i /\ i < 2).
    { intros i ws a Hi [o Ho]. destruct i as [|[|[|i]]]; cbn in Hi; try (injection Hi as <-); try (destruct i; discriminate Hi).
      - destruct Ho as [Ho|[Ho|[Ho|[]]]]; try discriminate Ho; injection Ho as <- _; lia.
      - destruct Ho as [Ho|[Ho|[]]]; injection Ho as <- _; lia.
      - destruct Ho as [Ho|[]]. discriminate Ho. }
    intros i j wi wj a Hij Hi Hj Ui Uj. destruct (U _ _ _ Hi Ui), (U _ _ _ Hj Uj). congruence.
  - split; [vm_compute; reflexivity|]. split; [vm_compute; reflexivity|]. split; vm_compute; reflexivity.
Qed.

(** three threads on one Correlator *)
Example C99_same_case :
  let s := run_threads gcc (concat (repeat [0; 1; 2; 2] 400)) (begin [example_c] [calculating; calculating ++ calculating; calculating]) in
  accepted example_ds /\ new_Correlator example_ds = Ok example_c /\
  ok_with (snd (run_op gcc example_c (Find "natural" "fractional"))) (fun _ => true) = true /\
  forallb ended (threads s) = true /\
  map (fun t => map shape (log t)) (threads s) = [[Some None]; [Some None; Some None]; [Some None]].
Proof.
  cbv zeta. split; [exact (proj1 C14_case)|]. split; [exact (proj1 (proj2 (proj2 C14_case)))|]. split; [vm_compute; reflexivity|]. split; vm_compute; reflexivity.
Qed.
