(** C100: interrupted calculations. *)
From Coq Require Import String.
From Coq Require Import ZArith List Bool Arith Lia.
From Verif Require Import Num Mem Spec DataStructure Correlator Sacf Api RelFacts ConstrFacts AllocThms Examples Props01_Construction Props02_Lags Props06_Calls.
From Verif Require Import Threads Interrupt InterruptFacts.
Import ListNotations.
Local Open Scope list_scope.

(** ** C100: find_correlation is what its steps do *)
Theorem C100_uncut {A : Num} (p : platform) (c c' : correlator) (sel wgt : string) (r : res unit) :
  find_correlation p c sel wgt = (c', r) <-> exists n, find_steps p sel wgt n (c, ReadMin) = (c', Stop r).
Proof. exact (uncut p c sel wgt c' r). Qed.
Print Assumptions C100_uncut.

(** ** C100: an interrupted call leaves the settings, and as many lags and correlations to read as before *)
Theorem C100_left_behind {A : Num} (p : platform) (c c' : correlator) (sel wgt : string) (n : nat) : cut p c sel wgt n c' ->
  min_lag c' = min_lag c /\ max_lag c' = max_lag c /\ lag_resolution c' = lag_resolution c /\ alpha c' = alpha c /\ c_values c' = c_values c /\
  c_normalised_timeseries c' = c_normalised_timeseries c /\ length (lag_timeseries c') = length (lag_timeseries c) /\
  forall rows, correlations c = Ok rows -> exists rows', correlations c' = Ok rows' /\ map (@length num) rows' = map (@length num) rows.
Proof.
  intros H. destruct (cut_kept p c sel wgt n c' H) as [[S1 [S2 [S3 [S4 [S5 S6]]]]] [M2 [M3 M4]]]. repeat (split; [assumption|]).
  split; [unfold c_values; rewrite S1; reflexivity|]. split; [unfold c_normalised_timeseries; rewrite S1; reflexivity|]. split; [exact M3|]. exact (correlations_lengths c c' S1 M2 M4).
Qed.
Print Assumptions C100_left_behind.

(** ** C100: every calculation ends after the interrupted call as it would have ended before it; if normally, with the same result *)
Theorem C100_no_loss {A : Num} (p : platform) (d : dstruct) (c0 c c' : correlator) (es : list deed) (sel wgt : string) (n : nat) (o : op) :
  accepted d -> new_Correlator d = Ok c0 -> after_cuts p c0 es c -> ~ In (Whole Clear) es -> cut p c sel wgt n c' -> is_calculation o ->
  snd (run_op p c' o) = snd (run_op p c o) /\ (snd (run_op p c o) = Ok tt -> run_op p c' o = run_op p c o).
Proof.
  intros Ha Hn He Hc Hcut Ho. destruct (cuts_state p d c0 es c Ha Hn He) as [Hs Hb]. specialize (Hb Hc). pose proof (cut_kept p c sel wgt n c' Hcut) as K.
  exact (calc_kept p c c' o K Hs Hb (kept_bufs c c' K Hb) Ho).
Qed.
Print Assumptions C100_no_loss.

(** ** C100: the result of a call that would have ended normally is there for the lags that were stored, one for six steps; the other entries are as before *)
Theorem C100_part_done {A : Num} (p : platform) (d : dstruct) (c0 c cF c' : correlator) (es : list deed) (sel wgt : string) (n : nat) :
  accepted d -> new_Correlator d = Ok c0 -> after_cuts p c0 es c -> ~ In (Whole Clear) es ->
  run_op p c (Find sel wgt) = (cF, Ok tt) -> cut p c sel wgt n c' ->
  exists rows rows' rowsF, correlations c = Ok rows /\ correlations c' = Ok rows' /\ correlations cF = Ok rowsF /\
  let m := (n - 3) / 6 in m <= length (lag_timeseries cF) /\
  (forall i, nth_error (lag_timeseries c') i = nth_error (lag_timeseries (if i <? m then cF else c)) i) /\
  forall j row row' rowF, nth_error rows j = Some row -> nth_error rows' j = Some row' -> nth_error rowsF j = Some rowF ->
  forall i, nth_error row' i = nth_error (if i <? m then rowF else row) i.
Proof.
  intros Ha Hn He Hc E Hcut. destruct (cuts_state p d c0 es c Ha Hn He) as [Hs Hb]. exact (part_done p c sel wgt cF n c' Hs (Hb Hc) E Hcut).
Qed.
Print Assumptions C100_part_done.

(** ** C100: a program with interrupted calls does nothing that one without could not do *)
Theorem C100_histories {A : Num} (p : platform) (c0 c : correlator) (es : list deed) : after_cuts p c0 es c ->
  exists os, after p c0 os c /\ forall o, In o os -> In (Whole o) es \/ exists it i, o = AddData it (Z.of_nat i).
Proof. exact (cuts_ops p c0 es c). Qed.
Print Assumptions C100_histories.

(** ** C100: so a calculation that ends normally gives, whatever was interrupted before, what it gives on a new correlator with these settings *)
Theorem C100_as_fresh {A : Num} (p : platform) (d : dstruct) (c0 c c' : correlator) (es : list deed) (o : op) :
  accepted d -> new_Correlator d = Ok c0 -> after_cuts p c0 es c -> is_calculation o -> run_op p c o = (c', Ok tt) ->
  run_op p (set_up_correlation c0 (Some (min_lag c)) (Some (max_lag c)) (Some (lag_resolution c)) (Some (alpha c))) o = (c', Ok tt).
Proof. intros Ha Hn He. destruct (cuts_ops p c0 es c He) as [os [O1 _]]. exact (C37_as_fresh p d c0 os c o c' Ha Hn O1). Qed.
Print Assumptions C100_as_fresh.

(** ** C100 is false for what is read after an interrupt: the lags and the correlations are neither the old nor the new ones *)
Definition zeros (l : list (@num BB)) : list bool := map (fun x => neqb x nzero) l.
Definition zero_rows (r : res (list (list (@num BB)))) : option (list (list bool)) := match r with Ok rows => Some (map zeros rows) | _ => None end.
Lemma cut_at (p : platform) (c : @correlator BB) sel wgt n : (match snd (find_steps p sel wgt n (c, ReadMin)) with Stop _ => false | _ => true end) = true ->
  cut p c sel wgt n (fst (find_steps p sel wgt n (c, ReadMin))).
Proof.
  intros H. exists (snd (find_steps p sel wgt n (c, ReadMin))). split; [apply surjective_pairing|]. intros r E. rewrite E in H. discriminate H.
Qed.

Theorem C100_mixture_refuted : exists (d : @dstruct BB) c cF c' n,
  accepted d /\ new_Correlator d = Ok c /\ run_op gcc c (Find "natural" "fractional") = (cF, Ok tt) /\ cut gcc c "natural" "fractional" n c' /\
  lag_timeseries c' <> lag_timeseries c /\ lag_timeseries c' <> lag_timeseries cF /\ correlations c' <> correlations c /\ correlations c' <> correlations cF.
Proof.
  exists example_ds, example_c, (fst (run_op gcc example_c (Find "natural" "fractional"))), (fst (find_steps gcc "natural" "fractional" 50 (example_c, ReadMin))), 50.
  split; [exact (proj1 C14_case)|]. split; [exact (proj1 (proj2 (proj2 C14_case)))|].
  split; [rewrite (surjective_pairing (run_op gcc example_c _)) at 1; f_equal; vm_compute; reflexivity|].
  split; [apply cut_at; vm_compute; reflexivity|].
  split; [intros C; apply (f_equal zeros) in C; vm_compute in C; discriminate C|].
  split; [intros C; apply (f_equal (@length _)) in C; vm_compute in C; discriminate C|].
  split; intros C; apply (f_equal zero_rows) in C; vm_compute in C; discriminate C.
Qed.
Print Assumptions C100_mixture_refuted.

(** ** Concrete case: two interrupted calls and a setting in between; the third call ends as without them *)
Definition cut_story : list (@deed BB) := [Cut "natural" "gaussian" 40; Whole (SetMaxLag (fl 3)); Cut "natural" "fractional_squared" 17; Cut "fast" "gaussian" 2].
Definition after_deed (c : @correlator BB) (e : @deed BB) : @correlator BB :=
  match e with Whole o => fst (run_op gcc c o) | Cut sel wgt n => fst (find_steps gcc sel wgt n (c, ReadMin)) end.
Definition deed_fine (c : @correlator BB) (e : @deed BB) : bool :=
  match e with
  | Whole o => match snd (run_op gcc c o) with Ok _ | Throw _ => true | _ => false end
  | Cut sel wgt n => match snd (find_steps gcc sel wgt n (c, ReadMin)) with Stop _ => false | _ => true end
  end.
Fixpoint deeds_fine (c : @correlator BB) (es : list (@deed BB)) : bool :=
  match es with [] => true | e :: es' => deed_fine c e && deeds_fine (after_deed c e) es' end.
Lemma deeds_after c es : deeds_fine c es = true -> forall c0 es0, after_cuts gcc c0 es0 c -> after_cuts gcc c0 (es0 ++ es) (fold_left after_deed es c).
Proof.
  revert c. induction es as [|e es IH]; intros c H c0 es0 H0; [rewrite app_nil_r; exact H0|]. cbn [deeds_fine] in H. apply andb_prop in H. destruct H as [H1 H2].
  cbn [fold_left]. change (e :: es) with ([e] ++ es). rewrite app_assoc. apply (IH _ H2). destruct e as [o|sel wgt n]; cbn [deed_fine after_deed] in *.
  - apply (cuts_whole _ _ _ c _ _ (snd (run_op gcc c o))); [exact H0|apply surjective_pairing|]. destruct (snd (run_op gcc c o)) as [[]|e|u|]; try discriminate H1; eauto.
  - eapply cuts_cut; [exact H0|]. apply cut_at. exact H1.
Qed.

Example C100_case :
  let c := fold_left after_deed cut_story example_c in
  after_cuts gcc example_c cut_story c /\ ~ In (Whole Clear) cut_story /\
  (match snd (run_op gcc c (Find "natural" "gaussian")) with Ok _ => true | _ => false end) = true /\
  length (lag_timeseries (fst (run_op gcc c (Find "natural" "gaussian")))) < length (lag_timeseries c) /\
  zeros (lag_timeseries c) <> zeros (lag_timeseries example_c).
Proof.
  cbv zeta. split; [apply (deeds_after example_c cut_story ltac:(vm_compute; reflexivity) example_c []); constructor|].
  split; [intros [C|[C|[C|[C|[]]]]]; discriminate C|]. split; [vm_compute; reflexivity|]. split; [apply Nat.ltb_lt; vm_compute; reflexivity|].
  intros C. vm_compute in C. discriminate C.
Qed.
