(** Theorems: relations between calls, histories of a correlator (C16, C31 - C38). *)
From Coq Require Import String.
From Coq Require Import ZArith List Bool Arith Lia.
From Flocq Require Import BinarySingleNaN.
From Verif Require Import Num Mem MemFacts B64 Spec DataStructure Correlator Sacf Api Examples
  Laws B64Facts Laws2 StateFacts RelFacts Props01_Construction Props02_Lags.
Import ListNotations.
Local Open Scope list_scope.

(** two datasets over the example times *)
Definition two_rows : res (@dstruct BB) :=
  SACF_2d [half 3; fl 2; fl 5; fl 9] [ints [1; -1; 4; 0]%Z; ints [2; 2; 5; 7]%Z] None.
Definition two_ds : @dstruct BB := match two_rows with Ok d => d | _ => example_ds end.

Lemma two_ok : two_rows = Ok two_ds /\ accepted two_ds.
Proof.
  assert (E : two_rows = Ok two_ds).
  { unfold two_ds. destruct (ok_with_ok two_rows (fun _ => true)) as [d [E _]]; [vm_compute; reflexivity|]. rewrite E. reflexivity. }
  split; [exact E|]. right. eexists _, _, _. exact E.
Qed.

(** ** C31: datasets are independent *)
Theorem C31_by_rows {A : Num} (p : platform) (d d' : dstruct) (rows rows' : list (list num))
  (mi ma re al : option num) (sel wgt : string) :
  accepted d -> accepted d' -> timeseries d = timeseries d' -> data_2d d = Ok rows -> data_2d d' = Ok rows' ->
  same_outcome (fun x y => fst x = fst y /\
      forall j j' row, nth_error rows j = Some row -> nth_error rows' j' = Some row ->
        exists out, nth_error (rows_of (snd x)) j = Some out /\ nth_error (rows_of (snd y)) j' = Some out)
    (visible (autocorrelation p d mi ma re al sel wgt)) (visible (autocorrelation p d' mi ma re al sel wgt)).
Proof. exact (by_rows p d d' rows rows' mi ma re al sel wgt). Qed.
Print Assumptions C31_by_rows.

Theorem C31_alone {A : Num} (p : platform) (d : dstruct) (rows : list (list num)) (j : nat) (row : list num)
  (e : option (list num)) (mi ma re al : option num) (sel wgt : string) :
  accepted d -> data_2d d = Ok rows -> nth_error rows j = Some row ->
  exists dj, SACF_1d (timeseries d) row e = Ok dj /\
    same_outcome (fun x y => fst x = fst y /\ exists out, nth_error (rows_of (snd x)) j = Some out /\ snd y = Flat out)
      (visible (autocorrelation p d mi ma re al sel wgt)) (visible (autocorrelation p dj mi ma re al sel wgt)).
Proof. exact (alone_call p d rows j row e mi ma re al sel wgt). Qed.
Print Assumptions C31_alone.

Example C31_case : exists rows, accepted two_ds /\ data_2d two_ds = Ok rows /\ length rows = 2 /\
  ok_with (autocorrelation gcc two_ds None (Some (fl 3)) None None "natural" "fractional") (fun x =>
    match rows_of (snd (fst x)) with
    | [_; r] => ok_with (do d <- SACF_1d (timeseries two_ds) (ints [2; 2; 5; 7]%Z) None;
                         autocorrelation gcc d None (Some (fl 3)) None None "natural" "fractional")
                  (fun y => match snd (fst y) with Flat l => sames l r && (length l =? 22) | _ => false end)
    | _ => false end) = true.
Proof.
  exists [ints [1; -1; 4; 0]%Z; ints [2; 2; 5; 7]%Z]. split; [apply two_ok|]. split; [|split; [reflexivity|]].
  - apply (ok_with_eq _ (fun x => sames2 x [ints [1; -1; 4; 0]%Z; ints [2; 2; 5; 7]%Z])); [|vm_compute; reflexivity].
    intros x. apply sames2_eq.
  - vm_compute. reflexivity.
Qed.

(** ** C32: errors never influence the result *)
Theorem C32_errors {A : Num} (p : platform) (t v : list num) (e e' : option (list num)) (mi ma re al : option num) (sel wgt : string) :
  same_outcome (fun d d' => visible (autocorrelation p d mi ma re al sel wgt) = visible (autocorrelation p d' mi ma re al sel wgt))
    (SACF_1d t v e) (SACF_1d t v e').
Proof. exact (errors_irrelevant_1d p t v e e' mi ma re al sel wgt). Qed.
Print Assumptions C32_errors.

Theorem C32_errors_rows {A : Num} (p : platform) (t : list num) (v : list (list num)) (e e' : option (list (list num)))
  (mi ma re al : option num) (sel wgt : string) :
  same_outcome (fun d d' => visible (autocorrelation p d mi ma re al sel wgt) = visible (autocorrelation p d' mi ma re al sel wgt))
    (SACF_2d t v e) (SACF_2d t v e').
Proof. exact (errors_irrelevant_2d p t v e e' mi ma re al sel wgt). Qed.
Print Assumptions C32_errors_rows.

(** also when the errors are not those of the same number of points *)
Example C32_case :
  ok_with (SACF_1d (ints [1; 2; 4]%Z) (ints [1; 5; 4]%Z) (Some (ints [1]%Z))) (fun d =>
    ok_with (SACF_1d (ints [1; 2; 4]%Z) (ints [1; 5; 4]%Z) None) (fun d' =>
      negb (length (err d) =? length (err d')) &&
      ok_with (autocorrelation gcc d None None None None "natural" "fractional") (fun x =>
        ok_with (autocorrelation gcc d' None None None None "natural" "fractional") (fun y =>
          sames (fst (fst x)) (fst (fst y)) && sames2 (rows_of (snd (fst x))) (rows_of (snd (fst y))))))) = true.
Proof. vm_compute. reflexivity. Qed.

(** ** C33: shape of the result *)
Theorem C33_shape {A : Num} (p : platform) (d : dstruct) (mi ma re al : option num) (sel wgt : string)
  (lags : list num) (corr : py_corr) (c : correlator) : accepted d ->
  autocorrelation p d mi ma re al sel wgt = Ok (lags, corr, c) ->
  length (rows_of corr) = N_datasets d /\ (forall row, In row (rows_of corr) -> length row = length lags) /\
  ((exists l, corr = Flat l) <-> N_datasets d = 1) /\
  lag_timeseries c = lags /\ correlations c = Ok (rows_of corr).
Proof. exact (shape p d mi ma re al sel wgt lags corr c). Qed.
Print Assumptions C33_shape.

Example C33_case : ok_with (autocorrelation gcc two_ds None (Some (fl 3)) None None "fast" "gaussian") (fun x =>
    match snd (fst x) with Nested [a; b] => (length a =? 22) && (length b =? 22) | _ => false end) = true /\
  ok_with (autocorrelation gcc example_ds None None None None "natural" "gaussian") (fun x =>
    match snd (fst x) with Flat a => (length a =? 31) | _ => false end) = true.
Proof. split; vm_compute; reflexivity. Qed.

(** ** C34: the two paths agree *)
Theorem C34_paths_agree {A : Num} (p : platform) (d : dstruct) (c0 : correlator) (os : list op) (c : correlator) :
  accepted d -> new_Correlator d = Ok c0 -> after p c0 os c -> nle (min_lag c) (max_lag c) = true ->
  find_correlation p c "natural" "fractional" = calculateStandardCorrelation p c.
Proof.
  intros Ha Hn Hh Hle. destruct (new_base d c0 Ha Hn) as [H0 _].
  exact (paths_agree_any p c (inv_semi c0 c H0 (proj1 (after_inv p c0 os c H0 Hh))) Hle).
Qed.
Print Assumptions C34_paths_agree.

(** a history: narrow the range, calculate, clear, widen *)
Definition story : list (@op BB) := [SetMaxLag (fl 3); Calculate; Find "fast" "nonsense"; Clear; SetMaxLag (fl 4)].
Definition play (c : correlator) (os : list (@op BB)) : correlator := fold_left (fun c o => fst (run_op gcc c o)) os c.
Definition plays (c : correlator) (os : list (@op BB)) : bool :=
  snd (fold_left (fun cb o => (fst (run_op gcc (fst cb) o),
    snd cb && match snd (run_op gcc (fst cb) o) with Ok _ | Throw _ => true | _ => false end)) os (c, true)).

Lemma plays_fold os c b :
  fold_left (fun cb o => (fst (run_op gcc (fst cb) o),
    snd cb && match snd (run_op gcc (fst cb) o) with Ok _ | Throw _ => true | _ => false end)) os (c, b) =
  (play c os, b && plays c os).
Proof.
  unfold plays, play. revert c b. induction os as [|o os IH]; intros c b; cbn [fold_left fst snd].
  - rewrite andb_true_r. reflexivity.
  - rewrite (IH _ (b && _)), (IH _ (true && _)). cbn [snd]. rewrite andb_assoc. reflexivity.
Qed.

Lemma plays_after c os : plays c os = true -> after gcc c os (play c os).
Proof.
  induction os as [|o os IH] using rev_ind; intros H; [apply after_nil|].
  unfold plays in H. rewrite fold_left_app, plays_fold in H. cbn [fold_left fst snd] in H.
  apply andb_prop in H. destruct H as [H1 H2]. cbn [andb] in H1. unfold play. rewrite fold_left_app. cbn [fold_left].
  eapply after_snoc; [apply IH; exact H1|apply surjective_pairing|].
  fold (play c os). destruct (snd (run_op gcc (play c os) o)) as [[]|e|u|]; [auto|eauto|discriminate|discriminate].
Qed.

Example C34_case : after gcc example_c story (play example_c story) /\
  nle (min_lag (play example_c story)) (max_lag (play example_c story)) = true /\
  undefined (snd (calculateStandardCorrelation gcc (play example_c story))) = Some OobWrite /\
  after gcc example_c (firstn 3 story) (play example_c (firstn 3 story)) /\
  ok_with (snd (find_correlation gcc (play example_c (firstn 3 story)) "natural" "fractional")) (fun _ => true) = true.
Proof.
  split; [apply plays_after; vm_compute; reflexivity|]. split; [vm_compute; reflexivity|]. split; [vm_compute; reflexivity|].
  split; [apply plays_after; vm_compute; reflexivity|]. vm_compute; reflexivity.
Qed.

(** ** C16 for every history *)
Theorem C16_terminates_always {A : Num} (p : platform) (d : dstruct) (c0 : correlator) (os : list op) (c : correlator) (sel wgt : string) :
  accepted d -> new_Correlator d = Ok c0 -> after p c0 os c ->
  snd (calculateStandardCorrelation p c) <> Diverge /\ snd (find_correlation p c sel wgt) <> Diverge.
Proof.
  intros Ha Hn Hh. destruct (new_base d c0 Ha Hn) as [H0 _].
  pose proof (inv_semi c0 c H0 (proj1 (after_inv p c0 os c H0 Hh))) as Hs.
  split; [exact (calculate_terminates p c Hs)|exact (find_terminates p c sel wgt Hs)].
Qed.
Print Assumptions C16_terminates_always.

(** ** C35: empty lag range *)
Theorem C35_empty_range {A : Num} (p : platform) (d : dstruct) (c0 : correlator) (mi ma re al : option num) (sel wgt : string) :
  accepted d -> new_Correlator d = Ok c0 ->
  nle (opt_or mi (min_lag c0)) (opt_or ma (max_lag c0)) = false ->
  (sel = "natural"%string /\ wgt = "fractional"%string ->
     exists corr, visible (autocorrelation p d mi ma re al sel wgt) = Ok ([], corr) /\ rows_of corr = repeat [] (N_datasets d)) /\
  (~ (sel = "natural"%string /\ wgt = "fractional"%string) ->
     autocorrelation p d mi ma re al sel wgt = Throw PyUnboundLocalError).
Proof. exact (empty_range_call p d c0 mi ma re al sel wgt). Qed.
Print Assumptions C35_empty_range.

(** at the level of the correlator, after any history; [find_correlation] leaves it as it is *)
Theorem C35_empty_range_methods {A : Num} (p : platform) (d : dstruct) (c0 : correlator) (os : list op) (c : correlator) (sel wgt : string) :
  accepted d -> new_Correlator d = Ok c0 -> after p c0 os c -> nle (min_lag c) (max_lag c) = false ->
  find_correlation p c sel wgt = (c, Throw PyUnboundLocalError) /\
  (~ In Clear os -> exists c', calculateStandardCorrelation p c = (c', Ok tt) /\ lag_timeseries c' = [] /\
     correlations c' = Ok (repeat [] (N_datasets d))).
Proof. exact (empty_range_methods p d c0 os c sel wgt). Qed.
Print Assumptions C35_empty_range_methods.

Example C35_case : nle (opt_or (Some (fl 3)) (min_lag example_c)) (opt_or (Some (fl 2)) (max_lag example_c)) = false /\
  nle (opt_or (Some B754_nan) (min_lag example_c)) (opt_or None (max_lag example_c)) = false /\
  ok_with (autocorrelation gcc example_ds (Some (fl 3)) (Some (fl 2)) None None "natural" "fractional")
    (fun x => match x with ([], Flat [], _) => true | _ => false end) = true /\
  thrown (autocorrelation gcc example_ds (Some (fl 3)) (Some (fl 2)) None None "natural" "gaussian") = Some PyUnboundLocalError.
Proof. repeat split; vm_compute; reflexivity. Qed.

(** ** C36: function names *)
Theorem C36_never_a_result {A : Num} (p : platform) (d : dstruct) (mi ma re al : option num) (sel wgt : string) r : accepted d ->
  (sel <> "natural"%string /\ sel <> "fast"%string) \/ ~ known_weight wgt ->
  autocorrelation p d mi ma re al sel wgt <> Ok r.
Proof. exact (unknown_never p d mi ma re al sel wgt r). Qed.
Print Assumptions C36_never_a_result.

Theorem C36_selection_KeyError {A : Num} (p : platform) (d : dstruct) (c0 : correlator) (mi ma re al : option num) (sel wgt : string) :
  accepted d -> new_Correlator d = Ok c0 -> sel <> "natural"%string -> sel <> "fast"%string ->
  nle (opt_or mi (min_lag c0)) (opt_or ma (max_lag c0)) = true ->
  autocorrelation p d mi ma re al sel wgt = Throw PyKeyError.
Proof. exact (unknown_selection p d c0 mi ma re al sel wgt). Qed.
Print Assumptions C36_selection_KeyError.

Theorem C36_weight_KeyError {A : Num} (HA : arith A) (p : platform) (d : dstruct) (c0 : correlator) (mi ma re al : option num) (wgt : string) :
  accepted d -> new_Correlator d = Ok c0 -> ~ known_weight wgt ->
  p_checked p = false -> abs_defined p d nzero -> abs_defined p d (opt_or mi (min_lag c0)) ->
  nle (opt_or mi (min_lag c0)) (opt_or ma (max_lag c0)) = true ->
  autocorrelation p d mi ma re al "natural" wgt = Throw PyKeyError.
Proof. exact (@unknown_weight A (arith_laws A HA) (arith_laws2 A HA) p d c0 mi ma re al wgt). Qed.
Print Assumptions C36_weight_KeyError.

(** the call shown in the readme *)
Theorem C36_readme {A : Num} (HA : arith A) (p : platform) (d : dstruct) (c0 : correlator) (al : option num) :
  accepted d -> new_Correlator d = Ok c0 ->
  p_checked p = false -> abs_defined p d nzero -> abs_defined p d (min_lag c0) ->
  nle (min_lag c0) (max_lag c0) = true ->
  autocorrelation p d None None None al "natural" "fast" = Throw PyKeyError.
Proof.
  intros Ha Hn Hc A0 A1 Hle.
  apply (@unknown_weight A (arith_laws A HA) (arith_laws2 A HA) p d c0 None None None al "fast"); try assumption.
  intros [E|[E|E]]; discriminate.
Qed.
Print Assumptions C36_readme.

(** with the fast selection another exception can come first *)
Example C36_case : nle (min_lag example_c) (max_lag example_c) = true /\
  abs_defined gcc example_ds nzero /\ abs_defined gcc example_ds (min_lag example_c) /\
  thrown (autocorrelation gcc example_ds None None None None "natural" "fast") = Some PyKeyError /\
  thrown (autocorrelation gcc example_ds None None None None "Natural" "fractional") = Some PyKeyError /\
  thrown (autocorrelation gcc example_ds (Some (fl 4)) None None None "fast" "nonsense") = Some PyKeyError.
Proof.
  split; [vm_compute; reflexivity|]. split; [apply C15_case_abs; vm_compute; reflexivity|].
  split; [apply C15_case_abs; vm_compute; reflexivity|]. repeat split; vm_compute; reflexivity.
Qed.

(** ** C37: recalculation on the same correlator *)
Theorem C37_returned_correlator {A : Num} (p : platform) (d : dstruct) (mi ma re al : option num) (sel wgt : string)
  (lags : list num) (corr : py_corr) (c : correlator) : accepted d ->
  autocorrelation p d mi ma re al sel wgt = Ok (lags, corr, c) ->
  (sel = "natural"%string /\ wgt = "fractional"%string -> calculateStandardCorrelation p c = (c, Ok tt)) /\
  (lags <> [] -> find_correlation p c sel wgt = (c, Ok tt)).
Proof. exact (returned_again p d mi ma re al sel wgt lags corr c). Qed.
Print Assumptions C37_returned_correlator.

Theorem C37_again {A : Num} (p : platform) (d : dstruct) (c0 : correlator) (os : list op) (c : correlator) (o : op) (c' : correlator) :
  accepted d -> new_Correlator d = Ok c0 -> after p c0 os c -> is_calculation o -> run_op p c o = (c', Ok tt) ->
  run_op p c' o = (c', Ok tt).
Proof. intros Ha Hn. exact (recalculate_same p c0 os c o c' (proj1 (new_base d c0 Ha Hn))). Qed.
Print Assumptions C37_again.

Theorem C37_as_fresh {A : Num} (p : platform) (d : dstruct) (c0 : correlator) (os : list op) (c : correlator) (o : op) (c' : correlator) :
  accepted d -> new_Correlator d = Ok c0 -> after p c0 os c -> is_calculation o -> run_op p c o = (c', Ok tt) ->
  run_op p (set_up_correlation c0 (Some (min_lag c)) (Some (max_lag c)) (Some (lag_resolution c)) (Some (alpha c))) o = (c', Ok tt).
Proof. intros Ha Hn. exact (recalculate_fresh p c0 os c o c' (proj1 (new_base d c0 Ha Hn))). Qed.
Print Assumptions C37_as_fresh.

(** the converse does not hold: after a calculation over a narrow range the buffers are too small for the
    wide range with which the correlator was made *)
Theorem C37_room_lost_refuted : exists (d : @dstruct BB) c0 os c,
  accepted d /\ new_Correlator d = Ok c0 /\ after gcc c0 os c /\
  min_lag c = min_lag c0 /\ max_lag c = max_lag c0 /\ lag_resolution c = lag_resolution c0 /\ alpha c = alpha c0 /\
  snd (run_op gcc c0 Calculate) = Ok tt /\ snd (run_op gcc c Calculate) = UB OobWrite.
Proof.
  exists example_ds, example_c, [SetMaxLag (fl 1); Calculate; SetMaxLag (max_lag example_c)],
    (play example_c [SetMaxLag (fl 1); Calculate; SetMaxLag (max_lag example_c)]).
  destruct example_ok as [H1 [_ H3]]. split; [exact H1|]. split; [exact H3|].
  split; [apply plays_after; vm_compute; reflexivity|].
  split; [apply same_eq; vm_compute; reflexivity|]. split; [apply same_eq; vm_compute; reflexivity|].
  split; [apply same_eq; vm_compute; reflexivity|]. split; [apply same_eq; vm_compute; reflexivity|].
  split; vm_compute; reflexivity.
Qed.
Print Assumptions C37_room_lost_refuted.

Example C37_case : after gcc example_c (firstn 3 story) (play example_c (firstn 3 story)) /\
  is_calculation (Find (A := BB) "natural" "fractional_squared") /\
  snd (run_op gcc (play example_c (firstn 3 story)) (Find "natural" "fractional_squared")) = Ok tt.
Proof.
  split; [apply plays_after; vm_compute; reflexivity|]. split; [right; eexists _, _; reflexivity|]. vm_compute. reflexivity.
Qed.

(** ** C38: consistency of the buffers and clearCorrelation *)
Theorem C38_consistent {A : Num} (p : platform) (d : dstruct) (c0 : correlator) (os : list op) (c : correlator) :
  accepted d -> new_Correlator d = Ok c0 -> after p c0 os c -> ~ In Clear os ->
  exists rows, correlations c = Ok rows /\ length rows = N_datasets d /\
    forall row, In row rows -> length row = length (lag_timeseries c).
Proof. exact (consistent p d c0 os c). Qed.
Print Assumptions C38_consistent.

Theorem C38_after_clear {A : Num} (HA : arith A) (p : platform) (d : dstruct) (c0 : correlator) (os : list op) (c : correlator) :
  accepted d -> new_Correlator d = Ok c0 -> after p c0 os c -> ~ In Clear os ->
  let c' := clearCorrelation c in
  lag_timeseries c' = [] /\
  (lag_timeseries c <> [] -> correlations c' = UB OobRead) /\
  (lag_timeseries c = [] -> correlations c' = Ok (repeat [] (N_datasets d))) /\
  (nle (min_lag c) (max_lag c) = true -> forall o, is_calculation o ->
     snd (run_op p c' o) <> Ok tt /\
     (p_checked p = false -> abs_defined p d nzero -> abs_defined p d (min_lag c) ->
      (o = Calculate \/ exists wgt, o = Find "natural" wgt /\ known_weight wgt) -> snd (run_op p c' o) = UB OobWrite)).
Proof. exact (@after_clear A (arith_laws A HA) (arith_laws2 A HA) p d c0 os c). Qed.
Print Assumptions C38_after_clear.

(** adding and cleaning by hand *)
Example C38_case : after gcc example_c (firstn 3 story) (play example_c (firstn 3 story)) /\
  ~ In Clear (firstn 3 story) /\ lag_timeseries (play example_c (firstn 3 story)) <> [] /\
  let by_hand := [AddData (CorrelationIterator (fl 7) 1) 0; AddData (CorrelationIterator (fl 8) 5) 1; CleanData (-1); CleanData 2] in
  after gcc example_c by_hand (play example_c by_hand) /\ ~ In Clear by_hand /\
  sames (lag_timeseries (play example_c by_hand)) (ints [7; 8]%Z) = true /\
  ok_with (correlations (play example_c by_hand)) (fun rows => sames2 rows [ints [0; 0]%Z]) = true.
Proof.
  split; [apply plays_after; vm_compute; reflexivity|]. split; [cbn; intuition discriminate|]. split.
  - intros E. assert (K : length (lag_timeseries (play example_c (firstn 3 story))) = 0) by (rewrite E; reflexivity).
    vm_compute in K. discriminate.
  - split; [apply plays_after; vm_compute; reflexivity|]. split; [cbn; intuition discriminate|]. split; vm_compute; reflexivity.
Qed.
