(** Theorems: construction of data structures and derived data (C01 - C10). *)
From Coq Require Import ZArith Reals List Bool Arith Lia.
From Flocq Require Import Core BinarySingleNaN.
From Verif Require Import Num Mem XR B64 Spec SpecR DataStructure Correlator Sacf Api Examples
  Laws2 ConstrFacts TimeFacts.
Import ListNotations.

(** ** C01: one list of values *)
Theorem C01_one_dataset {A : Num} (t v : list num) (e : option (list num)) :
  (SACF_1d t v e = Throw EmptyDataStructureException <-> t = [] \/ v = []) /\
  (SACF_1d t v e = Throw BadDataInputException <-> t <> [] /\ v <> [] /\ length v mod length t <> 0) /\
  (t <> [] -> v <> [] -> length v mod length t = 0 ->
     exists d, SACF_1d t v e = Ok d /\ timeseries d = t /\ data_2d d = Ok [firstn (length t) v] /\
       N_datasets d = 1 /\ M_datapoints d = length t).
Proof. exact (one_dataset t v e). Qed.
Print Assumptions C01_one_dataset.

Example C01_case : ok_with (SACF_1d (ints [0; 1]%Z) (ints [5; 6; 7; 8]%Z) None)
  (fun d => ok_with (data_2d d) (sames2 [ints [5; 6]%Z])) = true.
Proof. vm_compute. reflexivity. Qed.
Example C01_case_bad : SACF_1d (ints [0; 1]%Z) (ints [5; 6; 7]%Z) None = Throw BadDataInputException.
Proof. apply thrown_eq. vm_compute. reflexivity. Qed.

(** ** C02: rows of the right length *)
Theorem C02_two_d_round_trip {A : Num} (t : list num) (rows : list (list num)) (e : option (list (list num))) :
  t <> [] -> rows <> [] -> (forall r, In r rows -> length r = length t) ->
  exists d, SACF_2d t rows e = Ok d /\ timeseries d = t /\ data_2d d = Ok rows /\
    N_datasets d = length rows /\ M_datapoints d = length t /\
    (e = None -> err_2d d = Ok []) /\
    (forall er, e = Some er -> length er = length rows -> (forall r, In r er -> length r = length t) ->
       err_2d d = Ok er).
Proof. exact (two_d_round_trip t rows e). Qed.
Print Assumptions C02_two_d_round_trip.

Example C02_case : ok_with (SACF_2d (ints [0; 1]%Z) [ints [5; 6]%Z; ints [7; 8]%Z] (Some [ints [1; 1]%Z; ints [2; 2]%Z]))
    (fun d => ok_with (err_2d d) (sames2 [ints [1; 1]%Z; ints [2; 2]%Z])) = true /\
  ints [0; 1]%Z <> [] /\ (forall r, In r [ints [5; 6]%Z; ints [7; 8]%Z] -> length r = length (ints [0; 1]%Z)).
Proof.
  split; [vm_compute; reflexivity|]. split; [discriminate|].
  intros r [<-|[<-|[]]]; reflexivity.
Qed.

(** ** C03: rows of any length *)
Theorem C03_ragged {A : Num} (t : list num) (rows : list (list num)) (e : option (list (list num))) :
  let total := length (concat rows) in
  (SACF_2d t rows e = Throw EmptyDataStructureException <-> t = [] \/ Forall (fun r => r = []) rows) /\
  (SACF_2d t rows e = Throw BadDataInputException <->
     t <> [] /\ ~ Forall (fun r => r = []) rows /\ total mod length t <> 0) /\
  (SACF_2d t rows e = UB OobRead <->
     t <> [] /\ ~ Forall (fun r => r = []) rows /\ total mod length t = 0 /\ total < length rows * length t) /\
  (t <> [] -> ~ Forall (fun r => r = []) rows -> total mod length t = 0 -> length rows * length t <= total ->
     exists d, SACF_2d t rows e = Ok d /\ timeseries d = t /\
       data_2d d = Ok (recut (length rows) (length t) (concat rows)) /\
       N_datasets d = length rows /\ M_datapoints d = length t).
Proof. exact (two_d_ragged t rows e). Qed.
Print Assumptions C03_ragged.

(** values move between rows; a short row makes the constructor read out of bounds *)
Example C03_case_moved : ok_with (SACF_2d (ints [0; 1]%Z) [ints [1; 2; 3]%Z; ints [4]%Z] None)
  (fun d => ok_with (data_2d d) (sames2 [ints [1; 2]%Z; ints [3; 4]%Z])) = true.
Proof. vm_compute. reflexivity. Qed.
Example C03_case_oob : SACF_2d (ints [0; 1]%Z) [ints [1; 2]%Z; []] None = UB OobRead.
Proof. apply undefined_eq. vm_compute. reflexivity. Qed.

(** ** C04: errors *)
Theorem C04_errors_one_dataset {A : Num} (t v e : list num) :
  SACF_1d t v (Some e) = (do d <- SACF_1d t v None; Ok (with_errors d e)) /\
  forall d, SACF_1d t v (Some e) = Ok d ->
    err_2d d = if length e =? 0 then Ok []
               else if length t <=? length e then Ok [firstn (length t) e] else UB OobRead.
Proof. exact (errors_1d t v e). Qed.
Print Assumptions C04_errors_one_dataset.

Theorem C04_errors_rows {A : Num} (t : list num) (v e : list (list num)) :
  SACF_2d t v (Some e) = (do d <- SACF_2d t v None; Ok (with_errors d (concat e))) /\
  forall d, SACF_2d t v (Some e) = Ok d ->
    err_2d d = if length (concat e) =? 0 then Ok []
               else if length v * length t <=? length (concat e)
               then Ok (recut (length v) (length t) (concat e)) else UB OobRead.
Proof. exact (errors_2d t v e). Qed.
Print Assumptions C04_errors_rows.

Example C04_case_oob : ok_with (SACF_1d (ints [0; 1]%Z) (ints [5; 6]%Z) (Some (ints [1]%Z)))
  (fun d => match err_2d d with UB OobRead => true | _ => false end) = true.
Proof. vm_compute. reflexivity. Qed.

(** ** C05: means *)
Theorem C05_mean {A : Num} (d : dstruct) : accepted d ->
  exists rows, data_2d d = Ok rows /\ length rows = N_datasets d /\
    (forall r, In r rows -> length r = M_datapoints d) /\
    mean_data d = map mean rows /\
    normalised_data_2d d = Ok (map (fun row => map (fun x => nsub x (mean row)) row) rows).
Proof. exact (mean_data_rows d). Qed.
Print Assumptions C05_mean.

Theorem C05_mean_ignores_missing {A : Num} (d d' : dstruct) (rows rows' : list (list num)) :
  accepted d -> accepted d' -> data_2d d = Ok rows -> data_2d d' = Ok rows' ->
  Forall2 (fun r r' => valid r = valid r') rows rows' -> mean_data d = mean_data d'.
Proof. exact (mean_ignores_missing d d' rows rows'). Qed.
Print Assumptions C05_mean_ignores_missing.

(** a dataset whose values are all missing has mean NaN *)
Theorem C05_mean_all_missing {A : Num} (HA : arith A) (d : dstruct) (rows : list (list num)) (j : nat) (row : list num) :
  accepted d -> data_2d d = Ok rows -> nth_error rows j = Some row -> (forall x, In x row -> nisnan x = true) ->
  exists m, nth_error (mean_data d) j = Some m /\ nisnan m = true.
Proof. exact (mean_data_all_missing A HA d rows j row). Qed.
Print Assumptions C05_mean_all_missing.

(** in exact arithmetic it is the mean of the values present *)
Theorem C05_mean_exact (d : @dstruct XR) (rows : list (list xr)) (j : nat) (row : list (option R)) :
  accepted d -> data_2d d = Ok rows -> nth_error rows j = Some (map cell row) -> present row <> [] ->
  nth_error (mean_data d) j = Some (Fin (rmean (present row))).
Proof. exact (mean_data_exact d rows j row). Qed.
Print Assumptions C05_mean_exact.

Example C05_case : exists d d', accepted d /\ accepted d' /\
  data_2d d = Ok [ints [5; 7]%Z] /\ data_2d d' = Ok [fl 5 :: B754_nan :: ints [7]%Z] /\
  Forall2 (fun r r' => valid r = valid r') [ints [5; 7]%Z] [fl 5 :: B754_nan :: ints [7]%Z] /\
  mean_data d = [fl 6] /\ mean_data d' = [fl 6].
Proof.
  destruct (ok_with_ok (SACF_1d (ints [0; 1]%Z) (ints [5; 7]%Z) None)
    (fun d => ok_with (data_2d d) (sames2 [ints [5; 7]%Z]) && sames [fl 6] (mean_data d))) as [d [E H]];
    [vm_compute; reflexivity|].
  destruct (ok_with_ok (SACF_1d (ints [0; 1; 2]%Z) (fl 5 :: B754_nan :: ints [7]%Z) None)
    (fun d => ok_with (data_2d d) (sames2 [fl 5 :: B754_nan :: ints [7]%Z]) && sames [fl 6] (mean_data d))) as [d' [E' H']];
    [vm_compute; reflexivity|].
  apply andb_prop in H. destruct H as [H1 H2]. apply andb_prop in H'. destruct H' as [H1' H2'].
  exists d, d'. split; [left; eauto|]. split; [left; eauto|].
  split; [eapply ok_with_eq; [|exact H1]; intros x Hx; symmetry; apply sames2_eq; exact Hx|].
  split; [eapply ok_with_eq; [|exact H1']; intros x Hx; symmetry; apply sames2_eq; exact Hx|].
  split; [constructor; [apply sames_eq; vm_compute; reflexivity|constructor]|].
  split; symmetry; apply sames_eq; assumption.
Qed.

Example C05_case_missing : ok_with (SACF_2d (ints [0; 1]%Z) [ints [5; 7]%Z; [B754_nan; B754_nan]] None)
  (fun d => ok_with (data_2d d) (sames2 [ints [5; 7]%Z; [B754_nan; B754_nan]]) && sames [fl 6; B754_nan] (mean_data d)) = true.
Proof. vm_compute. reflexivity. Qed.

(** ** C06: normalised times *)
Theorem C06_normalised_times {A : Num} (HA : arith A) (d : dstruct) : accepted d ->
  ordered (timeseries d) -> (forall x, In x (timeseries d) -> finite x) ->
  let nt := normalised_timeseries d in
  length nt = length (timeseries d) /\
  nth_error nt 0 = Some nzero /\
  (forall i x t0, nth_error (timeseries d) i = Some x -> nth_error (timeseries d) 0 = Some t0 ->
     nth_error nt i = Some (nsub x t0)) /\
  ordered nt /\
  (forall y, In y nt -> nle nzero y = true).
Proof. exact (@normalised_times A (arith_laws A HA) d). Qed.
Print Assumptions C06_normalised_times.

(** a data set meeting the hypotheses of C06 - C08 and C10 *)
Definition example_times : list (@num BB) := half 3 :: ints [2; 5; 9]%Z.
Definition example_ds : @dstruct BB := 
  match SACF_1d example_times (ints [1; -1; 4; 0]%Z) None with Ok d => d | _ => @Build_dstruct BB [] [] [] [] nzero nzero [] [] 0 0 end.

Example C06_case : SACF_1d example_times (ints [1; -1; 4; 0]%Z) None = Ok example_ds /\ accepted example_ds /\
  ordered (timeseries example_ds) /\ (forall x, In x (timeseries example_ds) -> finite x).
Proof.
  assert (E : SACF_1d example_times (ints [1; -1; 4; 0]%Z) None = Ok example_ds).
  { unfold example_ds. destruct (ok_with_ok (SACF_1d example_times (ints [1; -1; 4; 0]%Z) None) (fun _ => true)) as [d [E _]];
      [vm_compute; reflexivity|]. rewrite E. reflexivity. }
  split; [exact E|]. split; [left; eauto|]. split; [apply orderedb_ok|apply all_finite_ok]; vm_compute; reflexivity.
Qed.

(** ** C07: median time *)
Theorem C07_median_time {A : Num} (HA : arith A) (d : dstruct) : accepted d ->
  ordered (timeseries d) -> (forall x, In x (timeseries d) -> finite x) ->
  let nt := normalised_timeseries d in let n := length nt in
  (forall x, In x nt -> finite x) ->
  (Nat.Odd n -> nth_error nt (n / 2) = Some (median_time d)) /\
  (Nat.Even n -> exists a b, nth_error nt (n / 2 - 1) = Some a /\ nth_error nt (n / 2) = Some b /\
      median_time d = ndiv (nadd a b) ntwo) /\
  ((Nat.Even n -> forall a b, nth_error nt (n / 2 - 1) = Some a -> nth_error nt (n / 2) = Some b -> finite (nadd a b)) ->
   is_median (median_time d) nt).
Proof. exact (median_time_median A HA d). Qed.
Print Assumptions C07_median_time.

Example C07_case : (forall x, In x (normalised_timeseries example_ds) -> finite x) /\
  Nat.Even (length (normalised_timeseries example_ds)) /\
  (forall a b, nth_error (normalised_timeseries example_ds) 1 = Some a ->
     nth_error (normalised_timeseries example_ds) 2 = Some b -> finite (nadd a b)).
Proof.
  split; [apply all_finite_ok; vm_compute; reflexivity|]. split; [exists 2; reflexivity|].
  intros a b Ha Hb. apply (all_finite_ok [nadd a b]); [|left; reflexivity].
  rewrite <- (nth_error_nth _ _ nzero Ha), <- (nth_error_nth _ _ nzero Hb). vm_compute. reflexivity.
Qed.

(** ** C08: max_time and the default lag range *)
Theorem C08_max_time {A : Num} (d : dstruct) : accepted d -> ordered (timeseries d) ->
  In (max_time d) (timeseries d) /\ forall x, In x (timeseries d) -> nle x (max_time d) = true.
Proof. exact (max_time_largest d). Qed.
Print Assumptions C08_max_time.

Theorem C08_default_lag_range {A : Num} (d : dstruct) (c : correlator) : accepted d -> new_Correlator d = Ok c ->
  lback (timeseries d) = Ok (max_time d) /\
  lback (normalised_timeseries d) = Ok (max_lag c) /\ min_lag c = nneg (max_lag c) /\
  alpha c = median_time d.
Proof. exact (default_lags d c). Qed.
Print Assumptions C08_default_lag_range.

Theorem C08_max_lag_largest {A : Num} (HA : arith A) (d : dstruct) (c : correlator) :
  accepted d -> new_Correlator d = Ok c ->
  ordered (timeseries d) -> (forall x, In x (timeseries d) -> finite x) ->
  forall y, In y (normalised_timeseries d) -> nle y (max_lag c) = true.
Proof. exact (@max_lag_largest A (arith_laws A HA) d c). Qed.
Print Assumptions C08_max_lag_largest.

Example C08_case : ok_with (new_Correlator example_ds)
  (fun c => sames [max_lag c; min_lag c; lag_resolution c] [half 15; nneg (half 15); half 1]) = true.
Proof. vm_compute. reflexivity. Qed.

(** ** C09: normalised data: value minus mean of the dataset *)
Theorem C09_normalised_data {A : Num} (d : dstruct) (rows : list (list num)) : accepted d -> data_2d d = Ok rows ->
  exists nrows, normalised_data_2d d = Ok nrows /\ length nrows = length rows /\ forall j row, nth_error rows j = Some row ->
    exists nrow m, nth_error nrows j = Some nrow /\ nth_error (mean_data d) j = Some m /\ length nrow = length row /\ forall i x, nth_error row i = Some x -> nth_error nrow i = Some (nsub x m).
Proof.
  intros Ha Hd. destruct (mean_data_rows d Ha) as [rows' [Hd' [_ [_ [Hm Hn]]]]]. rewrite Hd in Hd'. injection Hd' as <-.
  eexists. split; [exact Hn|]. rewrite map_length. split; [reflexivity|]. intros j row Hj.
  eexists _, (mean row). rewrite nth_error_map, Hj, Hm, nth_error_map, Hj. split; [reflexivity|]. split; [reflexivity|].
  split; [apply map_length|]. intros i x Hx. rewrite nth_error_map, Hx. reflexivity.
Qed.
Print Assumptions C09_normalised_data.

(** a missing value stays missing *)
Theorem C09_missing_stays_missing {A : Num} (HA : arith A) (d : dstruct) (rows nrows : list (list num)) (j i : nat) (row nrow : list num) (x : num) :
  accepted d -> data_2d d = Ok rows -> normalised_data_2d d = Ok nrows -> nth_error rows j = Some row -> nth_error nrows j = Some nrow ->
  nth_error row i = Some x -> nisnan x = true ->
  exists y, nth_error nrow i = Some y /\ nisnan y = true.
Proof.
  intros Ha Hd Hn Hj Hj' Hx Nx. destruct (mean_data_rows d Ha) as [rows' [Hd' [_ [_ [_ Hn']]]]]. rewrite Hd in Hd'. injection Hd' as <-.
  rewrite Hn in Hn'. injection Hn' as ->. rewrite nth_error_map, Hj in Hj'. injection Hj' as <-. exact (missing_stays A HA row i x Hx Nx).
Qed.
Print Assumptions C09_missing_stays_missing.

(** in exact arithmetic the values present are shifted so that they sum to zero *)
Theorem C09_sum_zero_exact (d : @dstruct XR) (rows nrows : list (list xr)) (j : nat) (row : list (option R)) (nrow : list xr) :
  accepted d -> data_2d d = Ok rows -> normalised_data_2d d = Ok nrows -> nth_error rows j = Some (map cell row) -> nth_error nrows j = Some nrow ->
  present row <> [] ->
  exists zs, valid (A := XR) nrow = map Fin zs /\ zs = map (fun x => x - rmean (present row))%R (present row) /\ rsum zs = 0%R.
Proof.
  intros Ha Hd Hn Hj Hj' Hp. destruct (mean_data_rows d Ha) as [rows' [Hd' [_ [_ [_ Hn']]]]]. rewrite Hd in Hd'. injection Hd' as <-.
  rewrite Hn in Hn'. injection Hn' as ->. rewrite nth_error_map in Hj'. change (@num XR) with xr in *. rewrite Hj in Hj'. injection Hj' as <-.
  destruct (centred_exact row Hp) as [H1 H2]. eexists. split; [exact H1|]. split; [reflexivity|exact H2].
Qed.
Print Assumptions C09_sum_zero_exact.

(** values 5, NaN, 7: -1, NaN, 1 *)
Example C09_case : ok_with (SACF_1d (ints [0; 1; 2]%Z) (fl 5 :: B754_nan :: ints [7]%Z) None) (fun d =>
  ok_with (data_2d d) (sames2 [fl 5 :: B754_nan :: ints [7]%Z]) && ok_with (normalised_data_2d d) (sames2 [fl (-1) :: B754_nan :: ints [1]%Z])) = true /\
  present [Some 1%R; None; Some 3%R] <> [].
Proof. split; [vm_compute; reflexivity|discriminate]. Qed.

(** ** C10: default lag resolution *)
Theorem C10_lag_resolution {A : Num} (HA : arith A) (d : dstruct) (c : correlator) :
  accepted d -> new_Correlator d = Ok c ->
  let nt := normalised_timeseries d in
  ordered (timeseries d) -> (forall x, In x (timeseries d) -> finite x) ->
  2 <= length nt -> (forall x, In x nt -> finite x /\ nle x ndblmax = true) ->
  (exists i a b, nth_error nt i = Some a /\ nth_error nt (S i) = Some b /\ neqb (lag_resolution c) (nsub b a) = true) /\
  (forall i a b, nth_error nt i = Some a -> nth_error nt (S i) = Some b -> nle (lag_resolution c) (nsub b a) = true) /\
  (nlt nzero (lag_resolution c) = true <-> increasing nt).
Proof. exact (lag_resolution_min A HA d c). Qed.
Print Assumptions C10_lag_resolution.

Theorem C10_single_point {A : Num} (d : dstruct) (c : correlator) :
  accepted d -> new_Correlator d = Ok c -> length (timeseries d) = 1 -> lag_resolution c = ndblmax.
Proof. exact (lag_resolution_single d c). Qed.
Print Assumptions C10_single_point.

Example C10_case : (forall x, In x (normalised_timeseries example_ds) -> finite x /\ nle x ndblmax = true) /\
  increasing (normalised_timeseries example_ds).
Proof.
  split; [|apply increasingb_ok; vm_compute; reflexivity].
  assert (E : forallb (fun x => nle x ndblmax && match nfloor x with Some _ => true | None => false end)
                (normalised_timeseries example_ds) = true) by (vm_compute; reflexivity).
  rewrite forallb_forall in E. intros x Hx. specialize (E x Hx). apply andb_prop in E. destruct E as [E1 E2].
  split; [intros En; rewrite En in E2; discriminate|exact E1].
Qed.

Example C10_case_single : ok_with (SACF_1d (ints [3]%Z) (ints [1]%Z) None)
  (fun d => ok_with (new_Correlator d) (fun c => same (lag_resolution c) ndblmax)) = true.
Proof. vm_compute. reflexivity. Qed.
