(** Theorems: calls with the fast selection (C57, C58). *)
From Coq Require Import String.
From Coq Require Import ZArith Reals List Bool Arith Lia Lra.
From Flocq Require Import Core BinarySingleNaN.
From Verif Require Import Num Mem MemFacts XR B64 Spec SpecR DataStructure Correlator Sacf Api Examples
  Laws B64Facts Laws2 DSFacts MainFacts ConstrFacts TimeFacts DefaultFacts ValThms GridCall FastCall FastThms Props01_Construction Props02_Lags.
Import ListNotations.
Local Open Scope list_scope.

(** ** C57: evenly sampled data *)
(** at lag m*dd the last point and the m points before it are dropped; of the others, point q is multiplied by point q+m
    only while q+m is itself kept, and by the first point otherwise *)
Theorem C57_fast_grid_value (p : platform) (d : @dstruct XR) (mi ma re al : option xr) (wgt : string)
  (lags : list xr) (corr : @py_corr XR) (c : @correlator XR) (rows : list (list xr)) (j i : nat) (rs : list R) (t0 dd a : R) (M m : nat) :
  accepted d -> autocorrelation (A := XR) p d mi ma re al "fast" wgt = Ok (lags, corr, c) ->
  data_2d d = Ok rows -> nth_error rows j = Some (map Fin rs) -> nth_error lags i = Some (Fin (INR m * dd)) ->
  timeseries d = map Fin (grid t0 dd M) -> (0 < dd)%R -> opt_or (A := XR) al (median_time d) = Fin a -> (0 < a)%R ->
  let kept := M - 1 - m in
  corr_at corr j i = Some (xdiv (Fin (rsum_n kept (fun q =>
      if q + m <? kept then dev rs q * dev rs (q + m)
      else rweight wgt a (dist p (INR (q + m) * dd)) * dev rs q * dev rs 0)%R)) (Fin (sq_dev32 rs))).
Proof. exact (grid_value_fast p d mi ma re al wgt lags corr c rows j i rs t0 dd a M m). Qed.
Print Assumptions C57_fast_grid_value.

(** hence from half the length on, every product is with the first point *)
Theorem C57_fast_half (p : platform) (d : @dstruct XR) (mi ma re al : option xr) (wgt : string)
  (lags : list xr) (corr : @py_corr XR) (c : @correlator XR) (rows : list (list xr)) (j i : nat) (rs : list R) (t0 dd a : R) (M m : nat) :
  accepted d -> autocorrelation (A := XR) p d mi ma re al "fast" wgt = Ok (lags, corr, c) ->
  data_2d d = Ok rows -> nth_error rows j = Some (map Fin rs) -> nth_error lags i = Some (Fin (INR m * dd)) ->
  timeseries d = map Fin (grid t0 dd M) -> (0 < dd)%R -> opt_or (A := XR) al (median_time d) = Fin a -> (0 < a)%R ->
  M - 1 <= 2 * m ->
  corr_at corr j i = Some (xdiv (Fin (dev rs 0 * rsum_n (M - 1 - m) (fun q => rweight wgt a (dist p (INR (q + m) * dd)) * dev rs q))%R) (Fin (sq_dev32 rs))).
Proof. exact (grid_value_fast_half p d mi ma re al wgt lags corr c rows j i rs t0 dd a M m). Qed.
Print Assumptions C57_fast_half.

(** the default call returns on evenly sampled data, with the same lags as with the natural selection *)
Theorem C57_fast_default_call (p : platform) (d : @dstruct XR) (wgt : string) (t0 dd : R) (M : nat) :
  accepted d -> timeseries d = map Fin (grid t0 dd M) -> 2 <= M -> (0 < dd)%R ->
  (INR (M - 1) * dd <= dbl_max)%R -> (2 * Z.of_nat M + 1 <= INT_MAX)%Z ->
  p_checked p = false -> known_weight wgt -> (p_abs p = AbsInt -> 2 * (INR (M - 1) * dd) <= IZR INT_MAX)%R ->
  exists corr c,
    autocorrelation (A := XR) p d None None None None "fast" wgt =
      Ok (map (fun i => Fin ((INR i - INR (M - 1)) * dd)) (seq 0 (2 * M - 1)), corr, c) /\
    median_time d = Fin (INR (M - 1) / 2 * dd).
Proof. exact (fast_grid_call p d wgt t0 dd M). Qed.
Print Assumptions C57_fast_default_call.

(** times 0, 1, 2 and values 1, 2, 4 *)
Example C57_case (p : platform) : p_checked p = false -> exists corr c,
  autocorrelation p exact_ds None None None None "fast" "fractional" = Ok (map (fun i => Fin ((INR i - INR 2) * 1)) (seq 0 5), corr, c) /\
  accepted exact_ds /\ data_2d exact_ds = Ok [map Fin [1; 2; 4]%R] /\ timeseries exact_ds = map Fin (grid 0 1 3) /\
  opt_or (A := XR) None (median_time exact_ds) = Fin (INR 2 / 2 * 1) /\ (0 < INR 2 / 2 * 1)%R.
Proof. intros Hp. exact (exact_ds_fast p Hp). Qed.

(** times 0, 1, 2, 3 and values 1, 2, 0, 1 (x = 0, 1, -1, 0): at lag 1 the natural selection gives -1/2 and the fast
    selection 0 *)
Theorem C57_same_as_natural_refuted : exists d : @dstruct BB, accepted d /\ times_ok d /\ increasing (timeseries d) /\
  let at1 sel v := ok_with (autocorrelation gcc d None None None None sel "fractional") (fun r =>
    sames (fst (fst r)) (ints [-3; -2; -1; 0; 1; 2; 3]%Z) &&
    match corr_at (snd (fst r)) 0 4 with Some w => neqb v w | None => false end) = true in
  at1 "natural"%string (half (-1)) /\ at1 "fast"%string (fl 0).
Proof.
  destruct (ok_with_ok (SACF_1d (ints [0; 1; 2; 3]%Z) (ints [1; 2; 0; 1]%Z) None) (fun d =>
     increasingb (timeseries d) && all_finite (timeseries d) && all_finite (normalised_timeseries d) &&
     (let at1 sel v := ok_with (autocorrelation gcc d None None None None sel "fractional") (fun r =>
    sames (fst (fst r)) (ints [-3; -2; -1; 0; 1; 2; 3]%Z) &&
    match corr_at (snd (fst r)) 0 4 with Some w => neqb v w | None => false end) in
     at1 "natural"%string (half (-1)) && at1 "fast"%string (fl 0)))) as [d [E H]]; [vm_compute; reflexivity|].
  apply andb_prop in H. destruct H as [H H4]. apply andb_prop in H. destruct H as [H H3]. apply andb_prop in H. destruct H as [H1 H2].
  apply increasingb_ok in H1. apply andb_prop in H4. destruct H4 as [H4 H5].
  exists d. split; [left; eauto|]. split; [split; [apply H1|split; apply all_finite_ok; assumption]|]. split; [assumption|]. split; assumption.
Qed.
Print Assumptions C57_same_as_natural_refuted.

(** ** C58: when a call with the fast selection fails *)
(** one lag that moves the first time strictly between the last two times is enough; otherwise the call returns *)
Theorem C58_fast_call {A : Num} (HA : arith A) (p : platform) (d : dstruct) (c0 : correlator) (mi ma re al : option num) (wgt : string) (g : list num) :
  accepted d -> times_ok d -> new_Correlator d = Ok c0 -> p_checked p = false -> known_weight wgt ->
  lag_grid (opt_or mi (min_lag c0)) (opt_or re (lag_resolution c0)) (opt_or ma (max_lag c0)) g ->
  g <> [] -> length g <= length (lag_timeseries c0) -> (forall kk, In kk g -> abs_defined p d kk) ->
  let call := autocorrelation p d mi ma re al "fast" wgt in
  ((exists kk, In kk g /\ in_last_gap (normalised_timeseries d) kk) -> call = Throw OutOfRange) /\
  ((forall kk, In kk g -> ~ in_last_gap (normalised_timeseries d) kk) -> exists r, call = Ok r).
Proof. exact (@fast_call_outcome A (arith_laws A HA) (arith_laws2 A HA) p d c0 mi ma re al wgt g). Qed.
Print Assumptions C58_fast_call.

(** times 0, 0.5, 3.5, 7.5: lags 1, 2, 3 are harmless; 4 is not *)
Example C58_case :
  lags_are (autocorrelation gcc example_ds (Some (fl 1)) (Some (fl 3)) (Some (fl 1)) None "fast" "fractional") (ints [0; 1; 2; 3]%Z) = true /\
  autocorrelation gcc example_ds (Some (fl 1)) (Some (fl 4)) (Some (fl 1)) None "fast" "fractional" = Throw OutOfRange.
Proof. split; [|apply thrown_eq]; vm_compute; reflexivity. Qed.

(** the default call, exact arithmetic: it returns only if the last two times are as close as any and the time span is
    a multiple of half the resolution *)
Theorem C58_fast_default_exact (p : platform) (d : @dstruct XR) (c0 : @correlator XR) (wgt : string) (T y r : R) :
  accepted d -> times_ok d -> new_Correlator d = Ok c0 -> p_checked p = false -> known_weight wgt ->
  (p_abs p = AbsInt -> nle (nadd (max_lag c0) (max_lag c0)) (nofZ INT_MAX) = true) ->
  2 <= length (normalised_timeseries d) ->
  max_lag c0 = Fin T -> lag_resolution c0 = Fin r ->
  nth_error (normalised_timeseries d) (length (normalised_timeseries d) - 2) = Some (Fin y) ->
  let call := autocorrelation (A := XR) p d None None None None "fast" wgt in
  let regular := (T - y)%R = r /\ exists n : Z, (2 * T)%R = (IZR n * r)%R in
  (regular -> exists x, call = Ok x) /\ (~ regular -> call = Throw OutOfRange).
Proof. exact (fast_default_exact p d c0 wgt T y r). Qed.
Print Assumptions C58_fast_default_exact.

(** times 0, 1, 2 meet the condition in exact arithmetic *)
Example C58_case_exact : accepted exact_ds /\ times_ok exact_ds /\ exists c0, new_Correlator exact_ds = Ok c0 /\
  2 <= length (normalised_timeseries exact_ds) /\ max_lag c0 = Fin 2 /\ lag_resolution c0 = Fin 1 /\
  nth_error (normalised_timeseries exact_ds) (length (normalised_timeseries exact_ds) - 2) = Some (Fin 1) /\
  ((2 - 1)%R = 1%R /\ exists n : Z, (2 * 2)%R = (IZR n * 1)%R).
Proof. exact exact_ds_fast_hyps. Qed.

(** the same in binary64: 0, 1, 2 returns; 0, 1, 3 and 0, 2, 3.5, 5 do not *)
Example C58_case_default :
  let fast := fun t v => do d <- SACF_1d t v None; returned (autocorrelation gcc d None None None None "fast" "fractional") in
  ok_with (fast (ints [0; 1; 2]%Z) (ints [1; 2; 4]%Z)) (fun r => sames (fst r) (ints [-2; -1; 0; 1; 2]%Z)) = true /\
  fast (ints [0; 1; 3]%Z) (ints [1; 2; 4]%Z) = Throw OutOfRange /\
  fast (map half [0; 4; 7; 10]%Z) (ints [1; 2; 4; 3]%Z) = Throw OutOfRange.
Proof. split; [|split; apply thrown_eq]; vm_compute; reflexivity. Qed.
