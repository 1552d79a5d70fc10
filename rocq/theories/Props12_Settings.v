(** Theorems: number of lags, and any order of time stamps (C59, C60). *)
From Coq Require Import String.
From Coq Require Import ZArith Reals List Bool Arith Lia Lra.
From Flocq Require Import Core BinarySingleNaN.
From Verif Require Import Num Mem MemFacts XR B64 Spec SpecR DataStructure Correlator Sacf Api Examples
  Laws B64Facts Laws2 DSFacts MainFacts ConstrFacts TimeFacts DefaultFacts ValThms GridCall FastCall FastThms CountFacts RelFacts UnsortedFacts
  Props01_Construction Props02_Lags.
Import ListNotations.
Local Open Scope list_scope.

(** ** C59: the number of lags, exact arithmetic *)
Theorem C59_lag_count (p : platform) (d : @dstruct XR) (mi ma re al : option xr) (sel wgt : string) (lags : list xr) (corr : @py_corr XR)
  (c : @correlator XR) (a r b : R) (e : nat) : accepted d ->
  autocorrelation (A := XR) p d mi ma re al sel wgt = Ok (lags, corr, c) ->
  (forall c0, new_Correlator d = Ok c0 ->
     opt_or (A := XR) mi (min_lag c0) = Fin a /\ opt_or (A := XR) re (lag_resolution c0) = Fin r /\ opt_or (A := XR) ma (max_lag c0) = Fin b) ->
  (0 < r)%R -> (a <= b)%R -> (jumps_zero a r b /\ e = 1 \/ ~ jumps_zero a r b /\ e = 0) ->
  Z.of_nat (length lags) = (Zfloor ((b - a) / r) + 1 + Z.of_nat e)%Z.
Proof. exact (lag_count p d mi ma re al sel wgt lags corr c a r b e). Qed.
Print Assumptions C59_lag_count.

(** which settings fit into the memory *)
Theorem C59_settings_fit (p : platform) (d : @dstruct XR) (c0 : @correlator XR) (mi ma re al : option xr) (wgt : string) (a r b : R) (e : nat) :
  accepted d -> new_Correlator d = Ok c0 -> p_checked p = false -> p_abs p = AbsFloat -> known_weight wgt ->
  opt_or (A := XR) mi (min_lag c0) = Fin a -> opt_or (A := XR) re (lag_resolution c0) = Fin r -> opt_or (A := XR) ma (max_lag c0) = Fin b ->
  (0 < r)%R -> (a <= b)%R -> (jumps_zero a r b /\ e = 1 \/ ~ jumps_zero a r b /\ e = 0) ->
  let call := autocorrelation (A := XR) p d mi ma re al "natural" wgt in
  let count := (Zfloor ((b - a) / r) + 1 + Z.of_nat e)%Z in
  ((count <= Z.of_nat (length (lag_timeseries c0)))%Z -> exists x, call = Ok x) /\
  ((Z.of_nat (length (lag_timeseries c0)) < count)%Z -> call = UB OobWrite).
Proof. exact (count_call p d c0 mi ma re al wgt a r b e). Qed.
Print Assumptions C59_settings_fit.

(** times 0, 1, 2 have room for 7 lags; -3/2, -1/2, (0,) 1/2, 3/2 are 5 *)
Example C59_case : exists c0, accepted exact_ds /\ new_Correlator exact_ds = Ok c0 /\
  opt_or (A := XR) (Some (Fin (-3/2))) (min_lag c0) = Fin (-3/2) /\ opt_or (A := XR) None (lag_resolution c0) = Fin 1 /\
  opt_or (A := XR) None (max_lag c0) = Fin 2 /\ (-3/2 <= 2)%R /\ jumps_zero (-3/2) 1 2 /\ Zfloor ((2 - -3/2) / 1) = 3%Z /\
  length (lag_timeseries c0) = 7.
Proof.
  destruct exact_ds_fast_hyps as [Ha [Ht [c0 [Hn [H2 [ET [Er _]]]]]]]. exists c0. split; [exact Ha|]. split; [exact Hn|]. split; [reflexivity|].
  split; [exact Er|]. split; [exact ET|]. split; [lra|]. split; [|split].
  - split; [exists 2%nat; cbn [INR]; lra|]. intros j H. rewrite INR_IZR_INZ in H.
    assert (E : IZR (2 * Z.of_nat j) = IZR 3) by (rewrite mult_IZR; lra). apply eq_IZR in E. lia.
  - apply Zfloor_imp. change (3 + 1)%Z with 4%Z. lra.
  - destruct (C15_room exact_ds c0 Ha Hn) as [q [Hq Hl]]. destruct (default_lags exact_ds c0 Ha Hn) as [_ [_ [Hm _]]].
    rewrite Hm, ET, Er in Hq. cbn in Hq. destruct (Reqb_spec 1 0); [lra|]. injection Hq as <-.
    match type of Hl with context [Zfloor ?z] => replace z with (IZR 4) in Hl by lra end. rewrite Zfloor_IZR in Hl. lia.
Qed.

(** the same in binary64: five lags, and eight lags (more than there is room for) with resolution 1/2 *)
Example C59_case_binary64 : ok_with (SACF_1d (ints [0; 1; 2]%Z) (ints [1; 2; 4]%Z) None) (fun d =>
  lags_are (autocorrelation clang d (Some (half (-3))) None None None "natural" "fractional") [half (-3); half (-1); fl 0; half 1; half 3] &&
  match undefined (autocorrelation clang d (Some (half (-3))) None (Some (half 1)) None "natural" "fractional") with Some OobWrite => true | _ => false end) = true.
Proof. vm_compute. reflexivity. Qed.

(** ** C60: construction of a Correlator for any time stamps *)
(** exact arithmetic: T is the last normalised time, r the smallest difference of neighbours (negative if the times are not in order) *)
Theorem C60_construction_exact (d : @dstruct XR) (T r : R) : accepted d ->
  let nt := normalised_timeseries d in
  nth_error nt (length nt - 1) = Some (Fin T) -> (forall x, In x nt -> finite x) ->
  (forall i x y, nth_error nt i = Some (Fin x) -> nth_error nt (S i) = Some (Fin y) -> (r <= y - x)%R) ->
  (exists i x y, nth_error nt i = Some (Fin x) /\ nth_error nt (S i) = Some (Fin y) /\ r = (y - x)%R) ->
  (r < dbl_max)%R ->
  let q := Zfloor (2 * T / r) in
  (r <> 0%R /\ (-3 <= q <= INT_MAX - 3)%Z -> exists c, new_Correlator d = Ok c /\ max_lag c = Fin T /\ min_lag c = Fin (- T) /\
      lag_resolution c = Fin r /\ Z.of_nat (length (lag_timeseries c)) = (q + 3)%Z) /\
  (~ (r <> 0%R /\ (-3 <= q <= INT_MAX - 3)%Z) -> new_Correlator d = UB BadConversion).
Proof. exact (constructs_exact d T r). Qed.
Print Assumptions C60_construction_exact.

Theorem C60_duplicate_stamps {A : Num} (HA : arith A) (d : dstruct) (i : nat) (x y : num) : accepted d -> times_ok d ->
  nth_error (normalised_timeseries d) i = Some x -> nth_error (normalised_timeseries d) (S i) = Some y -> neqb x y = true ->
  new_Correlator d = UB BadConversion.
Proof. exact (duplicate_stamps A HA d i x y). Qed.
Print Assumptions C60_duplicate_stamps.

Theorem C60_nonfinite_stamps {A : Num} (HA : arith A) (d : dstruct) (x : num) : accepted d ->
  (nth_error (timeseries d) 0 = Some x \/ nth_error (timeseries d) (length (timeseries d) - 1) = Some x) -> ~ finite x ->
  new_Correlator d = UB BadConversion.
Proof. exact (nonfinite_stamps A HA d x). Qed.
Print Assumptions C60_nonfinite_stamps.

(** a time stamp that does not exceed the one before it, while the last is not below the first: the default call never
    returns, whatever the functions chosen ... *)
Theorem C60_unsorted_never_returns {A : Num} (HA : arith A) (p : platform) (d : dstruct) (i : nat) (x y T : num) (al : option num) (sel wgt : string) res :
  accepted d -> let nt := normalised_timeseries d in
  nth_error nt i = Some x -> nth_error nt (S i) = Some y -> finite x -> finite y -> nle y x = true ->
  nth_error nt (length nt - 1) = Some T -> finite T -> nle nzero T = true ->
  autocorrelation p d None None None al sel wgt <> Ok res.
Proof.
  intros Ha nt. exact (@not_rising_never A (arith_laws A HA) (arith_laws2 A HA) p d i x y T al sel wgt res Ha (dblmax_nan A HA)).
Qed.
Print Assumptions C60_unsorted_never_returns.

(** ... and with the natural selection it writes outside a vector if the Correlator can be made *)
Theorem C60_unsorted_overrun {A : Num} (HA : arith A) (p : platform) (d : dstruct) (c0 : correlator) (i : nat) (x y T : num) (al : option num) (wgt : string) :
  accepted d -> new_Correlator d = Ok c0 -> let nt := normalised_timeseries d in
  nth_error nt i = Some x -> nth_error nt (S i) = Some y -> finite x -> finite y -> nle y x = true ->
  nth_error nt (length nt - 1) = Some T -> finite T -> nle nzero T = true ->
  p_abs p = AbsFloat -> p_checked p = false -> known_weight wgt ->
  autocorrelation p d None None None al "natural" wgt = UB OobWrite.
Proof.
  intros Ha Hn nt. exact (@not_rising_overrun A (arith_laws A HA) (arith_laws2 A HA) p d c0 i x y T al wgt Ha Hn (dblmax_nan A HA)).
Qed.
Print Assumptions C60_unsorted_overrun.

(** the last time stamp before the first: no lag is visited *)
Theorem C60_reversed {A : Num} (HA : arith A) (p : platform) (d : dstruct) (c0 : correlator) (T : num) (al : option num) (sel wgt : string) :
  accepted d -> new_Correlator d = Ok c0 -> let nt := normalised_timeseries d in
  nth_error nt (length nt - 1) = Some T -> nlt T nzero = true ->
  (sel = "natural"%string /\ wgt = "fractional"%string ->
     exists corr, visible (autocorrelation p d None None None al sel wgt) = Ok ([], corr) /\ rows_of corr = repeat [] (N_datasets d)) /\
  (~ (sel = "natural"%string /\ wgt = "fractional"%string) ->
     autocorrelation p d None None None al sel wgt = Throw PyUnboundLocalError).
Proof. exact (@reversed_call A (arith_laws A HA) p d c0 T al sel wgt). Qed.
Print Assumptions C60_reversed.

(** 0, 2, 1 overruns; 0, 0, 1 and 0, 5, 1, 100 cannot be made; 3, 1, 2 gives no lags *)
Example C60_case :
  let call := fun t v => do d <- SACF_1d t v None; returned (autocorrelation clang d None None None None "natural" "fractional") in
  let made := fun t v => do d <- SACF_1d t v None; new_Correlator d in
  ok_with (made (ints [0; 2; 1]%Z) (ints [1; 2; 4]%Z)) (fun c => length (lag_timeseries c) =? 1) = true /\
  call (ints [0; 2; 1]%Z) (ints [1; 2; 4]%Z) = UB OobWrite /\
  made (ints [0; 0; 1]%Z) (ints [1; 2; 4]%Z) = UB BadConversion /\
  made (ints [0; 5; 1; 100]%Z) (ints [1; 2; 4; 3]%Z) = UB BadConversion /\
  made [fl 0; fl 1; nofZ (2 ^ 1024)] (ints [1; 2; 4]%Z) = UB BadConversion /\
  ok_with (made (ints [3; 1; 2]%Z) (ints [1; 2; 4]%Z)) (fun c => length (lag_timeseries c) =? 4) = true /\
  ok_with (call (ints [3; 1; 2]%Z) (ints [1; 2; 4]%Z)) (fun r => length (fst r) =? 0) = true.
Proof.
  split; [vm_compute; reflexivity|]. split; [apply undefined_eq; vm_compute; reflexivity|]. split; [apply undefined_eq; vm_compute; reflexivity|].
  split; [apply undefined_eq; vm_compute; reflexivity|]. split; [apply undefined_eq; vm_compute; reflexivity|].
  split; vm_compute; reflexivity.
Qed.

(** the hypotheses of the exact theorem for times 0, 1, 2 *)
Example C60_case_exact : let nt := normalised_timeseries exact_ds in
  nth_error nt (length nt - 1) = Some (Fin 2) /\ (forall x, In x nt -> finite x) /\
  (forall i x y, nth_error nt i = Some (Fin x) -> nth_error nt (S i) = Some (Fin y) -> (1 <= y - x)%R) /\
  (exists i x y, nth_error nt i = Some (Fin x) /\ nth_error nt (S i) = Some (Fin y) /\ 1%R = (y - x)%R) /\ Zfloor (2 * 2 / 1) = 4%Z.
Proof.
  destruct exact_ds_ok as [Ha [Ht Hd]]. destruct three_points as [Hb Hi].
  destruct (grid_defaults exact_ds 0 1 3 Ha Ht ltac:(lia) ltac:(lra) Hb Hi) as [c0 [Hc [_ [_ [_ [_ [Htok Hnt]]]]]]].
  cbv zeta. rewrite Hnt. clear. change (map Fin (grid 0 1 3)) with [Fin (0 + 0 * 1); Fin (0 + 1 * 1); Fin (0 + (1 + 1) * 1)].
  split; [cbn; do 2 f_equal; lra|]. split; [intros x [<-|[<-|[<-|[]]]] C; discriminate|]. split; [|split].
  - intros [|[|[|i]]] x y; cbn; intros Hx Hy; try discriminate; injection Hx as <-; injection Hy as <-; lra.
  - exists 0, (0 + 0 * 1)%R, (0 + 1 * 1)%R. split; [reflexivity|]. split; [reflexivity|]. lra.
  - replace (2 * 2 / 1)%R with (IZR 4) by lra. apply Zfloor_IZR.
Qed.
