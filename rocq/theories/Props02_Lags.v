(** Theorems: the lags visited, the result buffers and termination (C11 - C16, C46). *)
From Coq Require Import String.
From Coq Require Import ZArith Reals List Bool Arith Lia.
From Flocq Require Import Core BinarySingleNaN.
From Verif Require Import Num Mem XR B64 Spec SpecR DataStructure Correlator Sacf Api Examples
  Laws B64Facts Laws2 GridFacts SafeFacts DefaultFacts OverrunFacts Props01_Construction.
Import ListNotations.
Local Open Scope list_scope.

(** what is known of the example data set *)
Definition example_c : @correlator BB :=
  match new_Correlator example_ds with Ok c => c | _ => @Build_correlator BB example_ds [] [] [] nzero nzero nzero nzero 0 end.

Lemma example_ok : accepted example_ds /\ times_ok example_ds /\ new_Correlator example_ds = Ok example_c.
Proof.
  destruct C06_case as [_ [H1 [H2 H3]]]. destruct C07_case as [H4 _]. split; [exact H1|]. split; [repeat split; assumption|].
  unfold example_c. destruct (ok_with_ok (new_Correlator example_ds) (fun _ => true)) as [c [E _]]; [vm_compute; reflexivity|].
  rewrite E. reflexivity.
Qed.

Definition quarter (z : Z) : @num BB := Bdiv mode_NE (b64_ofZ z) (b64_ofZ 4).
Arguments quarter z%Z_scope.

(** the result is one row, with these lags *)
Definition lags_are (r : res (list (@num BB) * py_corr * correlator)) (l : list (@num BB)) : bool :=
  ok_with r (fun x => sames (fst (fst x)) l).

(** ** C11: shape of the lag grid *)
Theorem C11_returned_lags {A : Num} (p : platform) (d : dstruct) (c0 : correlator)
  (mi ma re al : option num) (sel wgt : string) (lags : list num) (corr : py_corr) (c : correlator) :
  accepted d -> new_Correlator d = Ok c0 ->
  autocorrelation p d mi ma re al sel wgt = Ok (lags, corr, c) ->
  lag_grid (opt_or mi (min_lag c0)) (opt_or re (lag_resolution c0)) (opt_or ma (max_lag c0)) lags.
Proof. intros Ha Hn E. exact (proj1 (returned_grid p d c0 mi ma re al sel wgt (lags, corr, c) Ha Hn E)). Qed.
Print Assumptions C11_returned_lags.

Example C11_case : lags_are (autocorrelation gcc example_ds (Some (fl (-2))) (Some (fl 2)) (Some (quarter 3)) None "natural" "fractional")
  [quarter (-8); quarter (-5); quarter (-2); fl 0; quarter 1; quarter 4; quarter 7] = true.
Proof. vm_compute. reflexivity. Qed.
Example C11_case_python : lags_are (autocorrelation gcc example_ds (Some (fl (-2))) (Some (fl 2)) (Some (quarter 3)) None "natural" "gaussian")
  [quarter (-8); quarter (-5); quarter (-2); fl 0; quarter 1; quarter 4; quarter 7] = true.
Proof. vm_compute. reflexivity. Qed.

(** ** C12: strictly increasing, within the range *)
Theorem C12_increasing {A : Num} (HA : arith A) (p : platform) (d : dstruct) (c0 : correlator)
  (mi ma re al : option num) (sel wgt : string) (lags : list num) (corr : py_corr) (c : correlator) :
  accepted d -> new_Correlator d = Ok c0 ->
  autocorrelation p d mi ma re al sel wgt = Ok (lags, corr, c) ->
  increasing lags /\
  forall x, In x lags -> nle x (opt_or ma (max_lag c0)) = true /\
    (nle (opt_or mi (min_lag c0)) x = true \/ x = nzero /\ nlt nzero (opt_or mi (min_lag c0)) = true).
Proof.
  intros Ha Hn E. pose proof (proj1 (returned_grid p d c0 mi ma re al sel wgt (lags, corr, c) Ha Hn E)) as Hg.
  pose proof (arith_laws A HA) as L1. pose proof (arith_laws2 A HA) as L2. split; [exact (grid_increasing _ _ _ _ Hg)|].
  intros x Hx. exact (grid_bounds _ _ _ _ x Hg Hx).
Qed.
Print Assumptions C12_increasing.

(** a zero below the range *)
Example C12_case : lags_are (autocorrelation gcc example_ds (Some (fl 1)) (Some (fl 3)) (Some (fl 1)) None "natural" "fractional")
  (ints [0; 1; 2; 3]%Z) = true.
Proof. vm_compute. reflexivity. Qed.

(** ** C13: lag zero *)
Theorem C13_zero_iff {A : Num} (HA : arith A) (p : platform) (d : dstruct) (c0 : correlator)
  (mi ma re al : option num) (sel wgt : string) (lags : list num) (corr : py_corr) (c : correlator) :
  accepted d -> new_Correlator d = Ok c0 ->
  autocorrelation p d mi ma re al sel wgt = Ok (lags, corr, c) ->
  let a := opt_or mi (min_lag c0) in let r := opt_or re (lag_resolution c0) in let b := opt_or ma (max_lag c0) in
  ((exists x, In x lags /\ neqb x nzero = true) <->
   (exists n, (forall j, j <= n -> nle (steps a r j) b = true) /\ nle nzero (steps a r n) = true)) /\
  (forall i j x y, nth_error lags i = Some x -> nth_error lags j = Some y ->
     neqb x nzero = true -> neqb y nzero = true -> i = j).
Proof.
  intros Ha Hn E a r b. pose proof (proj1 (returned_grid p d c0 mi ma re al sel wgt (lags, corr, c) Ha Hn E)) as Hg.
  pose proof (arith_laws A HA) as L1. pose proof (arith_laws2 A HA) as L2. split; [exact (grid_zero _ _ _ _ Hg)|].
  intros i j x y. exact (increasing_once _ i j x y nzero (grid_increasing _ _ _ _ Hg)).
Qed.
Print Assumptions C13_zero_iff.

Theorem C13_default {A : Num} (HA : arith A) (p : platform) (d : dstruct)
  (al : option num) (sel wgt : string) (lags : list num) (corr : py_corr) (c : correlator) :
  accepted d -> times_ok d ->
  autocorrelation p d None None None al sel wgt = Ok (lags, corr, c) ->
  exists i x, nth_error lags i = Some x /\ neqb x nzero = true.
Proof.
  intros Ha Ht E.
  assert (exists c0, new_Correlator d = Ok c0) as [c0 Hn].
  { unfold autocorrelation in E. destruct (new_Correlator d); try discriminate. eauto. }
  exact (@default_zero A (arith_laws A HA) (arith_laws2 A HA) d c0 lags Ha Ht Hn (dblmax_pos A HA)
    (proj1 (returned_grid p d c0 None None None al sel wgt (lags, corr, c) Ha Hn E))).
Qed.
Print Assumptions C13_default.

Example C13_case : ok_with (autocorrelation gcc example_ds None None None None "natural" "fractional")
  (fun x => (length (fst (fst x)) =? 31) && same (nth 15 (fst (fst x)) (fl 1)) (fl 0)) = true.
Proof. vm_compute. reflexivity. Qed.
(** the grid steps over zero beyond the end *)
Example C13_case_missing :
  lags_are (autocorrelation gcc example_ds (Some (fl (-1))) (Some (half 1)) (Some (fl 2)) None "natural" "fractional") (ints [-1]%Z) = true.
Proof. vm_compute. reflexivity. Qed.

(** ** C14: the default call *)
Theorem C14_default_exact (p : platform) (d : @dstruct XR) (c0 : @correlator XR) (wgt : string) :
  accepted d -> times_ok d -> new_Correlator d = Ok c0 ->
  p_checked p = false -> known_weight wgt ->
  (p_abs p = AbsInt -> nle (nadd (max_lag c0) (max_lag c0)) (nofZ INT_MAX) = true) ->
  exists r, autocorrelation p d None None None None "natural" wgt = Ok r.
Proof.
  intros Ha Ht Hn Hc Hw Hs.
  exact (@default_returns XR arith_exact _ _ p d c0 wgt Ha Ht Hn (default_fits_exact d c0 Ha Ht Hn) Hc Hw Hs).
Qed.
Print Assumptions C14_default_exact.

Theorem C14_default_binary64 (exp64 : b64 -> b64) (p : platform) (d : @dstruct (B64 exp64)) (c0 : @correlator (B64 exp64)) (wgt : string) :
  accepted d -> times_ok d -> new_Correlator d = Ok c0 ->
  p_checked p = false -> known_weight wgt ->
  (p_abs p = AbsInt -> nle (nadd (max_lag c0) (max_lag c0)) (nofZ INT_MAX) = true) ->
  (Z.of_nat (length (lag_timeseries c0)) <= 100000000)%Z ->
  exists r, autocorrelation p d None None None None "natural" wgt = Ok r.
Proof.
  intros Ha Ht Hn Hc Hw Hs Hl.
  exact (@default_returns (B64 exp64) (arith_binary64 exp64) _ _ p d c0 wgt Ha Ht Hn (default_fits_b64 exp64 d c0 Ha Ht Hn Hl) Hc Hw Hs).
Qed.
Print Assumptions C14_default_binary64.

(** whatever the functions chosen: no access outside a vector *)
Theorem C14_in_bounds_exact (p : platform) (d : @dstruct XR) (al : option xr) (sel wgt : string) :
  accepted d -> times_ok d ->
  autocorrelation p d None None None al sel wgt <> UB OobWrite /\ autocorrelation p d None None None al sel wgt <> UB OobRead.
Proof.
  intros Ha Ht. destruct (new_Correlator d) as [c0|e|u|] eqn:Hn.
  - destruct (call_in_bounds p d c0 None None None al sel wgt Ha Hn) as [K1 K2].
    split; [apply K2; exact (default_fits_exact d c0 Ha Ht Hn)|exact K1].
  - unfold autocorrelation. rewrite Hn. split; discriminate.
  - destruct (new_Correlator_benign d Ha) as [K1 K2]. rewrite Hn in K1, K2. unfold autocorrelation. rewrite Hn. cbn [bind].
    split; congruence.
  - unfold autocorrelation. rewrite Hn. split; discriminate.
Qed.
Print Assumptions C14_in_bounds_exact.

Theorem C14_in_bounds_binary64 (exp64 : b64 -> b64) (p : platform) (d : @dstruct (B64 exp64)) (c0 : @correlator (B64 exp64)) (al : option b64) (sel wgt : string) :
  accepted d -> times_ok d -> new_Correlator d = Ok c0 -> (Z.of_nat (length (lag_timeseries c0)) <= 100000000)%Z ->
  autocorrelation p d None None None al sel wgt <> UB OobWrite /\ autocorrelation p d None None None al sel wgt <> UB OobRead.
Proof.
  intros Ha Ht Hn Hl. destruct (call_in_bounds p d c0 None None None al sel wgt Ha Hn) as [K1 K2].
  split; [apply K2; exact (default_fits_b64 exp64 d c0 Ha Ht Hn Hl)|exact K1].
Qed.
Print Assumptions C14_in_bounds_binary64.

(** without a bound on the number of lags this is false: with time stamps 0, 1 + 2^-25 - 2^-52 and 2^29 the sums
    are rounded down so often that more lags come out than there is room for *)
Theorem C14_unbounded_refuted (exp64 : b64 -> b64) (p : platform) (v0 v1 v2 : b64) : p_checked p = false ->
  exists (d : @dstruct (B64 exp64)) (c0 : @correlator (B64 exp64)),
    SACF_1d (A := B64 exp64) [B754_zero false; @B754_finite 53 1024 false 4503599761588223 (-52) eq_refl;
      @B754_finite 53 1024 false 4503599627370496 (-23) eq_refl] [v0; v1; v2] None = Ok d /\
    accepted d /\ times_ok d /\ new_Correlator d = Ok c0 /\
    nle (nadd (max_lag c0) (max_lag c0)) (nofZ INT_MAX) = true /\
    Z.of_nat (length (lag_timeseries c0)) = 1073741795%Z /\
    forall wgt, known_weight wgt -> autocorrelation p d None None None None "natural" wgt = UB OobWrite.
Proof. exact (over_all exp64 v0 v1 v2 p). Qed.
Print Assumptions C14_unbounded_refuted.

Example C14_case : accepted example_ds /\ times_ok example_ds /\ new_Correlator example_ds = Ok example_c /\
  nle (nadd (max_lag example_c) (max_lag example_c)) (nofZ INT_MAX) = true /\ length (lag_timeseries example_c) = 33.
Proof.
  destruct example_ok as [H1 [H2 H3]]. split; [exact H1|]. split; [exact H2|]. split; [exact H3|].
  split; [vm_compute; reflexivity|]. vm_compute. reflexivity.
Qed.

(** ** C15: lag settings given by the user *)
Theorem C15_in_bounds {A : Num} (p : platform) (d : dstruct) (c0 : correlator)
  (mi ma re al : option num) (sel wgt : string) :
  accepted d -> new_Correlator d = Ok c0 ->
  autocorrelation p d mi ma re al sel wgt <> UB OobRead /\
  ((exists g, lag_grid (opt_or mi (min_lag c0)) (opt_or re (lag_resolution c0)) (opt_or ma (max_lag c0)) g /\
     length g <= length (lag_timeseries c0)) ->
   autocorrelation p d mi ma re al sel wgt <> UB OobWrite).
Proof. exact (call_in_bounds p d c0 mi ma re al sel wgt). Qed.
Print Assumptions C15_in_bounds.

Theorem C15_exact_condition {A : Num} (HA : arith A) (p : platform) (d : dstruct) (c0 : correlator)
  (mi ma re al : option num) (wgt : string) :
  accepted d -> new_Correlator d = Ok c0 -> p_checked p = false -> known_weight wgt ->
  let a := opt_or mi (min_lag c0) in let r := opt_or re (lag_resolution c0) in let b := opt_or ma (max_lag c0) in
  let room := length (lag_timeseries c0) in
  abs_defined p d nzero ->
  (forall n, n <= room -> (forall j, j <= n -> nle (steps a r j) b = true) -> abs_defined p d (steps a r n)) ->
  let call := autocorrelation p d mi ma re al "natural" wgt in
  ((exists x, call = Ok x) <-> (exists g, lag_grid a r b g /\ length g <= room /\ (g <> [] \/ wgt = "fractional"%string))) /\
  ((~ exists g, lag_grid a r b g /\ length g <= room) -> call = UB OobWrite).
Proof. exact (@natural_call_outcome A (arith_laws2 A HA) p d c0 mi ma re al wgt). Qed.
Print Assumptions C15_exact_condition.

(** number of lags allotted *)
Theorem C15_room {A : Num} (d : dstruct) (c0 : correlator) : accepted d -> new_Correlator d = Ok c0 ->
  exists q, nfloor (ndiv (nsub (max_lag c0) (min_lag c0)) (lag_resolution c0)) = Some q /\
    Z.of_nat (length (lag_timeseries c0)) = (q + 3)%Z.
Proof. exact (allotted d c0). Qed.
Print Assumptions C15_room.

(** half the default resolution is too fine for the buffers *)
Example C15_case : undefined (autocorrelation gcc example_ds None None (Some (quarter 1)) None "natural" "fractional") = Some OobWrite /\
  undefined (autocorrelation gcc example_ds None None (Some (quarter 1)) None "fast" "gaussian") = Some OobWrite.
Proof. split; vm_compute; reflexivity. Qed.
Example C15_case_returns : lags_are (autocorrelation gcc example_ds (Some (fl 0)) (Some (fl 3)) (Some (half 3)) None "natural" "fractional")
  [fl 0; half 3; fl 3] = true.
Proof. vm_compute. reflexivity. Qed.
(** the conversions of the C function abs are defined at every lag of the default range *)
Example C15_case_abs kk : nle (min_lag example_c) kk = true -> nle kk (max_lag example_c) = true -> abs_defined gcc example_ds kk.
Proof.
  destruct example_ok as [H1 [H2 H3]].
  apply (@abs_defined_range BB (arith_binary64 _) (arith_laws BB (arith_binary64 _)) (arith_laws2 BB (arith_binary64 _)) gcc example_ds example_c kk H1 H2 H3).
  intros _. vm_compute. reflexivity.
Qed.

(** ** C16: termination *)
Theorem C16_terminates {A : Num} (p : platform) (d : dstruct) (mi ma re al : option num) (sel wgt : string) :
  accepted d -> autocorrelation p d mi ma re al sel wgt <> Diverge.
Proof. exact (autocorrelation_terminates p d mi ma re al sel wgt). Qed.
Print Assumptions C16_terminates.

Theorem C16_stuck {A : Num} (HA : arith A) (p : platform) (d : dstruct) (c0 : correlator)
  (mi ma re al : option num) (wgt : string) :
  accepted d -> new_Correlator d = Ok c0 -> p_checked p = false -> known_weight wgt ->
  let a := opt_or mi (min_lag c0) in let r := opt_or re (lag_resolution c0) in let b := opt_or ma (max_lag c0) in
  abs_defined p d nzero ->
  (forall n, n <= length (lag_timeseries c0) -> (forall j, j <= n -> nle (steps a r j) b = true) -> abs_defined p d (steps a r n)) ->
  nle a b = true -> nle (nadd a r) a = true ->
  autocorrelation p d mi ma re al "natural" wgt = UB OobWrite.
Proof. exact (@stuck_call A (arith_laws A HA) (arith_laws2 A HA) p d c0 mi ma re al wgt). Qed.
Print Assumptions C16_stuck.

Example C16_case : undefined (autocorrelation gcc example_ds None None (Some (fl 0)) None "natural" "fractional") = Some OobWrite /\
  undefined (autocorrelation clang example_ds None None (Some (fl (-1))) None "natural" "gaussian") = Some OobWrite.
Proof. split; vm_compute; reflexivity. Qed.
(** a resolution that is absorbed by rounding *)
Definition tiny : @num BB := Bdiv mode_NE (fl 1) (fl (2 ^ 60)).
Example C16_case_absorbed : nlt nzero tiny = true /\ nle (nadd (fl (-2)) tiny) (fl (-2)) = true /\
  undefined (autocorrelation gcc example_ds (Some (fl (-2))) None (Some tiny) None "natural" "fractional") = Some OobWrite.
Proof. repeat split; vm_compute; reflexivity. Qed.

(** ** C46: accuracy of the lags *)
Theorem C46_accuracy (exp64 : b64 -> b64) (p : platform) (d : @dstruct (B64 exp64)) (a b r : b64) (al : option b64)
  (sel wgt : string) (lags : list b64) (corr : @py_corr (B64 exp64)) (c : @correlator (B64 exp64)) :
  accepted d -> is_finite a = true -> is_finite b = true -> is_finite r = true ->
  autocorrelation (A := B64 exp64) p d (Some a) (Some b) (Some r) al sel wgt = Ok (lags, corr, c) ->
  forall i x, nth_error lags i = Some x ->
  B2R x = 0%R \/ exists n, (n = i \/ S n = i) /\
    (Rabs (B2R x - (B2R a + INR n * B2R r)) <= INR n * Rmax (Rabs (B2R a)) (Rabs (B2R b)) * / 9007199254740992)%R.
Proof.
  intros Ha Fa Fb Fr E. rewrite <- u64_val. exact (lags_accurate exp64 p d a b r al sel wgt (lags, corr, c) Ha Fa Fb Fr E).
Qed.
Print Assumptions C46_accuracy.

Example C46_case : ok_with (autocorrelation clang example_ds (Some (fl (-3))) (Some (fl 3)) (Some (ndiv (fl 1) (fl 3))) None "natural" "fractional")
  (fun x => length (fst (fst x)) =? 20) = true.
Proof. vm_compute. reflexivity. Qed.
