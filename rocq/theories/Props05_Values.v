(** Theorems: values of the correlation (C23 - C28, C40, C41, C47). *)
From Coq Require Import String.
From Coq Require Import ZArith Reals List Bool Arith Lia Lra.
From Flocq Require Import Core BinarySingleNaN.
From Verif Require Import Num Mem MemFacts XR B64 Spec SpecR DataStructure Correlator Sacf Api Examples
  Laws B64Facts Laws2 WeightFacts ValFacts GridVals NanFacts GridCall ValThms Props01_Construction Props02_Lags.
Import ListNotations.
Local Open Scope list_scope.

(** ** C47: the value formula *)
Theorem C47_value {A : Num} (HA : arith A) (p : platform) (d : dstruct) (mi ma re al : option num) (sel wgt : string)
  (lags : list num) (corr : py_corr) (c : correlator) (rows : list (list num)) (j i : nat) (row : list num) (kk : num) :
  accepted d -> autocorrelation p d mi ma re al sel wgt = Ok (lags, corr, c) ->
  data_2d d = Ok rows -> nth_error rows j = Some row -> nth_error lags i = Some kk ->
  exists f w it it',
    selection_function p sel d = Some f /\ weight_function wgt = Some w /\
    f (CorrelationIterator kk (length rows)) = (it, Ok tt) /\ deltaT p d it = (it', Ok tt) /\
    length (offsets it') = length (selection it) /\ length (selection it) <= length row /\
    (forall s, In s (selection it) -> s < length row) /\
    let a := opt_or al (median_time d) in
    let x := fun q => nsub (nth q row nzero) (mean row) in
    let term := fun q => nmul (nmul (w a (nth q (offsets it') nzero)) (x q)) (x (nth q (selection it) 0)) in
    corr_at corr j i = Some (nmul (fold_left (fun acc q => nadd acc (term q)) (seq 0 (length (selection it))) nzero)
                                  (ndiv none_ (sum_sq32 row))).
Proof.
  intros H1 H2 H3 H4 H5. pose proof (arith_laws A HA) as L1. rewrite <- norm_of_sum_sq.
  exact (value_by_iterator p d mi ma re al sel wgt lags corr c rows j i row kk H1 H2 H3 H4 H5).
Qed.
Print Assumptions C47_value.

(** times 1.5, 2, 5, 9 and values 1, -1, 4, 0 (x = 0, -2, 3, -1; sum of squares 14); lag 3 pairs 0-2 (offset
    0.5), 1-2 (offset 0) and 2-3 (offset 1); alpha = 1 gives (0 - 6 - 3/2) / 14 *)
Example C47_case : ok_with (autocorrelation clang example_ds (Some (fl 3)) (Some (fl 3)) (Some (fl 1)) (Some (fl 1)) "natural" "fractional")
  (fun r => sames (fst (fst r)) (ints [0; 3]%Z) &&
     match corr_at (snd (fst r)) 0 1 with Some v => same v (nmul (ndiv (fl (-15)) (fl 2)) (ndiv (fl 1) (fl 14))) | None => false end) = true.
Proof. vm_compute. reflexivity. Qed.

(** ** C23: lag zero *)
Theorem C23_zero_lag {A : Num} (HA : arith A) (p : platform) (d : dstruct) (mi ma re al : option num) (wgt : string)
  (lags : list num) (corr : py_corr) (c : correlator) (rows : list (list num)) (j i : nat) (row : list num) (kk : num) :
  accepted d -> times_ok d -> increasing (normalised_timeseries d) ->
  autocorrelation p d mi ma re al "natural" wgt = Ok (lags, corr, c) ->
  data_2d d = Ok rows -> nth_error rows j = Some row -> nth_error lags i = Some kk -> neqb kk nzero = true ->
  proper_alpha wgt (opt_or al (median_time d)) ->
  corr_at corr j i = Some (nmul (sum (map (fun x => nmul (nsub x (mean row)) (nsub x (mean row))) row)) (ndiv none_ (sum_sq32 row))).
Proof. exact (zero_lag_proper A HA p d mi ma re al wgt lags corr c rows j i row kk). Qed.
Print Assumptions C23_zero_lag.

Theorem C23_zero_lag_exact (p : platform) (d : @dstruct XR) (mi ma re al : option xr) (wgt : string)
  (lags : list xr) (corr : @py_corr XR) (c : @correlator XR) (rows : list (list xr)) (j i : nat) (rs ts : list R) (a : R) :
  accepted d -> autocorrelation (A := XR) p d mi ma re al "natural" wgt = Ok (lags, corr, c) ->
  data_2d d = Ok rows -> nth_error rows j = Some (map Fin rs) -> nth_error lags i = Some (Fin 0) ->
  timeseries d = map Fin ts -> increasing (A := XR) (timeseries d) -> opt_or (A := XR) al (median_time d) = Fin a -> (0 < a)%R ->
  corr_at corr j i = Some (xdiv (Fin (sq_dev rs)) (Fin (sq_dev32 rs))).
Proof. exact (zero_lag_value p d mi ma re al wgt lags corr c rows j i rs ts a). Qed.
Print Assumptions C23_zero_lag_exact.

Theorem C23_zero_lag_one (p : platform) (d : @dstruct XR) (mi ma re al : option xr) (wgt : string)
  (lags : list xr) (corr : @py_corr XR) (c : @correlator XR) (rows : list (list xr)) (j i : nat) (rs ts : list R) (a v w : R) :
  accepted d -> autocorrelation (A := XR) p d mi ma re al "natural" wgt = Ok (lags, corr, c) ->
  data_2d d = Ok rows -> nth_error rows j = Some (map Fin rs) -> nth_error lags i = Some (Fin 0) ->
  timeseries d = map Fin ts -> increasing (A := XR) (timeseries d) -> opt_or (A := XR) al (median_time d) = Fin a -> (0 < a)%R ->
  Forall single rs -> In v rs -> In w rs -> v <> w ->
  corr_at corr j i = Some (Fin 1).
Proof. exact (zero_lag_one p d mi ma re al wgt lags corr c rows j i rs ts a v w). Qed.
Print Assumptions C23_zero_lag_one.

(** rounding: at most 2^-53 below 1 and never above, unless the sum of squares is extremely small or large *)
Theorem C23_zero_lag_binary64 (exp64 : b64 -> b64) (p : platform) (d : @dstruct (B64 exp64)) (mi ma re al : option b64) (wgt : string)
  (lags : list b64) (corr : @py_corr (B64 exp64)) (c : @correlator (B64 exp64)) (rows : list (list b64)) (j i : nat) (row : list b64) (kk : b64) :
  accepted d -> times_ok d -> increasing (normalised_timeseries d) ->
  autocorrelation (A := B64 exp64) p d mi ma re al "natural" wgt = Ok (lags, corr, c) ->
  data_2d d = Ok rows -> nth_error rows j = Some row -> nth_error lags i = Some kk -> @neqb (B64 exp64) kk (@nzero (B64 exp64)) = true ->
  @proper_alpha (B64 exp64) wgt (@opt_or (B64 exp64) al (median_time d)) ->
  (forall x, In x row -> is_nan x = false /\ b32_to_b64 (b64_to_b32 x) = x) ->
  let P : b64 := @sum_sq32 (B64 exp64) row in
  is_finite P = true -> (bpow radix2 (-1000) <= B2R P <= bpow radix2 1000)%R ->
  exists v : b64, corr_at corr j i = Some v /\ is_finite v = true /\ (1 - bpow radix2 (-53) <= B2R v <= 1)%R.
Proof. exact (zero_lag_b64 exp64 p d mi ma re al wgt lags corr c rows j i row kk). Qed.
Print Assumptions C23_zero_lag_binary64.

(** two values that are not representable in single precision: 0.25 instead of 1 *)
Definition float_ds : @dstruct BB :=
  match SACF_1d (ints [0; 1]%Z) (ints [16777217; 16777219]%Z) None with Ok d => d | _ => example_ds end.

Theorem C23_always_one_refuted : accepted float_ds /\ times_ok float_ds /\ increasing (normalised_timeseries float_ds) /\
  ok_with (autocorrelation clang float_ds None None None None "natural" "fractional")
    (fun r => sames (fst (fst r)) (ints [-1; 0; 1]%Z) &&
       match corr_at (snd (fst r)) 0 1 with Some v => same v (quarter 1) | None => false end) = true.
Proof.
  assert (E : SACF_1d (ints [0; 1]%Z) (ints [16777217; 16777219]%Z) None = Ok float_ds).
  { unfold float_ds. destruct (ok_with_ok (SACF_1d (ints [0; 1]%Z) (ints [16777217; 16777219]%Z) None) (fun _ => true)) as [d [E _]];
      [vm_compute; reflexivity|]. rewrite E. reflexivity. }
  split; [left; eauto|]. split.
  { split; [apply orderedb_ok; vm_compute; reflexivity|]. split; apply all_finite_ok; vm_compute; reflexivity. }
  split; [apply increasingb_ok|]; vm_compute; reflexivity.
Qed.
Print Assumptions C23_always_one_refuted.

Example C23_case : increasing (normalised_timeseries example_ds) /\ proper_alpha "fractional" (opt_or None (median_time example_ds)) /\
  ok_with (autocorrelation gcc example_ds None None None None "natural" "fractional")
    (fun r => match nth_error (fst (fst r)) 15, corr_at (snd (fst r)) 0 15 with
              | Some k, Some v => same k (fl 0) && same v (fl 1) | _, _ => false end) = true /\
  same (sum_sq32 (ints [1; -1; 4; 0]%Z)) (fl 14) = true.
Proof.
  split; [apply increasingb_ok; vm_compute; reflexivity|]. split; [left; split; [left; reflexivity|vm_compute; reflexivity]|].
  split; vm_compute; reflexivity.
Qed.

(** the hypotheses of the exact theorems: times 0, 1, 2 and values 1, 2, 4 *)
Example C23_case_exact : exists lags corr c, accepted exact_ds /\
  autocorrelation (A := XR) gcc exact_ds None None None None "natural" "fractional" = Ok (lags, corr, c) /\
  data_2d exact_ds = Ok [map Fin [1; 2; 4]%R] /\ nth_error lags 2 = Some (Fin 0) /\ nth_error lags 3 = Some (Fin (INR 1 * 1)) /\
  nth_error lags 1 = Some (Fin (- (INR 1 * 1))) /\
  timeseries exact_ds = map Fin (grid 0 1 3) /\ increasing (A := XR) (timeseries exact_ds) /\
  opt_or (A := XR) None (median_time exact_ds) = Fin 1 /\ Forall single [1; 2; 4]%R /\ (1 <> 2)%R.
Proof.
  destruct (exact_ds_call gcc "fractional") as [corr [c [E Hm]]]; [reflexivity|left; reflexivity|]. destruct exact_ds_ok as [Ha [Ht Hd]].
  eexists _, corr, c. split; [exact Ha|]. split; [exact E|]. split; [exact Hd|].
  split; [cbn [nth_error map seq]; do 2 f_equal; cbn [INR]; ring|].
  split; [cbn [nth_error map seq]; do 2 f_equal; cbn [INR]; ring|].
  split; [cbn [nth_error map seq]; do 2 f_equal; cbn [INR]; ring|].
  split; [exact Ht|]. split; [rewrite Ht; exact (grid_increasing 0 1 3 Rlt_0_1)|].
  split; [cbn [opt_or]; rewrite Hm; f_equal; cbn [INR]; field|].
  split; [repeat constructor; apply (single_int 1) || apply (single_int 2) || apply (single_int 4); lia|lra].
Qed.

(** ** C24: missing values *)
Theorem C24_poison {A : Num} (HA : arith A) (p : platform) (d : dstruct) (mi ma re al : option num) (sel wgt : string)
  (lags : list num) (corr : py_corr) (c : correlator) (rows : list (list num)) (j i : nat) (row : list num) (kk : num)
  (q : nat) (x : num) (f : cor_it -> meth cor_it unit) (n : nat) (it : cor_it) :
  accepted d -> autocorrelation p d mi ma re al sel wgt = Ok (lags, corr, c) ->
  data_2d d = Ok rows -> nth_error rows j = Some row -> nth_error lags i = Some kk ->
  nth_error row q = Some x -> nisnan x = true ->
  selection_function p sel d = Some f -> f (CorrelationIterator kk n) = (it, Ok tt) ->
  q < length (selection it) \/ In q (selection it) ->
  exists v, corr_at corr j i = Some v /\ nisnan v = true.
Proof. exact (@poison A (arith_laws A HA) p d mi ma re al sel wgt lags corr c rows j i row kk q x f n it). Qed.
Print Assumptions C24_poison.

(** the default selection pairs every point at lags [<= 0]: one NaN makes half of the row NaN *)
Theorem C24_poison_nonpositive {A : Num} (HA : arith A) (p : platform) (d : dstruct) (mi ma re al : option num) (wgt : string)
  (lags : list num) (corr : py_corr) (c : correlator) (rows : list (list num)) (j i : nat) (row : list num) (kk : num)
  (q : nat) (x : num) :
  accepted d -> times_ok d -> autocorrelation p d mi ma re al "natural" wgt = Ok (lags, corr, c) ->
  data_2d d = Ok rows -> nth_error rows j = Some row -> nth_error lags i = Some kk -> nle kk nzero = true ->
  nth_error row q = Some x -> nisnan x = true ->
  exists v, corr_at corr j i = Some v /\ nisnan v = true.
Proof. exact (@poison_nonpositive A (arith_laws A HA) (arith_laws2 A HA) p d mi ma re al wgt lags corr c rows j i row kk q x). Qed.
Print Assumptions C24_poison_nonpositive.

(** times 0, 1, 2; values 1, NaN, 4: NaN at the lags -2 to 1, and at lag 2 only the first and last point are paired *)
Example C24_case : ok_with (SACF_1d (ints [0; 1; 2]%Z) (fl 1 :: B754_nan :: ints [4]%Z) None) (fun d =>
  ok_with (autocorrelation gcc d None None None None "natural" "fractional") (fun r =>
    sames (fst (fst r)) (ints [-2; -1; 0; 1; 2]%Z) &&
    match rows_of (snd (fst r)) with
    | [l] => sames (firstn 4 l) [B754_nan; B754_nan; B754_nan; B754_nan] && sames (skipn 4 l) [half (-1)]
    | _ => false end)) = true.
Proof. vm_compute. reflexivity. Qed.

(** ** C25: degenerate data *)
Theorem C25_constant {A : Num} (HA : arith A) (p : platform) (d : dstruct) (mi ma re al : option num) (sel wgt : string)
  (lags : list num) (corr : py_corr) (c : correlator) (rows : list (list num)) (j i : nat) (row : list num) (kk : num) :
  accepted d -> autocorrelation p d mi ma re al sel wgt = Ok (lags, corr, c) ->
  data_2d d = Ok rows -> nth_error rows j = Some row -> nth_error lags i = Some kk ->
  (forall x, In x row -> neqb (nsub x (mean row)) nzero = true /\ neqb (nsub (nf32 x) (mean row)) nzero = true) ->
  exists v, corr_at corr j i = Some v /\ nisnan v = true.
Proof. exact (@flat_row A (arith_laws A HA) (arith_laws3 A HA) (arith_laws4 A HA) p d mi ma re al sel wgt lags corr c rows j i row kk). Qed.
Print Assumptions C25_constant.

(** in exact arithmetic: NaN if the constant is representable in single precision, else 0 *)
Theorem C25_constant_exact (p : platform) (d : @dstruct XR) (mi ma re al : option xr) (sel wgt : string)
  (lags : list xr) (corr : @py_corr XR) (c : @correlator XR) (rows : list (list xr)) (j i : nat) (rs ts : list R) (kk a u : R) :
  accepted d -> autocorrelation (A := XR) p d mi ma re al sel wgt = Ok (lags, corr, c) ->
  data_2d d = Ok rows -> nth_error rows j = Some (map Fin rs) -> nth_error lags i = Some (Fin kk) ->
  timeseries d = map Fin ts -> opt_or (A := XR) al (median_time d) = Fin a -> (0 < a)%R ->
  (forall x, In x rs -> x = u) ->
  (single u -> corr_at corr j i = Some NaN) /\ (~ single u -> corr_at corr j i = Some (Fin 0)).
Proof. exact (constant_value p d mi ma re al sel wgt lags corr c rows j i rs ts kk a u). Qed.
Print Assumptions C25_constant_exact.

(** one time point: alpha defaults to 0, and the weight of offset 0 is 1/(1 + 0/0) *)
Theorem C25_one_point {A : Num} (HA : arith A) (p : platform) (d : dstruct) (mi ma re : option num) (wgt : string)
  (lags : list num) (corr : py_corr) (c : correlator) (rows : list (list num)) (j i : nat) (row : list num) (kk t0 : num) :
  accepted d -> timeseries d = [t0] -> finite t0 ->
  autocorrelation p d mi ma re None "natural" wgt = Ok (lags, corr, c) ->
  wgt = "fractional"%string \/ wgt = "fractional_squared"%string ->
  data_2d d = Ok rows -> nth_error rows j = Some row -> nth_error lags i = Some kk -> neqb kk nzero = true ->
  exists v, corr_at corr j i = Some v /\ nisnan v = true.
Proof. exact (@one_point A (arith_laws A HA) (arith_laws2 A HA) (arith_laws4 A HA) p d mi ma re wgt lags corr c rows j i row kk t0). Qed.
Print Assumptions C25_one_point.

Example C25_case : ok_with (SACF_1d (ints [0; 1; 3]%Z) (ints [7; 7; 7]%Z) None) (fun d =>
  ok_with (autocorrelation gcc d None None None None "natural" "fractional") (fun r =>
    (length (fst (fst r)) =? 7) && forallb nisnan (concat (rows_of (snd (fst r))))) &&
  same (mean (ints [7; 7; 7]%Z)) (fl 7)) = true.
Proof. vm_compute. reflexivity. Qed.
Example C25_case_one : ok_with (SACF_1d (ints [3]%Z) (ints [5]%Z) None) (fun d =>
  ok_with (autocorrelation gcc d None None None None "natural" "fractional") (fun r =>
    sames (fst (fst r)) [nneg (fl 0)] && forallb nisnan (concat (rows_of (snd (fst r)))))) = true.
Proof. vm_compute. reflexivity. Qed.

(** ** C26, C27: evenly sampled data *)
Theorem C26_grid_value (p : platform) (d : @dstruct XR) (mi ma re al : option xr) (wgt : string)
  (lags : list xr) (corr : @py_corr XR) (c : @correlator XR) (rows : list (list xr)) (j i : nat) (rs : list R) (t0 dd a : R) (M m : nat) :
  accepted d -> autocorrelation (A := XR) p d mi ma re al "natural" wgt = Ok (lags, corr, c) ->
  data_2d d = Ok rows -> nth_error rows j = Some (map Fin rs) -> nth_error lags i = Some (Fin (INR m * dd)) ->
  timeseries d = map Fin (grid t0 dd M) -> (0 < dd)%R -> opt_or (A := XR) al (median_time d) = Fin a -> (0 < a)%R ->
  length rs = M /\ 0 < M /\
  corr_at corr j i = Some (xdiv (Fin (rsum_n (M - m) (fun q => dev rs q * dev rs (q + m))%R)) (Fin (sq_dev32 rs))).
Proof. exact (grid_value_pos p d mi ma re al wgt lags corr c rows j i rs t0 dd a M m). Qed.
Print Assumptions C26_grid_value.

(** the whole default call: 2M-1 lags, and the value at each of them *)
Theorem C26_default_call (p : platform) (d : @dstruct XR) (wgt : string) (t0 dd : R) (M : nat) (rows : list (list xr)) :
  accepted d -> timeseries d = map Fin (grid t0 dd M) -> 2 <= M -> (0 < dd)%R ->
  (INR (M - 1) * dd <= dbl_max)%R -> (2 * Z.of_nat M + 1 <= INT_MAX)%Z ->
  p_checked p = false -> known_weight wgt -> (p_abs p = AbsInt -> 2 * (INR (M - 1) * dd) <= IZR INT_MAX)%R ->
  data_2d d = Ok rows ->
  exists corr c,
    autocorrelation (A := XR) p d None None None None "natural" wgt =
      Ok (map (fun i => Fin ((INR i - INR (M - 1)) * dd)) (seq 0 (2 * M - 1)), corr, c) /\
    forall j rs, nth_error rows j = Some (map Fin rs) -> length rs = M /\
      let a := (INR (M - 1) / 2 * dd)%R in
      let r := fun m => rsum_n (M - m) (fun q => dev rs q * dev rs (q + m))%R in
      forall m, m < M ->
        corr_at corr j (M - 1 + m) = Some (xdiv (Fin (r m)) (Fin (sq_dev32 rs))) /\
        corr_at corr j (M - 1 - m) = Some (xdiv (Fin (r m + dev rs 0 * rsum_n m (fun q => rweight wgt a (dist p (INR (m - q) * dd)) * dev rs q))%R)
                                                (Fin (sq_dev32 rs))).
Proof. exact (grid_call p d wgt t0 dd M rows). Qed.
Print Assumptions C26_default_call.

Theorem C27_grid_value_negative (p : platform) (d : @dstruct XR) (mi ma re al : option xr) (wgt : string)
  (lags : list xr) (corr : @py_corr XR) (c : @correlator XR) (rows : list (list xr)) (j i : nat) (rs : list R) (t0 dd a : R) (M m : nat) :
  accepted d -> autocorrelation (A := XR) p d mi ma re al "natural" wgt = Ok (lags, corr, c) ->
  data_2d d = Ok rows -> nth_error rows j = Some (map Fin rs) -> nth_error lags i = Some (Fin (- (INR m * dd))) ->
  timeseries d = map Fin (grid t0 dd M) -> (0 < dd)%R -> opt_or (A := XR) al (median_time d) = Fin a -> (0 < a)%R -> m <= M ->
  corr_at corr j i = Some (xdiv (Fin (rsum_n (M - m) (fun q => dev rs q * dev rs (q + m)) +
      dev rs 0 * rsum_n m (fun q => rweight wgt a (dist p (INR (m - q) * dd)) * dev rs q))%R) (Fin (sq_dev32 rs))).
Proof. exact (grid_value_neg p d mi ma re al wgt lags corr c rows j i rs t0 dd a M m). Qed.
Print Assumptions C27_grid_value_negative.

(** times 0, 1, 2 and values 3, 0, 0 (x = 2, -1, -1): -1/6 at lag 1; with alpha = 1 the first point adds
    1/2*2*2 at lag -1, which gives 1/6 *)
Theorem C27_symmetric_refuted : exists d : @dstruct BB, accepted d /\ times_ok d /\ increasing (timeseries d) /\
  ok_with (autocorrelation gcc d None None None None "natural" "fractional") (fun r =>
    sames (fst (fst r)) (ints [-2; -1; 0; 1; 2]%Z) &&
    match corr_at (snd (fst r)) 0 1, corr_at (snd (fst r)) 0 3 with
    | Some v, Some w => same v (ndiv (fl 1) (fl 6)) && same w (nneg (ndiv (fl 1) (fl 6))) | _, _ => false end) = true.
Proof.
  destruct (ok_with_ok (SACF_1d (ints [0; 1; 2]%Z) (ints [3; 0; 0]%Z) None) (fun d =>
     increasingb (timeseries d) && all_finite (timeseries d) && all_finite (normalised_timeseries d) &&
     ok_with (autocorrelation gcc d None None None None "natural" "fractional") (fun r =>
    sames (fst (fst r)) (ints [-2; -1; 0; 1; 2]%Z) &&
    match corr_at (snd (fst r)) 0 1, corr_at (snd (fst r)) 0 3 with
    | Some v, Some w => same v (ndiv (fl 1) (fl 6)) && same w (nneg (ndiv (fl 1) (fl 6))) | _, _ => false end))) as [d [E H]]; [vm_compute; reflexivity|].
  apply andb_prop in H. destruct H as [H H4]. apply andb_prop in H. destruct H as [H H3]. apply andb_prop in H. destruct H as [H1 H2].
  apply increasingb_ok in H1. exists d. split; [left; eauto|]. split; [split; [apply H1|split; apply all_finite_ok; assumption]|]. split; assumption.
Qed.
Print Assumptions C27_symmetric_refuted.

(** ** C28: bounds *)
Theorem C28_grid_bound (p : platform) (d : @dstruct XR) (mi ma re al : option xr) (wgt : string)
  (lags : list xr) (corr : @py_corr XR) (c : @correlator XR) (rows : list (list xr)) (j i : nat) (rs : list R) (t0 dd a : R) (M m : nat) (v w : R) :
  accepted d -> autocorrelation (A := XR) p d mi ma re al "natural" wgt = Ok (lags, corr, c) ->
  data_2d d = Ok rows -> nth_error rows j = Some (map Fin rs) -> nth_error lags i = Some (Fin (INR m * dd)) ->
  timeseries d = map Fin (grid t0 dd M) -> (0 < dd)%R -> opt_or (A := XR) al (median_time d) = Fin a -> (0 < a)%R ->
  Forall single rs -> In v rs -> In w rs -> v <> w ->
  exists r, corr_at corr j i = Some (Fin r) /\ (-1 <= r <= 1)%R.
Proof. exact (grid_bound p d mi ma re al wgt lags corr c rows j i rs t0 dd a M m v w). Qed.
Print Assumptions C28_grid_bound.

(** without any assumption on the times, the lag and the selection: r^2 is at most the number of points *)
Theorem C28_any_bound (p : platform) (d : @dstruct XR) (mi ma re al : option xr) (sel wgt : string)
  (lags : list xr) (corr : @py_corr XR) (c : @correlator XR) (rows : list (list xr)) (j i : nat) (rs ts : list R) (kk a v w : R) :
  accepted d -> autocorrelation (A := XR) p d mi ma re al sel wgt = Ok (lags, corr, c) ->
  data_2d d = Ok rows -> nth_error rows j = Some (map Fin rs) -> nth_error lags i = Some (Fin kk) ->
  timeseries d = map Fin ts -> opt_or (A := XR) al (median_time d) = Fin a -> (0 < a)%R ->
  Forall single rs -> In v rs -> In w rs -> v <> w ->
  exists r, corr_at corr j i = Some (Fin r) /\ (r * r <= INR (length ts))%R.
Proof. exact (any_bound p d mi ma re al sel wgt lags corr c rows j i rs ts kk a v w). Qed.
Print Assumptions C28_any_bound.

(** 42 evenly spaced points, lag -9: the nine points shifted before the start are all paired with the first,
    and the correlation is above 1.5 *)
Definition steep : list (@num BB) := ints (9 :: repeat 3 8 ++ repeat (-1) 33)%Z.
Theorem C28_negative_lag_refuted : exists d : @dstruct BB,
  SACF_1d (ints (map Z.of_nat (seq 0 42))) steep None = Ok d /\
  ok_with (autocorrelation clang d (Some (fl (-9))) (Some (fl (-9))) (Some (fl 1)) (Some (fl 1000)) "natural" "fractional") (fun r =>
    sames (fst (fst r)) [fl (-9)] && forallb (nlt (half 3)) (concat (rows_of (snd (fst r))))
    && (length (concat (rows_of (snd (fst r)))) =? 1)) = true.
Proof.
  destruct (ok_with_ok (SACF_1d (ints (map Z.of_nat (seq 0 42))) steep None) (fun d =>
    ok_with (autocorrelation clang d (Some (fl (-9))) (Some (fl (-9))) (Some (fl 1)) (Some (fl 1000)) "natural" "fractional") (fun r =>
    sames (fst (fst r)) [fl (-9)] && forallb (nlt (half 3)) (concat (rows_of (snd (fst r))))
    && (length (concat (rows_of (snd (fst r)))) =? 1)))) as [d [E H]]; [vm_compute; reflexivity|].
  exists d. split; [exact E|exact H].
Qed.
Print Assumptions C28_negative_lag_refuted.

(** irregular times: nine points at 0..8, eighteen at 20..37, one at 100; at lag 92 the last point is selected nine times *)
Theorem C28_irregular_refuted : exists d : @dstruct BB,
  SACF_1d (ints (map Z.of_nat (seq 0 9 ++ seq 20 18 ++ [100]))) (ints (repeat 3 9 ++ repeat (-2) 18 ++ [9])%Z) None = Ok d /\
  ok_with (autocorrelation clang d (Some (fl 92)) (Some (fl 92)) (Some (fl 1)) (Some (fl 1000)) "natural" "fractional") (fun r =>
    sames (fst (fst r)) (ints [0; 92]%Z) &&
    match corr_at (snd (fst r)) 0 1 with Some v => nlt (fl 1) v | None => false end) = true.
Proof.
  destruct (ok_with_ok (SACF_1d (ints (map Z.of_nat (seq 0 9 ++ seq 20 18 ++ [100]))) (ints (repeat 3 9 ++ repeat (-2) 18 ++ [9])%Z) None) (fun d =>
    ok_with (autocorrelation clang d (Some (fl 92)) (Some (fl 92)) (Some (fl 1)) (Some (fl 1000)) "natural" "fractional") (fun r =>
    sames (fst (fst r)) (ints [0; 92]%Z) &&
    match corr_at (snd (fst r)) 0 1 with Some v => nlt (fl 1) v | None => false end))) as [d [E H]]; [vm_compute; reflexivity|].
  exists d. split; [exact E|exact H].
Qed.
Print Assumptions C28_irregular_refuted.

(** ** C40, C41: values with the fast selection *)
Theorem C40_fast_negative_value (p : platform) (d : @dstruct XR) (mi ma re al : option xr) (wgt : string)
  (lags : list xr) (corr : @py_corr XR) (c : @correlator XR) (rows : list (list xr)) (j i : nat) (rs ts : list R) (kk a : R) :
  accepted d -> autocorrelation (A := XR) p d mi ma re al "fast" wgt = Ok (lags, corr, c) ->
  data_2d d = Ok rows -> nth_error rows j = Some (map Fin rs) -> nth_error lags i = Some (Fin kk) -> (kk < 0)%R ->
  timeseries d = map Fin ts -> increasing (A := XR) (timeseries d) -> opt_or (A := XR) al (median_time d) = Fin a -> (0 < a)%R ->
  corr_at corr j i = Some (xdiv (Fin (rweight wgt a (dist p (- kk)) * sq_dev rs)%R) (Fin (sq_dev32 rs))).
Proof. exact (fast_negative_value p d mi ma re al wgt lags corr c rows j i rs ts kk a). Qed.
Print Assumptions C40_fast_negative_value.

Theorem C41_fast_zero_value (p : platform) (d : @dstruct XR) (mi ma re al : option xr) (wgt : string)
  (lags : list xr) (corr : @py_corr XR) (c : @correlator XR) (rows : list (list xr)) (j i : nat) (rs ts : list R) (a : R) :
  accepted d -> autocorrelation (A := XR) p d mi ma re al "fast" wgt = Ok (lags, corr, c) ->
  data_2d d = Ok rows -> nth_error rows j = Some (map Fin rs) -> nth_error lags i = Some (Fin 0) ->
  timeseries d = map Fin ts -> increasing (A := XR) (timeseries d) -> opt_or (A := XR) al (median_time d) = Fin a -> (0 < a)%R ->
  corr_at corr j i = Some (xdiv (Fin (sq_dev rs - dev rs (length rs - 1) * dev rs (length rs - 1))%R) (Fin (sq_dev32 rs))).
Proof. exact (fast_zero_value p d mi ma re al wgt lags corr c rows j i rs ts a). Qed.
Print Assumptions C41_fast_zero_value.

(** times 0, 1, 2 and values 1, 2, 6 (x = -2, -1, 3; sum of squares 14): 5/14 at lag 0, and w(|k|) at negative lags *)
Example C40_C41_value_case : ok_with (SACF_1d (ints [0; 1; 2]%Z) (ints [1; 2; 6]%Z) None) (fun d =>
  ok_with (autocorrelation clang d (Some (fl (-1))) (Some (fl 0)) (Some (fl 1)) None "fast" "fractional") (fun r =>
    sames (fst (fst r)) (ints [-1; 0]%Z) &&
    sames (concat (rows_of (snd (fst r)))) [nmul (fl 7) (ndiv (fl 1) (fl 14)); nmul (fl 5) (ndiv (fl 1) (fl 14))])) = true.
Proof. vm_compute. reflexivity. Qed.
