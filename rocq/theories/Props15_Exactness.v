(** Theorems: binary64 against exact arithmetic for time stamps on a binary grid (C66, C67, C68). *)
From Coq Require Import String.
From Coq Require Import ZArith Reals List Bool Arith Lia Lra.
From Flocq Require Import Core BinarySingleNaN.
From Verif Require Import Num Mem MemFacts XR B64 Spec SpecR DataStructure Correlator Sacf Api Examples B64Facts Laws2 AccFacts ExactFacts GridVals FixedFacts AccExact FixedThms ValThms AccThms
  Props01_Construction.
Import ListNotations.
Local Open Scope list_scope.

(** ** C66: times, lags, pairs and offsets are exact

    [d] holds doubles, [e] the same time stamps as real numbers. *)
Theorem C66_exact_lags (exp64 : b64 -> b64) (p : platform) (d : @dstruct (B64 exp64)) (e : @dstruct XR) (g : Z) (mi ma re al : option b64) (al' : option xr)
  (sel wgt : string) :
  (-1073 <= g <= 960)%Z -> accepted d -> accepted e -> timeseries e = map exact_of (timeseries d) ->
  (forall t : b64, In t (timeseries d) -> fixed_point g 50 t) -> 2 <= length (timeseries d) -> ordered (timeseries d) ->
  (forall x, mi = Some x -> fixed_point g 51 x) -> (forall x, ma = Some x -> fixed_point g 51 x) ->
  (forall x, re = Some x -> fixed_point g 51 x /\ (0 <= B2R x)%R) ->
  same_outcome (fun x y => fst y = map exact_of (fst x) /\ forall l : b64, In l (fst x) -> fixed_point g 51 l)
    (visible (autocorrelation (A := B64 exp64) p d mi ma re al sel wgt))
    (visible (autocorrelation (A := XR) p e (option_map exact_of mi) (option_map exact_of ma) (option_map exact_of re) al' sel wgt)).
Proof. exact (fixed_lags exp64 p d e g mi ma re al al' sel wgt). Qed.
Print Assumptions C66_exact_lags.

Theorem C66_exact_pairs (exp64 : b64 -> b64) (p : platform) (d : @dstruct (B64 exp64)) (e : @dstruct XR) (g : Z) (sel : string)
  (f : @cor_it (B64 exp64) -> meth (@cor_it (B64 exp64)) unit) (f' : @cor_it XR -> meth (@cor_it XR) unit) (kk : b64) (n n' : nat) :
  (-1073 <= g <= 960)%Z -> accepted d -> accepted e -> timeseries e = map exact_of (timeseries d) ->
  (forall t : b64, In t (timeseries d) -> fixed_point g 50 t) -> fixed_point g 51 kk ->
  selection_function (A := B64 exp64) p sel d = Some f -> selection_function (A := XR) p sel e = Some f' ->
  same_outcome (fun x y => fst y = fst x /\ snd y = map exact_of (snd x))
    (pairs_by (A := B64 exp64) p d f kk n) (pairs_by (A := XR) p e f' (exact_of kk) n').
Proof. exact (fixed_pairs exp64 p d e g sel f f' kk n n'). Qed.
Print Assumptions C66_exact_pairs.

Theorem C66_exact_median (exp64 : b64 -> b64) (d : @dstruct (B64 exp64)) (e : @dstruct XR) (g : Z) :
  (-1073 <= g <= 960)%Z -> accepted d -> accepted e -> timeseries e = map exact_of (timeseries d) ->
  (forall t : b64, In t (timeseries d) -> fixed_point g 50 t) ->
  is_finite (median_time d : b64) = true /\ median_time e = Fin (B2R (median_time d : b64)).
Proof. exact (fixed_median exp64 d e g). Qed.
Print Assumptions C66_exact_median.

Lemma small_fixed z : (Z.abs z <= 2 ^ 50)%Z -> fixed_point 0 50 (b64_ofZ z).
Proof.
  intros H. destruct (E_fin _ _ (toE_ofZ_small z ltac:(change (2 ^ 50)%Z with 1125899906842624%Z in H; lia))) as [F E]. split; [exact F|].
  exists z. split; [exact H|]. rewrite E. cbn. lra.
Qed.
Lemma exact_ofZ z : (Z.abs z <= 2 ^ 50)%Z -> exact_of (b64_ofZ z) = Fin (IZR z).
Proof. intros H. rewrite exact_toE. apply toE_ofZ_small. change (2 ^ 50)%Z with 1125899906842624%Z in H. lia. Qed.

(** times 0, 1, 2 as doubles and as real numbers *)
Example C66_case : exists d, SACF_1d (ints [0; 1; 2]%Z) (ints [1; 2; 4]%Z) None = Ok d /\ accepted exact_ds /\
  timeseries exact_ds = map exact_of (timeseries d) /\ (forall t : b64, In t (timeseries d) -> fixed_point 0 50 t) /\
  2 <= length (timeseries d) /\ ordered (timeseries d) /\ data_2d d = Ok [ints [1; 2; 4]%Z] /\
  data_2d exact_ds = Ok [map exact_of (ints [1; 2; 4]%Z)].
Proof.
  destruct (ok_with_ok (SACF_1d (ints [0; 1; 2]%Z) (ints [1; 2; 4]%Z) None)
    (fun d => sames (ints [0; 1; 2]%Z) (timeseries d) && (ok_with (data_2d d) (fun r => sames2 [ints [1; 2; 4]%Z] r)))) as [d [E H]]; [vm_compute; reflexivity|].
  apply andb_prop in H. destruct H as [H1 H2]. apply sames_eq in H1. destruct (ok_with_ok (data_2d d) _ H2) as [r [Er H3]]. apply sames2_eq in H3.
  destruct exact_ds_ok as [Ha [Ht Hd]].
  exists d. split; [exact E|]. split; [exact Ha|]. rewrite <- H1. split.
  { rewrite Ht. unfold ints, grid. rewrite !map_map. cbn [map seq]. rewrite !exact_ofZ by (cbn; lia). cbn [INR]. repeat f_equal; lra. }
  split; [|split; [cbn; lia|split; [|split]]].
  - intros t Hin. unfold ints in Hin. apply in_map_iff in Hin. destruct Hin as [z [<- Hz]]. apply small_fixed. repeat (destruct Hz as [<-|Hz]; [cbn; lia|]). destruct Hz.
  - apply orderedb_ok. vm_compute. reflexivity.
  - rewrite Er. f_equal. symmetry. exact H3.
  - rewrite Hd. unfold ints. rewrite map_map. cbn [map]. rewrite !exact_ofZ by (cbn; lia). reflexivity.
Qed.

(** ** C67: binary64 correlations against the exact ones

    [a] is the alpha in force, [B = 2^b] a bound of the values of the row, [N] the exact normalisation, [K = n B^2 / N] its condition,
    [om] the error of the weights (C53). *)
Theorem C67_distance_to_exact (exp64 : b64 -> b64) (p : platform) (d : @dstruct (B64 exp64)) (e : @dstruct XR) (g : Z) (mi ma re al : option b64)
  (sel wgt : string) (lags : list b64) (corr : @py_corr (B64 exp64)) (c : @correlator (B64 exp64)) (rows : list (list b64)) (rows' : list (list xr)) :
  (-1073 <= g <= 960)%Z -> accepted d -> accepted e -> timeseries e = map exact_of (timeseries d) ->
  (forall t : b64, In t (timeseries d) -> fixed_point g 50 t) -> 2 <= length (timeseries d) -> ordered (timeseries d) ->
  (forall x, mi = Some x -> fixed_point g 51 x) -> (forall x, ma = Some x -> fixed_point g 51 x) ->
  (forall x, re = Some x -> fixed_point g 51 x /\ (0 <= B2R x)%R) ->
  autocorrelation (A := B64 exp64) p d mi ma re al sel wgt = Ok (lags, corr, c) ->
  data_2d d = Ok rows -> data_2d e = Ok rows' ->
  let a : b64 := opt_or (A := B64 exp64) al (median_time d) in
  is_finite a = true -> (0 < B2R a)%R -> proper_alpha (A := B64 exp64) wgt a ->
  finite (A := B64 exp64) (if String.eqb wgt "gaussian" then nmul (nmul (nofZ 2) a) a else a) ->
  exists corr' c',
    autocorrelation (A := XR) p e (option_map exact_of mi) (option_map exact_of ma) (option_map exact_of re) (option_map exact_of al) sel wgt
      = Ok (map exact_of lags, corr', c') /\
    forall (j j' : nat) (row : list b64) (b : Z) (om : R) (i : nat),
      nth_error rows j = Some row -> nth_error rows' j' = Some (map exact_of row) -> i < length lags ->
      weight_error exp64 wgt (B2R a) om ->
      (-149 <= b <= 100)%Z -> (forall x : b64, In x row -> is_finite x = true /\ (Rabs (B2R x) <= bpow radix2 b)%R) ->
      let n := INR (length row) in
      let N := sq_dev32 (map B2R row) in
      let K := (n * (bpow radix2 b * bpow radix2 b) / N)%R in
      (bpow radix2 (-700) <= N)%R -> ((n + 1) * K <= bpow radix2 48)%R ->
      exists (v : b64) (v' : R), corr_at corr j i = Some v /\ corr_at corr' j' i = Some (Fin v') /\ is_finite v = true /\
        (Rabs (B2R v - v') <= 50 * (n + 10) * bpow radix2 (-53) * (K * K + K) + 5 * om * K + bpow radix2 (-110))%R.
Proof. exact (fixed_value exp64 p d e g mi ma re al sel wgt lags corr c rows rows'). Qed.
Print Assumptions C67_distance_to_exact.

(** the values 1, 2, 4 at the times of [C66_case] *)
Example C67_case :
  let row := ints [1; 2; 4]%Z in
  (forall x : b64, In x row -> is_finite x = true /\ (Rabs (B2R x) <= bpow radix2 2)%R) /\
  sq_dev32 (map B2R row) = (14 / 3)%R /\ (bpow radix2 (-700) <= 14 / 3)%R /\
  ((INR (length row) + 1) * (INR (length row) * (bpow radix2 2 * bpow radix2 2) / (14 / 3)) <= bpow radix2 48)%R /\
  weight_error (fun x => x) "fractional" 1 (7 * bpow radix2 (-53)) /\ proper_alpha (A := BB) "fractional" (fl 1) /\ finite (A := BB) (fl 1) /\
  ok_with (SACF_1d (ints [0; 1; 2]%Z) row None) (fun d => ok_with (autocorrelation clang d None None None None "natural" "fractional") (fun _ => true) && same (median_time d) (fl 1)) = true.
Proof.
  intros row.
  assert (G : forall z, (Z.abs z <= 4)%Z -> is_finite (b64_ofZ z) = true /\ B2R (b64_ofZ z) = IZR z) by (intros z Hz; apply (E_fin _ _ (toE_ofZ_small z ltac:(lia)))).
  split; [|split; [|split; [|split; [|split; [|split; [|split]]]]]].
  - intros x Hx. unfold row, ints in Hx. apply in_map_iff in Hx. destruct Hx as [z [<- Hz]].
    assert (Hz4 : (Z.abs z <= 4)%Z) by (repeat (destruct Hz as [<-|Hz]; [cbn; lia|]); destruct Hz).
    destruct (G z Hz4) as [F ->]. split; [exact F|]. rewrite <- abs_IZR. change (bpow radix2 2) with 4%R. apply IZR_le. exact Hz4.
  - unfold row, ints. rewrite map_map. cbn [map]. rewrite !(fun z H => proj2 (G z H)) by (cbn; lia). unfold sq_dev32. cbn [map].
    rewrite !f32R_IZR by (cbn; lia). unfold rmean, rsum. cbn [fold_right length INR]. field.
  - apply Rle_trans with 1%R; [|lra]. change 1%R with (bpow radix2 0). apply bpow_le. lia.
  - change (bpow radix2 48) with (IZR (2 ^ 48)). change (bpow radix2 2) with 4%R. cbn [length row ints map INR Z.pow Z.pow_pos Pos.iter Z.mul Pos.mul]. lra.
  - left. split; [left; reflexivity|reflexivity].
  - left. split; [left; reflexivity|vm_compute; reflexivity].
  - vm_compute. discriminate.
  - vm_compute. reflexivity.
Qed.

(** ** C68: evenly sampled data in binary64, all settings at their defaults: the classical estimator, up to rounding *)
Theorem C68_even_sampling (exp64 : b64 -> b64) (p : platform) (d : @dstruct (B64 exp64)) (wgt : string) (g : Z) (t0 dd : R) (M : nat) (rows : list (list b64)) :
  (-1073 <= g <= 960)%Z -> accepted d -> (forall t : b64, In t (timeseries d) -> fixed_point g 50 t) -> map B2R (timeseries d) = grid t0 dd M ->
  2 <= M -> (0 < dd)%R -> (2 * Z.of_nat M + 1 <= INT_MAX)%Z -> p_checked p = false -> known_weight wgt ->
  (p_abs p = AbsInt -> (2 * (INR (M - 1) * dd) <= IZR INT_MAX)%R) -> data_2d d = Ok rows ->
  exists (lags : list b64) corr c,
    autocorrelation (A := B64 exp64) p d None None None None "natural" wgt = Ok (lags, corr, c) /\
    (forall x, In x lags -> is_finite x = true) /\ map B2R lags = map (fun i => ((INR i - INR (M - 1)) * dd)%R) (seq 0 (2 * M - 1)) /\
    let a : b64 := median_time d in
    is_finite a = true /\ B2R a = (INR (M - 1) / 2 * dd)%R /\
    (proper_alpha (A := B64 exp64) wgt a ->
     finite (A := B64 exp64) (if String.eqb wgt "gaussian" then nmul (nmul (nofZ 2) a) a else a) ->
     forall (j : nat) (row : list b64) (b : Z) (om : R), nth_error rows j = Some row -> weight_error exp64 wgt (B2R a) om ->
      (-149 <= b <= 100)%Z -> (forall x : b64, In x row -> is_finite x = true /\ (Rabs (B2R x) <= bpow radix2 b)%R) ->
      let rs := map B2R row in
      let n := INR M in
      let N := sq_dev32 rs in
      let K := (n * (bpow radix2 b * bpow radix2 b) / N)%R in
      (bpow radix2 (-700) <= N)%R -> ((n + 1) * K <= bpow radix2 48)%R ->
      let err := (50 * (n + 10) * bpow radix2 (-53) * (K * K + K) + 5 * om * K + bpow radix2 (-110))%R in
      let r := fun m => rsum_n (M - m) (fun q => (dev rs q * dev rs (q + m))%R) in
      forall m, m < M -> exists v v' : b64,
        corr_at corr j (M - 1 + m) = Some v /\ is_finite v = true /\ (Rabs (B2R v - r m / N) <= err)%R /\
        corr_at corr j (M - 1 - m) = Some v' /\ is_finite v' = true /\
        (Rabs (B2R v' - (r m + dev rs 0 * rsum_n m (fun q => rweight wgt (B2R a) (dist p (INR (m - q) * dd)) * dev rs q)) / N) <= err)%R).
Proof. exact (grid64 exp64 p d wgt g t0 dd M rows). Qed.
Print Assumptions C68_even_sampling.

(** the dataset of [C66_case] and [C67_case] is such a grid; with its values, [r 1 / N] is (-1/9) / (14/3) = -1/42 and what is returned at lag 1 is the double next to it *)
Example C68_case : map B2R (ints [0; 1; 2]%Z) = grid 0 1 3 /\
  ((-4/3) * (-1/3) + (-1/3) * (5/3))%R = (-1/9)%R /\
  ok_with (SACF_1d (ints [0; 1; 2]%Z) (ints [1; 2; 4]%Z) None) (fun d => ok_with (autocorrelation clang d None None None None "natural" "fractional") (fun r =>
    sames (fst (fst r)) (ints [-2; -1; 0; 1; 2]%Z) &&
    match corr_at (snd (fst r)) 0 3 with
    | Some v => nlt (nmul (fl 42) (nadd v (ndiv (fl 1) (fl 42)))) (ndiv (fl 1) (nofZ (2 ^ 50))) && nlt (ndiv (fl (-1)) (nofZ (2 ^ 50))) (nmul (fl 42) (nadd v (ndiv (fl 1) (fl 42))))
    | None => false end)) = true.
Proof.
  split; [|split; [lra|vm_compute; reflexivity]].
  unfold ints, grid. rewrite map_map. cbn [map seq INR].
  rewrite !(fun z H => proj2 (E_fin _ _ (toE_ofZ_small z H))) by (cbn; lia). repeat f_equal; lra.
Qed.
