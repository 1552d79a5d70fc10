(** Theorems: binary64 with any time stamps, against exact arithmetic (C107). *)
From Coq Require Import String.
From Coq Require Import ZArith Reals List Bool Arith Lia Lra.
From Flocq Require Import Core BinarySingleNaN.
From Verif Require Import Num Mem XR B64 Spec SpecR SpecTime DataStructure Correlator Sacf Api Examples B64Facts FixedFacts AccExact TimeJump AnyTimes AnyTimesVal Props15_Exactness.
Import ListNotations.
Local Open Scope list_scope.

(** ** Natural selection: nearest up to the rounding of the times

    [er] bounds what rounding does to the differences between shifted times and times. *)
Theorem C107_nearest (exp64 : b64 -> b64) (p : platform) (d : @dstruct (B64 exp64)) (kk : b64) (n : nat) (s : list nat) (os : list b64) :
  accepted d -> times_ok (A := B64 exp64) d -> is_finite kk = true -> p_abs p = AbsFloat ->
  let ts := map B2R (timeseries d) in
  let M := length ts in
  let T := (nth (M - 1) ts 0 - nth 0 ts 0)%R in
  let er := (bpow radix2 (-53) * (5 * T + 3 * Rabs (B2R kk)))%R in
  (T <= bpow radix2 1021)%R -> (Rabs (B2R kk) <= bpow radix2 1021)%R ->
  pairs_by (A := B64 exp64) p d (naturalSelectionFunctionIdx (A := B64 exp64) p d) kk n = Ok (s, os) ->
  length s <= M /\ length os = length s /\
  (forall q, q < M -> (q < length s -> (- er <= gap ts (B2R kk) q (M - 1))%R) /\ (length s <= q -> (gap ts (B2R kk) q (M - 1) <= er)%R)) /\
  (forall q, q < length s -> nth q s 0 < M /\ is_finite (nth q os (b64_ofZ 0)) = true /\ (0 <= B2R (nth q os (b64_ofZ 0)))%R /\
     (Rabs (B2R (nth q os (b64_ofZ 0)) - Rabs (gap ts (B2R kk) q (nth q s 0%nat))) <= er)%R /\
     forall z, z < M -> (Rabs (gap ts (B2R kk) q (nth q s 0%nat)) <= Rabs (gap ts (B2R kk) q z) + 2 * er)%R).
Proof. intros Ha Hok Fk Hp ts M T er HT HK. exact (natural_real exp64 d kk Ha Hok Fk HT HK p n s os Hp). Qed.
Print Assumptions C107_nearest.

(** ** The correlations, where no choice is a close call

    [d] holds doubles, [e] the same time stamps and values as real numbers; the two calls have one lag in common. *)
Theorem C107_value (exp64 : b64 -> b64) (p : platform) (d : @dstruct (B64 exp64)) (e : @dstruct XR) (mi ma re al : option b64) (mi' ma' re' al' : option xr)
  (wgt : string) (lags : list b64) (lags' : list xr) (corr : @py_corr (B64 exp64)) (corr' : @py_corr XR) (c : @correlator (B64 exp64)) (c' : @correlator XR)
  (rows : list (list b64)) (rows' : list (list xr)) (j j' i i' : nat) (row : list b64) (kk : b64) (b : Z) (om : R) :
  accepted d -> times_ok (A := B64 exp64) d -> accepted e -> timeseries e = map exact_of (timeseries d) -> p_abs p = AbsFloat ->
  autocorrelation (A := B64 exp64) p d mi ma re al "natural" wgt = Ok (lags, corr, c) ->
  autocorrelation (A := XR) p e mi' ma' re' al' "natural" wgt = Ok (lags', corr', c') ->
  data_2d d = Ok rows -> data_2d e = Ok rows' -> nth_error rows j = Some row -> nth_error rows' j' = Some (map exact_of row) ->
  nth_error lags i = Some kk -> nth_error lags' i' = Some (exact_of kk) -> is_finite kk = true ->
  let ts := map B2R (timeseries d) in
  let T := (nth (length ts - 1) ts 0 - nth 0 ts 0)%R in
  let er := (bpow radix2 (-53) * (5 * T + 3 * Rabs (B2R kk)))%R in
  (T <= bpow radix2 1021)%R -> (Rabs (B2R kk) <= bpow radix2 1021)%R -> clear_choice ts (B2R kk) er -> (B2R kk <= 0 \/ er < B2R kk)%R ->
  let a : b64 := opt_or (A := B64 exp64) al (median_time d) in
  is_finite a = true -> (0 < B2R a)%R -> opt_or (A := XR) al' (median_time e) = exact_of a ->
  proper_alpha (A := B64 exp64) wgt a ->
  finite (A := B64 exp64) (if String.eqb wgt "gaussian" then nmul (nmul (nofZ 2) a) a else a) ->
  weight_error exp64 wgt (B2R a) om ->
  (-149 <= b <= 100)%Z -> (forall x : b64, In x row -> is_finite x = true /\ (Rabs (B2R x) <= bpow radix2 b)%R) ->
  let n := INR (length row) in
  let N := sq_dev32 (map B2R row) in
  let K := (n * (bpow radix2 b * bpow radix2 b) / N)%R in
  (bpow radix2 (-700) <= N)%R -> ((n + 1) * K <= bpow radix2 48)%R ->
  exists (s : list nat) (os : list b64) (os' : list R) (v : b64) (v' : R),
    pairs_by (A := B64 exp64) p d (naturalSelectionFunctionIdx (A := B64 exp64) p d) kk (length rows) = Ok (s, os) /\
    pairs_by (A := XR) p e (naturalSelectionFunctionIdx (A := XR) p e) (exact_of kk) (length rows') = Ok (s, map Fin os') /\
    (forall q, q < length s -> is_finite (nth q os (b64_ofZ 0)) = true /\ (Rabs (B2R (nth q os (b64_ofZ 0)) - nth q os' 0) <= er)%R) /\
    corr_at corr j i = Some v /\ corr_at corr' j' i' = Some (Fin v') /\ is_finite v = true /\
    (Rabs (B2R v - v') <= 50 * (n + 10) * bpow radix2 (-53) * (K * K + K) + 5 * (om + er / B2R a) * K + bpow radix2 (-110))%R.
Proof.
  exact (any_value exp64 p d e mi ma re al mi' ma' re' al' wgt lags lags' corr corr' c c' rows rows' j j' i i' row kk b om).
Qed.
Print Assumptions C107_value.

(** the values 1, 2, 4 at the times 0, 6/5 (rounded), 2; lag 3/2, alpha 1 *)
Definition six_fifths : b64 := Bdiv mode_NE (b64_ofZ 6) (b64_ofZ 5).
Lemma six_fifths_val : is_finite six_fifths = true /\ B2R six_fifths = (5404319552844595 / 4503599627370496)%R.
Proof.
  split; [vm_compute; reflexivity|]. rewrite <- SF2R_B2SF. assert (E : B2SF six_fifths = SpecFloat.S754_finite false 5404319552844595%positive (-52)%Z) by (vm_compute; reflexivity).
  rewrite E. unfold SF2R, F2R. cbn [cond_Zopp Fnum Fexp bpow]. change (Z.pow_pos radix2 52) with 4503599627370496%Z. unfold Rdiv. reflexivity.
Qed.
Lemma three_halves_val : is_finite (half 3 : b64) = true /\ B2R (half 3 : b64) = (3 / 2)%R.
Proof.
  split; [vm_compute; reflexivity|]. rewrite <- SF2R_B2SF. assert (E : B2SF (half 3 : b64) = SpecFloat.S754_finite false 6755399441055744%positive (-52)%Z) by (vm_compute; reflexivity).
  rewrite E. unfold SF2R, F2R. cbn [cond_Zopp Fnum Fexp bpow]. change (Z.pow_pos radix2 52) with 4503599627370496%Z. lra.
Qed.

Example C107_case : exists (d : @dstruct BB) (e : @dstruct XR) lags corr c lags' corr' c',
  SACF_1d (A := BB) [fl 0; six_fifths; fl 2] (ints [1; 2; 4]%Z) None = Ok d /\
  accepted d /\ times_ok (A := BB) d /\ accepted e /\ timeseries e = map exact_of (timeseries d) /\
  autocorrelation (A := BB) clang d (Some (half 3)) (Some (half 3)) (Some (fl 1)) (Some (fl 1)) "natural" "fractional" = Ok (lags, corr, c) /\
  autocorrelation (A := XR) clang e (Some (Fin (3/2))) (Some (Fin (3/2))) (Some (Fin 1)) (Some (Fin 1)) "natural" "fractional" = Ok (lags', corr', c') /\
  data_2d d = Ok [ints [1; 2; 4]%Z] /\ data_2d e = Ok [map exact_of (ints [1; 2; 4]%Z)] /\
  nth_error lags 1 = Some (half 3) /\ nth_error lags' 1 = Some (exact_of (half 3)) /\ is_finite (half 3 : b64) = true /\
  let ts := map B2R (timeseries d) in
  let T := (nth (length ts - 1) ts 0 - nth 0 ts 0)%R in
  let er := (bpow radix2 (-53) * (5 * T + 3 * Rabs (B2R (half 3 : b64))))%R in
  (T <= bpow radix2 1021)%R /\ (Rabs (B2R (half 3 : b64)) <= bpow radix2 1021)%R /\ clear_choice ts (B2R (half 3 : b64)) er /\ (er < B2R (half 3 : b64))%R.
Proof.
  destruct (ok_with_ok (SACF_1d (A := BB) [fl 0; six_fifths; fl 2] (ints [1; 2; 4]%Z) None)
    (fun d => sames [fl 0; six_fifths; fl 2] (timeseries d) && (ok_with (data_2d d) (fun r => sames2 [ints [1; 2; 4]%Z] r)) &&
      sames [fl 0; six_fifths; fl 2] (normalised_timeseries d) &&
      ok_with (autocorrelation clang d (Some (half 3)) (Some (half 3)) (Some (fl 1)) (Some (fl 1)) "natural" "fractional") (fun r => sames [fl 0; half 3] (fst (fst r))))) as [d [E H]]; [vm_compute; reflexivity|].
  apply andb_prop in H. destruct H as [H H4]. apply andb_prop in H. destruct H as [H H3]. apply andb_prop in H. destruct H as [H1 H2].
  apply sames_eq in H1. apply sames_eq in H3. destruct (ok_with_ok (data_2d d) _ H2) as [r [Er H2']]. apply sames2_eq in H2'. subst r.
  destruct (ok_with_ok _ _ H4) as [[[lags corr] c] [Ec H5]]. cbn [fst] in H5. apply sames_eq in H5. subst lags.
  destruct six_fifths_val as [F6 V6]. destruct three_halves_val as [F3 V3].
  assert (Z0 : B2R (fl 0 : b64) = 0%R) by reflexivity.
  assert (Z2 : B2R (fl 2 : b64) = 2%R).
  { pose proof (exact_ofZ 2 ltac:(cbn; lia)) as Q. rewrite exact_toE, toE_finite in Q by reflexivity. injection Q as Q. exact Q. }
  assert (X0 : exact_of (fl 0 : b64) = Fin 0) by (apply exact_ofZ; cbn; lia).
  assert (X2 : exact_of (fl 2 : b64) = Fin 2) by (apply exact_ofZ; cbn; lia).
  assert (X6 : exact_of six_fifths = Fin (B2R six_fifths)) by (rewrite exact_toE; apply toE_finite; exact F6).
  assert (X3 : exact_of (half 3 : b64) = Fin (3/2)) by (rewrite exact_toE, <- V3; apply toE_finite; exact F3).
  destruct (jump_built (B2R six_fifths) clang "fractional") as (e & corr' & c' & Ee & Hae & Hoe & Hte & Hde & Ece); [rewrite V6; lra|reflexivity|reflexivity|left; reflexivity|].
  exists d, e, [fl 0; half 3], corr, c, (map Fin [0; 3/2]%R), corr', c'.
  split; [exact E|]. split; [left; eauto|]. split.
  { split; [|split].
    - rewrite <- H1. apply orderedb_ok. vm_compute. reflexivity.
    - rewrite <- H1. intros x [<-|[<-|[<-|[]]]]; vm_compute; discriminate.
    - rewrite <- H3. intros x [<-|[<-|[<-|[]]]]; vm_compute; discriminate. }
  split; [exact Hae|]. rewrite <- H1. split.
  { rewrite Hte. cbn [map]. rewrite X0, X2, X6. reflexivity. }
  split; [exact Ec|]. split; [exact Ece|]. split; [exact Er|]. split.
  { rewrite Hde. unfold ints. rewrite map_map. cbn [map]. rewrite !exact_ofZ by (cbn; lia). reflexivity. }
  split; [reflexivity|]. split; [rewrite X3; reflexivity|]. split; [exact F3|].
  cbn [map]. rewrite Z0, Z2, V6, V3. cbn [length nth Nat.sub]. cbv zeta.
  rewrite (Rabs_right (3/2)) by lra. change (bpow radix2 (-53)) with (/ 9007199254740992)%R.
  assert (B : (4 <= bpow radix2 1021)%R) by (change 4%R with (bpow radix2 2); apply bpow_le; lia).
  split; [lra|]. split; [lra|]. split; [|lra]. split.
  - intros [|[|q]] Hq; cbn [length] in Hq; try lia; unfold gap; cbn [nth length Nat.sub]; unfold Rabs; destruct Rcase_abs; lra.
  - intros [|[|[|q]]] Hq H; cbn [length] in Hq; try lia; unfold gap in H; cbn [nth length Nat.sub] in H; try lra.
    exists 1%nat. split; [cbn; lia|]. intros [|[|[|x]]] Hx Hn; cbn [length] in Hx; try lia; unfold gap; cbn [nth]; unfold Rabs; repeat destruct Rcase_abs; lra.
Qed.

(** ** Not in general: evenly spaced times written in decimals are not evenly spaced doubles

    The times 0, 0.1, 0.2, 0.3 and default settings: 8 lags instead of 7, one of them -2^-54 besides 0, and at the lag 0.1 two pairs instead of three. *)
Definition tenths (z : Z) : b64 := Bdiv mode_NE (b64_ofZ z) (b64_ofZ 10).
Theorem C107_decimal_refuted : exists (d : @dstruct BB) lags corr c os,
  SACF_1d (A := BB) (map tenths [0; 1; 2; 3]%Z) (ints [1; 2; 4; 8]%Z) None = Ok d /\ times_ok (A := BB) d /\
  autocorrelation (A := BB) clang d None None None None "natural" "fractional" = Ok (lags, corr, c) /\
  length lags = 8 /\ nth_error lags 3 = Some (Bopp (Bldexp mode_NE (b64_ofZ 1) (-54)%Z)) /\ nth_error lags 4 = Some (fl 0) /\
  pairs_by (A := BB) clang d (naturalSelectionFunctionIdx (A := BB) clang d) (tenths 1) 1 = Ok ([1; 2], os).
Proof.
  destruct (ok_with_ok (SACF_1d (A := BB) (map tenths [0; 1; 2; 3]%Z) (ints [1; 2; 4; 8]%Z) None)
    (fun d => orderedb (timeseries d) && forallb (fun x : b64 => is_finite x) (timeseries d) && forallb (fun x : b64 => is_finite x) (normalised_timeseries d) &&
      ok_with (autocorrelation clang d None None None None "natural" "fractional")
        (fun r => Nat.eqb (length (fst (fst r))) 8 && match nth_error (fst (fst r)) 3 with Some x => same x (Bopp (Bldexp mode_NE (b64_ofZ 1) (-54)%Z)) | None => false end
                  && match nth_error (fst (fst r)) 4 with Some x => same x (fl 0) | None => false end) &&
      ok_with (pairs_by clang d (naturalSelectionFunctionIdx clang d) (tenths 1) 1) (fun r => all2 Nat.eqb (fst r) [1; 2]))) as [d [E H]]; [vm_compute; reflexivity|].
  apply andb_prop in H. destruct H as [H H5]. apply andb_prop in H. destruct H as [H H4]. apply andb_prop in H. destruct H as [H H3]. apply andb_prop in H. destruct H as [H1 H2].
  destruct (ok_with_ok _ _ H4) as [[[lags corr] c] [Ec H6]]. cbn [fst] in H6. apply andb_prop in H6. destruct H6 as [H6 H8]. apply andb_prop in H6. destruct H6 as [H6 H7].
  destruct (ok_with_ok _ _ H5) as [[s os] [Ep H9]]. cbn [fst] in H9. apply (all2_eq Nat.eqb (fun x y => proj1 (Nat.eqb_eq x y))) in H9. subst s.
  assert (FF : forall x : b64, is_finite x = true -> finite (A := BB) x) by (intros [sg|sg| |sg m e h] F; try discriminate F; cbn; discriminate).
  exists d, lags, corr, c, os. split; [exact E|]. split.
  { split; [apply orderedb_ok; exact H1|]. rewrite forallb_forall in H2, H3. split; intros x Hx; apply FF; auto. }
  split; [exact Ec|]. split; [apply Nat.eqb_eq; exact H6|].
  split; [destruct (nth_error lags 3); [rewrite (same_eq _ _ H7); reflexivity|discriminate H7]|].
  split; [destruct (nth_error lags 4); [rewrite (same_eq _ _ H8); reflexivity|discriminate H8]|]. exact Ep.
Qed.
Print Assumptions C107_decimal_refuted.
