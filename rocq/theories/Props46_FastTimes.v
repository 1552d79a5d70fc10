(** Theorems: the fast selection in binary64 with any time stamps, against exact arithmetic (C115). *)
From Coq Require Import String.
From Coq Require Import ZArith Reals List Bool Arith Lia Lra.
From Flocq Require Import Core BinarySingleNaN.
From Verif Require Import Num Mem XR B64 Spec SpecR SpecTime SpecFast DataStructure Correlator Sacf Api Examples B64Facts FixedFacts AccExact FastExample AnyTimes AnyTimesVal AnyTimesFast Props15_Exactness Props38_AnyTimes.
Import ListNotations.
Local Open Scope list_scope.

(** ** The pairs, where no comparison is a close call

    [er] bounds what rounding does to the differences between shifted times and times. *)
Theorem C115_pairs (exp64 : b64 -> b64) (p : platform) (d : @dstruct (B64 exp64)) (kk : b64) (n : nat) (s : list nat) (os : list b64) :
  accepted d -> times_ok (A := B64 exp64) d -> is_finite kk = true -> p_abs p = AbsFloat ->
  let ts := map B2R (timeseries d) in
  let T := (nth (length ts - 1) ts 0 - nth 0 ts 0)%R in
  let er := (bpow radix2 (-53) * (5 * T + 3 * Rabs (B2R kk)))%R in
  (T <= bpow radix2 1021)%R -> (Rabs (B2R kk) <= bpow radix2 1021)%R -> clear_fast ts (B2R kk) er -> (0 <= B2R kk \/ B2R kk < - er)%R ->
  pairs_by (A := B64 exp64) p d (fastSelectionFunctionIdx (A := B64 exp64) p d) kk n = Ok (s, os) ->
  s = map (fast_partner ts (B2R kk)) (seq 0 (kept ts (B2R kk))) /\ length os = length s /\
  (forall q, q < length s -> is_finite (nth q os (b64_ofZ 0)) = true /\ (0 <= B2R (nth q os (b64_ofZ 0)))%R /\
     (Rabs (B2R (nth q os (b64_ofZ 0)) - Rabs (gap ts (B2R kk) q (nth q s 0%nat))) <= er)%R).
Proof.
  intros Ha Hok Fk Hp ts T er HT HK HC HS HP. destruct (fast_64 exp64 d kk Ha Hok Fk HT HK HC HS p n s os Hp HP) as [H1 [H2 [_ H3]]].
  split; [exact H1|]. split; [exact H2|]. intros q Hq. exact (proj2 (H3 q Hq)).
Qed.
Print Assumptions C115_pairs.

(** ** The correlations

    [d] holds doubles, [e] the same time stamps and values as real numbers; the two calls have one lag in common. *)
Theorem C115_value (exp64 : b64 -> b64) (p : platform) (d : @dstruct (B64 exp64)) (e : @dstruct XR) (mi ma re al : option b64) (mi' ma' re' al' : option xr)
  (wgt : string) (lags : list b64) (lags' : list xr) (corr : @py_corr (B64 exp64)) (corr' : @py_corr XR) (c : @correlator (B64 exp64)) (c' : @correlator XR)
  (rows : list (list b64)) (rows' : list (list xr)) (j j' i i' : nat) (row : list b64) (kk : b64) (b : Z) (om : R) :
  accepted d -> times_ok (A := B64 exp64) d -> accepted e -> timeseries e = map exact_of (timeseries d) -> p_abs p = AbsFloat ->
  autocorrelation (A := B64 exp64) p d mi ma re al "fast" wgt = Ok (lags, corr, c) ->
  autocorrelation (A := XR) p e mi' ma' re' al' "fast" wgt = Ok (lags', corr', c') ->
  data_2d d = Ok rows -> data_2d e = Ok rows' -> nth_error rows j = Some row -> nth_error rows' j' = Some (map exact_of row) ->
  nth_error lags i = Some kk -> nth_error lags' i' = Some (exact_of kk) -> is_finite kk = true ->
  let ts := map B2R (timeseries d) in
  let T := (nth (length ts - 1) ts 0 - nth 0 ts 0)%R in
  let er := (bpow radix2 (-53) * (5 * T + 3 * Rabs (B2R kk)))%R in
  (T <= bpow radix2 1021)%R -> (Rabs (B2R kk) <= bpow radix2 1021)%R -> clear_fast ts (B2R kk) er -> (0 <= B2R kk \/ B2R kk < - er)%R ->
  let a : b64 := opt_or (A := B64 exp64) al (median_time d) in
  is_finite a = true -> (0 < B2R a)%R -> opt_or (A := XR) al' (median_time e) = exact_of a ->
  proper_alpha (A := B64 exp64) wgt a ->
  finite (A := B64 exp64) (if String.eqb wgt "gaussian" then nmul (nmul (nofZ 2) a) a else a) ->
  weight_error exp64 wgt (B2R a) om ->
  (-149 <= b <= 100)%Z -> (forall x : b64, In x row -> is_finite x = true /\ (Rabs (B2R x) <= bpow radix2 b)%R) ->
  let n := INR (length row) in
  let N := sq_dev32 (map B2R row) in
  let K := (n * (bpow radix2 b * bpow radix2 b) / N)%R in
  (bpow radix2 (-700) <= N)%R -> ((n + 1) * K <= bpow radix2 48)%R ->
  exists (s : list nat) (os : list b64) (os' : list R) (v : b64) (v' : R),
    pairs_by (A := B64 exp64) p d (fastSelectionFunctionIdx (A := B64 exp64) p d) kk (length rows) = Ok (s, os) /\
    pairs_by (A := XR) p e (fastSelectionFunctionIdx (A := XR) p e) (exact_of kk) (length rows') = Ok (s, map Fin os') /\
    (forall q, q < length s -> is_finite (nth q os (b64_ofZ 0)) = true /\ (Rabs (B2R (nth q os (b64_ofZ 0)) - nth q os' 0) <= er)%R) /\
    corr_at corr j i = Some v /\ corr_at corr' j' i' = Some (Fin v') /\ is_finite v = true /\
    (Rabs (B2R v - v') <= 50 * (n + 10) * bpow radix2 (-53) * (K * K + K) + 5 * (om + er / B2R a) * K + bpow radix2 (-110))%R.
Proof.
  exact (any_value_fast exp64 p d e mi ma re al mi' ma' re' al' wgt lags lags' corr corr' c c' rows rows' j j' i i' row kk b om).
Qed.
Print Assumptions C115_value.

(** the values 1, 2, 4 at the times 0, 1, 18/5 (rounded); lag 1/2, alpha 1: the first two are kept and exchanged *)
Definition fifths18 : b64 := Bdiv mode_NE (b64_ofZ 18) (b64_ofZ 5).
Lemma fifths18_val : is_finite fifths18 = true /\ B2R fifths18 = (8106479329266893 / 2251799813685248)%R.
Proof.
  split; [vm_compute; reflexivity|]. rewrite <- SF2R_B2SF. assert (E : B2SF fifths18 = SpecFloat.S754_finite false 8106479329266893%positive (-51)%Z) by (vm_compute; reflexivity).
  rewrite E. unfold SF2R, F2R. cbn [cond_Zopp Fnum Fexp bpow]. change (Z.pow_pos radix2 51) with 2251799813685248%Z. unfold Rdiv. reflexivity.
Qed.
Lemma one_half_val : is_finite (half 1 : b64) = true /\ B2R (half 1 : b64) = (1 / 2)%R.
Proof.
  split; [vm_compute; reflexivity|]. rewrite <- SF2R_B2SF. assert (E : B2SF (half 1 : b64) = SpecFloat.S754_finite false 4503599627370496%positive (-53)%Z) by (vm_compute; reflexivity).
  rewrite E. unfold SF2R, F2R. cbn [cond_Zopp Fnum Fexp bpow]. change (Z.pow_pos radix2 53) with 9007199254740992%Z. lra.
Qed.

Example C115_case : exists (d : @dstruct BB) (e : @dstruct XR) lags corr c lags' corr' c' os,
  SACF_1d (A := BB) [fl 0; fl 1; fifths18] (ints [1; 2; 4]%Z) None = Ok d /\
  accepted d /\ times_ok (A := BB) d /\ accepted e /\ timeseries e = map exact_of (timeseries d) /\
  autocorrelation (A := BB) clang d (Some (half 1)) (Some (half 1)) (Some (fl 1)) (Some (fl 1)) "fast" "fractional" = Ok (lags, corr, c) /\
  autocorrelation (A := XR) clang e (Some (Fin (1/2))) (Some (Fin (1/2))) (Some (Fin 1)) (Some (Fin 1)) "fast" "fractional" = Ok (lags', corr', c') /\
  data_2d d = Ok [ints [1; 2; 4]%Z] /\ data_2d e = Ok [map exact_of (ints [1; 2; 4]%Z)] /\
  nth_error lags 1 = Some (half 1) /\ nth_error lags' 1 = Some (exact_of (half 1)) /\ is_finite (half 1 : b64) = true /\
  pairs_by (A := BB) clang d (fastSelectionFunctionIdx (A := BB) clang d) (half 1) 1 = Ok ([1; 0], os) /\
  let ts := map B2R (timeseries d) in
  let T := (nth (length ts - 1) ts 0 - nth 0 ts 0)%R in
  let er := (bpow radix2 (-53) * (5 * T + 3 * Rabs (B2R (half 1 : b64))))%R in
  (T <= bpow radix2 1021)%R /\ (Rabs (B2R (half 1 : b64)) <= bpow radix2 1021)%R /\ clear_fast ts (B2R (half 1 : b64)) er /\ (0 <= B2R (half 1 : b64))%R.
Proof.
  destruct (ok_with_ok (SACF_1d (A := BB) [fl 0; fl 1; fifths18] (ints [1; 2; 4]%Z) None)
    (fun d => sames [fl 0; fl 1; fifths18] (timeseries d) && (ok_with (data_2d d) (fun r => sames2 [ints [1; 2; 4]%Z] r)) &&
      sames [fl 0; fl 1; fifths18] (normalised_timeseries d) &&
      ok_with (autocorrelation clang d (Some (half 1)) (Some (half 1)) (Some (fl 1)) (Some (fl 1)) "fast" "fractional") (fun r => sames [fl 0; half 1] (fst (fst r))) &&
      ok_with (pairs_by clang d (fastSelectionFunctionIdx clang d) (half 1) 1) (fun r => all2 Nat.eqb (fst r) [1; 0]))) as [d [E H]]; [vm_compute; reflexivity|].
  apply andb_prop in H. destruct H as [H H6]. apply andb_prop in H. destruct H as [H H4]. apply andb_prop in H. destruct H as [H H3]. apply andb_prop in H. destruct H as [H1 H2].
  apply sames_eq in H1. apply sames_eq in H3. destruct (ok_with_ok (data_2d d) _ H2) as [r [Er H2']]. apply sames2_eq in H2'. subst r.
  destruct (ok_with_ok _ _ H4) as [[[lags corr] c] [Ec H5]]. cbn [fst] in H5. apply sames_eq in H5. subst lags.
  destruct (ok_with_ok _ _ H6) as [[s os] [Ep H9]]. cbn [fst] in H9. apply (all2_eq Nat.eqb (fun x y => proj1 (Nat.eqb_eq x y))) in H9. subst s.
  destruct fifths18_val as [F6 V6]. destruct one_half_val as [F3 V3].
  assert (Z0 : B2R (fl 0 : b64) = 0%R) by reflexivity.
  assert (Z1 : B2R (fl 1 : b64) = 1%R).
  { pose proof (exact_ofZ 1 ltac:(cbn; lia)) as Q. rewrite exact_toE, toE_finite in Q by reflexivity. injection Q as Q. exact Q. }
  assert (X0 : exact_of (fl 0 : b64) = Fin 0) by (apply exact_ofZ; cbn; lia).
  assert (X1 : exact_of (fl 1 : b64) = Fin 1) by (apply exact_ofZ; cbn; lia).
  assert (X6 : exact_of fifths18 = Fin (B2R fifths18)) by (rewrite exact_toE; apply toE_finite; exact F6).
  assert (X3 : exact_of (half 1 : b64) = Fin (1/2)) by (rewrite exact_toE, <- V3; apply toE_finite; exact F3).
  destruct (fast_built (1/2) (B2R fifths18) clang "fractional") as (e & corr' & c' & Ee & Hae & Hoe & Hte & Hde & Ece); [lra|rewrite V6; lra|reflexivity|reflexivity|left; reflexivity|].
  exists d, e, [fl 0; half 1], corr, c, (map Fin [0; 1/2]%R), corr', c', os.
  split; [exact E|]. split; [left; eauto|]. split.
  { split; [|split].
    - rewrite <- H1. apply orderedb_ok. vm_compute. reflexivity.
    - rewrite <- H1. intros x [<-|[<-|[<-|[]]]]; vm_compute; discriminate.
    - rewrite <- H3. intros x [<-|[<-|[<-|[]]]]; vm_compute; discriminate. }
  split; [exact Hae|]. rewrite <- H1. split.
  { rewrite Hte. cbn [map]. rewrite X0, X1, X6. reflexivity. }
  split; [exact Ec|]. split; [exact Ece|]. split; [exact Er|]. split.
  { rewrite Hde. unfold ints. rewrite map_map. cbn [map]. rewrite !exact_ofZ by (cbn; lia). reflexivity. }
  split; [reflexivity|]. split; [rewrite X3; reflexivity|]. split; [exact F3|]. split; [exact Ep|].
  cbn [map]. rewrite Z0, Z1, V6, V3. cbn [length nth Nat.sub]. cbv zeta.
  rewrite (Rabs_right (1/2)) by lra. change (bpow radix2 (-53)) with (/ 9007199254740992)%R.
  assert (B : (4 <= bpow radix2 1021)%R) by (change 4%R with (bpow radix2 2); apply bpow_le; lia).
  split; [lra|]. split; [lra|]. split; [|lra]. split.
  - intros [|[|q]] Hq; cbn [length] in Hq; try lia; unfold gap; cbn [nth length Nat.sub]; unfold Rabs; destruct Rcase_abs; lra.
  - intros [|[|[|z]]] Hz; cbn [length] in Hz; try lia; unfold gap; cbn [nth length Nat.sub]; unfold Rabs; destruct Rcase_abs; lra.
Qed.

(** ** Not where a comparison is close

    The times 0, 1 - 2^-53, 1 at the lag 2^-54: rounding moves the second time onto the last one, so that one position fewer is kept. *)
Definition tiny54 : b64 := Bldexp mode_NE (b64_ofZ 1) (-54)%Z.
Definition below1 : b64 := Bminus mode_NE (b64_ofZ 1) (Bldexp mode_NE (b64_ofZ 1) (-53)%Z).
Lemma tiny54_val : is_finite tiny54 = true /\ B2R tiny54 = (1 / 18014398509481984)%R.
Proof.
  split; [vm_compute; reflexivity|]. rewrite <- SF2R_B2SF. assert (E : B2SF tiny54 = SpecFloat.S754_finite false 4503599627370496%positive (-106)%Z) by (vm_compute; reflexivity).
  rewrite E. unfold SF2R, F2R. cbn [cond_Zopp Fnum Fexp bpow]. change (Z.pow_pos radix2 106) with 81129638414606681695789005144064%Z. lra.
Qed.
Lemma below1_val : is_finite below1 = true /\ B2R below1 = (9007199254740991 / 9007199254740992)%R.
Proof.
  split; [vm_compute; reflexivity|]. rewrite <- SF2R_B2SF. assert (E : B2SF below1 = SpecFloat.S754_finite false 9007199254740991%positive (-53)%Z) by (vm_compute; reflexivity).
  rewrite E. unfold SF2R, F2R. cbn [cond_Zopp Fnum Fexp bpow]. change (Z.pow_pos radix2 53) with 9007199254740992%Z. unfold Rdiv. reflexivity.
Qed.

Theorem C115_close_refuted : exists (d : @dstruct BB) os,
  SACF_1d (A := BB) [fl 0; below1; fl 1] (ints [1; 2; 4]%Z) None = Ok d /\ times_ok (A := BB) d /\
  pairs_by (A := BB) clang d (fastSelectionFunctionIdx (A := BB) clang d) tiny54 1 = Ok ([0], os) /\
  let ts := map B2R (timeseries d) in
  map (fast_partner ts (B2R tiny54)) (seq 0 (kept ts (B2R tiny54))) = [1; 0].
Proof.
  destruct (ok_with_ok (SACF_1d (A := BB) [fl 0; below1; fl 1] (ints [1; 2; 4]%Z) None)
    (fun d => sames [fl 0; below1; fl 1] (timeseries d) && sames [fl 0; below1; fl 1] (normalised_timeseries d) &&
      ok_with (pairs_by clang d (fastSelectionFunctionIdx clang d) tiny54 1) (fun r => all2 Nat.eqb (fst r) [0]))) as [d [E H]]; [vm_compute; reflexivity|].
  apply andb_prop in H. destruct H as [H H6]. apply andb_prop in H. destruct H as [H1 H3].
  apply sames_eq in H1. apply sames_eq in H3.
  destruct (ok_with_ok _ _ H6) as [[s os] [Ep H9]]. cbn [fst] in H9. apply (all2_eq Nat.eqb (fun x y => proj1 (Nat.eqb_eq x y))) in H9. subst s.
  exists d, os. split; [exact E|]. split.
  { split; [|split].
    - rewrite <- H1. apply orderedb_ok. vm_compute. reflexivity.
    - rewrite <- H1. intros x [<-|[<-|[<-|[]]]]; vm_compute; discriminate.
    - rewrite <- H3. intros x [<-|[<-|[<-|[]]]]; vm_compute; discriminate. }
  split; [exact Ep|]. cbv zeta. rewrite <- H1. cbn [map].
  assert (Z0 : B2R (fl 0 : b64) = 0%R) by reflexivity.
  assert (Z1 : B2R (fl 1 : b64) = 1%R).
  { pose proof (exact_ofZ 1 ltac:(cbn; lia)) as Q. rewrite exact_toE, toE_finite in Q by reflexivity. injection Q as Q. exact Q. }
  rewrite Z0, Z1, (proj2 below1_val), (proj2 tiny54_val).
  assert (P : places [0; 9007199254740991 / 9007199254740992; 1]%R (1 / 18014398509481984) = 1) by (unfold places, below; cbn [nth filter]; repeat (destruct Rlt_dec; try lra); reflexivity).
  assert (K : kept [0; 9007199254740991 / 9007199254740992; 1]%R (1 / 18014398509481984) = 2) by (unfold kept, below; cbn [nth filter length Nat.sub]; repeat (destruct Rlt_dec; try lra); reflexivity).
  unfold fast_partner. rewrite P, K. reflexivity.
Qed.
Print Assumptions C115_close_refuted.
