(** C116 in binary64: one value far from all others on an even grid, all settings at their defaults. *)
From Coq Require Import String.
From Coq Require Import ZArith Reals List Bool Arith Lia Lra.
From Flocq Require Import Core BinarySingleNaN.
From Verif Require Import Num Mem MemFacts XR B64 Spec SpecR DataStructure Correlator Sacf Api Laws B64Facts Laws2 ExactFacts WeightAcc AccFacts AccThms FixedFacts GridVals FixedThms AccExact GridSums SpecOutlier SignalFacts OutlierFacts.
Import ListNotations.
Local Open Scope list_scope.
Local Open Scope R_scope.

Lemma outlier64 (exp64 : b64 -> b64) (p : platform) (d : @dstruct (B64 exp64)) wgt g t0 dd M rows :
  (-1073 <= g <= 960)%Z -> accepted d -> (forall t : b64, In t (timeseries d) -> fixed_point g 50 t) -> map B2R (timeseries d : list b64) = grid t0 dd M ->
  (2 <= M)%nat -> 0 < dd -> (2 * Z.of_nat M + 1 <= INT_MAX)%Z -> p_checked p = false -> known_weight wgt ->
  (p_abs p = AbsInt -> 2 * (INR (M - 1) * dd) <= IZR INT_MAX) -> data_2d d = Ok rows ->
  let a : b64 := median_time d in
  proper_alpha (A := B64 exp64) wgt a ->
  finite (A := B64 exp64) (if String.eqb wgt "gaussian" then nmul (Num := B64 exp64) (nmul (Num := B64 exp64) (b64_ofZ 2) a) a else a) ->
  exists (lags : list b64) corr c,
    autocorrelation (A := B64 exp64) p d None None None None "natural" wgt = Ok (lags, corr, c) /\
    map B2R lags = map (fun i => (INR i - INR (M - 1)) * dd) (seq 0 (2 * M - 1)) /\
    forall j (row : list b64) k om u (b h e : R), nth_error rows j = Some row -> weight_error exp64 wgt (B2R a) om ->
      (-149 <= k <= 100)%Z -> (forall x : b64, In x row -> is_finite x = true /\ Rabs (B2R x) <= bpow radix2 k) ->
      let rs := map B2R row in
      length rs = M -> Forall single rs ->
      outlier rs u b h e -> 0 <= e -> h <> 0 -> 32 * INR M * e <= Rabs h ->
      let n := INR M in
      let N := sq_dev rs in
      let K := n * (bpow radix2 k * bpow radix2 k) / N in
      bpow radix2 (-700) <= N -> (n + 1) * K <= bpow radix2 48 ->
      forall m, (0 < m < M)%nat ->
        let containing := (if (u <? M - m)%nat then 1 else 0) + (if (m <=? u)%nat then 1 else 0) in
        exists v : b64, corr_at corr j (M - 1 + m) = Some v /\ is_finite v = true /\
        Rabs (B2R v - (INR (M - m) / n - containing) / (n - 1)) <=
          96 * n * e / Rabs h + (50 * (n + 10) * bpow radix2 (-53) * (K * K + K) + 5 * om * K + bpow radix2 (-110)).
Proof.
  intros Hg Ha Hf Eg HM Hdd Hint Hc Hw Hs Hd a Hp Hfa.
  destruct (grid64 exp64 p d wgt g t0 dd M rows Hg Ha Hf Eg HM Hdd Hint Hc Hw Hs Hd) as (lags & corr & c & E & _ & EL & _ & _ & V).
  exists lags, corr, c. split; [exact E|]. split; [exact EL|].
  intros j row k om u b h e Hj Hom Hk Hx rs L Hsi H He Hh HeA n N K HN HK m Hm cn.
  assert (EN : sq_dev32 rs = N) by (apply sq_dev_single; exact Hsi).
  specialize (V Hp Hfa j row k om Hj Hom Hk Hx). cbv zeta in V. fold rs in V. rewrite EN in V. fold n in V. fold K in V.
  destruct (V HN HK m ltac:(lia)) as (v & _ & V1 & V2 & V3 & _). exists v. split; [exact V1|]. split; [exact V2|].
  destruct (outlier_lagged rs b h e M m u L ltac:(lia) H HM He Hh HeA) as [_ B]. fold n N cn in B. unfold lagged in B.
  set (y := rsum_n _ _ / N) in *. set (t := (INR (M - m) / n - cn) / (n - 1)) in *.
  replace (B2R v - t) with ((y - t) + (B2R v - y)) by ring. eapply Rle_trans; [apply Rabs_triang|]. apply Rplus_le_compat; assumption.
Qed.
