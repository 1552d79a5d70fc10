(** C110 in binary64: an even grid with points missing, with time stamps on a binary grid. *)
From Coq Require Import String.
From Coq Require Import ZArith Reals List Bool Arith Lia Lra.
From Flocq Require Import Core BinarySingleNaN.
From Verif Require Import Num Mem MemFacts XR B64 Spec SpecR SpecGaps DataStructure Correlator Sacf Api Laws B64Facts Laws2 DSFacts CorrFacts LoopFacts MainFacts
  RelFacts ConstrFacts TimeFacts SelFacts WeightFacts DefaultFacts WeightAcc ValFacts ExactFacts AccFacts OffFacts AccThms SimFacts FixedFacts GridVals FixedThms AccExact
  GapFacts SpecGaps.
Import ListNotations.
Local Open Scope list_scope.
Local Open Scope R_scope.

Section GapFloat.
Context (exp64 : b64 -> b64).
Notation BN := (B64 exp64).

Lemma grid_ordered (ts : list b64) t0 dd ns : (forall t : b64, In t ts -> is_finite t = true) -> map B2R ts = on_grid t0 dd ns -> rising ns -> 0 < dd -> ordered (A := BN) ts.
Proof.
  intros F E Hr Hdd i j x y Hij Hi Hj. change (@num BN) with b64 in *.
  assert (Lt : length ts = length ns) by (rewrite <- (map_length B2R), E; unfold on_grid; apply map_length).
  assert (Nth : forall k (z : b64), nth_error ts k = Some z -> (k < length ns)%nat /\ B2R z = t0 + IZR (nth k ns 0%Z) * dd).
  { intros k z Hk. assert (k < length ns)%nat by (rewrite <- Lt; apply nth_error_Some; rewrite Hk; discriminate). split; [assumption|].
    assert (H1 : nth_error (map B2R ts) k = Some (B2R z)) by (rewrite nth_error_map, Hk; reflexivity).
    rewrite E in H1. unfold on_grid in H1. rewrite nth_error_map, (nth_error_nth' ns 0%Z) in H1 by assumption. cbn in H1. injection H1 as <-. reflexivity. }
  destruct (Nth i x Hi) as [Li Bi]. destruct (Nth j y Hj) as [Lj Bj].
  change (Bleb x y = true). rewrite Bleb_correct by (apply F; eapply nth_error_In; eassumption). apply Rle_bool_true. rewrite Bi, Bj.
  apply Rplus_le_compat_l, Rmult_le_compat_r; [lra|]. apply IZR_le. destruct (Nat.eq_dec i j) as [->|Hn]; [lia|]. specialize (Hr i j ltac:(lia) Lj). lia.
Qed.

Lemma gaps64 (p : platform) (d : @dstruct BN) g (mi ma re al : option b64) wgt (lags : list b64) corr c rows j i (row : list b64) (l : b64) t0 dd ns m b om B :
  (-1073 <= g <= 960)%Z -> accepted d -> (forall t : b64, In t (timeseries d) -> fixed_point g 50 t) ->
  map B2R (timeseries d : list b64) = on_grid t0 dd ns -> rising ns -> 0 < dd -> (2 <= length ns)%nat ->
  (forall x, mi = Some x -> fixed_point g 51 x) -> (forall x, ma = Some x -> fixed_point g 51 x) ->
  (forall x, re = Some x -> fixed_point g 51 x /\ 0 <= B2R x) ->
  autocorrelation (A := BN) p d mi ma re al "natural" wgt = Ok (lags, corr, c) -> p_abs p = AbsFloat -> data_2d d = Ok rows ->
  let a : b64 := opt_or (A := BN) al (median_time d) in
  is_finite a = true -> 0 < B2R a -> proper_alpha (A := BN) wgt a ->
  finite (A := BN) (if String.eqb wgt "gaussian" then nmul (Num := BN) (nmul (Num := BN) (b64_ofZ 2) a) a else a) ->
  nth_error rows j = Some row -> nth_error lags i = Some l -> B2R l = IZR m * dd -> weight_error exp64 wgt (B2R a) om ->
  (-149 <= b <= 100)%Z -> (forall x : b64, In x row -> is_finite x = true /\ Rabs (B2R x) <= bpow radix2 b) ->
  let rs := map B2R row in
  let n := INR (length ns) in
  let N := sq_dev32 rs in
  let K := n * (bpow radix2 b * bpow radix2 b) / N in
  bpow radix2 (-700) <= N -> (n + 1) * K <= bpow radix2 48 -> (forall q, (q < length ns)%nat -> Rabs (dev rs q) <= B) ->
  exists v : b64, corr_at corr j i = Some v /\ is_finite v = true /\
    Rabs (B2R v - pair_sum ns m rs / N) <=
      INR (n_lonely ns m) * rweight wgt (B2R a) dd * (B * B) / N + (50 * (n + 10) * bpow radix2 (-53) * (K * K + K) + 5 * om * K + bpow radix2 (-110)).
Proof.
  intros Hg Ha Hf Eg Hr Hdd H2 Hmi Hma Hre E Hp Hd a Fa Pa Hpa Hfa Hj Hi El Hom Hb Hx rs n N K HN HK HB.
  assert (Fin_ts : forall t : b64, In t (timeseries d) -> is_finite t = true) by (intros t Ht; apply (Hf t Ht)).
  assert (Ho := grid_ordered (timeseries d) t0 dd ns Fin_ts Eg Hr Hdd).
  assert (Hlen : length (timeseries d : list b64) = length ns) by (rewrite <- (map_length B2R), Eg; unfold on_grid; apply map_length).
  assert (Hne : (timeseries d : list b64) <> []) by (intros C; rewrite C in Hlen; cbn in Hlen; lia).
  assert (L2 : (2 <= length (timeseries d))%nat) by (change (@num BN) with b64; rewrite Hlen; exact H2).
  assert (Hlr : length row = length ns).
  { destruct (@value_parts BN p d mi ma re al "natural" wgt lags corr c rows j i row) with (kk := l) as [sf1 [w1 [si1 [S1 [dt1 [_ [_ [_ [_ [HL _]]]]]]]]]]; try assumption.
    change (@num BN) with b64 in *. rewrite HL. rewrite <- Hlen. destruct (accepted_times d Ha) as [tx [data [er [Mx [-> [_ [_ [_ [_ Hlx]]]]]]]]]. exact Hlx. }
  destruct (exact_rows (timeseries d) row Hne ltac:(congruence)) as [e [A1 [T1 D1]]].
  destruct (fixed_value exp64 p d e g mi ma re al "natural" wgt lags corr c rows [map exact_of row] Hg Ha A1 T1 Hf L2 Ho Hmi Hma Hre
    E Hd D1 Fa Pa Hpa Hfa) as [corr' [c' [E' HV]]].
  assert (Fx : forall x : b64, In x row -> is_finite x = true) by (intros x Hin; apply (Hx x Hin)).
  assert (En : INR (length row) = n) by (unfold n; rewrite Hlr; reflexivity).
  assert (Lf : is_finite l = true).
  { pose proof (fixed_lags exp64 p d e g mi ma re al (option_map exact_of al) "natural" wgt Hg Ha A1 T1 Hf L2 Ho Hmi Hma Hre) as L.
    rewrite E, E' in L. unfold visible in L. cbn [bind fst same_outcome] in L. destruct L as [_ L]. apply (L l (nth_error_In _ _ Hi)). }
  assert (Hil : (i < length lags)%nat) by (apply nth_error_Some; rewrite Hi; discriminate).
  destruct (HV j 0%nat row b om i Hj eq_refl Hil Hom Hb Hx HN ltac:(rewrite En; exact HK)) as [v [v' [V1 [V2 [V3 V4]]]]].
  rewrite En in V4. fold rs N in V4. fold K in V4.
  assert (Hal : opt_or (A := XR) (option_map exact_of al) (median_time e) = Fin (B2R a)).
  { destruct (fixed_median exp64 d e g Hg Ha A1 T1 Hf) as [_ Em]. unfold a in *. destruct al as [x|]; cbn [opt_or option_map] in *; [|exact Em].
    destruct x; try discriminate Fa; reflexivity. }
  assert (N0 : 0 < N) by (pose proof (bpow_gt_0 radix2 (-700)); lra).
  destruct (gaps_close p e _ _ _ _ wgt _ corr' c' _ 0%nat i rs t0 dd (B2R a) ns m B A1 E' Hp D1) as [r [R1 R2]]; try assumption.
  - cbn [nth_error]. rewrite exact_Fin by exact Fx. reflexivity.
  - change (@num XR) with xr. rewrite nth_error_map. change (@num BN) with b64 in *. rewrite Hi. cbn [option_map]. f_equal. rewrite <- El. destruct l; try discriminate Lf; reflexivity.
  - rewrite T1, exact_Fin by exact Fin_ts. rewrite Eg. reflexivity.
  - rewrite V2 in R1. injection R1 as <-. exists v. split; [exact V1|]. split; [exact V3|]. fold N in R2.
    replace (B2R v - pair_sum ns m rs / N) with ((v' - pair_sum ns m rs / N) + (B2R v - v')) by ring.
    eapply Rle_trans; [apply Rabs_triang|]. apply Rplus_le_compat; assumption.
Qed.

End GapFloat.
