(** Values sampled from a sinusoid at times close to an even grid. *)
From Coq Require Import String.
From Coq Require Import ZArith Reals List Bool Arith Lia Lra Psatz.
From Flocq Require Import Core.
From Verif Require Import Num Mem MemFacts XR B64 Spec SpecR SpecTime SpecEven DataStructure Correlator Sacf Api SelFacts ValFacts ExactFacts WeightFacts ConstrFacts AffineFacts GridVals GridCall GridSums PairBounds TimeCloseFacts
  SignalFacts SignalFacts2 OutlierFacts SineFacts EvenFacts.
Import ListNotations.
Local Open Scope list_scope.
Local Open Scope R_scope.

Lemma dev_about (rs : list R) b B q : (q < length rs)%nat -> (forall k, (k < length rs)%nat -> Rabs (nth k rs 0 - b) <= B) -> Rabs (dev rs q) <= 2 * B.
Proof.
  intros Hq H. assert (Hn : rs <> []) by (intros ->; cbn in Hq; lia).
  assert (Hm : Rabs (rmean (map (fun v => 1 * v + - b) rs)) <= B).
  { apply mean_bound; [rewrite map_length; lia|]. intros v Hv. apply in_map_iff in Hv. destruct Hv as [x [<- Hx]]. apply (In_nth _ _ 0) in Hx. destruct Hx as [k [Hk <-]].
    replace (1 * nth k rs 0 + - b) with (nth k rs 0 - b) by ring. apply H. exact Hk. }
  rewrite rmean_affine in Hm by exact Hn. specialize (H q Hq). unfold dev. apply Rabs_le_inv in Hm, H. apply Rabs_le. lra.
Qed.

Lemma cos_lip x y : Rabs (cos x - cos y) <= Rabs (x - y).
Proof.
  assert (K : forall a b, a < b -> Rabs (cos b - cos a) <= b - a).
  { intros a b Hab. destruct (MVT_cor2 cos (fun t => - sin t) a b Hab) as [c [E _]]; [intros c _; apply derivable_pt_lim_cos|].
    rewrite E, Rabs_mult, (Rabs_pos_eq (b - a)), Rabs_Ropp by lra. pose proof (SIN_bound c). assert (Rabs (sin c) <= 1) by (apply Rabs_le; lra). nra. }
  destruct (Rtotal_order x y) as [L|[->|L]].
  - rewrite (Rabs_minus_sym (cos x)), (Rabs_minus_sym x), (Rabs_pos_eq (y - x)) by lra. apply K. exact L.
  - unfold Rminus. rewrite !Rplus_opp_r, Rabs_R0. lra.
  - rewrite (Rabs_pos_eq (x - y)) by lra. apply K. exact L.
Qed.

Lemma even_sine p d mi ma re al wgt lags corr c rows j i (rs ts : list R) (t0 dd h g kk a b A om ph e : R) (m : nat) :
  accepted d -> autocorrelation (A := XR) p d mi ma re al "natural" wgt = Ok (lags, corr, c) -> p_abs p = AbsFloat ->
  data_2d d = Ok rows -> nth_error rows j = Some (map Fin rs) -> nth_error lags i = Some (Fin kk) -> timeseries d = map Fin ts ->
  opt_or (A := XR) al (median_time d) = Fin a -> 0 < a -> Forall single rs ->
  nearly_even ts t0 dd h -> Rabs (kk - INR m * dd) <= g -> 2 * (2 * h + g) < dd -> (m < length ts)%nat ->
  let M := length ts in
  (forall q, (q < M)%nat -> Rabs (nth q rs 0 - (b + A * cos (om * nth q ts 0 + ph))) <= e) ->
  0 < A -> 128 * (e / A + Rabs om * h) <= 1 -> 32 <= INR M * Rabs (sin (om * dd)) ->
  exists r, corr_at corr j i = Some (Fin r) /\
    Rabs (r - (1 - INR m / INR M) * cos (om * kk)) <= 6 / (INR M * Rabs (sin (om * dd))) + 13 / INR M + 96 * (e / A + Rabs om * h) + (2 * h + g) / a + Rabs om * g.
Proof.
  intros Ha E Hp Hd Hj Hi Ht Hal Hpos Hs He Hk Hu Hm M H HA HeA HM.
  assert (G0 : 0 <= g) by (eapply Rle_trans; [apply Rabs_pos|exact Hk]). assert (H0 : 0 <= h) by (eapply Rle_trans; [apply Rabs_pos|apply (He m Hm)]).
  assert (e0 : 0 <= e) by (eapply Rle_trans; [apply Rabs_pos|apply (H m Hm)]). set (x := e / A + Rabs om * h) in *.
  assert (A1 : A * x = e + A * (Rabs om * h)) by (unfold x; field; lra).
  assert (X0 : 0 <= x) by (unfold x; apply Rplus_le_le_0_compat; [unfold Rdiv; apply Rmult_le_pos; [exact e0|left; apply Rinv_0_lt_compat; exact HA]|apply Rmult_le_pos; [apply Rabs_pos|exact H0]]).
  destruct (call_pairs p d mi ma re al "natural" wgt lags corr c rows j i rs _ _ Ha E Hd Hj Hi Ht) as [f [s [os [Hf [HP _]]]]].
  destruct (value_exact_pairs p d mi ma re al "natural" wgt lags corr c rows j i rs _ os _ a _ _ s Ha E Hd Hj Hi Ht Hal Hpos Hf HP) as [_ [Lr _]]. fold M in Lr.
  set (w := om * dd) in *. set (ph' := om * t0 + ph).
  assert (H' : forall q, (q < M)%nat -> Rabs (nth q rs 0 - (b + A * cos (w * INR q + ph'))) <= A * x).
  { intros q Hq. specialize (H q Hq). pose proof (He q Hq) as Q. rewrite A1.
    assert (C : Rabs (cos (om * nth q ts 0 + ph) - cos (w * INR q + ph')) <= Rabs om * h).
    { eapply Rle_trans; [apply cos_lip|]. unfold w, ph'. replace (om * nth q ts 0 + ph - (om * dd * INR q + (om * t0 + ph))) with (om * (nth q ts 0 - (t0 + INR q * dd))) by ring.
      rewrite Rabs_mult. apply Rmult_le_compat_l; [apply Rabs_pos|exact Q]. }
    set (c1 := cos (om * nth q ts 0 + ph)) in *. set (c2 := cos (w * INR q + ph')) in *. set (y := Rabs om * h) in *. apply Rabs_le_inv in H, C. apply Rabs_le. nra. }
  destruct (sine_core rs b A w ph' (A * x) M m Lr HA ltac:(nra) ltac:(nra) HM ltac:(lia) H') as [[HN HN3] HB].
  assert (M0 : 0 < INR M) by (apply lt_0_INR; lia).
  destruct (even_close p d mi ma re al wgt lags corr c rows j i rs ts t0 dd h g kk a m Ha E Hp Hd Hj Hi Ht Hal Hpos) as [r [V B]]; try assumption; [rewrite sq_dev_single by exact Hs; exact HN|].
  exists r. split; [exact V|]. rewrite sq_dev_single in B by exact Hs. fold M in B. set (N := sq_dev rs) in *.
  assert (DB : forall q, (q < M)%nat -> Rabs (dev rs q) <= 2 * (A * (1 + / 128))).
  { intros q Hq. apply (dev_about rs b); [rewrite Lr; exact Hq|]. intros k Hk'. rewrite Lr in Hk'. specialize (H' k Hk'). pose proof (COS_bound (w * INR k + ph')) as CB.
    set (c2 := cos (w * INR k + ph')) in *. apply Rabs_le_inv in H'. apply Rabs_le. nra. }
  assert (L13 : Rabs (dev rs (M - 1 - m) * dev rs (M - 1)) / N <= 13 / INR M).
  { rewrite Rabs_mult. pose proof (DB (M - 1 - m)%nat ltac:(unfold M; lia)) as D1. pose proof (DB (M - 1)%nat ltac:(unfold M; lia)) as D2.
    apply Rmult_le_reg_r with N; [exact HN|]. replace (Rabs (dev rs (M - 1 - m)) * Rabs (dev rs (M - 1)) / N * N) with (Rabs (dev rs (M - 1 - m)) * Rabs (dev rs (M - 1))) by (field; lra).
    apply Rle_trans with (13 / INR M * (A * A * (INR M / 3))).
    - replace (13 / INR M * (A * A * (INR M / 3))) with (13 / 3 * (A * A)) by (field; lra).
      eapply Rle_trans; [apply Rmult_le_compat; [apply Rabs_pos|apply Rabs_pos|exact D1|exact D2]|]. nra.
    - apply Rmult_le_compat_l; [unfold Rdiv; apply Rmult_le_pos; [lra|left; apply Rinv_0_lt_compat; exact M0]|exact HN3]. }
  assert (B' : Rabs (r - lagged M (dev rs) m / N) <= (2 * h + g) / a + 13 / INR M).
  { eapply Rle_trans; [exact B|]. unfold Rdiv at 1. rewrite Rmult_plus_distr_r. apply Rplus_le_compat; [right; field; split; lra|exact L13]. }
  assert (CK : Rabs ((1 - INR m / INR M) * cos (w * INR m) - (1 - INR m / INR M) * cos (om * kk)) <= Rabs om * g).
  { replace ((1 - INR m / INR M) * cos (w * INR m) - (1 - INR m / INR M) * cos (om * kk)) with ((1 - INR m / INR M) * (cos (w * INR m) - cos (om * kk))) by ring. rewrite Rabs_mult.
    assert (T : Rabs (1 - INR m / INR M) <= 1).
    { assert (0 <= INR m / INR M <= 1); [|apply Rabs_le; lra]. assert (INR m <= INR M) by (apply le_INR; unfold M; lia). pose proof (pos_INR m). split; [unfold Rdiv; apply Rmult_le_pos; [lra|left; apply Rinv_0_lt_compat; lra]|].
      apply Rmult_le_reg_r with (INR M); [lra|]. unfold Rdiv. rewrite Rmult_assoc, Rinv_l by lra. lra. }
    assert (C : Rabs (cos (w * INR m) - cos (om * kk)) <= Rabs om * g).
    { eapply Rle_trans; [apply cos_lip|]. unfold w. replace (om * dd * INR m - om * kk) with (om * - (kk - INR m * dd)) by ring. rewrite Rabs_mult, Rabs_Ropp. apply Rmult_le_compat_l; [apply Rabs_pos|exact Hk]. }
    pose proof (Rabs_pos (cos (w * INR m) - cos (om * kk))). pose proof (Rabs_pos (1 - INR m / INR M)). nra. }
  replace (96 * (A * x / A)) with (96 * x) in HB by (field; lra). set (l := lagged M (dev rs) m / N) in *.
  set (y := (1 - INR m / INR M) * cos (w * INR m)) in *. set (z := (1 - INR m / INR M) * cos (om * kk)) in *.
  apply Rabs_le_inv in HB, B', CK. apply Rabs_le. lra.
Qed.
