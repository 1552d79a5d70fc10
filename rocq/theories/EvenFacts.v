(** Times close to an even grid: pairs and values of the natural selection. *)
From Coq Require Import String.
From Coq Require Import ZArith Reals List Bool Arith Lia Lra Psatz.
From Flocq Require Import Core.
From Verif Require Import Num Mem MemFacts XR B64 Spec SpecR SpecTime SpecEven DataStructure Correlator Sacf Api SelFacts ValFacts ExactFacts WeightFacts ConstrFacts GridVals GridCall GridSums PairBounds TimeCloseFacts
  SignalFacts SignalFacts2 OutlierFacts GapFacts SineFacts Laws.
Import ListNotations.
Local Open Scope list_scope.
Local Open Scope R_scope.

Lemma even_step ts t0 dd h i j : nearly_even ts t0 dd h -> 2 * h < dd -> (i < j)%nat -> (j < length ts)%nat -> nth i ts 0 < nth j ts 0.
Proof.
  intros He Hh Hij Hj. pose proof (He i ltac:(lia)) as A. pose proof (He j Hj) as B. apply Rabs_le_inv in A, B.
  assert (Q : INR i + 1 <= INR j) by (rewrite <- S_INR; apply le_INR; lia).
  assert (dd <= (INR j - INR i) * dd) by nra. lra.
Qed.

Lemma even_times_ok ts t0 dd h (d : @dstruct XR) : nearly_even ts t0 dd h -> 2 * h < dd -> accepted d -> timeseries d = map Fin ts -> times_ok (A := XR) d.
Proof.
  intros He Hh Ha Ht. destruct (accepted_times d Ha) as [tx [data [er [N [Ed [Hnil [Ent _]]]]]]].
  assert (Etx : tx = map Fin ts) by (rewrite <- Ht, Ed; reflexivity). rewrite Etx, rel_times_Fin in Ent.
  refine (proj1 (times_exact d ts Ent Ht _)). rewrite Ht.
  assert (S : forall i j a b, nth_error (map Fin ts) i = Some a -> nth_error (map Fin ts) j = Some b ->
            a = Fin (nth i ts 0) /\ b = Fin (nth j ts 0) /\ (j < length ts)%nat).
  { intros i j a b Hi Hj. rewrite nth_error_map in Hi, Hj. destruct (nth_error ts i) as [x|] eqn:Ei; [|discriminate]. destruct (nth_error ts j) as [y|] eqn:Ej; [|discriminate].
    injection Hi as <-. injection Hj as <-. rewrite (nth_error_nth _ _ 0 Ei), (nth_error_nth _ _ 0 Ej). repeat split. apply nth_error_Some. rewrite Ej. discriminate. }
  split; intros i j a b Hij Hi Hj; destruct (S i j a b Hi Hj) as [-> [-> L]].
  - apply nle_Fin. destruct (Nat.eq_dec i j) as [->|N']; [lra|]. left. apply (even_step ts t0 dd h); assumption || lia.
  - apply nlt_Fin. apply (even_step ts t0 dd h); assumption.
Qed.

(** position of a point relative to a shifted one *)
Lemma even_gap ts t0 dd h kk g m q z : nearly_even ts t0 dd h -> Rabs (kk - INR m * dd) <= g -> (q < length ts)%nat -> (z < length ts)%nat ->
  Rabs (gap ts kk q z - (INR z - INR (q + m)) * dd) <= 2 * h + g.
Proof.
  intros He Hk Hq Hz. pose proof (He q Hq) as A. pose proof (He z Hz) as B. unfold gap. rewrite plus_INR.
  apply Rabs_le_inv in A, B, Hk. apply Rabs_le. split; lra.
Qed.

Lemma even_pairs p (d : @dstruct XR) kk n s os ts t0 dd h g m : accepted d -> p_abs p = AbsFloat -> timeseries d = map Fin ts ->
  nearly_even ts t0 dd h -> Rabs (kk - INR m * dd) <= g -> 2 * (2 * h + g) < dd -> (m < length ts)%nat ->
  pairs_by (A := XR) p d (naturalSelectionFunctionIdx (A := XR) p d) (Fin kk) n = Ok (s, map Fin os) ->
  (length s = length ts - m \/ S (length s) = length ts - m)%nat /\ (forall q, (q < length s)%nat -> nth q s 0%nat = (q + m)%nat /\ 0 <= nth q os 0 <= 2 * h + g).
Proof.
  intros Ha Hp Ht He Hk Hu Hm HP.
  assert (G0 : 0 <= g) by (eapply Rle_trans; [apply Rabs_pos|exact Hk]). assert (H0 : 0 <= h) by (eapply Rle_trans; [apply Rabs_pos|apply (He m Hm)]).
  assert (Hok : times_ok (A := XR) d) by (apply (even_times_ok ts t0 dd h); try assumption; lra).
  destruct (natural_exact p d kk n s os ts Ha Hok Hp Ht HP) as [L [HL HS]]. set (M := length ts) in *. set (u := 2 * h + g) in *. assert (U0 : 0 <= u) by (unfold u; lra).
  assert (Hg : forall q z, (q < M)%nat -> (z < M)%nat -> Rabs (gap ts kk q z - (INR z - INR (q + m)) * dd) <= u) by (intros q z Hq Hz; apply (even_gap ts t0 dd h kk g m q z); assumption).
  assert (In_ : forall q, (q + m + 1 < M)%nat -> (q < length s)%nat).
  { intros q Hq. apply HL; [lia|]. pose proof (Hg q (M - 1)%nat ltac:(lia) ltac:(lia)) as A. apply Rabs_le_inv in A.
    assert (Q : INR (q + m) + 1 <= INR (M - 1)) by (rewrite <- S_INR; apply le_INR; lia). assert (dd <= (INR (M - 1) - INR (q + m)) * dd) by nra. lra. }
  assert (Out : forall q, (q < length s)%nat -> (q + m < M)%nat).
  { intros q Hq. assert (Hq' : (q < M)%nat) by lia. pose proof (proj1 (HL q Hq') Hq) as B. pose proof (Hg q (M - 1)%nat Hq' ltac:(lia)) as A. apply Rabs_le_inv in A.
    destruct (Nat.lt_ge_cases (q + m) M) as [C|C]; [exact C|exfalso].
    assert (Q : INR (M - 1) + 1 <= INR (q + m)) by (rewrite <- S_INR; apply le_INR; lia). assert ((INR (M - 1) - INR (q + m)) * dd <= - dd) by nra. lra. }
  split.
  - assert (U : (length s <= M - m)%nat) by (destruct (length s) as [|k] eqn:E; [lia|pose proof (Out k ltac:(lia)); lia]).
    assert (V : (M - m - 1 <= length s)%nat) by (destruct (M - m - 1)%nat as [|k] eqn:E; [lia|pose proof (In_ k ltac:(lia)); lia]). lia.
  - intros q Hq. destruct (HS q Hq) as [S1 [S2 S3]]. pose proof (Out q Hq) as Hqm. assert (Hq' : (q < M)%nat) by lia.
    pose proof (S3 (q + m)%nat Hqm) as B. pose proof (Hg q (q + m)%nat Hq' Hqm) as A1. replace ((INR (q + m) - INR (q + m)) * dd) with 0 in A1 by ring. rewrite Rminus_0_r in A1.
    assert (E : nth q s 0%nat = (q + m)%nat).
    { destruct (Nat.eq_dec (nth q s 0%nat) (q + m)) as [E|N]; [exact E|exfalso]. pose proof (Hg q (nth q s 0%nat) Hq' S1) as A2.
      set (z := nth q s 0%nat) in *. assert (Q : dd <= Rabs ((INR z - INR (q + m)) * dd)).
      { rewrite Rabs_mult, (Rabs_pos_eq dd) by lra. apply Rle_trans with (1 * dd); [lra|]. apply Rmult_le_compat_r; [lra|].
        destruct (Nat.lt_ge_cases z (q + m)) as [C|C].
        - assert (INR z + 1 <= INR (q + m)) by (rewrite <- S_INR; apply le_INR; lia). rewrite Rabs_left by lra. lra.
        - assert (INR (q + m) + 1 <= INR z) by (rewrite <- S_INR; apply le_INR; lia). rewrite Rabs_pos_eq by lra. lra. }
      pose proof (Rabs_triang_inv ((INR z - INR (q + m)) * dd) ((INR z - INR (q + m)) * dd - gap ts kk q z)) as T.
      replace ((INR z - INR (q + m)) * dd - ((INR z - INR (q + m)) * dd - gap ts kk q z)) with (gap ts kk q z) in T by ring. rewrite (Rabs_minus_sym ((INR z - INR (q + m)) * dd)) in T. lra. }
    split; [exact E|]. rewrite S2, E. split; [apply Rabs_pos|exact A1].
Qed.

Lemma lagged_abs (rs : list R) m : (m <= length rs)%nat -> rsum_n (length rs - m) (fun q => Rabs (dev rs q * dev rs (q + m))) <= sq_dev rs.
Proof.
  intros Hm. rewrite sq_dev_n. set (M := length rs) in *.
  apply Rle_trans with (rsum_n (M - m) (fun q => / 2 * (dev rs q * dev rs q) + / 2 * (dev rs (q + m) * dev rs (q + m)))).
  - apply rsum_n_le. intros q _. apply Rabs_le. split; [pose proof (Rle_0_sqr (dev rs q + dev rs (q + m))) as Q|pose proof (Rle_0_sqr (dev rs q - dev rs (q + m))) as Q]; unfold Rsqr in Q; lra.
  - rewrite rsum_n_plus, !rsum_n_scal.
    assert (A : rsum_n (M - m) (fun q => dev rs q * dev rs q) <= rsum_n M (fun q => dev rs q * dev rs q)) by (apply rsum_n_prefix; [lia|intros q; apply Rle_0_sqr]).
    assert (B : rsum_n (M - m) (fun q => dev rs (q + m) * dev rs (q + m)) <= rsum_n M (fun q => dev rs q * dev rs q)).
    { replace M with (m + (M - m))%nat at 2 by lia. rewrite rsum_n_split.
      assert (0 <= rsum_n m (fun q => dev rs q * dev rs q)) by (rewrite <- (rsum_n_0 (fun q => dev rs q * dev rs q)); apply rsum_n_prefix; [lia|intros q; apply Rle_0_sqr]).
      rewrite (rsum_n_ext (M - m) (fun q => dev rs (q + m) * dev rs (q + m)) (fun q => dev rs (m + q) * dev rs (m + q))) by (intros q _; rewrite (Nat.add_comm m q); reflexivity). lra. }
    lra.
Qed.

(** a weighted sum over the pairs [(q, q + m)], the last one possibly missing, with weights close to 1 *)
Lemma near_sum (rs : list R) (m n : nat) (w : nat -> R) (s : list nat) (y : R) : 0 <= y -> (m < length rs)%nat -> n = length s ->
  (length s = length rs - m \/ S (length s) = length rs - m)%nat -> (forall q, (q < length s)%nat -> nth q s 0%nat = (q + m)%nat) ->
  (forall q, (q < length s)%nat -> Rabs (w q - 1) <= y) ->
  Rabs (rsum_n n (fun q => w q * (dev rs q * dev rs (nth q s 0%nat))) - rsum_n (length rs - m) (fun q => dev rs q * dev rs (q + m))) <=
    y * sq_dev rs + Rabs (dev rs (length rs - 1 - m) * dev rs (length rs - 1)).
Proof.
  intros Y0 Hm -> Hl HS W. set (M := length rs) in *. set (x := fun q => dev rs q * dev rs (q + m)).
  assert (E1 : rsum_n (length s) (fun q => w q * (dev rs q * dev rs (nth q s 0%nat))) = rsum_n (length s) (fun q => x q + (w q - 1) * x q)).
  { apply rsum_n_ext. intros q Hq. rewrite (HS q Hq). unfold x. ring. }
  rewrite E1, rsum_n_plus.
  assert (B1 : Rabs (rsum_n (length s) (fun q => (w q - 1) * x q)) <= y * sq_dev rs).
  { apply Rle_trans with (rsum_n (length s) (fun q => y * Rabs (x q))).
    - clear - W. induction (length s) as [|n IH]; [rewrite !rsum_n_0, Rabs_R0; lra|]. rewrite !rsum_n_S. eapply Rle_trans; [apply Rabs_triang|].
      apply Rplus_le_compat; [apply IH; intros q Hq; apply W; lia|]. rewrite Rabs_mult. apply Rmult_le_compat_r; [apply Rabs_pos|apply W; lia].
    - rewrite rsum_n_scal. apply Rmult_le_compat_l; [exact Y0|]. eapply Rle_trans; [|apply (lagged_abs rs m); lia]. fold M.
      apply rsum_n_prefix; [lia|intros q; apply Rabs_pos]. }
  assert (B2 : Rabs (rsum_n (length s) x - rsum_n (M - m) x) <= Rabs (dev rs (M - 1 - m) * dev rs (M - 1))).
  { destruct Hl as [Hl|Hl].
    - rewrite Hl. unfold Rminus. rewrite Rplus_opp_r, Rabs_R0. apply Rabs_pos.
    - rewrite <- Hl, rsum_n_S. replace (rsum_n (length s) x - (rsum_n (length s) x + x (length s))) with (- x (length s)) by ring. rewrite Rabs_Ropp. unfold x.
      replace (M - 1 - m)%nat with (length s) by lia. replace (length s + m)%nat with (M - 1)%nat by lia. apply Rle_refl. }
  set (e1 := rsum_n (length s) x) in *. set (e2 := rsum_n (length s) (fun q => (w q - 1) * x q)) in *.
  change (rsum_n (M - m) (fun q => dev rs q * dev rs (q + m))) with (rsum_n (M - m) x). set (e3 := rsum_n (M - m) x) in *.
  replace (e1 + e2 - e3) with (e2 + (e1 - e3)) by ring. eapply Rle_trans; [apply Rabs_triang|]. apply Rplus_le_compat; assumption.
Qed.

Lemma even_close p d mi ma re al wgt lags corr c rows j i (rs ts : list R) (t0 dd h g kk a : R) (m : nat) :
  accepted d -> autocorrelation (A := XR) p d mi ma re al "natural" wgt = Ok (lags, corr, c) -> p_abs p = AbsFloat ->
  data_2d d = Ok rows -> nth_error rows j = Some (map Fin rs) -> nth_error lags i = Some (Fin kk) -> timeseries d = map Fin ts ->
  opt_or (A := XR) al (median_time d) = Fin a -> 0 < a -> 0 < sq_dev32 rs ->
  nearly_even ts t0 dd h -> Rabs (kk - INR m * dd) <= g -> 2 * (2 * h + g) < dd -> (m < length ts)%nat ->
  let M := length ts in
  exists r, corr_at corr j i = Some (Fin r) /\
    Rabs (r - rsum_n (M - m) (fun q => dev rs q * dev rs (q + m)) / sq_dev32 rs) <=
      ((2 * h + g) / a * sq_dev rs + Rabs (dev rs (M - 1 - m) * dev rs (M - 1))) / sq_dev32 rs.
Proof.
  intros Ha E Hp Hd Hj Hi Ht Hal Hpos HD He Hk Hu Hm M.
  assert (G0 : 0 <= g) by (eapply Rle_trans; [apply Rabs_pos|exact Hk]). assert (H0 : 0 <= h) by (eapply Rle_trans; [apply Rabs_pos|apply (He m Hm)]).
  destruct (call_pairs p d mi ma re al "natural" wgt lags corr c rows j i rs _ _ Ha E Hd Hj Hi Ht) as [f [s [os [Hf [HP _]]]]].
  pose proof Hf as Hg. injection Hf as <-.
  destruct (even_pairs p d kk _ s os ts t0 dd h g m Ha Hp Ht He Hk Hu Hm HP) as [Hl HS].
  destruct (value_exact_pairs p d mi ma re al "natural" wgt lags corr c rows j i rs _ os _ a _ _ s Ha E Hd Hj Hi Ht Hal Hpos Hg HP) as [_ [Lr [_ [_ [_ [_ HV]]]]]].
  cbn [xdiv] in HV. destruct (Reqb_spec (sq_dev32 rs) 0) as [C|_]; [lra|]. eexists. split; [exact HV|].
  set (u := 2 * h + g) in *. assert (U0 : 0 <= u) by (unfold u; lra). set (w := fun q => rweight wgt a (nth q os 0)).
  assert (W : forall q, (q < length s)%nat -> Rabs (w q - 1) <= u / a).
  { intros q Hq. destruct (HS q Hq) as [_ Ho]. unfold w. rewrite <- (rweight_0 wgt a Hpos). eapply Rle_trans; [apply rweight_lip; lra|].
    rewrite Rminus_0_r, Rabs_pos_eq by lra. apply Rmult_le_compat_r; [left; apply Rinv_0_lt_compat; exact Hpos|lra]. }
  assert (Ua : 0 <= u / a) by (unfold Rdiv; apply Rmult_le_pos; [exact U0|left; apply Rinv_0_lt_compat; exact Hpos]).
  pose proof (near_sum rs m _ w s (u / a) Ua ltac:(rewrite Lr; exact Hm) eq_refl ltac:(rewrite Lr; exact Hl) (fun q Hq => proj1 (HS q Hq)) W) as B. rewrite Lr in B. fold M in B.
  rewrite <- Rdiv_minus_distr. unfold Rdiv at 1 3. rewrite Rabs_mult, (Rabs_pos_eq (/ sq_dev32 rs)) by (left; apply Rinv_0_lt_compat; exact HD).
  apply Rmult_le_compat_r; [left; apply Rinv_0_lt_compat; exact HD|]. exact B.
Qed.
