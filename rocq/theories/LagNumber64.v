(** The number of lags of the default call in binary64, for time stamps on a binary grid. *)
From Coq Require Import String.
From Coq Require Import ZArith Reals List Bool Arith Lia Lra.
From Flocq Require Import Core BinarySingleNaN.
From Verif Require Import Num Mem MemFacts XR B64 Spec SpecR DataStructure DSFacts Correlator Sacf Api
  Laws Laws2 B64Facts ConstrFacts FixedFacts FixedThms GridVals LagNumber.
Import ListNotations.
Local Open Scope list_scope.
Local Open Scope R_scope.

Section Number64.
Variable exp64 : b64 -> b64.

Lemma exact_fin (ts : list b64) : (forall t, In t ts -> is_finite t = true) -> map exact_of ts = map Fin (map B2R ts).
Proof.
  intros H. rewrite map_map. apply map_ext_in. intros t Ht. specialize (H t Ht). destruct t; try discriminate H; reflexivity.
Qed.

Lemma incr_real (ts : list b64) : (forall t, In t ts -> is_finite t = true) -> increasing (A := B64 exp64) ts -> increasing (A := XR) (map Fin (map B2R ts)).
Proof.
  intros Hf [H1 H2].
  assert (S : forall i j a b, (i < j)%nat -> nth_error (map Fin (map B2R ts)) i = Some a -> nth_error (map Fin (map B2R ts)) j = Some b -> @nlt XR a b = true).
  { intros i j a b Hij Ha Hb. rewrite !nth_error_map in Ha, Hb. destruct (nth_error ts i) as [x|] eqn:Ex; [|discriminate].
    destruct (nth_error ts j) as [y|] eqn:Ey; [|discriminate]. injection Ha as <-. injection Hb as <-. apply nlt_Fin.
    pose proof (H2 i j x y Hij Ex Ey) as K. change (Bltb x y = true) in K.
    rewrite Bltb_correct in K by (apply Hf; eapply nth_error_In; eassumption). destruct (Rlt_bool_spec (B2R x) (B2R y)); [assumption|discriminate]. }
  split; [|exact S]. intros i j a b Hij Ha Hb. destruct (Nat.eq_dec i j) as [->|].
  - rewrite Ha in Hb. injection Hb as <-. rewrite !nth_error_map in Ha. destruct (nth_error ts j); [|discriminate]. injection Ha as <-. apply nle_Fin. lra.
  - assert (K : @nlt XR a b = true) by (eapply S; [|exact Ha|exact Hb]; lia). rewrite !nth_error_map in Ha, Hb.
    destruct (nth_error ts i); [|discriminate]. destruct (nth_error ts j); [|discriminate]. injection Ha as <-. injection Hb as <-. apply nlt_Fin in K. apply nle_Fin. lra.
Qed.

Lemma lag_number64 (d : @dstruct (B64 exp64)) p (g : Z) al sel wgt lags corr c : (-1073 <= g <= 960)%Z -> accepted d ->
  (forall t : b64, In t (timeseries d) -> fixed_point g 50 t) -> (2 <= length (timeseries d))%nat -> increasing (timeseries d) ->
  autocorrelation (A := B64 exp64) p d None None None al sel wgt = Ok (lags, corr, c) ->
  (2 * length (timeseries d) - 1 <= length lags)%nat /\
  (length lags = 2 * length (timeseries d) - 1 <-> exists t0 dd, map B2R (timeseries d) = grid t0 dd (length (timeseries d)))%nat.
Proof.
  intros Hg Ha Hf Hn Hi E. assert (Hfin : forall t, In t (timeseries d) -> is_finite t = true) by (intros t Ht; exact (proj1 (Hf t Ht))).
  destruct (one_dataset (A := XR) (map exact_of (timeseries d)) (map exact_of (timeseries d)) None) as [_ [_ H]].
  assert (Hne : map exact_of (timeseries d) <> []) by (intros C; apply map_eq_nil in C; rewrite C in Hn; cbn in Hn; lia).
  destruct H as (e & Ee & Et & _); [exact Hne|exact Hne|apply Nat.mod_same; intros C; apply length_zero_iff_nil in C; contradiction|].
  assert (He : accepted e) by (left; eauto).
  pose proof (fixed_lags exp64 p d e g None None None al None sel wgt Hg Ha He Et Hf Hn (proj1 Hi)) as K.
  specialize (K ltac:(discriminate) ltac:(discriminate) ltac:(discriminate)). cbn [option_map] in K. change (@None b64) with (@None (@num (B64 exp64))) in K. change (@None xr) with (@None (@num XR)) in K. rewrite E in K. cbn [visible] in K.
  destruct (autocorrelation (A := XR) p e None None None None sel wgt) as [[[lags' corr'] c']|x|u|] eqn:Ex; cbn [visible same_outcome] in K; try contradiction.
  destruct K as [K _]. cbn [fst] in K.
  assert (El : length lags = length lags') by (rewrite K, map_length; reflexivity).
  assert (Elt : length (timeseries d) = length (map B2R (timeseries d))) by (rewrite map_length; reflexivity).
  rewrite El, Elt. apply (lag_number e (map B2R (timeseries d)) He) with (p := p) (al := None) (sel := sel) (wgt := wgt) (corr := corr') (c := c').
  - rewrite Et. apply exact_fin, Hfin.
  - rewrite Et, exact_fin by exact Hfin. apply incr_real; assumption.
  - rewrite map_length. exact Hn.
  - intros x y Hx Hy. apply in_map_iff in Hx. apply in_map_iff in Hy. destruct Hx as (a & <- & Hx). destruct Hy as (b & <- & Hy).
    destruct (Hf a Hx) as (_ & ka & Ka & ->). destruct (Hf b Hy) as (_ & kb & Kb & ->). rewrite <- Rmult_minus_distr_r, <- minus_IZR.
    apply Rle_lt_trans with (bpow radix2 51 * bpow radix2 960).
    + apply Rle_trans with (bpow radix2 51 * bpow radix2 g).
      * apply Rmult_le_compat_r; [apply bpow_ge_0|]. change (bpow radix2 51) with (IZR (2 ^ 51)). apply IZR_le. lia.
      * apply Rmult_le_compat_l; [apply bpow_ge_0|]. apply bpow_le. lia.
    + rewrite <- bpow_plus. apply Rlt_le_trans with (1 * bpow radix2 1023); [rewrite Rmult_1_l; apply bpow_lt; lia|].
      unfold dbl_max. apply Rmult_le_compat_r; [apply bpow_ge_0|]. assert (bpow radix2 (-52) <= 1) by (change 1 with (bpow radix2 0); apply bpow_le; lia). lra.
  - exact Ex.
Qed.

Lemma three_binary64 (N : nat) (v : list b64) p wgt : (2 <= N)%nat -> (2 * Z.of_nat N + 3 <= INT_MAX)%Z -> length v = 3%nat -> p_checked p = false -> known_weight wgt ->
  exists d lags corr c, SACF_1d (A := B64 exp64) [b64_ofZ 0; b64_ofZ 1; b64_ofZ (Z.of_nat N)] v None = Ok d /\
    autocorrelation (A := B64 exp64) p d None None None None "natural" wgt = Ok (lags, corr, c) /\ length lags = (2 * N + 1)%nat.
Proof.
  intros HN HI Hv Hp Hw. change INT_MAX with 2147483647%Z in HI.
  destruct (one_dataset (A := B64 exp64) [b64_ofZ 0; b64_ofZ 1; b64_ofZ (Z.of_nat N)] v None) as [_ [_ H]].
  destruct H as (d & E & Et & _); [discriminate|intros ->; discriminate|change (@length (@num (B64 exp64)) v = 3%nat) in Hv; rewrite Hv; reflexivity|].
  destruct (three_exact N (map Fin [0; 0; 0]) p wgt HN ltac:(change INT_MAX with 2147483647%Z; lia) eq_refl Hp Hw) as (e & lags' & corr' & c' & Ee & Ec & El).
  assert (Z1 : forall z, (Z.abs z <= 2 ^ 50)%Z -> exact_of (b64_ofZ z) = Fin (IZR z) /\ fixed_point 0 50 (b64_ofZ z)).
  { intros z Hz. pose proof (toE_ofZ_small z ltac:(lia)) as K. assert (Hf : is_finite (b64_ofZ z) = true) by (destruct (b64_ofZ z) as [| [] | |]; cbn in K; try discriminate K; reflexivity).
    assert (HB : B2R (b64_ofZ z) = IZR z) by (destruct (b64_ofZ z) as [| [] | |]; cbn in K; try discriminate K; injection K as K; exact K).
    split; [destruct (b64_ofZ z); try discriminate Hf; cbn [exact_of]; rewrite HB; reflexivity|]. split; [exact Hf|]. exists z. split; [exact Hz|]. rewrite HB. cbn [bpow]. lra. }
  assert (Ha : accepted d) by (left; eauto). assert (He : accepted e) by (left; eauto).
  assert (Ete : timeseries e = map Fin [0; 1; INR N]).
  { destruct (one_dataset (A := XR) (map Fin [0; 1; INR N]) (map Fin [0; 0; 0]) None) as [_ [_ H]]. destruct H as (e' & E' & Et' & _); [discriminate|discriminate|reflexivity|].
    rewrite Ee in E'. injection E' as <-. exact Et'. }
  assert (EE : timeseries e = map exact_of (timeseries d)).
  { rewrite Ete, Et. cbn [map]. rewrite (proj1 (Z1 0%Z ltac:(lia))), (proj1 (Z1 1%Z ltac:(lia))), (proj1 (Z1 (Z.of_nat N) ltac:(lia))), INR_IZR_INZ. reflexivity. }
  assert (Hf : forall t : b64, In t (timeseries d) -> fixed_point 0 50 t).
  { intros t Ht. rewrite Et in Ht. destruct Ht as [<-|[<-|[<-|[]]]]; apply Z1; lia. }
  assert (Hle : forall x y, In x (timeseries d) -> In y (timeseries d) -> B2R x <= B2R y -> @nle (B64 exp64) x y = true).
  { intros x y Hx Hy K. change (Bleb x y = true). rewrite Bleb_correct by (apply Hf; assumption). apply Rle_bool_true. exact K. }
  assert (HR : forall z, (Z.abs z <= 2 ^ 50)%Z -> B2R (b64_ofZ z) = IZR z).
  { intros z Hz. destruct (Z1 z Hz) as [K1 [K2 _]]. destruct (b64_ofZ z); try discriminate K2; injection K1 as K1; exact K1. }
  assert (H2N : 2 <= INR N) by (apply (le_INR 2); exact HN).
  assert (HX : forall i x, nth_error [b64_ofZ 0; b64_ofZ 1; b64_ofZ (Z.of_nat N)] i = Some x -> i = 0%nat /\ B2R x = 0 \/ i = 1%nat /\ B2R x = 1 \/ i = 2%nat /\ B2R x = INR N).
  { pose proof (HR 0%Z ltac:(lia)) as R0. pose proof (HR 1%Z ltac:(lia)) as R1. pose proof (HR (Z.of_nat N) ltac:(lia)) as R2. rewrite <- INR_IZR_INZ in R2.
    revert R0 R1 R2. generalize (b64_ofZ 0) (b64_ofZ 1) (b64_ofZ (Z.of_nat N)). intros b0 b1 b2 R0 R1 R2 [|[|[|i]]] x Hx; cbn in Hx; try (destruct i; discriminate);
      injection Hx as <-; auto. }
  assert (Ho : ordered (timeseries d)).
  { intros i j x y Hij Hx Hy. apply Hle; [eapply nth_error_In; exact Hx|eapply nth_error_In; exact Hy|]. rewrite Et in Hx, Hy.
    destruct (HX _ _ Hx) as [[-> ->]|[[-> ->]|[-> ->]]], (HX _ _ Hy) as [[-> ->]|[[-> ->]|[-> ->]]]; try lia; lra. }
  pose proof (fixed_lags exp64 p d e 0 None None None None None "natural" wgt ltac:(lia) Ha He EE Hf ltac:(rewrite Et; cbn; lia) Ho) as K.
  specialize (K ltac:(discriminate) ltac:(discriminate) ltac:(discriminate)). cbn [option_map] in K. change (@None b64) with (@None (@num (B64 exp64))) in K. change (@None xr) with (@None (@num XR)) in K. rewrite Ec in K. cbn [visible] in K.
  destruct (autocorrelation (A := B64 exp64) p d None None None None "natural" wgt) as [[[lags corr] c]|x|u|] eqn:Ex; cbn [visible same_outcome] in K; try contradiction.
  destruct K as [K _]. cbn [fst] in K. exists d, lags, corr, c. split; [exact E|]. split; [exact Ex|]. rewrite <- El, K, map_length. reflexivity.
Qed.
End Number64.
