(** Values 1, 2, 4 at the times 0, 1, t with t from 3 to 5, lag 1. *)
From Coq Require Import String.
From Coq Require Import ZArith Reals List Bool Arith Lia Lra.
From Flocq Require Import Core.
From Verif Require Import Num Mem MemFacts XR B64 Spec SpecR SpecTime DataStructure DSFacts Correlator Sacf Api CorrFacts LoopFacts MainFacts
  Laws Laws2 ConstrFacts SelFacts SelThms FastFacts TimeFacts WeightFacts ValFacts ExactFacts GridFacts SafeFacts GridVals ValThms UnsortedFacts CountFacts LagNumber PairBounds TimeCloseFacts.
From Verif Require Import TimeJump SpecNear NearFacts.
Import ListNotations.
Local Open Scope list_scope.
Local Open Scope R_scope.

Definition near_call (p : platform) (d : @dstruct XR) (wgt : string) :=
  autocorrelation (A := XR) p d (Some (Fin 1)) (Some (Fin 1)) (Some (Fin 1)) (Some (Fin 1)) "natural" wgt.

Lemma near_built t p wgt : 3 <= t <= 5 -> p_checked p = false -> p_abs p = AbsFloat -> known_weight wgt ->
  exists d corr c, SACF_1d (A := XR) (map Fin [0; 1; t]) (map Fin [1; 2; 4]) None = Ok d /\ accepted d /\ times_ok (A := XR) d /\
    timeseries d = map Fin [0; 1; t] /\ data_2d d = Ok [map Fin [1; 2; 4]] /\
    near_call p d wgt = Ok (map Fin [0; 1], corr, c).
Proof.
  intros Ht Hp Hpa Hw. destruct (one_dataset (A := XR) (map Fin [0; 1; t]) (map Fin [1; 2; 4]) None) as [_ [_ H]].
  destruct H as (d & E & Et & Hd & _); [discriminate|discriminate|reflexivity|].
  assert (Ha : accepted d) by (left; eauto). pose proof (norm_real d _ Ha Et) as En. cbn [map nth] in En. rewrite !Rminus_0_r in En.
  assert (Ho : ordered (A := XR) (timeseries d)).
  { rewrite Et. intros i j x y Hij Hx Hy. destruct i as [|[|[|i]]]; destruct j as [|[|[|j]]]; try lia; cbn in Hx, Hy;
      try (destruct i; discriminate); try (destruct j; discriminate); injection Hx as <-; injection Hy as <-; apply nle_Fin; lra. }
  assert (Hok : times_ok (A := XR) d).
  { split; [exact Ho|]. split; [rewrite Et; apply fin_all|]. rewrite En. apply (fin_all [0; 1; t]). }
  assert (HD : 5 < dbl_max).
  { unfold dbl_max. assert (bpow radix2 (-52) <= 1) by (change 1 with (bpow radix2 0); apply bpow_le; lia).
    assert (bpow radix2 3 < bpow radix2 1023) by (apply bpow_lt; lia). change (bpow radix2 3) with 8 in *.
    apply Rlt_le_trans with (1 * bpow radix2 1023); [lra|]. apply Rmult_le_compat_r; [lra|lra]. }
  destruct (constructs_exact d t 1 Ha) as [K _].
  - rewrite En. reflexivity.
  - rewrite En. apply (fin_all [0; 1; t]).
  - intros [|[|[|i]]] x y Hx Hy; rewrite En in Hx, Hy; cbn in Hx, Hy; try (destruct i; discriminate); try discriminate; injection Hx as <-; injection Hy as <-; lra.
  - exists 0%nat, 0, 1. rewrite En. split; [reflexivity|]. split; [reflexivity|lra].
  - lra.
  - cbv zeta in K.
    assert (Hq : (3 <= Zfloor (2 * t / 1) <= 10)%Z).
    { split; [apply Zfloor_lub; lra|]. apply le_IZR. eapply Rle_trans; [apply Zfloor_lb|lra]. }
    destruct K as (c0 & Hn & EM & Em & Er & Hroom); [split; [lra|unfold INT_MAX; lia]|].
    assert (HG : lag_grid (A := XR) (Fin 1) (Fin 1) (Fin 1) (map Fin [0; 1])).
    { exists 1%nat. split.
      - split; [intros [|i] Hl; [|lia]; apply nle_Fin; cbn; lra|]. apply not_true_is_false. intros C. change (@nle XR (Fin (1 + 1)) (Fin 1) = true) in C. apply nle_Fin in C. lra.
      - cbn. unfold Reqb. destruct (Req_EM_T 1 0); [lra|]. unfold Rltb. destruct (Rlt_dec 0 1); [reflexivity|lra]. }
    destruct (@natural_call_outcome XR XR_laws2 p d c0 (Some (Fin 1)) (Some (Fin 1)) (Some (Fin 1)) (Some (Fin 1)) wgt Ha Hn Hp Hw) as [[_ K] _].
    + intros C. rewrite Hpa in C. discriminate C.
    + intros m _ _ C. rewrite Hpa in C. discriminate C.
    + destruct K as [[[lags corr] c] Ec].
      * exists (map Fin [0; 1]). split; [exact HG|]. split; [cbn [map length]; lia|left; discriminate].
      * exists d, corr, c. split; [exact E|]. split; [exact Ha|]. split; [exact Hok|]. split; [exact Et|]. split; [exact Hd|].
        destruct (returned_grid p d c0 _ _ _ _ _ _ (lags, corr, c) Ha Hn Ec) as [[m [G1 G2]] _]. cbn [opt_or fst] in G1, G2.
        destruct HG as [m' [G1' G2']]. rewrite (stops_at_unique _ _ _ _ _ G1' G1) in G2'. rewrite <- G2' in G2.
        unfold near_call. rewrite Ec, <- G2. reflexivity.
Qed.

(** the pairs and the value at lag 1: time 0 meets time 1; time 1 moved to 2 pairs with time 3 if that is the last time, else with itself *)
Lemma near_value t z p wgt : 3 <= t <= 5 -> (t = 3 /\ z = 2%nat) \/ (3 < t /\ z = 1%nat) ->
  p_checked p = false -> p_abs p = AbsFloat -> known_weight wgt ->
  forall d corr c, accepted d -> times_ok (A := XR) d -> timeseries d = map Fin [0; 1; t] -> data_2d d = Ok [map Fin [1; 2; 4]] ->
    near_call p d wgt = Ok (map Fin [0; 1], corr, c) ->
  pairs_by (A := XR) p d (naturalSelectionFunctionIdx (A := XR) p d) (Fin 1) 1 = Ok ([1; z]%nat, map Fin [0; 1]) /\
  corr_at corr 0 1 = Some (Fin ((dev [1; 2; 4] 0 * dev [1; 2; 4] 1 + rweight wgt 1 1 * (dev [1; 2; 4] 1 * dev [1; 2; 4] z)) / sq_dev32 [1; 2; 4])).
Proof.
  intros Ht Hz Hp Hpa Hw d corr c Ha Hok Et Hd E. unfold near_call in E.
  destruct (call_pairs p d _ _ _ _ "natural" wgt _ corr c _ 0 1 [1; 2; 4] [0; 1; t] 1 Ha E Hd eq_refl eq_refl Et) as [f [s [os [Hf [HP HL]]]]].
  pose proof Hf as Hg. injection Hf as <-. cbn [length] in HP.
  destruct (natural_exact p d 1 _ s os _ Ha Hok Hpa Et HP) as [A1 [A2 A3]]. cbn [length] in *.
  assert (Ls : length s = 2%nat).
  { pose proof (A2 1%nat ltac:(lia)) as K1. pose proof (A2 2%nat ltac:(lia)) as K2. unfold gap in K1, K2. cbn [nth Nat.sub] in K1, K2.
    destruct K1 as [_ K1]. destruct K2 as [K2 _]. assert (1 < length s)%nat by (apply K1; lra).
    destruct (Nat.lt_ge_cases 2 (length s)) as [G|G]; [|lia]. apply K2 in G. lra. }
  assert (P : forall q, (q < 2)%nat -> partner [0; 1; t] 1 q (nth q s 0%nat)).
  { intros q Hq. apply (natural_partner p d 1 1 s _ _ Ha Hok Hpa Et HP). lia. }
  assert (S0 : nth 0 s 0%nat = 1%nat).
  { apply (partner_unique [0; 1; t] 1 0 _ _ (P 0%nat ltac:(lia))). split; [split; [cbn; lia|]|].
    - intros y Hy. unfold gap. cbn [nth]. replace (1 - (0 + 1)) with 0 by ring. rewrite Rabs_R0. apply Rabs_pos.
    - intros y [Hy Hm] Hn. exfalso. specialize (Hm 1%nat ltac:(cbn; lia)). unfold gap in Hm. cbn [nth] in Hm. replace (1 - (0 + 1)) with 0 in Hm by ring.
      rewrite Rabs_R0 in Hm. destruct y as [|[|[|y]]]; cbn in Hy; try lia; cbn [nth] in Hm; unfold Rabs in Hm; destruct Rcase_abs in Hm; lra. }
  assert (S1 : nth 1 s 0%nat = z).
  { apply (partner_unique [0; 1; t] 1 1 _ _ (P 1%nat ltac:(lia))). destruct Hz as [[-> ->]|[Ht3 ->]].
    - split; [split; [cbn; lia|]|].
      + intros [|[|[|y]]] Hy; cbn in Hy; try lia; unfold gap; cbn [nth]; unfold Rabs; repeat destruct Rcase_abs; lra.
      + intros y [Hy Hm] Hn. left. unfold gap. cbn [nth]. split; [lra|]. left. destruct y as [|[|[|y]]]; cbn in Hy; try lia; cbn [nth]; lra.
    - split; [split; [cbn; lia|]|].
      + intros [|[|[|y]]] Hy; cbn in Hy; try lia; unfold gap; cbn [nth]; unfold Rabs; repeat destruct Rcase_abs; lra.
      + intros y [Hy Hm] Hn. right. unfold gap. cbn [nth]. destruct y as [|[|[|y]]]; cbn in Hy; try lia.
        * cbn [nth]. split; [lra|]. split; [lra|lia].
        * exfalso. specialize (Hm 1%nat ltac:(cbn; lia)). unfold gap in Hm. cbn [nth] in Hm. unfold Rabs in Hm. destruct (Rcase_abs (t - _)) in Hm; destruct Rcase_abs in Hm; lra. }
  assert (Es : s = [1; z]%nat) by (destruct s as [|a [|b [|? ?]]]; cbn in Ls; try lia; cbn in S0, S1; congruence).
  assert (Eo : os = [0; 1]).
  { destruct os as [|a [|b [|? ?]]]; cbn in HL; try lia. destruct (A3 0%nat ltac:(lia)) as [_ [O0 _]]. destruct (A3 1%nat ltac:(lia)) as [_ [O1 _]].
    rewrite S0 in O0. rewrite S1 in O1. cbn in O0, O1. unfold gap in O0, O1. cbn [nth] in O0, O1. subst a b. f_equal; [|f_equal].
    - replace (1 - (0 + 1)) with 0 by ring. apply Rabs_R0.
    - destruct Hz as [[-> ->]|[_ ->]]; cbn [nth]; unfold Rabs; destruct Rcase_abs; lra. }
  subst s os. split; [exact HP|].
  destruct (value_exact_pairs p d _ _ _ _ "natural" wgt _ corr c _ 0 1 [1; 2; 4] _ [0; 1] 1 1 _ _ _ Ha E Hd eq_refl eq_refl Et eq_refl ltac:(lra) Hg HP)
    as [_ [_ [_ [_ [_ [_ HV]]]]]].
  rewrite HV. cbn [xdiv]. unfold Reqb. destruct (Req_EM_T (sq_dev32 [1; 2; 4]) 0) as [C|C]; [rewrite jump_sq in C; lra|].
  do 3 f_equal. unfold rsum_n, rsum. cbn [length seq map nth fold_right].
  assert (W0 : rweight wgt 1 0 = 1).
  { unfold rweight. destruct (String.eqb wgt "fractional"); [field|]. destruct (String.eqb wgt "fractional_squared"); [field|].
    replace (- (0 * 0) / (2 * 1 * 1)) with 0 by field. apply exp_0. }
  rewrite W0. ring.
Qed.

Lemma near_weight wgt : 0 < rweight wgt 1 1.
Proof.
  unfold rweight. destruct (String.eqb wgt "fractional"); [lra|]. destruct (String.eqb wgt "fractional_squared"); [lra|]. apply exp_pos.
Qed.

Lemma near_sharp p wgt : p_checked p = false -> p_abs p = AbsFloat -> known_weight wgt ->
  exists d d' corr c corr' c' r r',
    accepted d /\ times_ok (A := XR) d /\ accepted d' /\ times_ok (A := XR) d' /\
    timeseries d = map Fin [0; 1; 3] /\ timeseries d' = map Fin [0; 1; 4] /\ data_2d d = Ok [map Fin [1; 2; 4]] /\ data_2d d' = Ok [map Fin [1; 2; 4]] /\
    near_call p d wgt = Ok (map Fin [0; 1], corr, c) /\ near_call p d' wgt = Ok (map Fin [0; 1], corr', c') /\
    (forall w, w < 2 -> same_near [0; 1; 3] [0; 1; 4] w) /\
    corr_at corr 0 1 = Some (Fin r) /\ corr_at corr' 0 1 = Some (Fin r') /\ r <> r'.
Proof.
  intros Hp Hpa Hw. destruct (near_built 3 p wgt ltac:(lra) Hp Hpa Hw) as (d & corr & c & _ & Ha & Hok & Et & Hd & E).
  destruct (near_built 4 p wgt ltac:(lra) Hp Hpa Hw) as (d' & corr' & c' & _ & Ha' & Hok' & Et' & Hd' & E').
  destruct (near_value 3 2 p wgt ltac:(lra) (or_introl (conj eq_refl eq_refl)) Hp Hpa Hw d corr c Ha Hok Et Hd E) as [_ V].
  assert (H34 : 3 < 4) by lra.
  destruct (near_value 4 1 p wgt ltac:(lra) (or_intror (conj H34 eq_refl)) Hp Hpa Hw d' corr' c' Ha' Hok' Et' Hd' E') as [_ V'].
  exists d, d', corr, c, corr', c'. do 2 eexists. do 10 (split; [eassumption|]). split.
  { intros w Hw2. split; [reflexivity|]. intros [|[|[|x]]] [|[|[|y]]] Hxy Hy; cbn [length] in Hy; try lia; cbn [nth]; (left; lra) || (right; lra). }
  split; [exact V|]. split; [exact V'|]. pose proof (near_weight wgt) as W. rewrite jump_sq. destruct jump_dev as [-> [-> ->]].
  clear V V'. generalize dependent (rweight wgt 1 1). intros w W C. lra.
Qed.
