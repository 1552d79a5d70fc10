(** A call on 64 times near 0, 1, .., 63, the odd ones late by 1/10000 (C118): lags 0 and 4. *)
From Coq Require Import String.
From Coq Require Import ZArith Reals List Bool Arith Lia Lra Psatz.
From Flocq Require Import Core.
From Verif Require Import Num Mem MemFacts XR B64 Spec SpecR SpecTime SpecEven DataStructure DSFacts Correlator Sacf Api CorrFacts LoopFacts MainFacts
  Laws Laws2 ConstrFacts SelFacts SelThms FastFacts TimeFacts WeightFacts ValFacts ExactFacts GridFacts SafeFacts GridVals ValThms UnsortedFacts CountFacts LagNumber PairBounds TimeCloseFacts.
Import ListNotations.
Local Open Scope list_scope.
Local Open Scope R_scope.

Definition late_at (q : nat) : R := INR q + (if Nat.odd q then 1 / 10000 else 0).
Definition late : list R := map late_at (seq 0 64).

Lemma late_length : length late = 64%nat.
Proof. unfold late. rewrite map_length, seq_length. reflexivity. Qed.

Lemma late_error q : nth_error late q = if (q <? 64)%nat then Some (late_at q) else None.
Proof. unfold late. rewrite nth_error_map, nth_error_seq. destruct (Nat.ltb_spec q 64); reflexivity. Qed.

Lemma late_nth q : (q < 64)%nat -> nth q late 0 = late_at q.
Proof. intros Hq. apply nth_error_nth. rewrite late_error. destruct (Nat.ltb_spec q 64); [reflexivity|lia]. Qed.

Lemma late_even : nearly_even late 0 1 (1 / 10000).
Proof.
  intros q Hq. rewrite late_length in Hq. rewrite late_nth by exact Hq. unfold late_at. destruct (Nat.odd q); apply Rabs_le; lra.
Qed.

Lemma late_built (rs : list R) p wgt : length rs = 64%nat -> p_checked p = false -> p_abs p = AbsFloat -> known_weight wgt ->
  exists (d : @dstruct XR) corr c, accepted d /\ timeseries d = map Fin late /\ data_2d d = Ok [map Fin rs] /\
    autocorrelation (A := XR) p d (Some (Fin 4)) (Some (Fin 4)) (Some (Fin 1)) (Some (Fin 10)) "natural" wgt = Ok (map Fin [0; 4], corr, c).
Proof.
  intros L Hp Hpa Hw. destruct (one_dataset (A := XR) (map Fin late) (map Fin rs) None) as [_ [_ H]].
  destruct H as (d & E & Et & Hd & _).
  { intros C. apply (f_equal (@length _)) in C. rewrite map_length, late_length in C. cbn in C. lia. }
  { intros C. apply (f_equal (@length _)) in C. rewrite map_length, L in C. cbn in C. lia. }
  { rewrite !map_length, late_length, L. reflexivity. }
  rewrite map_length, late_length in Hd. rewrite firstn_all2 in Hd by (rewrite map_length; lia).
  assert (Ha : accepted d) by (left; eauto). pose proof (norm_real d _ Ha Et) as En.
  assert (E0 : nth 0 late 0 = 0) by (rewrite late_nth by lia; unfold late_at; cbn; lra).
  assert (En' : normalised_timeseries d = map Fin late).
  { rewrite En, E0. f_equal. rewrite <- (map_id late) at 2. apply map_ext. intros x. ring. }
  clear En. rename En' into En.
  assert (HD : 2 < dbl_max).
  { unfold dbl_max. assert (bpow radix2 (-52) <= 1) by (change 1 with (bpow radix2 0); apply bpow_le; lia).
    assert (2 < bpow radix2 1023) by (change 2 with (bpow radix2 1); apply bpow_lt; lia).
    apply Rlt_le_trans with (1 * bpow radix2 1023); [lra|]. apply Rmult_le_compat_r; [lra|lra]. }
  set (r := 9999 / 10000). set (T := 63 + 1 / 10000).
  assert (NE : forall i, nth_error (normalised_timeseries d) i = if (i <? 64)%nat then Some (Fin (late_at i)) else None).
  { intros i. rewrite En, nth_error_map, late_error. destruct (i <? 64)%nat; reflexivity. }
  assert (R63 : INR 63 = 63) by (rewrite INR_IZR_INZ; reflexivity).
  destruct (constructs_exact d T r Ha) as [K _].
  - rewrite NE, En, map_length, late_length. change (64 - 1)%nat with 63%nat. cbn [Nat.ltb Nat.leb]. unfold late_at. rewrite R63. reflexivity.
  - rewrite En. apply fin_all.
  - intros i x y Hx Hy. rewrite NE in Hx, Hy. destruct (i <? 64)%nat; [|discriminate Hx]. destruct (S i <? 64)%nat; [|discriminate Hy]. injection Hx as <-. injection Hy as <-.
    unfold late_at. rewrite S_INR. unfold r. destruct (Nat.odd i); destruct (Nat.odd (S i)); lra.
  - exists 1%nat, (late_at 1), (late_at 2). rewrite !NE. split; [reflexivity|]. split; [reflexivity|]. unfold late_at, r. cbn. lra.
  - unfold r. lra.
  - cbv zeta in K.
    assert (Hq : (3 <= Zfloor (2 * T / r) <= 200)%Z).
    { assert (3 <= 2 * T / r) by (unfold T, r; lra). assert (2 * T / r < IZR 200) by (unfold T, r; lra).
      split; [apply Zfloor_lub; lra|]. apply le_IZR. eapply Rle_trans; [apply Zfloor_lb|lra]. }
    destruct K as (c0 & Hn & EM & Em & Er & Hroom); [split; [unfold r; lra|unfold INT_MAX; lia]|].
    assert (HG : lag_grid (A := XR) (Fin 4) (Fin 1) (Fin 4) (map Fin [0; 4])).
    { exists 1%nat. split.
      - split; [intros [|i] Hl; [|lia]; apply nle_Fin; cbn; lra|]. apply not_true_is_false. intros C. change (@nle XR (Fin (4 + 1)) (Fin 4) = true) in C. apply nle_Fin in C. lra.
      - cbn. unfold Reqb. destruct (Req_EM_T 4 0); [lra|]. unfold Rltb. destruct (Rlt_dec 0 4); [reflexivity|lra]. }
    destruct (@natural_call_outcome XR XR_laws2 p d c0 (Some (Fin 4)) (Some (Fin 4)) (Some (Fin 1)) (Some (Fin 10)) wgt Ha Hn Hp Hw) as [[_ K] _].
    + intros C. rewrite Hpa in C. discriminate C.
    + intros m _ _ C. rewrite Hpa in C. discriminate C.
    + destruct K as [[[lags corr] c] Ec].
      * exists (map Fin [0; 4]). split; [exact HG|]. split; [cbn [map length]; lia|left; discriminate].
      * exists d, corr, c. split; [exact Ha|]. split; [exact Et|]. split; [exact Hd|].
        destruct (returned_grid p d c0 _ _ _ _ _ _ (lags, corr, c) Ha Hn Ec) as [[m [G1 G2]] _]. cbn [opt_or fst] in G1, G2.
        destruct HG as [m' [G1' G2']]. rewrite (stops_at_unique _ _ _ _ _ G1' G1) in G2'. rewrite <- G2' in G2.
        rewrite Ec, <- G2. reflexivity.
Qed.
