(** A series with a point missing: values 1, 2, 4 at the times 0, 1, 3. *)
From Coq Require Import String.
From Coq Require Import ZArith Reals List Bool Arith Lia Lra.
From Flocq Require Import Core.
From Verif Require Import Num Mem MemFacts XR B64 Spec SpecR SpecTime DataStructure DSFacts Correlator Sacf Api CorrFacts LoopFacts MainFacts
  Laws Laws2 ConstrFacts SelFacts SelThms FastFacts TimeFacts WeightFacts ValFacts ExactFacts GridFacts SafeFacts GridVals ValThms UnsortedFacts CountFacts LagNumber PairBounds TimeCloseFacts.
Import ListNotations.
From Verif Require Import SpecGaps GapFacts TimeJump.
Import ListNotations.
Local Open Scope list_scope.
Local Open Scope R_scope.

Definition gap_ns : list Z := [0; 1; 3]%Z.

Lemma gap_rising : rising gap_ns.
Proof. intros [|[|[|x]]] [|[|[|y]]] H1 H2; cbn in *; lia. Qed.

Lemma gap_times : on_grid 0 1 gap_ns = [0; 1; 3].
Proof. unfold on_grid, gap_ns. cbn [map]. repeat f_equal; lra. Qed.

Lemma gap_built p wgt : p_checked p = false -> p_abs p = AbsFloat -> known_weight wgt ->
  exists d corr c, SACF_1d (A := XR) (map Fin (on_grid 0 1 gap_ns)) (map Fin [1; 2; 4]) None = Ok d /\ accepted d /\
    timeseries d = map Fin (on_grid 0 1 gap_ns) /\ data_2d d = Ok [map Fin [1; 2; 4]] /\
    autocorrelation (A := XR) p d (Some (Fin 1)) (Some (Fin 1)) (Some (Fin 1)) (Some (Fin 1)) "natural" wgt = Ok (map Fin [0; 1], corr, c).
Proof.
  intros Hp Hpa Hw. rewrite gap_times. destruct (one_dataset (A := XR) (map Fin [0; 1; 3]) (map Fin [1; 2; 4]) None) as [_ [_ H]].
  destruct H as (d & E & Et & Hd & _); [discriminate|discriminate|reflexivity|].
  assert (Ha : accepted d) by (left; eauto). pose proof (norm_real d _ Ha Et) as En. cbn [map nth] in En. rewrite !Rminus_0_r in En.
  assert (HD : 3 < dbl_max).
  { unfold dbl_max. assert (bpow radix2 (-52) <= 1) by (change 1 with (bpow radix2 0); apply bpow_le; lia).
    assert (bpow radix2 2 < bpow radix2 1023) by (apply bpow_lt; lia). change (bpow radix2 2) with 4 in *.
    apply Rlt_le_trans with (1 * bpow radix2 1023); [lra|]. apply Rmult_le_compat_r; [lra|lra]. }
  destruct (constructs_exact d 3 1 Ha) as [K _].
  - rewrite En. reflexivity.
  - rewrite En. apply (fin_all [0; 1; 3]).
  - intros [|[|[|i]]] x y Hx Hy; rewrite En in Hx, Hy; cbn in Hx, Hy; try (destruct i; discriminate); try discriminate; injection Hx as <-; injection Hy as <-; lra.
  - exists 0%nat, 0, 1. rewrite En. split; [reflexivity|]. split; [reflexivity|lra].
  - lra.
  - cbv zeta in K.
    assert (Hq : Zfloor (2 * 3 / 1) = 6%Z) by (replace (2 * 3 / 1) with (IZR 6) by lra; apply Zfloor_IZR).
    destruct K as (c0 & Hn & EM & Em & Er & Hroom); [split; [lra|rewrite Hq; unfold INT_MAX; lia]|].
    assert (HG : lag_grid (A := XR) (Fin 1) (Fin 1) (Fin 1) (map Fin [0; 1])).
    { exists 1%nat. split.
      - split; [intros [|i] Hl; [|lia]; apply nle_Fin; cbn; lra|]. apply not_true_is_false. intros C. change (@nle XR (Fin (1 + 1)) (Fin 1) = true) in C. apply nle_Fin in C. lra.
      - cbn. unfold Reqb. destruct (Req_EM_T 1 0); [lra|]. unfold Rltb. destruct (Rlt_dec 0 1); [reflexivity|lra]. }
    destruct (@natural_call_outcome XR XR_laws2 p d c0 (Some (Fin 1)) (Some (Fin 1)) (Some (Fin 1)) (Some (Fin 1)) wgt Ha Hn Hp Hw) as [[_ K] _].
    + intros C. rewrite Hpa in C. discriminate C.
    + intros m _ _ C. rewrite Hpa in C. discriminate C.
    + destruct K as [[[lags corr] c] Ec].
      * exists (map Fin [0; 1]). split; [exact HG|]. split; [cbn [map length]; lia|left; discriminate].
      * exists d, corr, c. split; [exact E|]. split; [exact Ha|]. split; [exact Et|]. split; [exact Hd|].
        destruct (returned_grid p d c0 _ _ _ _ _ _ (lags, corr, c) Ha Hn Ec) as [[m [G1 G2]] _]. cbn [opt_or fst] in G1, G2.
        destruct HG as [m' [G1' G2']]. rewrite (stops_at_unique _ _ _ _ _ G1' G1) in G2'. rewrite <- G2' in G2.
        rewrite Ec, <- G2. reflexivity.
Qed.
