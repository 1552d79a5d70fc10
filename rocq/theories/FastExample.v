(** The fast selection: values 1, 2, 4 at the times 0, 1, t with t from 3 to 5, a lag up to 1. *)
From Coq Require Import String.
From Coq Require Import ZArith Reals List Bool Arith Lia Lra.
From Flocq Require Import Core.
From Verif Require Import Num Mem MemFacts XR B64 Spec SpecR SpecTime DataStructure DSFacts Correlator Sacf Api CorrFacts LoopFacts MainFacts
  Laws Laws2 ConstrFacts SelFacts SelThms FastFacts TimeFacts WeightFacts ValFacts ExactFacts GridFacts SafeFacts GridVals ValThms UnsortedFacts CountFacts LagNumber PairBounds TimeCloseFacts.
From Verif Require Import TimeJump SpecFast FastAny FastCall.
Import ListNotations.
Local Open Scope list_scope.
Local Open Scope R_scope.

Definition fast_call1 (L : R) (p : platform) (d : @dstruct XR) (wgt : string) :=
  autocorrelation (A := XR) p d (Some (Fin L)) (Some (Fin L)) (Some (Fin 1)) (Some (Fin 1)) "fast" wgt.

Lemma fast_built L t p wgt : 0 < L <= 1 -> 3 <= t <= 5 -> p_checked p = false -> p_abs p = AbsFloat -> known_weight wgt ->
  exists d corr c, SACF_1d (A := XR) (map Fin [0; 1; t]) (map Fin [1; 2; 4]) None = Ok d /\ accepted d /\ times_ok (A := XR) d /\
    timeseries d = map Fin [0; 1; t] /\ data_2d d = Ok [map Fin [1; 2; 4]] /\
    fast_call1 L p d wgt = Ok (map Fin [0; L], corr, c).
Proof.
  intros HL Ht Hp Hpa Hw. destruct (one_dataset (A := XR) (map Fin [0; 1; t]) (map Fin [1; 2; 4]) None) as [_ [_ H]].
  destruct H as (d & E & Et & Hd & _); [discriminate|discriminate|reflexivity|].
  assert (Ha : accepted d) by (left; eauto). pose proof (norm_real d _ Ha Et) as En. cbn [map nth] in En. rewrite !Rminus_0_r in En.
  assert (Ho : ordered (A := XR) (timeseries d)).
  { rewrite Et. intros i j x y Hij Hx Hy. destruct i as [|[|[|i]]]; destruct j as [|[|[|j]]]; try lia; cbn in Hx, Hy;
      try (destruct i; discriminate); try (destruct j; discriminate); injection Hx as <-; injection Hy as <-; apply nle_Fin; lra. }
  assert (Hok : times_ok (A := XR) d).
  { split; [exact Ho|]. split; [rewrite Et; apply fin_all|]. rewrite En. apply (fin_all [0; 1; t]). }
  assert (HD : 5 < dbl_max).
  { unfold dbl_max. assert (bpow radix2 (-52) <= 1) by (change 1 with (bpow radix2 0); apply bpow_le; lia).
    assert (bpow radix2 3 < bpow radix2 1023) by (apply bpow_lt; lia). change (bpow radix2 3) with 8 in *.
    apply Rlt_le_trans with (1 * bpow radix2 1023); [lra|]. apply Rmult_le_compat_r; [lra|lra]. }
  destruct (constructs_exact d t 1 Ha) as [K _].
  - rewrite En. reflexivity.
  - rewrite En. apply (fin_all [0; 1; t]).
  - intros [|[|[|i]]] x y Hx Hy; rewrite En in Hx, Hy; cbn in Hx, Hy; try (destruct i; discriminate); try discriminate; injection Hx as <-; injection Hy as <-; lra.
  - exists 0%nat, 0, 1. rewrite En. split; [reflexivity|]. split; [reflexivity|lra].
  - lra.
  - cbv zeta in K.
    assert (Hq : (3 <= Zfloor (2 * t / 1) <= 10)%Z).
    { split; [apply Zfloor_lub; lra|]. apply le_IZR. eapply Rle_trans; [apply Zfloor_lb|lra]. }
    destruct K as (c0 & Hn & EM & Em & Er & Hroom); [split; [lra|unfold INT_MAX; lia]|].
    assert (HG : lag_grid (A := XR) (Fin L) (Fin 1) (Fin L) (map Fin [0; L])).
    { exists 1%nat. split.
      - split; [intros [|i] Hl; [|lia]; apply nle_Fin; cbn; lra|]. apply not_true_is_false. intros C. change (@nle XR (Fin (L + 1)) (Fin L) = true) in C. apply nle_Fin in C. lra.
      - cbn. unfold Reqb. destruct (Req_EM_T L 0); [lra|]. unfold Rltb. destruct (Rlt_dec 0 L); [reflexivity|lra]. }
    destruct (@fast_call_outcome XR XR_laws XR_laws2 p d c0 (Some (Fin L)) (Some (Fin L)) (Some (Fin 1)) (Some (Fin 1)) wgt (map Fin [0; L]) Ha Hok Hn Hp Hw HG) as [_ K].
    + discriminate.
    + cbn [map length]. lia.
    + intros kk _ C. rewrite Hpa in C. discriminate C.
    + destruct K as [[[lags corr] c] Ec].
      * intros kk Hk (back & Eb & _ & [C|(y & Ey & Hy)]); rewrite En in *; [discriminate C|]. cbn in Ey. injection Ey as <-.
        destruct Hk as [<-|[<-|[]]]; change (@nlt XR (Fin 1) (Fin (0 + 0)) = true) in Hy || change (@nlt XR (Fin 1) (Fin (0 + L)) = true) in Hy; apply nlt_Fin in Hy; lra.
      * exists d, corr, c. split; [exact E|]. split; [exact Ha|]. split; [exact Hok|]. split; [exact Et|]. split; [exact Hd|].
        destruct (returned_grid p d c0 _ _ _ _ _ _ (lags, corr, c) Ha Hn Ec) as [[m [G1 G2]] _]. cbn [opt_or fst] in G1, G2.
        destruct HG as [m' [G1' G2']]. rewrite (stops_at_unique _ _ _ _ _ G1' G1) in G2'. rewrite <- G2' in G2.
        unfold fast_call1. rewrite Ec, <- G2. reflexivity.
Qed.
