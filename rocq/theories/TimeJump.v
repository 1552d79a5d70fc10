(** A correlation jumps where a shifted time lies half-way between two times (C106): times 0, t, 2 with t around 1, lag 3/2. *)
From Coq Require Import String.
From Coq Require Import ZArith Reals List Bool Arith Lia Lra Psatz.
From Flocq Require Import Core.
From Verif Require Import Num Mem MemFacts XR B64 Spec SpecR SpecTime DataStructure DSFacts Correlator Sacf Api CorrFacts LoopFacts MainFacts
  Laws Laws2 ConstrFacts SelFacts SelThms FastFacts TimeFacts WeightFacts ValFacts ExactFacts GridFacts SafeFacts GridVals ValThms UnsortedFacts CountFacts LagNumber PairBounds TimeCloseFacts.
Import ListNotations.
Local Open Scope list_scope.
Local Open Scope R_scope.

(** lags 0 and [3/2] of the values 1, 2, 4 at the times 0, t, 2 *)
Definition jump_call (p : platform) (d : @dstruct XR) (wgt : string) :=
  autocorrelation (A := XR) p d (Some (Fin (3/2))) (Some (Fin (3/2))) (Some (Fin 1)) (Some (Fin 1)) "natural" wgt.

Lemma jump_built t p wgt : 3/4 <= t <= 5/4 -> p_checked p = false -> p_abs p = AbsFloat -> known_weight wgt ->
  exists d corr c, SACF_1d (A := XR) (map Fin [0; t; 2]) (map Fin [1; 2; 4]) None = Ok d /\ accepted d /\ times_ok (A := XR) d /\
    timeseries d = map Fin [0; t; 2] /\ data_2d d = Ok [map Fin [1; 2; 4]] /\
    jump_call p d wgt = Ok (map Fin [0; 3/2], corr, c).
Proof.
  intros Ht Hp Hpa Hw. destruct (one_dataset (A := XR) (map Fin [0; t; 2]) (map Fin [1; 2; 4]) None) as [_ [_ H]].
  destruct H as (d & E & Et & Hd & _); [discriminate|discriminate|reflexivity|].
  assert (Ha : accepted d) by (left; eauto). pose proof (norm_real d _ Ha Et) as En. cbn [map nth] in En. rewrite !Rminus_0_r in En.
  assert (Hi : increasing (A := XR) (timeseries d)).
  { rewrite Et. assert (S : forall i j x y, (i < j)%nat -> nth_error (map Fin [0; t; 2]) i = Some x -> nth_error (map Fin [0; t; 2]) j = Some y -> @nlt XR x y = true).
    { intros [|[|[|i]]] [|[|[|j]]] x y Hij Hx Hy; try lia; cbn in Hx, Hy; try (destruct i; discriminate); try (destruct j; discriminate);
        injection Hx as <-; injection Hy as <-; apply nlt_Fin; lra. }
    split; [|exact S]. intros i j x y Hij Hx Hy. destruct (Nat.eq_dec i j) as [->|].
    - rewrite Hx in Hy. injection Hy as <-. rewrite nth_error_map in Hx. destruct (nth_error _ j) as [r|]; [|discriminate]. injection Hx as <-. apply nle_Fin. lra.
    - assert (K : @nlt XR x y = true) by (eapply S; [|exact Hx|exact Hy]; lia). rewrite nth_error_map in Hx, Hy.
      destruct (nth_error _ i) as [r|]; [|discriminate]. destruct (nth_error _ j) as [s|]; [|discriminate]. injection Hx as <-. injection Hy as <-.
      apply nlt_Fin in K. apply nle_Fin. lra. }
  assert (Hok : times_ok (A := XR) d).
  { split; [exact (proj1 Hi)|]. split; [rewrite Et; apply fin_all|]. rewrite En. apply (fin_all [0; t; 2]). }
  assert (HD : 2 < dbl_max).
  { unfold dbl_max. assert (bpow radix2 (-52) <= 1) by (change 1 with (bpow radix2 0); apply bpow_le; lia).
    assert (2 < bpow radix2 1023) by (change 2 with (bpow radix2 1); apply bpow_lt; lia).
    apply Rlt_le_trans with (1 * bpow radix2 1023); [lra|]. apply Rmult_le_compat_r; [lra|lra]. }
  set (r := Rmin t (2 - t)). assert (Hr : 3/4 <= r <= 5/4 /\ (r = t \/ r = 2 - t)) by (unfold r, Rmin; destruct Rle_dec; lra).
  assert (Hrm : r <= t /\ r <= 2 - t) by (unfold r; split; [apply Rmin_l|apply Rmin_r]).
  destruct (constructs_exact d 2 r Ha) as [K _].
  - rewrite En. reflexivity.
  - rewrite En. apply (fin_all [0; t; 2]).
  - intros [|[|[|i]]] x y Hx Hy; rewrite En in Hx, Hy; cbn in Hx, Hy; try (destruct i; discriminate); try discriminate; injection Hx as <-; injection Hy as <-; lra.
  - destruct Hr as [_ [Er|Er]]; [exists 0%nat, 0, t|exists 1%nat, t, 2]; rewrite En; (split; [reflexivity|]; split; [reflexivity|lra]).
  - lra.
  - cbv zeta in K.
    assert (Hq : (3 <= Zfloor (2 * 2 / r) <= 6)%Z).
    { assert (3 <= 2 * 2 / r).
      { apply Rmult_le_reg_r with r; [lra|]. replace (2 * 2 / r * r) with 4 by (field; lra). lra. }
      assert (2 * 2 / r < IZR 6).
      { apply Rmult_lt_reg_r with r; [lra|]. replace (2 * 2 / r * r) with 4 by (field; lra). lra. }
      split; [apply Zfloor_lub; lra|]. apply le_IZR. eapply Rle_trans; [apply Zfloor_lb|lra]. }
    destruct K as (c0 & Hn & EM & Em & Er & Hroom); [split; [lra|unfold INT_MAX; lia]|].
    assert (HG : lag_grid (A := XR) (Fin (3/2)) (Fin 1) (Fin (3/2)) (map Fin [0; 3/2])).
    { exists 1%nat. split.
      - split; [intros [|i] Hl; [|lia]; apply nle_Fin; cbn; lra|]. apply not_true_is_false. intros C. change (@nle XR (Fin (3/2 + 1)) (Fin (3/2)) = true) in C. apply nle_Fin in C. lra.
      - cbn. unfold Reqb. destruct (Req_EM_T (3/2) 0); [lra|]. unfold Rltb. destruct (Rlt_dec 0 (3/2)); [reflexivity|lra]. }
    destruct (@natural_call_outcome XR XR_laws2 p d c0 (Some (Fin (3/2))) (Some (Fin (3/2))) (Some (Fin 1)) (Some (Fin 1)) wgt Ha Hn Hp Hw) as [[_ K] _].
    + intros C. rewrite Hpa in C. discriminate C.
    + intros m _ _ C. rewrite Hpa in C. discriminate C.
    + destruct K as [[[lags corr] c] Ec].
      * exists (map Fin [0; 3/2]). split; [exact HG|]. split; [cbn [map length]; lia|left; discriminate].
      * exists d, corr, c. split; [exact E|]. split; [exact Ha|]. split; [exact Hok|]. split; [exact Et|]. split; [exact Hd|].
        destruct (returned_grid p d c0 _ _ _ _ _ _ (lags, corr, c) Ha Hn Ec) as [[m [G1 G2]] _]. cbn [opt_or fst] in G1, G2.
        destruct HG as [m' [G1' G2']]. rewrite (stops_at_unique _ _ _ _ _ G1' G1) in G2'. rewrite <- G2' in G2.
        unfold jump_call. rewrite Ec, <- G2. reflexivity.
Qed.

Lemma jump_mean : rmean [1; 2; 4] = 7/3.
Proof. unfold rmean, rsum. cbn. lra. Qed.

Lemma jump_single : Forall single [1; 2; 4].
Proof. repeat constructor; apply (single_int 1) || apply (single_int 2) || apply (single_int 4); lia. Qed.

Lemma jump_sq : sq_dev32 [1; 2; 4] = 42/9.
Proof. rewrite (sq_dev_single _ jump_single). unfold sq_dev. cbn [map]. rewrite jump_mean. unfold rsum. cbn. lra. Qed.

Lemma jump_dev : dev [1; 2; 4] 0 = -4/3 /\ dev [1; 2; 4] 1 = -1/3 /\ dev [1; 2; 4] 2 = 5/3.
Proof. unfold dev. rewrite jump_mean. cbn [nth]. lra. Qed.

(** the value at lag 3/2: point 0 with the middle point, or with the last *)
Lemma jump_value t p d corr c : p_abs p = AbsFloat -> accepted d -> times_ok (A := XR) d ->
  timeseries d = map Fin [0; t; 2] -> data_2d d = Ok [map Fin [1; 2; 4]] -> jump_call p d "fractional" = Ok (map Fin [0; 3/2], corr, c) ->
  (1 < t <= 5/4 -> corr_at corr 0 1 = Some (Fin (/ (1 + (3/2 - t)) * (2/21)))) /\
  (3/4 <= t < 1 -> corr_at corr 0 1 = Some (Fin (- (20/63)))).
Proof.
  intros Hp Ha Hok Ht Hd Ec. destruct jump_dev as [D0 [D1 D2]].
  destruct (call_pairs p d _ _ _ _ "natural" "fractional" (map Fin [0; 3/2]) corr c _ 0 1 [1; 2; 4] [0; t; 2] (3/2) Ha Ec Hd eq_refl eq_refl Ht)
    as [f [s [os [Hf [HP HL]]]]]. pose proof Hf as Hg. injection Hf as <-.
  destruct (natural_exact p d (3/2) _ s os [0; t; 2] Ha Hok Hp Ht HP) as [A1 [A2 A3]].
  destruct (value_exact_pairs p d _ _ _ (Some (Fin 1)) "natural" "fractional" _ corr c _ 0 1 [1; 2; 4] [0; t; 2] os (3/2) 1 _ _ s Ha Ec Hd eq_refl eq_refl Ht eq_refl Rlt_0_1 Hg HP)
    as [_ [_ [_ [_ [_ [_ HV]]]]]].
  assert (G : forall B : Prop, 3/4 <= t -> (length s = 1%nat -> B) -> B).
  { intros B H3 HB. apply HB. pose proof (A2 0%nat ltac:(cbn; lia)) as Q0. pose proof (A2 1%nat ltac:(cbn; lia)) as Q1. unfold gap in Q0, Q1. cbn [length nth Nat.sub] in Q0, Q1.
    assert (~ (1 < length s)%nat) by (intros C; apply Q1 in C; lra). assert (0 < length s)%nat by (apply Q0; lra). lia. }
  split; intros H; apply G; try lra; intros HL1; rewrite HL1 in HV; destruct (A3 0%nat ltac:(lia)) as [S1 [S2 S3]];
    pose proof (S3 1%nat ltac:(cbn; lia)) as M1; pose proof (S3 2%nat ltac:(cbn; lia)) as M2; unfold gap in S2, M1, M2; cbn [length] in S1;
    rewrite HV; unfold rsum_n; cbn [seq map]; cbn [rsum fold_right]; rewrite D0, S2;
    destruct (nth 0 s 0%nat) as [|[|[|]]]; cbn [nth] in *; try lia;
    unfold Rabs in M1, M2; repeat destruct Rcase_abs in M1; repeat destruct Rcase_abs in M2; try lra.
  all: rewrite jump_sq; unfold xdiv, Reqb; destruct (Req_EM_T (42/9) 0); [lra|]; do 2 f_equal; unfold rweight; cbn [String.eqb Ascii.eqb Bool.eqb];
    first [rewrite D1|rewrite D2]; rewrite ?Rabs_left1 by lra; rewrite ?Rabs_right by lra; try (field; lra).
Qed.

Lemma jump e : 0 < e -> exists (d d' : @dstruct XR) (ts ts' : list R) corr c corr' c' r r',
  SACF_1d (A := XR) (map Fin ts) (map Fin [1; 2; 4]) None = Ok d /\ SACF_1d (A := XR) (map Fin ts') (map Fin [1; 2; 4]) None = Ok d' /\
  times_ok (A := XR) d /\ times_ok (A := XR) d' /\
  length ts = 3%nat /\ length ts' = 3%nat /\ (forall q, Rabs (nth q ts 0 - nth q ts' 0) <= e) /\
  jump_call {| p_abs := AbsFloat; p_checked := false |} d "fractional" = Ok (map Fin [0; 3/2], corr, c) /\
  jump_call {| p_abs := AbsFloat; p_checked := false |} d' "fractional" = Ok (map Fin [0; 3/2], corr', c') /\
  corr_at corr 0 1 = Some (Fin r) /\ corr_at corr' 0 1 = Some (Fin r') /\ 1/3 < r - r'.
Proof.
  intros He. set (dl := Rmin (e / 2) (1/4)). assert (Hdl : 0 < dl <= 1/4 /\ 2 * dl <= e).
  { unfold dl, Rmin. destruct Rle_dec; lra. }
  set (p := {| p_abs := AbsFloat; p_checked := false |}).
  destruct (jump_built (1 + dl) p "fractional") as (d & corr & c & E & Ha & Hok & Ht & Hd & Ec); [lra|reflexivity|reflexivity|left; reflexivity|].
  destruct (jump_built (1 - dl) p "fractional") as (d' & corr' & c' & E' & Ha' & Hok' & Ht' & Hd' & Ec'); [lra|reflexivity|reflexivity|left; reflexivity|].
  exists d, d', [0; 1 + dl; 2], [0; 1 - dl; 2], corr, c, corr', c'. do 2 eexists.
  split; [exact E|]. split; [exact E'|]. split; [exact Hok|]. split; [exact Hok'|]. split; [reflexivity|]. split; [reflexivity|]. split.
  { intros [|[|[|[|q]]]]; cbn [nth]; unfold Rabs; destruct Rcase_abs; lra. }
  split; [exact Ec|]. split; [exact Ec'|].
  split; [apply (proj1 (jump_value (1 + dl) p d corr c eq_refl Ha Hok Ht Hd Ec)); lra|].
  split; [apply (proj2 (jump_value (1 - dl) p d' corr' c' eq_refl Ha' Hok' Ht' Hd' Ec')); lra|].
  assert (2/3 <= / (1 + (3/2 - (1 + dl)))).
  { replace (2/3) with (/ (3/2)) by field. apply Rinv_le; lra. }
  lra.
Qed.
