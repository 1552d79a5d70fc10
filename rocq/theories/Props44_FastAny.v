(** Theorems: the fast selection on any ordered times (C113). *)
From Coq Require Import String.
From Coq Require Import ZArith Reals List Bool Arith Lia Lra.
From Verif Require Import Num Mem XR Spec SpecR SpecTime SpecFast DataStructure Correlator Sacf Api Examples ExactFacts GridVals ValThms ValThms LagNumber FastAny FastExample Props11_Fast.
Import ListNotations.
Local Open Scope list_scope.

(** The pairs and offsets: every kept position is moved by the same number of places, or paired with the first position. *)
Theorem C113_pairs (p : platform) (d : @dstruct XR) (kk : R) (n : nat) (s : list nat) (os : list xr) (ts : list R) :
  accepted d -> times_ok (A := XR) d -> timeseries d = map Fin ts ->
  pairs_by (A := XR) p d (fastSelectionFunctionIdx (A := XR) p d) (Fin kk) n = Ok (s, os) ->
  s = map (fast_partner ts kk) (seq 0 (kept ts kk)) /\
  os = map (fun q => Fin (dist p (gap ts kk q (fast_partner ts kk q)))) (seq 0 (kept ts kk)).
Proof. exact (fast_exact p d kk n s os ts). Qed.
Print Assumptions C113_pairs.

Theorem C113_value (p : platform) (d : @dstruct XR) (mi ma re al : option xr) (wgt : string) (lags : list xr) (corr : @py_corr XR) (c : @correlator XR)
  (rows : list (list xr)) (j i : nat) (rs ts : list R) (kk a : R) :
  accepted d -> times_ok (A := XR) d -> autocorrelation (A := XR) p d mi ma re al "fast" wgt = Ok (lags, corr, c) ->
  data_2d d = Ok rows -> nth_error rows j = Some (map Fin rs) -> nth_error lags i = Some (Fin kk) ->
  timeseries d = map Fin ts -> opt_or (A := XR) al (median_time d) = Fin a -> (0 < a)%R ->
  corr_at corr j i = Some (xdiv (Fin (rsum_n (kept ts kk) (fun q =>
     rweight wgt a (dist p (gap ts kk q (fast_partner ts kk q))) * (dev rs q * dev rs (fast_partner ts kk q)))%R)) (Fin (sq_dev32 rs))).
Proof. exact (fast_value p d mi ma re al wgt lags corr c rows j i rs ts kk a). Qed.
Print Assumptions C113_value.

(** How many positions are paired with the first for want of a partner; at a positive lag there is one as soon as any is kept. *)
Theorem C113_wrapped (ts : list R) (kk : R) :
  length (filter (fun q => negb (places ts kk + q <? kept ts kk)) (seq 0 (kept ts kk))) = Nat.min (places ts kk) (kept ts kk) /\
  (ts <> [] -> (0 < kk)%R -> 0 < places ts kk).
Proof. exact (conj (fast_wrapped ts kk) (places_pos ts kk)). Qed.
Print Assumptions C113_wrapped.

(** From half the time span on all of them are. *)
Theorem C113_half (p : platform) (d : @dstruct XR) (mi ma re al : option xr) (wgt : string) (lags : list xr) (corr : @py_corr XR) (c : @correlator XR)
  (rows : list (list xr)) (j i : nat) (rs ts : list R) (kk a : R) :
  accepted d -> times_ok (A := XR) d -> autocorrelation (A := XR) p d mi ma re al "fast" wgt = Ok (lags, corr, c) ->
  data_2d d = Ok rows -> nth_error rows j = Some (map Fin rs) -> nth_error lags i = Some (Fin kk) ->
  timeseries d = map Fin ts -> opt_or (A := XR) al (median_time d) = Fin a -> (0 < a)%R -> (nth (length ts - 1) ts 0 - nth 0 ts 0 <= 2 * kk)%R ->
  corr_at corr j i = Some (xdiv (Fin (dev rs 0 * rsum_n (kept ts kk) (fun q => rweight wgt a (dist p (gap ts kk q 0)) * dev rs q))%R) (Fin (sq_dev32 rs))).
Proof. exact (fast_half p d mi ma re al wgt lags corr c rows j i rs ts kk a). Qed.
Print Assumptions C113_half.

(** values 1, 2, 4 at the times 0, 1, 3, lag 1: two positions are kept, the second is paired with the first *)
Example C113_case : exists (d : @dstruct XR) corr c, let ts := [0; 1; 3]%R in
  accepted d /\ times_ok (A := XR) d /\ timeseries d = map Fin ts /\ data_2d d = Ok [map Fin [1; 2; 4]%R] /\
  autocorrelation (A := XR) clang d (Some (Fin 1)) (Some (Fin 1)) (Some (Fin 1)) (Some (Fin 1)) "fast" "gaussian" = Ok (map Fin [0; 1]%R, corr, c) /\
  places ts 1 = 1 /\ kept ts 1 = 2 /\ fast_partner ts 1 0 = 1 /\ fast_partner ts 1 1 = 0.
Proof.
  destruct (fast_built 1 3 clang "gaussian") as (d & corr & c & _ & Ha & Hok & Et & Hd & E); [lra|lra|reflexivity|reflexivity|right; right; reflexivity|].
  exists d, corr, c. cbv zeta. split; [exact Ha|]. split; [exact Hok|]. split; [exact Et|]. split; [exact Hd|]. split; [exact E|].
  assert (P : places [0; 1; 3]%R 1 = 1) by (unfold places, below; cbn [nth filter]; repeat (destruct Rlt_dec; try lra); reflexivity).
  assert (K : kept [0; 1; 3]%R 1 = 2) by (unfold kept, below; cbn [nth filter length Nat.sub]; repeat (destruct Rlt_dec; try lra); reflexivity).
  split; [exact P|]. split; [exact K|]. unfold fast_partner. rewrite P, K. split; reflexivity.
Qed.

(** values 1, 2, 4 at the times 0, 1, 2, lag 1: half the time span *)
Example C113_case_half : exists corr c, let ts := [0; 1; 2]%R in
  accepted exact_ds /\ times_ok (A := XR) exact_ds /\ timeseries exact_ds = map Fin ts /\ data_2d exact_ds = Ok [map Fin [1; 2; 4]%R] /\
  autocorrelation (A := XR) clang exact_ds None None None None "fast" "fractional" = Ok (map (fun i => Fin ((INR i - INR 2) * 1)) (seq 0 5), corr, c) /\
  nth_error (map (fun i => Fin ((INR i - INR 2) * 1)) (seq 0 5)) 3 = Some (Fin 1) /\
  (nth (length ts - 1) ts 0 - nth 0 ts 0 <= 2 * 1)%R /\ kept ts 1 = 1.
Proof.
  destruct (C57_case clang eq_refl) as (corr & c & E & Ha & Hd & Ht & _). exists corr, c. cbv zeta.
  assert (Et : timeseries exact_ds = map Fin [0; 1; 2]%R) by (rewrite Ht; unfold grid; cbn [map seq INR]; repeat f_equal; lra).
  pose proof (norm_real exact_ds _ Ha Et) as En. cbn [map nth] in En. rewrite !Rminus_0_r in En.
  split; [exact Ha|]. split; [|split; [exact Et|split; [exact Hd|split; [exact E|split; [cbn [map seq nth_error]; do 2 f_equal; cbn [INR]; lra|]]]]].
  - split; [|split; [rewrite Et; apply fin_all|rewrite En; apply (fin_all [0; 1; 2]%R)]].
    rewrite Et. intros i j x y Hij Hx Hy. destruct i as [|[|[|i]]]; destruct j as [|[|[|j]]]; try lia; cbn in Hx, Hy;
      try (destruct i; discriminate); try (destruct j; discriminate); injection Hx as <-; injection Hy as <-; apply nle_Fin; lra.
  - split; [cbn; lra|]. unfold kept, below; cbn [nth filter length Nat.sub]; repeat (destruct Rlt_dec; try lra); reflexivity.
Qed.
