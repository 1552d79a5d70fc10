(** Theorems: time stamps or lags that differ by little (C106). *)
From Coq Require Import String.
From Coq Require Import ZArith Reals List Bool Arith Lia Lra.
From Verif Require Import Num Mem XR Spec SpecR SpecTime DataStructure Correlator Sacf Api Examples TimeCloseFacts TimeJump.
Import ListNotations.
Local Open Scope list_scope.

(** ** The same pairs are chosen if no choice is a close call *)
Theorem C106_same_pairs (p : platform) (d d' : @dstruct XR) (kk kk' : R) (n n' : nat) (s s' : list nat) (os os' ts ts' : list R) (e : R) :
  accepted d -> times_ok (A := XR) d -> accepted d' -> times_ok (A := XR) d' -> p_abs p = AbsFloat ->
  timeseries d = map Fin ts -> timeseries d' = map Fin ts' -> close_times ts ts' kk kk' e -> clear_choice ts kk e ->
  pairs_by (A := XR) p d (naturalSelectionFunctionIdx (A := XR) p d) (Fin kk) n = Ok (s, map Fin os) ->
  pairs_by (A := XR) p d' (naturalSelectionFunctionIdx (A := XR) p d') (Fin kk') n' = Ok (s', map Fin os') ->
  s' = s /\ forall q, q < length s -> (Rabs (nth q os 0 - nth q os' 0) <= e)%R.
Proof. exact (same_pairs p d d' kk kk' n n' s s' os os' ts ts' e). Qed.
Print Assumptions C106_same_pairs.

(** ** The correlations then differ by at most e / alpha times the sum of the sizes of the products over the sum of squares *)
Theorem C106_close (p : platform) (d d' : @dstruct XR) (mi ma re al mi' ma' re' al' : option xr) (wgt : string)
  (lags lags' : list xr) (corr corr' : @py_corr XR) (c c' : @correlator XR) (rows rows' : list (list xr)) (j j' i i' : nat)
  (rs ts ts' : list R) (kk kk' a e : R) :
  accepted d -> times_ok (A := XR) d -> accepted d' -> times_ok (A := XR) d' -> p_abs p = AbsFloat ->
  autocorrelation (A := XR) p d mi ma re al "natural" wgt = Ok (lags, corr, c) ->
  autocorrelation (A := XR) p d' mi' ma' re' al' "natural" wgt = Ok (lags', corr', c') ->
  data_2d d = Ok rows -> nth_error rows j = Some (map Fin rs) -> data_2d d' = Ok rows' -> nth_error rows' j' = Some (map Fin rs) ->
  timeseries d = map Fin ts -> timeseries d' = map Fin ts' ->
  nth_error lags i = Some (Fin kk) -> nth_error lags' i' = Some (Fin kk') ->
  opt_or (A := XR) al (median_time d) = Fin a -> opt_or (A := XR) al' (median_time d') = Fin a -> (0 < a)%R -> (0 < sq_dev32 rs)%R ->
  close_times ts ts' kk kk' e -> clear_choice ts kk e ->
  exists s r r', length s <= length ts /\ (forall x, In x s -> x < length ts) /\
    pairs_by (A := XR) p d (naturalSelectionFunctionIdx (A := XR) p d) (Fin kk) (length rows) =
      Ok (s, map (fun q => Fin (Rabs (gap ts kk q (nth q s 0)))) (seq 0 (length s))) /\
    pairs_by (A := XR) p d' (naturalSelectionFunctionIdx (A := XR) p d') (Fin kk') (length rows') =
      Ok (s, map (fun q => Fin (Rabs (gap ts' kk' q (nth q s 0)))) (seq 0 (length s))) /\
    corr_at corr j i = Some (Fin r) /\ corr_at corr' j' i' = Some (Fin r') /\
    (Rabs (r - r') <= e / a * (rsum_n (length s) (fun q => Rabs (dev rs q * dev rs (nth q s 0%nat))) / sq_dev32 rs))%R.
Proof. exact (close_values p d d' mi ma re al mi' ma' re' al' wgt lags corr c lags' corr' c' rows rows' j j' i i' rs ts ts' kk kk' a e). Qed.
Print Assumptions C106_close.

(** values 1, 2, 4 at the times 0, 6/5, 2 and at the times 0, 5/4, 2; lag 3/2, Gaussian weight *)
Example C106_case : exists (d d' : @dstruct XR) corr c corr' c',
  accepted d /\ times_ok (A := XR) d /\ accepted d' /\ times_ok (A := XR) d' /\
  autocorrelation (A := XR) clang d (Some (Fin (3/2))) (Some (Fin (3/2))) (Some (Fin 1)) (Some (Fin 1)) "natural" "gaussian" = Ok (map Fin [0; 3/2]%R, corr, c) /\
  autocorrelation (A := XR) clang d' (Some (Fin (3/2))) (Some (Fin (3/2))) (Some (Fin 1)) (Some (Fin 1)) "natural" "gaussian" = Ok (map Fin [0; 3/2]%R, corr', c') /\
  data_2d d = Ok [map Fin [1; 2; 4]%R] /\ data_2d d' = Ok [map Fin [1; 2; 4]%R] /\
  timeseries d = map Fin [0; 6/5; 2]%R /\ timeseries d' = map Fin [0; 5/4; 2]%R /\ (0 < sq_dev32 [1; 2; 4])%R /\
  close_times [0; 6/5; 2]%R [0; 5/4; 2]%R (3/2) (3/2) (1/20) /\ clear_choice [0; 6/5; 2]%R (3/2) (1/20).
Proof.
  destruct (jump_built (6/5) clang "gaussian") as (d & corr & c & E & Ha & Hok & Ht & Hd & Ec); [lra|reflexivity|reflexivity|right; right; reflexivity|].
  destruct (jump_built (5/4) clang "gaussian") as (d' & corr' & c' & E' & Ha' & Hok' & Ht' & Hd' & Ec'); [lra|reflexivity|reflexivity|right; right; reflexivity|].
  exists d, d', corr, c, corr', c'.
  split; [exact Ha|]. split; [exact Hok|]. split; [exact Ha'|]. split; [exact Hok'|]. split; [exact Ec|]. split; [exact Ec'|].
  split; [exact Hd|]. split; [exact Hd'|]. split; [exact Ht|]. split; [exact Ht'|]. split; [rewrite jump_sq; lra|]. split.
  - split; [reflexivity|]. split; [|left; reflexivity]. intros [|[|[|q]]] [|[|[|x]]] Hq Hx; cbn [length] in Hq, Hx; try lia; unfold gap; cbn [nth]; apply Rabs_le; lra.
  - split.
    + intros [|[|q]] Hq; cbn [length] in Hq; try lia; unfold gap; cbn [nth length Nat.sub]; unfold Rabs; destruct Rcase_abs; lra.
    + intros [|[|[|q]]] Hq H; cbn [length] in Hq; try lia; unfold gap in H; cbn [nth length Nat.sub] in H; try lra.
      exists 1%nat. split; [cbn; lia|]. intros [|[|[|x]]] Hx Hn; cbn [length] in Hx; try lia; unfold gap; cbn [nth]; unfold Rabs; repeat destruct Rcase_abs; lra.
Qed.

(** ** Not in general: however close the times are, a choice may go the other way and the correlation jumps *)
Theorem C106_unconditional_refuted (e : R) : (0 < e)%R -> exists (d d' : @dstruct XR) (ts ts' : list R) corr c corr' c' r r',
  SACF_1d (A := XR) (map Fin ts) (map Fin [1; 2; 4]%R) None = Ok d /\ SACF_1d (A := XR) (map Fin ts') (map Fin [1; 2; 4]%R) None = Ok d' /\
  times_ok (A := XR) d /\ times_ok (A := XR) d' /\
  length ts = 3 /\ length ts' = 3 /\ (forall q, Rabs (nth q ts 0 - nth q ts' 0) <= e)%R /\
  autocorrelation (A := XR) clang d (Some (Fin (3/2))) (Some (Fin (3/2))) (Some (Fin 1)) (Some (Fin 1)) "natural" "fractional" = Ok (map Fin [0; 3/2]%R, corr, c) /\
  autocorrelation (A := XR) clang d' (Some (Fin (3/2))) (Some (Fin (3/2))) (Some (Fin 1)) (Some (Fin 1)) "natural" "fractional" = Ok (map Fin [0; 3/2]%R, corr', c') /\
  corr_at corr 0 1 = Some (Fin r) /\ corr_at corr' 0 1 = Some (Fin r') /\ (1/3 < r - r')%R.
Proof. exact (jump e). Qed.
Print Assumptions C106_unconditional_refuted.
