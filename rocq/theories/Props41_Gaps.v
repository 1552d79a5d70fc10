(** Theorems: an even grid of times with points missing (C110). *)
From Coq Require Import String.
From Coq Require Import ZArith Reals List Bool Arith Lia Lra.
From Flocq Require Import Core BinarySingleNaN.
From Verif Require Import Num Mem XR B64 Spec SpecR DataStructure Correlator Sacf Api Examples B64Facts Laws2 AccFacts ExactFacts GridVals FixedFacts AccExact FixedThms ValThms
  TimeJump GapFacts GapExample GapFloat SpecGaps Props01_Construction Props15_Exactness.
Import ListNotations.
Local Open Scope list_scope.

(** Pairs of points exactly the lag apart enter with weight 1, each once; a point that meets none when moved by the lag enters with
    the nearest point and the weight of that distance, which is at least one grid step. *)
Theorem C110_value (p : platform) (d : @dstruct XR) mi ma re al wgt lags corr c rows j i (rs : list R) (t0 dd a : R) (ns : list Z) (m : Z) :
  accepted d -> autocorrelation (A := XR) p d mi ma re al "natural" wgt = Ok (lags, corr, c) -> p_abs p = AbsFloat ->
  data_2d d = Ok rows -> nth_error rows j = Some (map Fin rs) -> nth_error lags i = Some (Fin (IZR m * dd)) ->
  timeseries d = map Fin (on_grid t0 dd ns) -> rising ns -> (0 < dd)%R -> opt_or (A := XR) al (median_time d) = Fin a -> (0 < a)%R -> (0 < sq_dev32 rs)%R ->
  let n := fun q => nth q ns 0%Z in
  exists s : nat -> nat,
  (forall q, q < length ns -> lonely ns m q = true -> s q < length ns /\ (1 <= Z.abs (n (s q) - (n q + m)))%Z /\
     forall z, z < length ns -> (Z.abs (n (s q) - (n q + m)) <= Z.abs (n z - (n q + m)))%Z) /\
  corr_at corr j i = Some (Fin (((pair_sum ns m rs +
     rsum_n (length ns) (fun q => if lonely ns m q then rweight wgt a (IZR (Z.abs (n (s q) - (n q + m))) * dd) * (dev rs q * dev rs (s q)) else 0)) / sq_dev32 rs)%R)).
Proof. exact (gaps_value p d mi ma re al wgt lags corr c rows j i rs t0 dd a ns m). Qed.
Print Assumptions C110_value.

(** The distance to the sum over exact pairs, by the number of points that meet none. *)
Theorem C110_close (p : platform) (d : @dstruct XR) mi ma re al wgt lags corr c rows j i (rs : list R) (t0 dd a : R) (ns : list Z) (m : Z) (B : R) :
  accepted d -> autocorrelation (A := XR) p d mi ma re al "natural" wgt = Ok (lags, corr, c) -> p_abs p = AbsFloat ->
  data_2d d = Ok rows -> nth_error rows j = Some (map Fin rs) -> nth_error lags i = Some (Fin (IZR m * dd)) ->
  timeseries d = map Fin (on_grid t0 dd ns) -> rising ns -> (0 < dd)%R -> opt_or (A := XR) al (median_time d) = Fin a -> (0 < a)%R -> (0 < sq_dev32 rs)%R ->
  (forall q, q < length ns -> (Rabs (dev rs q) <= B)%R) ->
  exists r, corr_at corr j i = Some (Fin r) /\
    (Rabs (r - pair_sum ns m rs / sq_dev32 rs) <= INR (n_lonely ns m) * rweight wgt a dd * (B * B) / sq_dev32 rs)%R.
Proof. exact (gaps_close p d mi ma re al wgt lags corr c rows j i rs t0 dd a ns m B). Qed.
Print Assumptions C110_close.

(** That number is at most the number of grid points missing between the first and the last, plus the steps of a negative lag. *)
Theorem C110_lonely (ns : list Z) (m : Z) : rising ns -> ns <> [] ->
  (Z.of_nat (n_lonely ns m) <= nth (length ns - 1) ns 0 - nth 0 ns 0 + 1 - Z.of_nat (length ns) + Z.max 0 (- m))%Z.
Proof. exact (lonely_holes ns m). Qed.
Print Assumptions C110_lonely.

(** 1, 2, 4 at the times 0, 1, 3; lag 1: one pair, and one point that meets none *)
Example C110_case : exists (d : @dstruct XR) corr c, let ns := [0; 1; 3]%Z in let rs := [1; 2; 4]%R in
  accepted d /\
  autocorrelation (A := XR) clang d (Some (Fin 1)) (Some (Fin 1)) (Some (Fin 1)) (Some (Fin 1)) "natural" "gaussian" = Ok (map Fin [0; 1]%R, corr, c) /\
  data_2d d = Ok [map Fin rs] /\ nth_error (map Fin [0; 1]%R) 1 = Some (Fin (IZR 1 * 1)) /\
  timeseries d = map Fin (on_grid 0 1 ns) /\ rising ns /\ (0 < sq_dev32 rs)%R /\
  (forall q, q < length ns -> (Rabs (dev rs q) <= 5 / 3)%R) /\
  n_lonely ns 1 = 1 /\ lonely ns 1 1 = true /\ pair_sum ns 1 rs = (4 / 9)%R.
Proof.
  destruct (gap_built clang "gaussian") as (d & corr & c & _ & Ha & Ht & Hd & E); [reflexivity|reflexivity|right; right; reflexivity|].
  exists d, corr, c. cbv zeta. split; [exact Ha|]. split; [exact E|]. split; [exact Hd|].
  split; [cbn [nth_error map]; do 2 f_equal; lra|]. split; [exact Ht|]. split; [exact gap_rising|]. split; [rewrite jump_sq; lra|].
  destruct jump_dev as [D0 [D1 D2]]. split.
  - intros [|[|[|q]]] Hq; cbn in Hq; try lia; rewrite ?D0, ?D1, ?D2; unfold Rabs; destruct Rcase_abs; lra.
  - split; [reflexivity|]. split; [reflexivity|]. unfold pair_sum, rsum_n, rsum, steps. cbn [length seq map nth Z.eqb Z.add Pos.add fold_right].
    cbn. rewrite D0, D1. lra.
Qed.

(** ** In binary64, with time stamps on a binary grid

    The distance of what is returned to the sum over exact pairs: the points that meet none, and rounding. *)
Theorem C110_binary64 (exp64 : b64 -> b64) (p : platform) (d : @dstruct (B64 exp64)) (g : Z) (mi ma re al : option b64) (wgt : string)
  (lags : list b64) (corr : @py_corr (B64 exp64)) (c : @correlator (B64 exp64)) (rows : list (list b64)) (j i : nat) (row : list b64) (l : b64)
  (t0 dd : R) (ns : list Z) (m b : Z) (om B : R) :
  (-1073 <= g <= 960)%Z -> accepted d -> (forall t : b64, In t (timeseries d) -> fixed_point g 50 t) ->
  map B2R (timeseries d) = on_grid t0 dd ns -> rising ns -> (0 < dd)%R -> 2 <= length ns ->
  (forall x, mi = Some x -> fixed_point g 51 x) -> (forall x, ma = Some x -> fixed_point g 51 x) ->
  (forall x, re = Some x -> fixed_point g 51 x /\ (0 <= B2R x)%R) ->
  autocorrelation (A := B64 exp64) p d mi ma re al "natural" wgt = Ok (lags, corr, c) -> p_abs p = AbsFloat -> data_2d d = Ok rows ->
  let a : b64 := opt_or (A := B64 exp64) al (median_time d) in
  is_finite a = true -> (0 < B2R a)%R -> proper_alpha (A := B64 exp64) wgt a ->
  finite (A := B64 exp64) (if String.eqb wgt "gaussian" then nmul (nmul (nofZ 2) a) a else a) ->
  nth_error rows j = Some row -> nth_error lags i = Some l -> B2R l = (IZR m * dd)%R -> weight_error exp64 wgt (B2R a) om ->
  (-149 <= b <= 100)%Z -> (forall x : b64, In x row -> is_finite x = true /\ (Rabs (B2R x) <= bpow radix2 b)%R) ->
  let rs := map B2R row in
  let n := INR (length ns) in
  let N := sq_dev32 rs in
  let K := (n * (bpow radix2 b * bpow radix2 b) / N)%R in
  (bpow radix2 (-700) <= N)%R -> ((n + 1) * K <= bpow radix2 48)%R -> (forall q, q < length ns -> (Rabs (dev rs q) <= B)%R) ->
  exists v : b64, corr_at corr j i = Some v /\ is_finite v = true /\
    (Rabs (B2R v - pair_sum ns m rs / N) <=
      INR (n_lonely ns m) * rweight wgt (B2R a) dd * (B * B) / N + (50 * (n + 10) * bpow radix2 (-53) * (K * K + K) + 5 * om * K + bpow radix2 (-110)))%R.
Proof. exact (gaps64 exp64 p d g mi ma re al wgt lags corr c rows j i row l t0 dd ns m b om B). Qed.
Print Assumptions C110_binary64.

(** the doubles 1, 2, 4 at the times 0, 1, 3, lag 1; the other hypotheses of the theorem about these values are in [C67_case] *)
Example C110_case_binary64 : exists (d : @dstruct BB) corr c, let ns := [0; 1; 3]%Z in let row := ints [1; 2; 4]%Z in let rs := map B2R row in
  accepted d /\ (forall t : b64, In t (timeseries d) -> fixed_point 0 50 t) /\ map B2R (timeseries d) = on_grid 0 1 ns /\ rising ns /\
  fixed_point 0 51 (fl 1) /\
  autocorrelation (A := BB) clang d (Some (fl 1)) (Some (fl 1)) (Some (fl 1)) (Some (fl 1)) "natural" "fractional" = Ok ([fl 0; fl 1], corr, c) /\
  data_2d d = Ok [row] /\ B2R (fl 1 : b64) = (IZR 1 * 1)%R /\
  rs = [1; 2; 4]%R /\ (forall q, q < length ns -> (Rabs (dev rs q) <= 5 / 3)%R) /\ n_lonely ns 1 = 1 /\ pair_sum ns 1 rs = (4 / 9)%R.
Proof.
  destruct (ok_with_ok (SACF_1d (A := BB) (ints [0; 1; 3]%Z) (ints [1; 2; 4]%Z) None)
    (fun d => sames (ints [0; 1; 3]%Z) (timeseries d) && (ok_with (data_2d d) (fun r => sames2 [ints [1; 2; 4]%Z] r)) &&
      ok_with (autocorrelation clang d (Some (fl 1)) (Some (fl 1)) (Some (fl 1)) (Some (fl 1)) "natural" "fractional") (fun r => sames [fl 0; fl 1] (fst (fst r))))) as [d [E H]]; [vm_compute; reflexivity|].
  apply andb_prop in H. destruct H as [H H4]. apply andb_prop in H. destruct H as [H1 H2].
  apply sames_eq in H1. destruct (ok_with_ok (data_2d d) _ H2) as [r [Er H2']]. apply sames2_eq in H2'. subst r.
  destruct (ok_with_ok _ _ H4) as [[[lags corr] c] [Ec H5]]. cbn [fst] in H5. apply sames_eq in H5. subst lags.
  assert (G : forall z, (Z.abs z <= 4)%Z -> is_finite (b64_ofZ z) = true /\ B2R (b64_ofZ z) = IZR z) by (intros z Hz; apply (E_fin _ _ (toE_ofZ_small z ltac:(lia)))).
  assert (P : forall z k, (Z.abs z <= 4)%Z -> (50 <= k)%Z -> fixed_point 0 k (b64_ofZ z)).
  { intros z k Hz Hk. destruct (G z Hz) as [F V]. split; [exact F|]. exists z. split; [|rewrite V; cbn [bpow]; lra].
    apply Z.le_trans with (2 ^ 50)%Z; [cbn; lia|]. apply Z.pow_le_mono_r; lia. }
  assert (Ers : map B2R (ints [1; 2; 4]%Z : list b64) = [1; 2; 4]%R).
  { unfold ints. rewrite map_map. cbn [map]. rewrite !(fun z H => proj2 (G z H)) by (cbn; lia). reflexivity. }
  exists d, corr, c. cbv zeta. rewrite <- H1. split; [left; eauto|]. split.
  { intros t Ht. unfold ints in Ht. apply in_map_iff in Ht. destruct Ht as [z [<- Hz]]. apply P; [|lia].
    repeat (destruct Hz as [<-|Hz]; [cbn; lia|]); destruct Hz. }
  split.
  { unfold ints, on_grid. rewrite map_map. cbn [map]. rewrite !(fun z H => proj2 (G z H)) by (cbn; lia). repeat f_equal; lra. }
  split; [exact gap_rising|]. split; [apply (P 1%Z); cbn; lia|]. split; [exact Ec|]. split; [exact Er|].
  split; [change (B2R (b64_ofZ 1) = (IZR 1 * 1)%R); rewrite (proj2 (G 1%Z ltac:(cbn; lia))); lra|]. split; [exact Ers|]. rewrite Ers.
  destruct jump_dev as [D0 [D1 D2]]. split.
  - intros [|[|[|q]]] Hq; cbn in Hq; try lia; rewrite ?D0, ?D1, ?D2; unfold Rabs; destruct Rcase_abs; lra.
  - split; [reflexivity|]. unfold pair_sum, rsum_n, rsum, steps. cbn [length seq map nth Z.eqb Z.add Pos.add fold_right].
    cbn. rewrite D0, D1. lra.
Qed.
