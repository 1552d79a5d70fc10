(** The default call with the fast selection on evenly sampled data, exact arithmetic. *)
From Coq Require Import String.
From Coq Require Import ZArith Reals List Bool Arith Lia Lra.
From Flocq Require Import Core.
From Verif Require Import Num Mem MemFacts XR B64 Spec SpecR DataStructure DSFacts Correlator Sacf Api CorrFacts LoopFacts MainFacts
  Laws B64Facts Laws2 WeightFacts ConstrFacts SelFacts SelThms FastFacts TimeFacts GridFacts SafeFacts DefaultFacts ValFacts ExactFacts GridVals
  FastCall GridCall ValThms.
Import ListNotations.
Local Open Scope list_scope.
Local Open Scope R_scope.

Lemma fast_grid_call p (d : @dstruct XR) wgt t0 dd M : accepted d -> timeseries d = map Fin (grid t0 dd M) -> (2 <= M)%nat -> 0 < dd ->
  INR (M - 1) * dd <= dbl_max -> (2 * Z.of_nat M + 1 <= INT_MAX)%Z ->
  p_checked p = false -> known_weight wgt -> (p_abs p = AbsInt -> 2 * (INR (M - 1) * dd) <= IZR INT_MAX) ->
  exists corr c,
    autocorrelation p d None None None None "fast" wgt = Ok (map (fun i => Fin ((INR i - INR (M - 1)) * dd)) (seq 0 (2 * M - 1)), corr, c) /\
    median_time d = Fin (INR (M - 1) / 2 * dd).
Proof.
  intros Ha Ht HM Hdd Hmax Hint Hp Hw Hs.
  destruct (grid_defaults d t0 dd M Ha Ht HM Hdd Hmax Hint) as [c0 [Hc [Emax [Emin [Eres [Emed [Htok Hnt]]]]]]].
  assert (Hlen : length (normalised_timeseries d) = M).
  { rewrite Hnt. change (@length xr (map Fin (grid 0 dd M)) = M). rewrite map_length. apply grid_length. }
  destruct (fast_default_exact p d c0 wgt (INR (M - 1) * dd) (INR (M - 2) * dd) dd) as [C _]; try assumption.
  - intros Hi. rewrite Emax. change (@nle XR (Fin (INR (M - 1) * dd + INR (M - 1) * dd)) (Fin (IZR INT_MAX)) = true). apply nle_Fin.
    specialize (Hs Hi). lra.
  - rewrite Hlen. exact HM.
  - rewrite Hlen, Hnt. change (@nth_error xr (map Fin (grid 0 dd M)) (M - 2) = Some (Fin (INR (M - 2) * dd))).
    rewrite nth_error_map, grid_nth by lia. cbn [option_map]. rewrite Rplus_0_l. reflexivity.
  - destruct C as [[[lags corr] c] E].
    { split; [|exists (2 * Z.of_nat (M - 1))%Z; rewrite mult_IZR, <- INR_IZR_INZ; ring].
      rewrite !minus_INR by lia. cbn [INR]. lra. }
    exists corr, c. split; [|exact Emed]. rewrite E. do 3 f_equal.
    pose proof (proj1 (returned_grid p d c0 None None None None _ wgt _ Ha Hc E)) as Hg. cbn [opt_or fst] in Hg.
    rewrite Emin, Eres, Emax in Hg. rewrite (grid_lags dd (M - 1) lags Hdd Hg). do 2 f_equal. lia.
Qed.

Lemma three_points : INR (3 - 1) * 1 <= dbl_max /\ (2 * Z.of_nat 3 + 1 <= INT_MAX)%Z.
Proof.
  split; [|unfold INT_MAX; cbn; lia].
  unfold dbl_max. cbn [Nat.sub INR]. assert (bpow radix2 (-52) <= 1) by (change 1 with (bpow radix2 0); apply bpow_le; lia).
  assert (bpow radix2 1 <= bpow radix2 1023) by (apply bpow_le; lia). change (bpow radix2 1) with 2 in H0. nra.
Qed.

Lemma exact_ds_fast p : p_checked p = false -> exists corr c,
  autocorrelation p exact_ds None None None None "fast" "fractional" = Ok (map (fun i => Fin ((INR i - INR 2) * 1)) (seq 0 5), corr, c) /\
  accepted exact_ds /\ data_2d exact_ds = Ok [map Fin [1; 2; 4]] /\ timeseries exact_ds = map Fin (grid 0 1 3) /\
  opt_or (A := XR) None (median_time exact_ds) = Fin (INR 2 / 2 * 1) /\ 0 < INR 2 / 2 * 1.
Proof.
  intros Hp. destruct exact_ds_ok as [Ha [Ht Hd]]. destruct three_points as [Hb Hi].
  destruct (fast_grid_call p exact_ds "fractional" 0 1 3 Ha Ht ltac:(lia) ltac:(lra) Hb Hi Hp (or_introl eq_refl)) as [corr [c [E Em]]].
  - intros _. cbn [Nat.sub INR]. unfold INT_MAX. cbn. lra.
  - exists corr, c. split; [exact E|]. split; [exact Ha|]. split; [exact Hd|]. split; [exact Ht|]. split; [exact Em|]. cbn [INR]. lra.
Qed.

Lemma exact_ds_fast_hyps : accepted exact_ds /\ times_ok exact_ds /\ exists c0, new_Correlator exact_ds = Ok c0 /\
  (2 <= length (normalised_timeseries exact_ds))%nat /\ max_lag c0 = Fin 2 /\ lag_resolution c0 = Fin 1 /\
  nth_error (normalised_timeseries exact_ds) (length (normalised_timeseries exact_ds) - 2) = Some (Fin 1) /\
  (2 - 1 = 1 /\ exists n : Z, 2 * 2 = IZR n * 1).
Proof.
  destruct exact_ds_ok as [Ha [Ht Hd]]. destruct three_points as [Hb Hi].
  destruct (grid_defaults exact_ds 0 1 3 Ha Ht ltac:(lia) ltac:(lra) Hb Hi) as [c0 [Hc [Emax [Emin [Eres [Emed [Htok Hnt]]]]]]].
  split; [exact Ha|]. split; [exact Htok|]. exists c0. split; [exact Hc|]. rewrite Hnt.
  split; [apply le_n_S, le_n_S, Nat.le_0_l|]. split; [rewrite Emax; f_equal; cbn [Nat.sub INR]; ring|]. split; [exact Eres|].
  split; [|split; [lra|exists 4%Z; lra]].
  change (@nth_error xr (map Fin (grid 0 1 3)) 1 = Some (Fin 1)).
  rewrite nth_error_map, grid_nth by lia. cbn [option_map INR]. do 2 f_equal. ring.
Qed.
