(** The number of lags of the default call, exact arithmetic. *)
From Coq Require Import String.
From Coq Require Import ZArith Reals List Bool Arith Lia Lra Classical.
From Flocq Require Import Core.
From Verif Require Import Num Mem MemFacts XR B64 Spec SpecR DataStructure DSFacts Correlator Sacf Api CorrFacts LoopFacts MainFacts
  Laws Laws2 ConstrFacts SelFacts SelThms FastFacts TimeFacts WeightFacts ValFacts ExactFacts GridFacts SafeFacts DefaultFacts GridVals UnsortedFacts CountFacts.
Import ListNotations.
Local Open Scope list_scope.
Local Open Scope R_scope.

Lemma argmin (f : nat -> R) k : (0 < k)%nat -> exists i, (i < k)%nat /\ forall j, (j < k)%nat -> f i <= f j.
Proof.
  induction k as [|k IH]; intros Hk; [lia|]. destruct (Nat.eq_dec k 0) as [->|Hne].
  - exists 0%nat. split; [lia|]. intros j Hj. replace j with 0%nat by lia. lra.
  - destruct IH as (i & Hi & Hm); [lia|]. destruct (Rle_dec (f i) (f k)) as [Hle|Hgt].
    + exists i. split; [lia|]. intros j Hj. destruct (Nat.eq_dec j k) as [->|]; [exact Hle|apply Hm; lia].
    + exists k. split; [lia|]. intros j Hj. destruct (Nat.eq_dec j k) as [->|]; [lra|]. specialize (Hm j ltac:(lia)). lra.
Qed.

Lemma nth_real (l : list R) i : (i < length l)%nat -> nth_error l i = Some (nth i l 0).
Proof. intros H. apply nth_error_nth'. exact H. Qed.

Lemma nth_grid t0 dd M i : (i < M)%nat -> nth i (grid t0 dd M) 0 = t0 + INR i * dd.
Proof.
  intros H. unfold grid. rewrite (nth_indep _ 0 (t0 + INR 0 * dd)) by (rewrite map_length, seq_length; exact H).
  rewrite (map_nth (fun i => t0 + INR i * dd) (seq 0 M) 0%nat i), seq_nth by exact H. reflexivity.
Qed.

(** sequences whose steps are at least [r] *)
Lemma steps_up (f : nat -> R) r n : (forall j, (S j < n)%nat -> r <= f (S j) - f j) -> forall i j, (i <= j)%nat -> (j < n)%nat -> INR (j - i) * r <= f j - f i.
Proof.
  intros H i j Hij. induction j as [|j IH]; intros Hj.
  - replace i with 0%nat by lia. cbn [INR Nat.sub]. lra.
  - destruct (Nat.eq_dec i (S j)) as [->|Hne]; [rewrite Nat.sub_diag; cbn [INR]; lra|].
    specialize (IH ltac:(lia) ltac:(lia)). specialize (H j Hj). replace (S j - i)%nat with (S (j - i)) by lia. rewrite S_INR. lra.
Qed.

Lemma norm_real (d : @dstruct XR) ts : accepted d -> timeseries d = map Fin ts -> normalised_timeseries d = map Fin (map (fun x => x - nth 0 ts 0) ts).
Proof.
  intros Ha Et. destruct (accepted_times d Ha) as (tx & data & er & N & Ed & _ & H2 & _).
  assert (E : timeseries d = tx) by (rewrite Ed; reflexivity). rewrite <- rel_times_Fin, <- Et, E. exact H2.
Qed.

Section Number.
Variables (d : @dstruct XR) (ts : list R).
Hypotheses (Ha : accepted d) (Et : timeseries d = map Fin ts) (Hi : increasing (A := XR) (timeseries d)) (Hn : (2 <= length ts)%nat)
  (Hm : forall x y, In x ts -> In y ts -> x - y < dbl_max).
Let f (i : nat) : R := nth i ts 0.

Lemma f_step j : (S j < length ts)%nat -> 0 < f (S j) - f j.
Proof.
  intros Hj. destruct Hi as [_ H]. specialize (H j (S j) (Fin (f j)) (Fin (f (S j))) ltac:(lia)). rewrite Et, !nth_error_map, !nth_real in H by lia.
  specialize (H eq_refl eq_refl). apply nlt_Fin in H. unfold f in *. lra.
Qed.

(** the smallest difference, and the Correlator *)
Lemma smallest_gap : exists r, 0 < r /\ r < dbl_max /\ (forall j, (S j < length ts)%nat -> r <= f (S j) - f j) /\ (exists j, (S j < length ts)%nat /\ r = f (S j) - f j).
Proof.
  destruct (argmin (fun j => f (S j) - f j) (length ts - 1) ltac:(lia)) as (i & H1 & H2). exists (f (S i) - f i).
  split; [apply f_step; lia|]. split; [apply Hm; unfold f; apply nth_In; lia|]. split; [intros j Hj; apply H2; lia|]. exists i. split; [lia|reflexivity].
Qed.

Lemma default_correlator c0 : new_Correlator d = Ok c0 -> exists r, 0 < r /\ (forall j, (S j < length ts)%nat -> r <= f (S j) - f j) /\
  (exists j, (S j < length ts)%nat /\ r = f (S j) - f j) /\
  max_lag c0 = Fin (f (length ts - 1) - f 0) /\ min_lag c0 = Fin (- (f (length ts - 1) - f 0)) /\ lag_resolution c0 = Fin r.
Proof.
  intros Hc. destruct smallest_gap as (r & H0 & H1 & H2 & j & Hj & Er). exists r. split; [exact H0|]. split; [exact H2|]. split; [exists j; split; assumption|].
  pose proof (norm_real d ts Ha Et) as En.
  assert (EN : forall i, (i < length ts)%nat -> nth_error (normalised_timeseries d) i = Some (Fin (f i - f 0))).
  { intros i Hl. rewrite En, !nth_error_map, nth_real by exact Hl. reflexivity. }
  assert (EI : forall i x, nth_error (normalised_timeseries d) i = Some (Fin x) -> (i < length ts)%nat /\ x = f i - f 0).
  { intros i x Hx. assert (Hl : (i < length ts)%nat) by (apply nth_lt in Hx; rewrite En, !map_length in Hx; exact Hx).
    split; [exact Hl|]. rewrite (EN i Hl) in Hx. injection Hx as <-. reflexivity. }
  assert (El : length (normalised_timeseries d) = length ts) by (rewrite En, !map_length; reflexivity).
  destruct (constructs_exact d (f (length ts - 1) - f 0) r Ha) as [K1 K2].
  - rewrite El. apply EN. lia.
  - rewrite En. apply fin_all.
  - intros i x y Hx Hy. destruct (EI _ _ Hx) as [_ ->]. destruct (EI _ _ Hy) as [Hl ->]. specialize (H2 i Hl). lra.
  - exists j, (f j - f 0), (f (S j) - f 0). split; [apply EN; lia|]. split; [apply EN; lia|lra].
  - exact H1.
  - cbv zeta in K1, K2. match type of K1 with ?Q -> _ => destruct (classic Q) as [HQ|HQ] end; [|rewrite (K2 HQ) in Hc; discriminate Hc].
    destruct (K1 HQ) as (c & E & E1 & E2 & E3 & _). rewrite E in Hc. injection Hc as <-. auto.
Qed.

(** evenly spaced: the span is n-1 times the smallest difference *)
Lemma even_iff r : 0 < r -> (forall j, (S j < length ts)%nat -> r <= f (S j) - f j) -> (exists j, (S j < length ts)%nat /\ r = f (S j) - f j) ->
  (f (length ts - 1) - f 0 = INR (length ts - 1) * r <-> exists t0 dd, ts = grid t0 dd (length ts)).
Proof.
  intros H0 H1 (j & Hj & Er). pose proof (steps_up f r (length ts) H1) as Hs. split.
  - intros E. exists (f 0), r. apply (nth_ext _ _ 0 0); [unfold grid; rewrite map_length, seq_length; reflexivity|]. intros i Hl.
    rewrite nth_grid by exact Hl. fold (f i).
    pose proof (Hs 0%nat i ltac:(lia) Hl) as A1. pose proof (Hs i (length ts - 1)%nat ltac:(lia) ltac:(lia)) as A2. rewrite Nat.sub_0_r in A1.
    rewrite (minus_INR (length ts - 1) i) in A2 by lia. lra.
  - intros (t0 & dd & E).
    assert (F : forall i, (i < length ts)%nat -> f i = t0 + INR i * dd).
    { intros i Hl. unfold f. rewrite E. apply nth_grid. exact Hl. }
    rewrite (F (S j) Hj), (F j ltac:(lia)), S_INR in Er. rewrite (F (length ts - 1)%nat), (F 0%nat) by lia. cbn [INR].
    assert (r = dd) as -> by lra. lra.
Qed.

Lemma lag_number p al sel wgt lags corr c : autocorrelation (A := XR) p d None None None al sel wgt = Ok (lags, corr, c) ->
  (2 * length ts - 1 <= length lags)%nat /\ (length lags = 2 * length ts - 1 <-> exists t0 dd, ts = grid t0 dd (length ts))%nat.
Proof.
  intros E. assert (exists c0, new_Correlator d = Ok c0) as [c0 Hc].
  { unfold autocorrelation in E. destruct (new_Correlator d); try discriminate. eauto. }
  destruct (default_correlator c0 Hc) as (r & H0 & H1 & H2 & EM & Em & Er). rewrite <- (even_iff r H0 H1 H2).
  set (T := f (length ts - 1) - f 0) in *.
  pose proof (steps_up f r (length ts) H1 0%nat (length ts - 1)%nat ltac:(lia) ltac:(lia)) as HT. rewrite Nat.sub_0_r in HT. fold T in HT.
  assert (H1n : 1 <= INR (length ts - 1)) by (apply (le_INR 1); lia).
  assert (HrT : r <= T). { apply Rle_trans with (1 * r); [lra|]. apply Rle_trans with (INR (length ts - 1) * r); [apply Rmult_le_compat_r; lra|exact HT]. }
  assert (HC : forall e, jumps_zero (- T) r T /\ e = 1%nat \/ ~ jumps_zero (- T) r T /\ e = 0%nat -> Z.of_nat (length lags) = (Zfloor ((T - - T) / r) + 1 + Z.of_nat e)%Z).
  { intros e He. apply (lag_count p d None None None al sel wgt lags corr c (- T) r T e Ha E); [|exact H0|lra|exact He].
    intros c1 Hc1. rewrite Hc in Hc1. injection Hc1 as <-. cbn [opt_or]. auto. }
  destruct (classic (exists m : nat, T = INR m * r)) as [(m & EmT)|Hno].
  - assert (Hj : ~ jumps_zero (- T) r T) by (intros [_ C]; apply (C m); rewrite <- EmT; lra).
    specialize (HC 0%nat (or_intror (conj Hj eq_refl))).
    replace ((T - - T) / r) with (IZR (2 * Z.of_nat m)) in HC by (rewrite mult_IZR, <- INR_IZR_INZ, EmT; field; lra).
    rewrite Zfloor_IZR in HC. assert (El : length lags = (2 * m + 1)%nat) by lia.
    assert (Hnm : (length ts - 1 <= m)%nat). { apply INR_le. apply Rmult_le_reg_r with r; [exact H0|]. rewrite <- EmT. exact HT. }
    split; [lia|]. split.
    + intros K. assert (Ek : m = (length ts - 1)%nat) by lia. rewrite <- Ek. exact EmT.
    + intros K. rewrite EmT in K. apply Rmult_eq_reg_r in K; [|lra]. apply INR_eq in K. lia.
  - assert (Hj : jumps_zero (- T) r T).
    { split.
      - pose proof (Zfloor_lb (T / r)) as L1. pose proof (Zfloor_ub (T / r)) as L2.
        assert (Hq : (0 <= Zfloor (T / r))%Z). { apply Zfloor_lub. apply Rmult_le_pos; [lra|]. apply Rlt_le, Rinv_0_lt_compat, H0. }
        exists (S (Z.to_nat (Zfloor (T / r)))). rewrite S_INR, INR_IZR_INZ, Z2Nat.id by exact Hq.
        assert (E1 : T / r * r = T) by (field; lra).
        assert (B1 : IZR (Zfloor (T / r)) * r <= T) by (rewrite <- E1 at 2; apply Rmult_le_compat_r; lra).
        assert (B2 : T < (IZR (Zfloor (T / r)) + 1) * r) by (rewrite <- E1 at 1; apply Rmult_lt_compat_r; lra).
        split; [lra|]. rewrite Rmult_plus_distr_r. lra.
      - intros j C. apply Hno. exists j. lra. }
    specialize (HC 1%nat (or_introl (conj Hj eq_refl))).
    assert (Hf : (2 * Z.of_nat (length ts - 1) <= Zfloor ((T - - T) / r))%Z).
    { apply Zfloor_lub. rewrite mult_IZR, <- INR_IZR_INZ. apply Rmult_le_reg_r with r; [exact H0|].
      replace ((T - - T) / r * r) with (2 * T) by (field; lra). lra. }
    split; [lia|]. split; [intros K; lia|]. intros K. exfalso. apply Hno. exists (length ts - 1)%nat. exact K.
Qed.
End Number.

(** three points give as many lags as one likes *)
Lemma three_exact (N : nat) (v : list xr) p wgt : (2 <= N)%nat -> (2 * Z.of_nat N + 3 <= INT_MAX)%Z -> length v = 3%nat -> p_checked p = false -> known_weight wgt ->
  exists d lags corr c, SACF_1d (A := XR) (map Fin [0; 1; INR N]) v None = Ok d /\
    autocorrelation (A := XR) p d None None None None "natural" wgt = Ok (lags, corr, c) /\ length lags = (2 * N + 1)%nat.
Proof.
  intros HN HI Hv Hp Hw.
  destruct (one_dataset (A := XR) (map Fin [0; 1; INR N]) v None) as [_ [_ H]].
  destruct H as (d & E & Et & _); [discriminate|intros ->; discriminate|change (@length (@num XR) v = 3%nat) in Hv; rewrite Hv; reflexivity|].
  assert (Ha : accepted d) by (left; eauto). assert (H2N : 2 <= INR N) by (apply (le_INR 2); exact HN).
  pose proof (norm_real d _ Ha Et) as En. cbn [map nth] in En. rewrite !Rminus_0_r in En.
  assert (Hi : increasing (A := XR) (timeseries d)).
  { rewrite Et. assert (S : forall i j x y, (i < j)%nat -> nth_error (map Fin [0; 1; INR N]) i = Some x -> nth_error (map Fin [0; 1; INR N]) j = Some y -> @nlt XR x y = true).
    { intros [|[|[|i]]] [|[|[|j]]] x y Hij Hx Hy; try lia; cbn in Hx, Hy; try (destruct i; discriminate); try (destruct j; discriminate);
        injection Hx as <-; injection Hy as <-; apply nlt_Fin; lra. }
    split; [|exact S]. intros i j x y Hij Hx Hy. destruct (Nat.eq_dec i j) as [->|].
    - rewrite Hx in Hy. injection Hy as <-. rewrite nth_error_map in Hx. destruct (nth_error _ j) as [r|]; [|discriminate]. injection Hx as <-. apply nle_Fin. lra.
    - assert (K : @nlt XR x y = true) by (eapply S; [|exact Hx|exact Hy]; lia). rewrite nth_error_map in Hx, Hy.
      destruct (nth_error _ i) as [r|]; [|discriminate]. destruct (nth_error _ j) as [s|]; [|discriminate]. injection Hx as <-. injection Hy as <-.
      apply nlt_Fin in K. apply nle_Fin. lra. }
  assert (Ht : times_ok d).
  { split; [exact (proj1 Hi)|]. split; [rewrite Et; apply fin_all|]. rewrite En. apply (fin_all [0; 1; INR N]). }
  assert (HD : 1 < dbl_max).
  { unfold dbl_max. assert (bpow radix2 (-52) <= 1) by (change 1 with (bpow radix2 0); apply bpow_le; lia).
    assert (1 < bpow radix2 1023) by (change 1 with (bpow radix2 0); apply bpow_lt; lia).
    apply Rlt_le_trans with (1 * bpow radix2 1023); [lra|]. apply Rmult_le_compat_r; [lra|lra]. }
  assert (EN : IZR (2 * Z.of_nat N) = 2 * INR N) by (rewrite mult_IZR, <- INR_IZR_INZ; reflexivity).
  destruct (constructs_exact d (INR N) 1 Ha) as [K _].
  - rewrite En. reflexivity.
  - rewrite En. apply (fin_all [0; 1; INR N]).
  - intros [|[|[|i]]] x y Hx Hy; rewrite En in Hx, Hy; cbn in Hx, Hy; try (destruct i; discriminate); try discriminate; injection Hx as <-; injection Hy as <-; lra.
  - exists 0%nat, 0, 1. rewrite En. split; [reflexivity|]. split; [reflexivity|]. lra.
  - exact HD.
  - cbv zeta in K. replace (2 * INR N / 1) with (IZR (2 * Z.of_nat N)) in K by (rewrite EN; field). rewrite Zfloor_IZR in K.
    destruct K as (c0 & Hn & EM & Em & Er & _); [split; [lra|lia]|].
    destruct (@default_returns XR arith_exact _ _ p d c0 wgt Ha Ht Hn (default_fits_exact d c0 Ha Ht Hn) Hp Hw) as [[[lags corr] c] Ec].
    { intros _. rewrite EM. change (@nle XR (Fin (INR N + INR N)) (Fin (IZR INT_MAX)) = true). apply nle_Fin.
      apply Rle_trans with (IZR (2 * Z.of_nat N)); [rewrite EN; lra|]. apply IZR_le. lia. }
    exists d, lags, corr, c. split; [exact E|]. split; [exact Ec|].
    pose proof (lag_count p d None None None None "natural" wgt lags corr c (- INR N) 1 (INR N) 0 Ha Ec) as L.
    replace ((INR N - - INR N) / 1) with (IZR (2 * Z.of_nat N)) in L by (rewrite EN; field). rewrite Zfloor_IZR in L.
    enough (Z.of_nat (length lags) = (2 * Z.of_nat N + 1 + Z.of_nat 0)%Z) by lia. apply L; [|lra|lra|].
    + intros c1 Hc1. rewrite Hn in Hc1. injection Hc1 as <-. cbn [opt_or]. auto.
    + right. split; [|reflexivity]. intros [_ C]. apply (C N). lra.
Qed.
