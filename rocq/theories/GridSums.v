(** Sums over the correlations of an evenly sampled series, in exact arithmetic. *)
From Coq Require Import String.
From Coq Require Import ZArith Reals List Bool Arith Lia Lra Permutation.
From Verif Require Import Num Mem XR Spec SpecR DataStructure Correlator Sacf Api ExactFacts GridVals.
Import ListNotations.
Local Open Scope list_scope.
Local Open Scope R_scope.

Lemma rsum_n_rev n f : rsum_n n (fun i => f (n - 1 - i)%nat) = rsum_n n f.
Proof.
  induction n as [|n IH]; [reflexivity|]. rewrite rsum_n_first, rsum_n_S. replace (S n - 1 - 0)%nat with n by lia. rewrite Rplus_comm. f_equal.
  rewrite <- IH. apply rsum_n_ext. intros i Hi. f_equal. lia.
Qed.

Lemma rsum_perm l l' : Permutation l l' -> rsum l = rsum l'.
Proof. unfold rsum. intros H. induction H; cbn in *; lra. Qed.

Lemma rmean_rev rs : rmean (rev rs) = rmean rs.
Proof. unfold rmean. rewrite rev_length. rewrite (rsum_perm (rev rs) rs); [reflexivity|]. apply Permutation_sym, Permutation_rev. Qed.

Lemma dev_rev rs q : (q < length rs)%nat -> dev (rev rs) q = dev rs (length rs - 1 - q).
Proof. intros H. unfold dev. rewrite rmean_rev, rev_nth by exact H. do 2 f_equal. lia. Qed.

Lemma sq_dev32_rev rs : sq_dev32 (rev rs) = sq_dev32 rs.
Proof. unfold sq_dev32. rewrite rmean_rev. apply rsum_perm. apply Permutation_map. apply Permutation_sym, Permutation_rev. Qed.

(** the sum of the products at distance [m] *)
Definition lagged (M : nat) (x : nat -> R) (m : nat) : R := rsum_n (M - m) (fun q => x q * x (q + m)%nat).

Lemma lagged_rev rs m : lagged (length rs) (dev (rev rs)) m = lagged (length rs) (dev rs) m.
Proof.
  unfold lagged. set (M := length rs). rewrite <- (rsum_n_rev (M - m) (fun q => dev rs q * dev rs (q + m)%nat)).
  apply rsum_n_ext. intros q Hq. rewrite !dev_rev by (fold M; lia). fold M. rewrite Rmult_comm. f_equal; f_equal; lia.
Qed.

Lemma square_sum M x : rsum_n M x * rsum_n M x = rsum_n M (fun q => x q * x q) + 2 * rsum_n (M - 1) (fun m => lagged M x (S m)).
Proof.
  induction M as [|M IH]; [cbn [Nat.sub]; rewrite !rsum_n_0; lra|]. rewrite !rsum_n_S. replace (S M - 1)%nat with M by lia.
  replace (rsum_n M (fun m => lagged (S M) x (S m))) with (rsum_n (M - 1) (fun m => lagged M x (S m)) + x M * rsum_n M x); [lra|].
  rewrite <- (rsum_n_rev M x), <- rsum_n_scal.
  replace (rsum_n (M - 1) (fun m => lagged M x (S m))) with (rsum_n M (fun m => lagged M x (S m))).
  - rewrite <- rsum_n_plus. apply rsum_n_ext. intros m Hm. unfold lagged. replace (S M - S m)%nat with (S (M - S m)) by lia. rewrite rsum_n_S.
    replace (M - 1 - m)%nat with (M - S m)%nat by lia. replace (M - S m + S m)%nat with M by lia. lra.
  - destruct M as [|M']; [reflexivity|]. replace (S M' - 1)%nat with M' by lia. rewrite rsum_n_S. unfold lagged at 2. replace (S M' - S M')%nat with 0%nat by lia. rewrite rsum_n_0. lra.
Qed.

Lemma dev_sum rs : rs <> [] -> rsum_n (length rs) (dev rs) = 0.
Proof.
  intros H. unfold dev. rewrite <- (rsum_list (fun v => v - rmean rs)).
  assert (G : forall c l, rsum (map (fun v => v - c) l) = rsum l - INR (length l) * c).
  { intros c l. unfold rsum. induction l as [|v l IH]; [cbn; lra|]. cbn [map fold_right length] in *. rewrite IH, S_INR. lra. }
  rewrite G. unfold rmean. field. apply not_0_INR. destruct rs; [congruence|discriminate].
Qed.

(** ** positive semidefinite *)
Lemma rsum_n_const0 n f : (forall i, (i < n)%nat -> f i = 0) -> rsum_n n f = 0.
Proof. intros H. induction n as [|n IH]; [apply rsum_n_0|]. rewrite rsum_n_S, H, IH by (intros; try apply H; lia). lra. Qed.

Lemma rsum_n_swap n m (f : nat -> nat -> R) : rsum_n n (fun i => rsum_n m (f i)) = rsum_n m (fun j => rsum_n n (fun i => f i j)).
Proof.
  induction n as [|n IH]; [rewrite rsum_n_0; symmetry; apply rsum_n_const0; intros; apply rsum_n_0|].
  rewrite rsum_n_S, IH, <- rsum_n_plus. apply rsum_n_ext. intros j _. rewrite rsum_n_S. reflexivity.
Qed.

Definition placed (M : nat) (x : nat -> R) (t i : nat) : R := if (i <=? t)%nat && (t - i <? M)%nat then x (t - i)%nat else 0.

Lemma placed_le M x n i j : (i <= j)%nat -> (j < n)%nat ->
  rsum_n (M + n) (fun t => placed M x t i * placed M x t j) = lagged M x (j - i).
Proof.
  intros Hij Hj. replace (M + n)%nat with (j + ((M - (j - i)) + (M + n - j - (M - (j - i)))))%nat by lia.
  rewrite !rsum_n_split. rewrite rsum_n_const0; [|intros t Ht; unfold placed at 2; destruct (Nat.leb_spec j t); [lia|]; cbn; lra].
  rewrite Rplus_0_l. rewrite (rsum_n_const0 (M + n - j - (M - (j - i)))).
  2: { intros t Ht. unfold placed at 1. destruct (Nat.leb_spec i (j + (M - (j - i) + t))); [|lia]. destruct (Nat.ltb_spec (j + (M - (j - i) + t) - i) M); [lia|cbn; lra]. }
  rewrite Rplus_0_r. unfold lagged. apply rsum_n_ext. intros q Hq. unfold placed.
  destruct (Nat.leb_spec i (j + q)); [|lia]. destruct (Nat.ltb_spec (j + q - i) M); [|lia]. destruct (Nat.leb_spec j (j + q)); [|lia]. destruct (Nat.ltb_spec (j + q - j) M); [|lia].
  cbn [andb]. rewrite Rmult_comm. f_equal; f_equal; lia.
Qed.

Definition apart (i j : nat) : nat := (Nat.max i j - Nat.min i j)%nat.

Lemma placed_any M x n i j : (i < n)%nat -> (j < n)%nat -> rsum_n (M + n) (fun t => placed M x t i * placed M x t j) = lagged M x (apart i j).
Proof.
  intros Hi Hj. unfold apart. destruct (Nat.le_ge_cases i j) as [H|H].
  - rewrite Nat.max_r, Nat.min_l by exact H. apply placed_le; assumption.
  - rewrite Nat.max_l, Nat.min_r by exact H. rewrite <- (placed_le M x n j i H Hi). apply rsum_n_ext. intros; apply Rmult_comm.
Qed.

Lemma lagged_psd M x n a : 0 <= rsum_n n (fun i => rsum_n n (fun j => a i * a j * lagged M x (apart i j))).
Proof.
  replace (rsum_n n (fun i => rsum_n n (fun j => a i * a j * lagged M x (apart i j))))
    with (rsum_n (M + n) (fun t => rsum_n n (fun i => a i * placed M x t i) * rsum_n n (fun i => a i * placed M x t i))).
  - apply rsum_n_nonneg. intros t _. nra.
  - symmetry. transitivity (rsum_n n (fun i => rsum_n n (fun j => rsum_n (M + n) (fun t => (a i * placed M x t i) * (a j * placed M x t j))))).
    + apply rsum_n_ext. intros i Hi. apply rsum_n_ext. intros j Hj. rewrite <- (placed_any M x n i j Hi Hj), <- rsum_n_scal. apply rsum_n_ext. intros t _. ring.
    + transitivity (rsum_n n (fun i => rsum_n (M + n) (fun t => rsum_n n (fun j => (a i * placed M x t i) * (a j * placed M x t j))))); [apply rsum_n_ext; intros; apply rsum_n_swap|].
      rewrite rsum_n_swap. apply rsum_n_ext. intros t _. rewrite <- rsum_n_scal. rewrite (rsum_n_ext n _ (fun i => rsum_n n (fun i => a i * placed M x t i) * (a i * placed M x t i))); [reflexivity|].
      intros i _. rewrite rsum_n_scal. ring.
Qed.

(** ** calls *)
Lemma norm_sign rs : 0 <= sq_dev32 rs.
Proof.
  unfold sq_dev32. generalize (rmean rs). intros mu. unfold rsum. induction rs as [|v l IH]; cbn; [lra|].
  pose proof (Rle_0_sqr (f32R v - mu)) as Q. unfold Rsqr in Q. lra.
Qed.

Lemma finite_quotient x N v : xdiv (Fin x) (Fin N) = Fin v -> N <> 0 /\ v = x / N.
Proof.
  cbn. unfold Reqb. destruct (Req_EM_T N 0) as [H|H]; [|intros E; injection E as <-; auto].
  unfold xinf_sign. destruct (Reqb x 0), (Rltb x 0); discriminate.
Qed.

Section Calls.
Context (p : platform) (d : @dstruct XR) (mi ma re al : option xr) (wgt : string) (lags : list xr) (corr : @py_corr XR) (c : @correlator XR)
  (rows : list (list xr)) (j : nat) (rs : list R) (t0 dd a : R) (M : nat).
Hypothesis (Ha : accepted d) (E : autocorrelation (A := XR) p d mi ma re al "natural" wgt = Ok (lags, corr, c)) (Hd : data_2d d = Ok rows)
  (Hj : nth_error rows j = Some (map Fin rs)) (Ht : timeseries d = map Fin (grid t0 dd M)) (Hdd : 0 < dd)
  (Hal : opt_or (A := XR) al (median_time d) = Fin a) (Hpos : 0 < a).
Context (v : nat -> R).
Hypothesis (Hv : forall m, (m < M)%nat -> exists i, nth_error lags i = Some (Fin (INR m * dd)) /\ corr_at corr j i = Some (Fin (v m))).

Lemma call_values m : (m < M)%nat -> 0 < sq_dev32 rs /\ length rs = M /\ v m = lagged M (dev rs) m / sq_dev32 rs.
Proof.
  intros Hm. destruct (Hv m Hm) as [i [Hi Hc]].
  destruct (grid_value_pos p d mi ma re al wgt lags corr c rows j i rs t0 dd a M m Ha E Hd Hj Hi Ht Hdd Hal Hpos) as [HL [_ HC]].
  rewrite Hc in HC. injection HC as HC. symmetry in HC. apply finite_quotient in HC. destruct HC as [H1 H2]. pose proof (norm_sign rs).
  split; [lra|]. split; [exact HL|exact H2].
Qed.

Lemma call_sum : (0 < M)%nat -> v 0%nat + 2 * rsum_n (M - 1) (fun m => v (S m)) = 0.
Proof.
  intros HM. destruct (call_values 0 HM) as [HN [HL H0]]. rewrite H0.
  rewrite (rsum_n_ext (M - 1) _ (fun m => / sq_dev32 rs * lagged M (dev rs) (S m))).
  2: { intros m Hm. destruct (call_values (S m) ltac:(lia)) as [_ [_ ->]]. unfold Rdiv. ring. }
  rewrite rsum_n_scal.
  pose proof (square_sum M (dev rs)) as Q. rewrite <- HL in Q at 1 2. rewrite dev_sum in Q by (intros ->; cbn in HL; lia).
  replace (lagged M (dev rs) 0) with (rsum_n M (fun q => dev rs q * dev rs q)).
  - apply Rmult_eq_reg_l with (sq_dev32 rs); [|lra]. field_simplify; [|lra]. lra.
  - unfold lagged. replace (M - 0)%nat with M by lia. apply rsum_n_ext. intros q _. rewrite Nat.add_0_r. reflexivity.
Qed.

Lemma call_psd n (b : nat -> R) : (n <= M)%nat -> 0 <= rsum_n n (fun i => rsum_n n (fun k => b i * b k * v (Nat.max i k - Nat.min i k)%nat)).
Proof.
  intros Hn. destruct n as [|n]; [rewrite rsum_n_0; lra|]. destruct (call_values 0 ltac:(lia)) as [HN [HL _]].
  replace (rsum_n (S n) (fun i => rsum_n (S n) (fun k => b i * b k * v (Nat.max i k - Nat.min i k)%nat)))
    with (/ sq_dev32 rs * rsum_n (S n) (fun i => rsum_n (S n) (fun k => b i * b k * lagged M (dev rs) (apart i k)))).
  - apply Rmult_le_pos; [left; apply Rinv_0_lt_compat; exact HN|apply lagged_psd].
  - rewrite <- rsum_n_scal. apply rsum_n_ext. intros i Hi. rewrite <- rsum_n_scal. apply rsum_n_ext. intros k Hk.
    destruct (call_values (apart i k)) as [_ [_ Q]]; [unfold apart; lia|]. unfold apart in *. rewrite Q. field. lra.
Qed.
End Calls.

(** reversed data *)
Lemma call_reversed p p' d d' mi ma re al mi' ma' re' al' wgt wgt' lags corr c lags' corr' c' rows rows' j j' i i' rs t0 t0' dd a a' M m :
  accepted d -> autocorrelation (A := XR) p d mi ma re al "natural" wgt = Ok (lags, corr, c) -> data_2d d = Ok rows ->
  accepted d' -> autocorrelation (A := XR) p' d' mi' ma' re' al' "natural" wgt' = Ok (lags', corr', c') -> data_2d d' = Ok rows' ->
  nth_error rows j = Some (map Fin rs) -> nth_error rows' j' = Some (map Fin (rev rs)) ->
  timeseries d = map Fin (grid t0 dd M) -> timeseries d' = map Fin (grid t0' dd M) -> 0 < dd ->
  opt_or (A := XR) al (median_time d) = Fin a -> 0 < a -> opt_or (A := XR) al' (median_time d') = Fin a' -> 0 < a' ->
  nth_error lags i = Some (Fin (INR m * dd)) -> nth_error lags' i' = Some (Fin (INR m * dd)) ->
  corr_at corr' j' i' = corr_at corr j i.
Proof.
  intros Ha E Hd Ha' E' Hd' Hj Hj' Ht Ht' Hdd Hal Hp Hal' Hp' Hi Hi'.
  destruct (grid_value_pos p d mi ma re al wgt lags corr c rows j i rs t0 dd a M m Ha E Hd Hj Hi Ht Hdd Hal Hp) as [HL [_ ->]].
  destruct (grid_value_pos p' d' mi' ma' re' al' wgt' lags' corr' c' rows' j' i' (rev rs) t0' dd a' M m Ha' E' Hd' Hj' Hi' Ht' Hdd Hal' Hp') as [_ [_ ->]].
  rewrite sq_dev32_rev. pose proof (lagged_rev rs m) as Q. unfold lagged in Q. rewrite HL in Q. rewrite Q. reflexivity.
Qed.
