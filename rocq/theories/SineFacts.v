(** Correlations in exact arithmetic: values close to a sinusoid. *)
From Coq Require Import String.
From Coq Require Import ZArith Reals List Bool Arith Lia Lra Psatz.
From Flocq Require Import Core.
From Verif Require Import Num Mem MemFacts XR B64 Spec SpecR DataStructure Correlator Sacf Api ExactFacts WeightFacts ConstrFacts GridVals GridCall GridSums PairBounds SignalFacts SignalFacts2 Laws.
Import ListNotations.
Local Open Scope list_scope.
Local Open Scope R_scope.

(** ** sums of cosines *)
Lemma cos_sum th be n : 2 * sin (th / 2) * rsum_n n (fun q => cos (th * INR q + be)) = sin (th * INR n + be - th / 2) - sin (be - th / 2).
Proof.
  induction n as [|n IH]; [rewrite rsum_n_0; cbn [INR]; replace (th * 0 + be - th / 2) with (be - th / 2) by ring; ring|].
  rewrite rsum_n_S, Rmult_plus_distr_l, IH, S_INR. set (x := th * INR n + be).
  replace (th * (INR n + 1) + be - th / 2) with (x + th / 2) by (unfold x; field).
  rewrite sin_plus, sin_minus. ring.
Qed.

Lemma cos_sum_bound th be n D : sin (th / 2) <> 0 -> / Rabs (sin (th / 2)) <= D -> Rabs (rsum_n n (fun q => cos (th * INR q + be))) <= D.
Proof.
  intros Hs HD. assert (Ha : 0 < Rabs (sin (th / 2))) by (apply Rabs_pos_lt; exact Hs).
  eapply Rle_trans; [|exact HD]. set (S := rsum_n n _).
  assert (H : Rabs (2 * sin (th / 2) * S) <= 2).
  { unfold S. rewrite cos_sum. pose proof (SIN_bound (th * INR n + be - th / 2)). pose proof (SIN_bound (be - th / 2)). apply Rabs_le. lra. }
  rewrite !Rabs_mult, (Rabs_pos_eq 2) in H by lra. apply Rmult_le_reg_l with (Rabs (sin (th / 2))); [exact Ha|]. rewrite Rinv_r by lra. lra.
Qed.

Lemma half_sine w : sin w <> 0 -> sin (w / 2) <> 0 /\ / Rabs (sin (w / 2)) <= 2 * / Rabs (sin w).
Proof.
  intros H. assert (E : sin w = 2 * sin (w / 2) * cos (w / 2)) by (rewrite <- sin_2a; f_equal; field).
  assert (H2 : sin (w / 2) <> 0) by (intros C; rewrite C in E; apply H; rewrite E; ring). split; [exact H2|].
  assert (P1 : 0 < Rabs (sin w)) by (apply Rabs_pos_lt; exact H). assert (P2 : 0 < Rabs (sin (w / 2))) by (apply Rabs_pos_lt; exact H2).
  assert (L : Rabs (sin w) <= 2 * Rabs (sin (w / 2))).
  { rewrite E, !Rabs_mult, (Rabs_pos_eq 2) by lra. assert (Rabs (cos (w / 2)) <= 1) by (apply Rabs_le; pose proof (COS_bound (w / 2)); lra). nra. }
  apply Rmult_le_reg_l with (Rabs (sin (w / 2))); [exact P2|]. rewrite Rinv_r by lra.
  apply Rmult_le_reg_r with (Rabs (sin w)); [exact P1|]. replace (Rabs (sin (w / 2)) * (2 * / Rabs (sin w)) * Rabs (sin w)) with (2 * Rabs (sin (w / 2))) by (field; lra). lra.
Qed.

(** ** the sinusoid itself *)
Section Pure.
Context (w ph : R) (M : nat).
Hypothesis Hw : sin w <> 0.
Hypothesis HM : 32 <= INR M * Rabs (sin w).
Let D := / Rabs (sin w).
Let x (q : nat) := cos (w * INR q + ph).
Definition sine : list R := map (fun q => cos (w * INR q + ph)) (seq 0 M).
Let mu := rmean sine.

Lemma sine_length : length sine = M.
Proof. unfold sine. rewrite map_length, seq_length. reflexivity. Qed.
Lemma sine_nth q : (q < M)%nat -> nth q sine 0 = x q.
Proof. intros H. apply nth_error_nth. unfold sine. rewrite nth_error_map, nth_error_seq. destruct (Nat.ltb_spec q M); [reflexivity|lia]. Qed.
Lemma sine_D : 0 < D /\ 0 < INR M /\ 32 * D <= INR M.
Proof.
  assert (P : 0 < Rabs (sin w)) by (apply Rabs_pos_lt; exact Hw). assert (0 < D) by (apply Rinv_0_lt_compat; exact P).
  assert (D * Rabs (sin w) = 1) by (unfold D; field; lra). split; [assumption|]. assert (32 * D <= INR M) by (apply Rmult_le_reg_r with (Rabs (sin w)); [exact P|lra]). lra.
Qed.

Lemma sine_sum1 k n : Rabs (rsum_n n (fun q => x (q + k))) <= 2 * D.
Proof.
  destruct (half_sine w Hw) as [H1 H2]. rewrite (rsum_n_ext _ _ (fun q => cos (w * INR q + (w * INR k + ph)))).
  - apply cos_sum_bound; assumption.
  - intros q _. unfold x. rewrite plus_INR. f_equal. ring.
Qed.
Lemma sine_sum2 n be : Rabs (rsum_n n (fun q => cos (2 * w * INR q + be))) <= D.
Proof. assert (E : 2 * w / 2 = w) by field. apply cos_sum_bound; rewrite E; [exact Hw|apply Rle_refl]. Qed.

Lemma sine_mean : Rabs mu <= 2 * D / INR M.
Proof.
  destruct sine_D as [D0 [M0 _]]. unfold mu, rmean. rewrite sine_length. unfold Rdiv. rewrite Rabs_mult, (Rabs_pos_eq (/ INR M)) by (left; apply Rinv_0_lt_compat; exact M0).
  apply Rmult_le_compat_r; [left; apply Rinv_0_lt_compat; exact M0|]. pose proof (sine_sum1 0 M) as H.
  change (rsum sine) with (rsum_n M (fun q => cos (w * INR q + ph))). rewrite (rsum_n_ext _ _ (fun q => x (q + 0))) by (intros q _; rewrite Nat.add_0_r; reflexivity). exact H.
Qed.

Lemma sine_lagged k : (k <= M)%nat -> Rabs (lagged M (dev sine) k - INR (M - k) / 2 * cos (w * INR k)) <= D / 2 + 12 * D * D / INR M.
Proof.
  intros Hk. destruct sine_D as [D0 [M0 _]]. unfold lagged.
  rewrite (rsum_n_ext _ _ (fun q => cos (w * INR k) / 2 + (/ 2 * cos (2 * w * INR q + (w * INR k + 2 * ph)) + ((- mu) * x (q + 0) + ((- mu) * x (q + k) + mu * mu))))).
  - rewrite !rsum_n_plus, !rsum_n_scal, !sum_const.
    pose proof (sine_sum1 0 (M - k)) as A. pose proof (sine_sum1 k (M - k)) as B. pose proof (sine_sum2 (M - k) (w * INR k + 2 * ph)) as C. pose proof sine_mean as U.
    set (a := rsum_n (M - k) (fun q => x (q + 0))) in *. set (b := rsum_n (M - k) (fun q => x (q + k))) in *. set (c := rsum_n (M - k) (fun q => cos (2 * w * INR q + (w * INR k + 2 * ph)))) in *.
    replace (INR (M - k) * (cos (w * INR k) / 2) + (/ 2 * c + (- mu * a + (- mu * b + INR (M - k) * (mu * mu)))) - INR (M - k) / 2 * cos (w * INR k))
      with (/ 2 * c + (- (mu * a) + (- (mu * b) + INR (M - k) * (mu * mu)))) by field.
    assert (HK : INR (M - k) <= INR M) by (apply le_INR; lia). pose proof (pos_INR (M - k)) as K0.
    assert (MU : INR M * Rabs mu <= 2 * D) by (apply Rmult_le_compat_l with (r := INR M) in U; [|lra]; replace (INR M * (2 * D / INR M)) with (2 * D) in U by (field; lra); exact U).
    pose proof (Rabs_pos mu) as U0.
    assert (P1 : Rabs (mu * a) <= 4 * D * D / INR M).
    { rewrite Rabs_mult. apply Rle_trans with (2 * D / INR M * (2 * D)); [apply Rmult_le_compat; try apply Rabs_pos; assumption|right; field; lra]. }
    assert (P2 : Rabs (mu * b) <= 4 * D * D / INR M).
    { rewrite Rabs_mult. apply Rle_trans with (2 * D / INR M * (2 * D)); [apply Rmult_le_compat; try apply Rabs_pos; assumption|right; field; lra]. }
    assert (P3 : Rabs (INR (M - k) * (mu * mu)) <= 4 * D * D / INR M).
    { rewrite !Rabs_mult, (Rabs_pos_eq (INR (M - k))) by exact K0. apply Rle_trans with (INR M * Rabs mu * Rabs mu); [rewrite <- Rmult_assoc; apply Rmult_le_compat_r; [exact U0|]; apply Rmult_le_compat_r; [exact U0|exact HK]|].
      apply Rle_trans with (2 * D * (2 * D / INR M)); [apply Rmult_le_compat; try assumption; apply Rmult_le_pos; lra|right; field; lra]. }
    assert (P4 : Rabs (/ 2 * c) <= D / 2) by (rewrite Rabs_mult, (Rabs_pos_eq (/ 2)) by lra; lra).
    apply Rabs_le_inv in P1, P2, P3, P4. apply Rabs_le. split; lra.
  - intros q Hq. unfold dev. rewrite !sine_nth by lia. fold mu. rewrite Nat.add_0_r.
    assert (P : x q * x (q + k) = (cos (w * INR k) + cos (2 * w * INR q + (w * INR k + 2 * ph))) / 2).
    { unfold x. rewrite plus_INR. set (u := w * INR q + ph). set (v := w * (INR q + INR k) + ph).
      replace (w * INR k) with (v - u) by (unfold u, v; ring). replace (2 * w * INR q + (v - u + 2 * ph)) with (u + v) by (unfold u, v; ring).
      rewrite cos_plus, cos_minus. field. }
    transitivity (x q * x (q + k) + (- mu * x q + (- mu * x (q + k) + mu * mu))); [ring|]. rewrite P. field.
Qed.

Lemma sine_sq : Rabs (sq_dev sine - INR M / 2) <= D / 2 + 12 * D * D / INR M.
Proof.
  pose proof (sine_lagged 0 ltac:(lia)) as H. cbn [INR] in H. rewrite Rmult_0_r, cos_0, Rmult_1_r, Nat.sub_0_r in H.
  rewrite sq_dev_n, sine_length. unfold lagged in H. rewrite Nat.sub_0_r in H.
  rewrite (rsum_n_ext _ (fun q => dev sine q * dev sine (q + 0)) (fun q => dev sine q * dev sine q)) in H by (intros q _; rewrite Nat.add_0_r; reflexivity). exact H.
Qed.
End Pure.

(** ** values close to a sinusoid *)
Lemma sine_core (rs : list R) (b A w ph e : R) (M m : nat) :
  length rs = M -> 0 < A -> 0 <= e -> 128 * e <= A -> 32 <= INR M * Rabs (sin w) -> (m <= M)%nat ->
  (forall q, (q < M)%nat -> Rabs (nth q rs 0 - (b + A * cos (w * INR q + ph))) <= e) ->
  (0 < sq_dev rs /\ A * A * (INR M / 3) <= sq_dev rs) /\
  Rabs (lagged M (dev rs) m / sq_dev rs - (1 - INR m / INR M) * cos (w * INR m)) <= 6 / (INR M * Rabs (sin w)) + 96 * (e / A).
Proof.
  intros L HA He HeA HM Hm H.
  assert (Hw : sin w <> 0) by (intros C; rewrite C, Rabs_R0, Rmult_0_r in HM; lra).
  destruct (sine_D w M Hw HM) as [D0 [M0 D1]]. set (D := / Rabs (sin w)) in *. set (x := e / A).
  assert (Hx : 0 <= x <= / 128).
  { unfold x, Rdiv. split; [apply Rmult_le_pos; [lra|left; apply Rinv_0_lt_compat; lra]|]. apply Rmult_le_reg_r with A; [lra|]. rewrite Rmult_assoc, Rinv_l by lra. lra. }
  set (ys := map (fun v => (v - b) / A) rs). set (xs := sine w ph M).
  assert (Ly : length ys = M) by (unfold ys; rewrite map_length; exact L). assert (Lx : length xs = M) by apply sine_length.
  assert (Ny : forall q, (q < M)%nat -> nth q ys 0 = (nth q rs 0 - b) / A).
  { intros q Hq. unfold ys. rewrite (nth_indep _ 0 ((0 - b) / A)) by (rewrite map_length; lia). rewrite (map_nth (fun v => (v - b) / A)). reflexivity. }
  assert (Hd : forall q, (q < M)%nat -> dev ys q = dev rs q / A).
  { intros q Hq. unfold dev. rewrite Ny by exact Hq. assert (E : rmean ys = (rmean rs - b) / A); [|rewrite E; field; lra].
    unfold rmean. rewrite Ly, L. rewrite !rsum_n_list, Ly, L.
    rewrite (rsum_n_ext _ _ (fun q => / A * nth q rs 0 + - (b / A))) by (intros k Hk; rewrite Ny by exact Hk; field; lra).
    rewrite rsum_n_plus, rsum_n_scal, sum_const. field. lra. }
  assert (C : forall k, (k < M)%nat -> Rabs (nth k xs 0 - nth k ys 0) <= x).
  { intros k Hk. rewrite Ny by exact Hk. unfold xs. rewrite sine_nth by exact Hk. specialize (H k Hk). rewrite Rabs_minus_sym.
    replace ((nth k rs 0 - b) / A - cos (w * INR k + ph)) with ((nth k rs 0 - (b + A * cos (w * INR k + ph))) / A) by (field; lra).
    unfold Rdiv at 1. rewrite Rabs_mult, (Rabs_pos_eq (/ A)) by (left; apply Rinv_0_lt_compat; lra). unfold x, Rdiv. apply Rmult_le_compat_r; [left; apply Rinv_0_lt_compat; lra|exact H]. }
  assert (Bx : forall v, In v xs -> Rabs v <= 2).
  { intros v Hv. unfold xs, sine in Hv. apply in_map_iff in Hv. destruct Hv as [q [<- _]]. pose proof (COS_bound (w * INR q + ph)). apply Rabs_le. lra. }
  assert (By : forall v, In v ys -> Rabs v <= 2).
  { intros v Hv. apply (In_nth _ _ 0) in Hv. destruct Hv as [k [Hk <-]]. rewrite Ly in Hk. specialize (C k Hk).
    assert (E1 : Rabs (nth k xs 0) <= 1) by (unfold xs; rewrite sine_nth by exact Hk; pose proof (COS_bound (w * INR k + ph)); apply Rabs_le; lra).
    apply Rabs_le_inv in C, E1. apply Rabs_le. lra. }
  set (s := map (fun q => (q + m)%nat) (seq 0 (M - m))).
  assert (Ls : length s = (M - m)%nat) by (unfold s; rewrite map_length, seq_length; reflexivity).
  assert (Ns : forall q, (q < M - m)%nat -> nth q s 0%nat = (q + m)%nat).
  { intros q Hq. apply nth_error_nth. unfold s. rewrite nth_error_map, nth_error_seq. destruct (Nat.ltb_spec q (M - m)); [reflexivity|lia]. }
  assert (Hs : forall z, In z s -> (z < M)%nat) by (intros z Hz; apply in_map_iff in Hz; destruct Hz as [q [<- Hq]]; apply in_seq in Hq; lia).
  assert (PL : forall zs, pair_sum (fun _ => 1) s zs = lagged M (dev zs) m) by (intros zs; unfold pair_sum, lagged; rewrite Ls; apply rsum_n_ext; intros q Hq; rewrite Ns by exact Hq; ring).
  destruct (pair_sum_close (fun _ => 1) s xs ys M 2 x Lx Ly ltac:(lia) Hs ltac:(intros; lra) ltac:(lra) (proj1 Hx) Bx By C) as [CA CD].
  rewrite !PL, Ls in CA.
  assert (E1 : lagged M (dev rs) m = A * A * lagged M (dev ys) m).
  { unfold lagged. rewrite <- rsum_n_scal. apply rsum_n_ext. intros q Hq. rewrite !Hd by lia. field. lra. }
  assert (E2 : sq_dev rs = A * A * sq_dev ys).
  { rewrite !sq_dev_n, Ly, L, <- rsum_n_scal. apply rsum_n_ext. intros q Hq. rewrite !Hd by lia. field. lra. }
  rewrite E1, E2.
  pose proof (sine_lagged w ph M Hw HM m Hm) as S1. pose proof (sine_sq w ph M Hw HM) as S2. fold D xs in S1, S2.
  assert (DD : 12 * D * D / INR M <= D * (3 / 8)).
  { apply Rmult_le_reg_r with (INR M); [exact M0|]. replace (12 * D * D / INR M * INR M) with (12 * D * D) by (field; lra). nra. }
  set (c := cos (w * INR m)) in *. assert (Hc : Rabs c <= 1) by (pose proof (COS_bound (w * INR m)); apply Rabs_le; exact H0).
  assert (Hn : INR (M - m) <= INR M) by (apply le_INR; lia). pose proof (pos_INR (M - m)) as Hn0.
  assert (CA' : Rabs (lagged M (dev xs) m - lagged M (dev ys) m) <= 16 * INR M * x).
  { eapply Rle_trans; [exact CA|]. assert (0 <= x) by apply Hx. nra. }
  assert (CD' : Rabs (sq_dev xs - sq_dev ys) <= 16 * INR M * x) by (eapply Rle_trans; [exact CD|right; ring]).
  set (la := lagged M (dev ys) m) in *. set (lx := lagged M (dev xs) m) in *. set (ny := sq_dev ys) in *. set (nx := sq_dev xs) in *.
  assert (XM : 16 * INR M * x <= INR M / 8) by nra.
  assert (N1 : INR M / 3 <= ny) by (apply Rabs_le_inv in S2, CD'; lra).
  assert (HAA : 0 < A * A) by nra. split; [split; [nra|apply Rmult_le_compat_l; lra]|].
  replace (A * A * la / (A * A * ny)) with (la / ny) by (field; lra).
  set (t := (1 - INR m / INR M)). assert (Et : t = INR (M - m) / INR M) by (unfold t; rewrite minus_INR by exact Hm; field; lra).
  assert (T1 : Rabs (t * c) <= 1).
  { rewrite Et, Rabs_mult, (Rabs_pos_eq (INR (M - m) / INR M)).
    - assert (INR (M - m) / INR M <= 1) by (apply Rmult_le_reg_r with (INR M); [exact M0|]; unfold Rdiv; rewrite Rmult_assoc, Rinv_l by lra; lra).
      assert (0 <= INR (M - m) / INR M) by (unfold Rdiv; apply Rmult_le_pos; [lra|left; apply Rinv_0_lt_compat; lra]). pose proof (Rabs_pos c). nra.
    - unfold Rdiv; apply Rmult_le_pos; [lra|left; apply Rinv_0_lt_compat; lra]. }
  replace (la / ny - t * c) with (((la - INR (M - m) / 2 * c) - t * c * (ny - INR M / 2)) / ny) by (rewrite Et; field; lra).
  assert (Q1 : Rabs (la - INR (M - m) / 2 * c) <= D + 16 * INR M * x) by (apply Rabs_le_inv in S1, CA'; apply Rabs_le; lra).
  assert (Q2 : Rabs (ny - INR M / 2) <= D + 16 * INR M * x) by (apply Rabs_le_inv in S2, CD'; apply Rabs_le; lra).
  assert (Q3 : Rabs (t * c * (ny - INR M / 2)) <= D + 16 * INR M * x) by (rewrite Rabs_mult; pose proof (Rabs_pos (ny - INR M / 2)); pose proof (Rabs_pos (t * c)); nra).
  unfold Rdiv at 1. rewrite Rabs_mult, (Rabs_pos_eq (/ ny)) by (left; apply Rinv_0_lt_compat; lra).
  apply Rmult_le_reg_r with ny; [lra|]. rewrite Rmult_assoc, Rinv_l, Rmult_1_r by lra.
  apply Rle_trans with (2 * D + 32 * INR M * x); [apply Rabs_le_inv in Q1, Q3; apply Rabs_le; lra|].
  assert (P : 0 < Rabs (sin w)) by (apply Rabs_pos_lt; exact Hw).
  replace (6 / (INR M * Rabs (sin w))) with (6 * D / INR M) by (unfold D; field; split; lra).
  apply Rle_trans with ((6 * D / INR M + 96 * x) * (INR M / 3)); [right; field; lra|]. apply Rmult_le_compat_l; [|exact N1].
  assert (0 <= 6 * D / INR M) by (unfold Rdiv; apply Rmult_le_pos; [lra|left; apply Rinv_0_lt_compat; lra]). lra.
Qed.

Lemma sine_call p d mi ma re al wgt lags corr c rows j i (rs : list R) (t0 dd a b A w ph e : R) (M m : nat) :
  accepted d -> autocorrelation (A := XR) p d mi ma re al "natural" wgt = Ok (lags, corr, c) -> data_2d d = Ok rows ->
  nth_error rows j = Some (map Fin rs) -> timeseries d = map Fin (grid t0 dd M) -> 0 < dd ->
  opt_or (A := XR) al (median_time d) = Fin a -> 0 < a -> Forall single rs -> nth_error lags i = Some (Fin (INR m * dd)) -> (m <= M)%nat ->
  (forall q, (q < M)%nat -> Rabs (nth q rs 0 - (b + A * cos (w * INR q + ph))) <= e) -> 0 < A -> 0 <= e -> 128 * e <= A -> 32 <= INR M * Rabs (sin w) ->
  exists r, corr_at corr j i = Some (Fin r) /\ Rabs (r - (1 - INR m / INR M) * cos (w * INR m)) <= 6 / (INR M * Rabs (sin w)) + 96 * (e / A).
Proof.
  intros Ha E Hd Hj Ht Hdd Hal Hpos Hs Hi Hm H HA He HeA HM.
  destruct (grid_value_pos p d mi ma re al wgt lags corr c rows j i rs t0 dd a M m Ha E Hd Hj Hi Ht Hdd Hal Hpos) as [L _].
  destruct (sine_core rs b A w ph e M m L HA He HeA HM Hm H) as [[HN _] HB].
  destruct (lag_value p d mi ma re al wgt lags corr c rows j rs t0 dd a M Ha E Hd Hj Ht Hdd Hal Hpos i m Hi) as [_ [_ V]]; [rewrite sq_dev_single by exact Hs; exact HN|].
  rewrite sq_dev_single in V by exact Hs. eauto.
Qed.

Lemma cos_whole k : cos (INR k * PI) = (-1) ^ k.
Proof.
  induction k as [|k IH]; [cbn [INR pow]; rewrite Rmult_0_l; apply cos_0|]. rewrite S_INR. replace ((INR k + 1) * PI) with (INR k * PI + PI) by ring.
  rewrite neg_cos, IH. cbn [pow]. ring.
Qed.
