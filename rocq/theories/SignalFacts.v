(** Special signals on an evenly sampled grid (periodic, alternating, a straight line), and the effect of rounding the values to single
    precision in the normalisation. *)
From Coq Require Import String.
From Coq Require Import ZArith Reals List Bool Arith Lia Lra Psatz.
From Flocq Require Import Core Relative.
From Verif Require Import Num Mem MemFacts XR B64 Spec SpecR DataStructure Correlator Sacf Api ExactFacts ConstrFacts GridVals GridCall GridSums PairBounds Laws.
Import ListNotations.
Local Open Scope list_scope.
Local Open Scope R_scope.

(** ** Sums *)
Lemma lagged_period M x m s : (forall q, (q + m < M)%nat -> x (q + m)%nat = s * x q) ->
  lagged M x m = s * rsum_n (M - m) (fun q => x q * x q).
Proof. intros H. unfold lagged. rewrite <- rsum_n_scal. apply rsum_n_ext. intros q Hq. rewrite H by lia. ring. Qed.

Lemma square_le_abs a b : 0 <= b -> a * a <= b * b -> Rabs a <= b.
Proof. intros Hb H. apply Rabs_le. split; nra. Qed.

Lemma lagged_peak M x m m' s : s * s = 1 -> (forall q, (q + m < M)%nat -> x (q + m)%nat = s * x q) -> (m <= m')%nat ->
  Rabs (lagged M x m') <= rsum_n (M - m) (fun q => x q * x q).
Proof.
  intros Hs H Hm. set (E := rsum_n (M - m) (fun q => x q * x q)).
  assert (HE : 0 <= E) by (apply rsum_n_nonneg; intros; nra).
  destruct (Nat.le_gt_cases M m') as [G|G].
  { unfold lagged. replace (M - m')%nat with 0%nat by lia. rewrite rsum_n_0, Rabs_R0. exact HE. }
  apply square_le_abs; [exact HE|]. unfold lagged.
  eapply Rle_trans; [apply (cauchy (M - m') x (fun q => x (q + m')%nat))|].
  assert (H1 : rsum_n (M - m') (fun q => x q * x q) <= E).
  { unfold E. replace (M - m)%nat with ((M - m') + (m' - m))%nat by lia. rewrite rsum_n_split.
    assert (0 <= rsum_n (m' - m) (fun i => x (M - m' + i)%nat * x (M - m' + i)%nat)) by (apply rsum_n_nonneg; intros; nra). lra. }
  assert (H2 : rsum_n (M - m') (fun q => x (q + m')%nat * x (q + m')%nat) <= E).
  { rewrite (rsum_n_ext _ _ (fun q => x ((m' - m) + q)%nat * x ((m' - m) + q)%nat)).
    - unfold E. replace (M - m)%nat with ((m' - m) + (M - m'))%nat by lia. rewrite rsum_n_split.
      assert (0 <= rsum_n (m' - m) (fun i => x i * x i)) by (apply rsum_n_nonneg; intros; nra). lra.
    - intros q Hq. replace (q + m')%nat with ((m' - m + q) + m)%nat by lia. rewrite H by lia. replace (s * x (m' - m + q)%nat * (s * x (m' - m + q)%nat)) with (s * s * (x (m' - m + q)%nat * x (m' - m + q)%nat)) by ring. rewrite Hs. ring. }
  assert (0 <= rsum_n (M - m') (fun q => x q * x q)) by (apply rsum_n_nonneg; intros; nra).
  assert (0 <= rsum_n (M - m') (fun q => x (q + m')%nat * x (q + m')%nat)) by (apply rsum_n_nonneg; intros; nra).
  apply Rmult_le_compat; assumption.
Qed.

Lemma sum_blocks P y : forall n, (forall q, (q + P < n * P)%nat -> y (q + P)%nat = y q) -> rsum_n (n * P) y = INR n * rsum_n P y.
Proof.
  assert (G : forall n k, (forall q, (q + P < n * P)%nat -> y (q + P)%nat = y q) -> forall q, (q + k * P < n * P)%nat -> y (q + k * P)%nat = y q).
  { intros n k H. induction k as [|k IH]; intros q Hq; [f_equal; lia|].
    replace (q + S k * P)%nat with ((q + k * P) + P)%nat by lia. rewrite H by lia. apply IH. lia. }
  induction n as [|n IH]; intros H; [cbn [Nat.mul INR]; rewrite rsum_n_0; ring|].
  replace (S n * P)%nat with (n * P + P)%nat by lia. rewrite rsum_n_split, IH by (intros q Hq; apply H; lia).
  rewrite (rsum_n_ext P (fun i => y (n * P + i)%nat) y); [rewrite S_INR; ring|].
  intros q Hq. replace (n * P + q)%nat with (q + n * P)%nat by lia. apply (G (S n) n H). lia.
Qed.

Lemma sum_part P y n k : (0 < n)%nat -> (k <= n)%nat -> (forall q, (q + P < n * P)%nat -> y (q + P)%nat = y q) ->
  rsum_n (n * P - k * P) y = (1 - INR k / INR n) * rsum_n (n * P) y.
Proof.
  intros Hn Hk H. replace (n * P - k * P)%nat with ((n - k) * P)%nat by (rewrite Nat.mul_sub_distr_r; reflexivity).
  rewrite (sum_blocks P y n H), (sum_blocks P y (n - k)).
  - rewrite minus_INR by exact Hk. field. apply not_0_INR. lia.
  - intros q Hq. apply H. assert ((n - k) * P <= n * P)%nat by (apply Nat.mul_le_mono_r; lia). lia.
Qed.

Lemma period_multiple M P (x : nat -> R) k : (forall q, (q + P < M)%nat -> x (q + P)%nat = x q) -> forall q, (q + k * P < M)%nat -> x (q + k * P)%nat = x q.
Proof.
  intros H. induction k as [|k IH]; intros q Hq; [f_equal; lia|].
  replace (q + S k * P)%nat with ((q + k * P) + P)%nat by lia. rewrite H by lia. apply IH. lia.
Qed.

(** ** A straight line *)
Lemma sum_id n : rsum_n n INR = INR n * (INR n - 1) / 2.
Proof. induction n as [|n IH]; [rewrite rsum_n_0; cbn; lra|]. rewrite rsum_n_S, IH, S_INR. field. Qed.
Lemma sum_line_products n m c : rsum_n n (fun i => (INR i - c) * (INR i + INR m - c)) =
  INR n * (INR n - 1) * (2 * INR n - 1) / 6 + (INR m - 2 * c) * (INR n * (INR n - 1) / 2) + INR n * (c * c - c * INR m).
Proof. induction n as [|n IH]; [rewrite rsum_n_0; cbn [INR]; field|]. rewrite rsum_n_S, IH, S_INR. field. Qed.

Definition line (a b : R) (M : nat) : list R := map (fun i => b + a * INR i) (seq 0 M).

Lemma line_nth a b M q : (q < M)%nat -> nth q (line a b M) 0 = b + a * INR q.
Proof. intros H. apply nth_error_nth. unfold line. rewrite nth_error_map, nth_error_seq. destruct (Nat.ltb_spec q M); [reflexivity|lia]. Qed.
Lemma line_length a b M : length (line a b M) = M.
Proof. unfold line. rewrite map_length, seq_length. reflexivity. Qed.

Lemma line_mean a b M : (0 < M)%nat -> rmean (line a b M) = b + a * ((INR M - 1) / 2).
Proof.
  intros HM. unfold rmean. rewrite line_length. change (rsum (line a b M)) with (rsum_n M (fun i => b + a * INR i)).
  rewrite rsum_n_plus, rsum_n_scal, sum_id.
  replace (rsum_n M (fun _ => b)) with (INR M * b).
  - field. apply not_0_INR. lia.
  - clear. induction M as [|M IH]; [rewrite rsum_n_0; cbn; ring|]. rewrite rsum_n_S, <- IH, S_INR. ring.
Qed.
Lemma line_dev a b M q : (q < M)%nat -> dev (line a b M) q = a * (INR q - (INR M - 1) / 2).
Proof. intros H. unfold dev. rewrite line_nth by exact H. rewrite line_mean by lia. ring. Qed.

Lemma line_lagged a b M m : (m <= M)%nat -> lagged M (dev (line a b M)) m =
  a * a * (INR (M - m) * (INR (M - m) * INR (M - m) - 1 - 3 * INR m * INR m) / 12).
Proof.
  intros Hm. unfold lagged. rewrite (rsum_n_ext _ _ (fun q => (a * a) * ((INR q - (INR M - 1) / 2) * (INR q + INR m - (INR M - 1) / 2)))).
  - rewrite rsum_n_scal, sum_line_products. f_equal. rewrite minus_INR by exact Hm. field.
  - intros q Hq. rewrite !line_dev by lia. rewrite plus_INR. ring.
Qed.

Lemma line_sq a b M : sq_dev (line a b M) = a * a * (INR M * (INR M * INR M - 1) / 12).
Proof.
  rewrite sq_dev_n, line_length. pose proof (line_lagged a b M 0 ltac:(lia)) as H. unfold lagged in H. rewrite Nat.sub_0_r in H.
  rewrite (rsum_n_ext _ _ (fun q => dev (line a b M) q * dev (line a b M) (q + 0)%nat)) by (intros; rewrite Nat.add_0_r; reflexivity).
  rewrite H. cbn [INR]. field.
Qed.

(** ** Rounding the values to single precision *)
Lemma minkowski n f e (K : R) : 0 <= K -> rsum_n n (fun q => e q * e q) <= K * K * rsum_n n (fun q => f q * f q) ->
  rsum_n n (fun q => (f q + e q) * (f q + e q)) <= (1 + K) * (1 + K) * rsum_n n (fun q => f q * f q) /\
  (K <= 1 -> (1 - K) * (1 - K) * rsum_n n (fun q => f q * f q) <= rsum_n n (fun q => (f q + e q) * (f q + e q))).
Proof.
  intros HK H. set (S := rsum_n n (fun q => f q * f q)) in *. set (T := rsum_n n (fun q => e q * e q)) in *.
  assert (HS : 0 <= S) by (apply rsum_n_nonneg; intros; nra). assert (HT : 0 <= T) by (apply rsum_n_nonneg; intros; nra).
  set (C := rsum_n n (fun q => f q * e q)).
  assert (HC : C * C <= S * T) by apply cauchy.
  assert (EX : rsum_n n (fun q => (f q + e q) * (f q + e q)) = S + 2 * C + T).
  { unfold S, C, T. rewrite <- rsum_n_scal, <- !rsum_n_plus. apply rsum_n_ext. intros; ring. }
  rewrite EX.
  assert (HA : C * C <= (K * S) * (K * S)) by nra.
  assert (HB : Rabs C <= K * S) by (apply square_le_abs; [nra|exact HA]). apply Rabs_le_inv in HB.
  split; [nra|]. intros HK1.
  (* S + 2C + T >= S - 2 sqrt(S T) + T, and T -> (sqrt S - sqrt T)^2 decreasing on T <= K^2 S *)
  set (s := sqrt S). set (t := sqrt T).
  assert (Es : s * s = S) by (apply sqrt_sqrt; exact HS). assert (Et : t * t = T) by (apply sqrt_sqrt; exact HT).
  assert (Ps : 0 <= s) by apply sqrt_pos. assert (Pt : 0 <= t) by apply sqrt_pos.
  assert (Hst : Rabs C <= s * t) by (apply square_le_abs; [nra|]; rewrite <- Es, <- Et in HC; nra). apply Rabs_le_inv in Hst.
  assert (Hts : t <= K * s).
  { destruct (Rle_or_lt t (K * s)) as [L|L]; [exact L|]. exfalso. assert (0 <= K * s) by nra. assert (K * s * (K * s) < t * t) by nra. rewrite <- Es, <- Et in H. nra. }
  assert ((s - t) * (s - t) <= S + 2 * C + T) by (rewrite <- Es, <- Et; nra).
  assert ((1 - K) * s <= s - t) by nra. assert (0 <= (1 - K) * s) by nra.
  rewrite <- Es at 1. replace ((1 - K) * (1 - K) * (s * s)) with (((1 - K) * s) * ((1 - K) * s)) by ring. nra.
Qed.

Lemma sq_dev32_n rs : sq_dev32 rs = rsum_n (length rs) (fun i => (dev rs i + (f32R (nth i rs 0) - nth i rs 0)) * (dev rs i + (f32R (nth i rs 0) - nth i rs 0))).
Proof.
  unfold sq_dev32. rewrite (rsum_list (fun v => (f32R v - rmean rs) * (f32R v - rmean rs))). apply rsum_n_ext. intros i Hi. unfold dev. ring.
Qed.

Lemma f32_error x : x = 0 \/ bpow radix2 (-126) <= Rabs x -> Rabs (f32R x - x) <= bpow radix2 (-24) * Rabs x.
Proof.
  intros [->|H].
  - unfold f32R. rewrite round_0 by typeclasses eauto. rewrite Rminus_0_r, Rabs_R0. lra.
  - unfold f32R. pose proof (relative_error_N_FLT radix2 (-149) 24 ltac:(lia) (fun x => negb (Z.even x)) x) as E.
    change (/ 2 * bpow radix2 (- 24 + 1)) with (/ 2 * bpow radix2 (-23)) in E. replace (bpow radix2 (-24)) with (/ 2 * bpow radix2 (-23)) by (cbn; lra).
    apply E. cbn [Z.add Z.sub Z.opp Z.pos_sub]. exact H.
Qed.

Lemma single_ratio rs K : 0 <= K -> (forall x, In x rs -> x = 0 \/ bpow radix2 (-126) <= Rabs x) ->
  rsum (map (fun x => x * x) rs) <= K * K * sq_dev rs ->
  let u := K * bpow radix2 (-24) in
  sq_dev32 rs <= (1 + u) * (1 + u) * sq_dev rs /\ (u <= 1 -> (1 - u) * (1 - u) * sq_dev rs <= sq_dev32 rs).
Proof.
  intros HK Hx H u. rewrite sq_dev32_n, sq_dev_n. assert (P : 0 < bpow radix2 (-24)) by apply bpow_gt_0.
  apply (minkowski (length rs) (dev rs) (fun i => f32R (nth i rs 0) - nth i rs 0) u); [unfold u; nra|].
  rewrite (rsum_list (fun x => x * x)), sq_dev_n in H.
  apply Rle_trans with (bpow radix2 (-24) * bpow radix2 (-24) * rsum_n (length rs) (fun i => nth i rs 0 * nth i rs 0)).
  - rewrite <- rsum_n_scal. apply rsum_n_le. intros i Hi. pose proof (f32_error _ (Hx _ (nth_In rs 0 Hi))) as E.
    set (e := f32R (nth i rs 0) - nth i rs 0) in *. set (x := nth i rs 0) in *. assert (0 <= Rabs e) by apply Rabs_pos. assert (0 <= Rabs x) by apply Rabs_pos.
    replace (e * e) with (Rabs e * Rabs e) by (rewrite <- Rabs_mult, Rabs_pos_eq; nra).
    replace (bpow radix2 (-24) * bpow radix2 (-24) * (x * x)) with ((bpow radix2 (-24) * Rabs x) * (bpow radix2 (-24) * Rabs x)).
    + apply Rmult_le_compat; assumption.
    + replace (x * x) with (Rabs x * Rabs x) by (rewrite <- Rabs_mult, Rabs_pos_eq; nra). ring.
  - unfold u. set (b := bpow radix2 (-24)) in *. replace (K * b * (K * b) * rsum_n (length rs) (fun q => dev rs q * dev rs q)) with ((b * b) * (K * K * rsum_n (length rs) (fun q => dev rs q * dev rs q))) by ring.
    apply Rmult_le_compat_l; [nra|]. exact H.
Qed.

(** ** Calls on evenly sampled data *)
Section Call.
Variables (p : platform) (d : @dstruct XR) (mi ma re al : option xr) (wgt : string) (lags : list xr) (corr : @py_corr XR) (c : @correlator XR)
  (rows : list (list xr)) (j : nat) (rs : list R) (t0 dd a : R) (M : nat).
Hypotheses (Ha : accepted d) (E : autocorrelation (A := XR) p d mi ma re al "natural" wgt = Ok (lags, corr, c)) (Hd : data_2d d = Ok rows)
  (Hj : nth_error rows j = Some (map Fin rs)) (Ht : timeseries d = map Fin (grid t0 dd M)) (Hdd : 0 < dd)
  (Hal : opt_or (A := XR) al (median_time d) = Fin a) (Hpos : 0 < a).

Lemma lag_value i m : nth_error lags i = Some (Fin (INR m * dd)) -> 0 < sq_dev32 rs ->
  length rs = M /\ (0 < M)%nat /\ corr_at corr j i = Some (Fin (lagged M (dev rs) m / sq_dev32 rs)).
Proof.
  intros Hi HN. destruct (grid_value_pos p d mi ma re al wgt lags corr c rows j i rs t0 dd a M m Ha E Hd Hj Hi Ht Hdd Hal Hpos) as [L [HM ->]].
  split; [exact L|]. split; [exact HM|]. f_equal. cbn [xdiv]. destruct (Reqb_spec (sq_dev32 rs) 0) as [C|_]; [lra|]. reflexivity.
Qed.

Lemma signal_period s i i' m m' : s * s = 1 -> (forall q, (q + m < M)%nat -> dev rs (q + m) = s * dev rs q) -> (m <= m')%nat ->
  nth_error lags i = Some (Fin (INR m * dd)) -> nth_error lags i' = Some (Fin (INR m' * dd)) -> 0 < sq_dev32 rs ->
  exists r r', corr_at corr j i = Some (Fin (s * r)) /\ corr_at corr j i' = Some (Fin r') /\
    r = rsum_n (M - m) (fun q => dev rs q * dev rs q) / sq_dev32 rs /\ Rabs r' <= r.
Proof.
  intros Hs H Hm Hi Hi' HN. destruct (lag_value i m Hi HN) as [_ [_ V]]. destruct (lag_value i' m' Hi' HN) as [_ [_ V']].
  exists (rsum_n (M - m) (fun q => dev rs q * dev rs q) / sq_dev32 rs), (lagged M (dev rs) m' / sq_dev32 rs).
  split; [rewrite V; do 2 f_equal; rewrite (lagged_period M (dev rs) m s H); field; lra|]. split; [exact V'|]. split; [reflexivity|].
  unfold Rdiv. rewrite Rabs_mult, (Rabs_pos_eq (/ sq_dev32 rs)) by (left; apply Rinv_0_lt_compat; exact HN).
  apply Rmult_le_compat_r; [left; apply Rinv_0_lt_compat; exact HN|]. exact (lagged_peak M (dev rs) m m' s Hs H Hm).
Qed.

Lemma dev_period m : (forall q, (q + m < M)%nat -> nth (q + m) rs 0 = nth q rs 0) -> forall q, (q + m < M)%nat -> dev rs (q + m) = 1 * dev rs q.
Proof. intros H q Hq. unfold dev. rewrite H by exact Hq. ring. Qed.
Lemma dev_alternate h : (forall q, (q + h < M)%nat -> nth (q + h) rs 0 + nth q rs 0 = 2 * rmean rs) -> forall q, (q + h < M)%nat -> dev rs (q + h) = -1 * dev rs q.
Proof. intros H q Hq. unfold dev. specialize (H q Hq). lra. Qed.

Lemma signal_multiple i n k P : M = (n * P)%nat -> (k <= n)%nat -> (forall q, (q + P < M)%nat -> nth (q + P) rs 0 = nth q rs 0) ->
  nth_error lags i = Some (Fin (INR (k * P) * dd)) -> 0 < sq_dev32 rs ->
  corr_at corr j i = Some (Fin ((1 - INR k / INR n) * (sq_dev rs / sq_dev32 rs))).
Proof.
  intros HM Hk H Hi HN. destruct (lag_value i (k * P) Hi HN) as [L [M0 V]]. rewrite V. do 2 f_equal.
  rewrite (lagged_period M (dev rs) (k * P) 1) by (intros q Hq; unfold dev; rewrite (period_multiple M P (fun q => nth q rs 0) k H q Hq); ring).
  rewrite Rmult_1_l, sq_dev_n, L, HM. rewrite (sum_part P (fun q => dev rs q * dev rs q) n k); [unfold Rdiv; ring|destruct n; [cbn in HM; lia|lia]|exact Hk|].
  intros q Hq. rewrite <- HM in Hq. rewrite !(dev_period P H q Hq). ring.
Qed.

Lemma signal_alternate i n k h s : M = (n * h)%nat -> (k <= n)%nat -> (forall q, (q + h < M)%nat -> nth (q + h) rs 0 + nth q rs 0 = 2 * rmean rs) ->
  s = (if Nat.even k then 1 else -1) ->
  nth_error lags i = Some (Fin (INR (k * h) * dd)) -> 0 < sq_dev32 rs ->
  corr_at corr j i = Some (Fin (s * (1 - INR k / INR n) * (sq_dev rs / sq_dev32 rs))).
Proof.
  intros HM Hk H Es Hi HN. destruct (lag_value i (k * h) Hi HN) as [L [M0 V]]. rewrite V. do 2 f_equal.
  assert (G : forall k q, (q + k * h < M)%nat -> dev rs (q + k * h) = (if Nat.even k then 1 else -1) * dev rs q).
  { clear k Hk Es Hi V. induction k as [|k IH]; intros q Hq; [cbn [Nat.even Nat.mul]; rewrite Nat.add_0_r; ring|].
    replace (q + S k * h)%nat with ((q + k * h) + h)%nat by lia. rewrite (dev_alternate h H) by lia. rewrite IH by lia. rewrite Nat.even_succ, <- Nat.negb_even. destruct (Nat.even k); cbn [negb]; ring. }
  rewrite (lagged_period M (dev rs) (k * h) s) by (intros q Hq; rewrite Es; apply G; exact Hq).
  rewrite sq_dev_n, L, HM. rewrite (sum_part h (fun q => dev rs q * dev rs q) n k); [unfold Rdiv; ring|destruct n; [cbn in HM; lia|lia]|exact Hk|].
  intros q Hq. rewrite <- HM in Hq. rewrite !(dev_alternate h H q Hq). ring.
Qed.

Lemma signal_line i m s b : rs = line s b M -> (m <= M)%nat -> nth_error lags i = Some (Fin (INR m * dd)) -> 0 < sq_dev32 rs ->
  corr_at corr j i = Some (Fin (INR (M - m) * (INR (M - m) * INR (M - m) - 1 - 3 * INR m * INR m) / (INR M * (INR M * INR M - 1)) * (sq_dev rs / sq_dev32 rs))) \/ M = 1%nat \/ s = 0.
Proof.
  intros El Hm Hi HN. destruct (lag_value i m Hi HN) as [L [M0 V]].
  destruct (Nat.eq_dec M 1) as [E1|E1]; [right; left; exact E1|]. destruct (Req_dec s 0) as [Z|Z]; [right; right; exact Z|]. left.
  rewrite V. do 2 f_equal. rewrite El, (line_lagged s b M m Hm), (line_sq s b M). rewrite <- El.
  assert (2 <= INR M) by (apply (le_INR 2); lia). assert (INR M * INR M - 1 <> 0) by nra. field. repeat split; lra.
Qed.

End Call.

(** ** The normalisation, for any sampling *)
Lemma single_effect p d mi ma re al sel wgt lags corr c rows j i (rs ts os : list R) (kk a K : R) f n s :
  accepted d -> autocorrelation (A := XR) p d mi ma re al sel wgt = Ok (lags, corr, c) ->
  data_2d d = Ok rows -> nth_error rows j = Some (map Fin rs) -> nth_error lags i = Some (Fin kk) ->
  timeseries d = map Fin ts -> opt_or (A := XR) al (median_time d) = Fin a -> 0 < a ->
  selection_function p sel d = Some f -> pairs_by (A := XR) p d f (Fin kk) n = Ok (s, map Fin os) ->
  0 < sq_dev rs -> 0 <= K < bpow radix2 24 -> (forall x, In x rs -> x = 0 \/ bpow radix2 (-126) <= Rabs x) ->
  rsum (map (fun x => x * x) rs) <= K * K * sq_dev rs ->
  let u := rsum_n (length s) (fun q => rweight wgt a (nth q os 0) * (dev rs q * dev rs (nth q s 0%nat))) / sq_dev rs in
  exists g, corr_at corr j i = Some (Fin (u * g)) /\ / ((1 + K * bpow radix2 (-24)) * (1 + K * bpow radix2 (-24))) <= g <= / ((1 - K * bpow radix2 (-24)) * (1 - K * bpow radix2 (-24))).
Proof.
  intros Ha E Hd Hj Hi Ht Hal Hpos Hf HP HS [HK HK1] Hx HR u.
  destruct (value_exact_pairs p d mi ma re al sel wgt lags corr c rows j i rs ts os kk a f n s Ha E Hd Hj Hi Ht Hal Hpos Hf HP) as [_ [_ [_ [_ [_ [_ V]]]]]].
  assert (P : 0 < bpow radix2 (-24)) by apply bpow_gt_0.
  assert (P1 : bpow radix2 24 * bpow radix2 (-24) = 1) by (rewrite <- bpow_plus; reflexivity).
  assert (U1 : K * bpow radix2 (-24) < 1) by (rewrite <- P1; apply Rmult_lt_compat_r; assumption).
  destruct (single_ratio rs K HK Hx HR) as [R1 R2]. cbv zeta in R1, R2. specialize (R2 ltac:(lra)). set (e := K * bpow radix2 (-24)) in *.
  assert (0 <= e) by (unfold e; nra).
  assert (Q1 : 0 < (1 + e) * (1 + e)) by nra. assert (Q2 : 0 < (1 - e) * (1 - e)) by nra.
  assert (HN : 0 < sq_dev32 rs) by nra.
  exists (sq_dev rs / sq_dev32 rs). split.
  - rewrite V. f_equal. cbn [xdiv]. destruct (Reqb_spec (sq_dev32 rs) 0) as [C|_]; [lra|]. f_equal. unfold u. field. lra.
  - split.
    + apply Rmult_le_reg_r with ((1 + e) * (1 + e)); [exact Q1|]. rewrite Rinv_l by lra.
      apply Rmult_le_reg_r with (sq_dev32 rs); [exact HN|]. replace (sq_dev rs / sq_dev32 rs * ((1 + e) * (1 + e)) * sq_dev32 rs) with ((1 + e) * (1 + e) * sq_dev rs) by (field; lra). lra.
    + apply Rmult_le_reg_r with ((1 - e) * (1 - e)); [exact Q2|]. rewrite Rinv_l by lra.
      apply Rmult_le_reg_r with (sq_dev32 rs); [exact HN|]. replace (sq_dev rs / sq_dev32 rs * ((1 - e) * (1 - e)) * sq_dev32 rs) with ((1 - e) * (1 - e) * sq_dev rs) by (field; lra). lra.
Qed.

Lemma single_zero_lag p d mi ma re al wgt lags corr c rows j i (rs ts : list R) (a K : R) :
  accepted d -> autocorrelation (A := XR) p d mi ma re al "natural" wgt = Ok (lags, corr, c) ->
  data_2d d = Ok rows -> nth_error rows j = Some (map Fin rs) -> nth_error lags i = Some (Fin 0) ->
  timeseries d = map Fin ts -> increasing (A := XR) (timeseries d) -> opt_or (A := XR) al (median_time d) = Fin a -> 0 < a ->
  0 < sq_dev rs -> 0 <= K < bpow radix2 24 -> (forall x, In x rs -> x = 0 \/ bpow radix2 (-126) <= Rabs x) ->
  rsum (map (fun x => x * x) rs) <= K * K * sq_dev rs ->
  exists g, corr_at corr j i = Some (Fin g) /\ / ((1 + K * bpow radix2 (-24)) * (1 + K * bpow radix2 (-24))) <= g <= / ((1 - K * bpow radix2 (-24)) * (1 - K * bpow radix2 (-24))).
Proof.
  intros Ha E Hd Hj Hi Ht Hinc Hal Hpos HS HK Hx HR.
  pose proof (zero_lag_value p d mi ma re al wgt lags corr c rows j i rs ts a Ha E Hd Hj Hi Ht Hinc Hal Hpos) as V.
  destruct (call_pairs p d mi ma re al _ wgt lags corr c rows j i rs ts 0 Ha E Hd Hj Hi Ht) as [f [s [os [Hf [HP _]]]]].
  destruct (single_effect p d mi ma re al _ wgt lags corr c rows j i rs ts os 0 a K f _ s Ha E Hd Hj Hi Ht Hal Hpos Hf HP HS HK Hx HR) as [g [V' B]].
  destruct (value_exact_pairs p d mi ma re al _ wgt lags corr c rows j i rs ts os 0 a f _ s Ha E Hd Hj Hi Ht Hal Hpos Hf HP) as [_ [_ [_ [_ [_ [_ V2]]]]]].
  set (P := rsum_n (length s) (fun q => rweight wgt a (nth q os 0) * (dev rs q * dev rs (nth q s 0%nat)))) in *.
  assert (HN : sq_dev32 rs <> 0).
  { assert (P0 : 0 < bpow radix2 (-24)) by apply bpow_gt_0.
    assert (P1 : bpow radix2 24 * bpow radix2 (-24) = 1) by (rewrite <- bpow_plus; reflexivity).
    assert (U1 : K * bpow radix2 (-24) < 1) by (rewrite <- P1; apply Rmult_lt_compat_r; [assumption|apply HK]).
    pose proof (single_ratio rs K (proj1 HK) Hx HR) as [_ R2]. cbv zeta in R2. specialize (R2 ltac:(lra)). set (e := K * bpow radix2 (-24)) in *.
    assert (0 < (1 - e) * (1 - e)) by nra. nra. }
  assert (EP : P = sq_dev rs).
  { rewrite V2 in V. injection V as V. cbn [xdiv] in V. destruct (Reqb_spec (sq_dev32 rs) 0) as [C|_]; [contradiction|]. injection V as V.
    apply (Rmult_eq_compat_r (sq_dev32 rs)) in V. unfold Rdiv in V. rewrite !Rmult_assoc, Rinv_l, !Rmult_1_r in V by exact HN. exact V. }
  exists g. split; [|exact B]. rewrite V'. do 2 f_equal. rewrite EP. field. lra.
Qed.

Lemma grid_example (rs : list R) (p : platform) (wgt : string) : let M := length rs in
  (2 <= M)%nat -> (M <= 1000)%nat -> p_checked p = false -> known_weight wgt ->
  exists (d : @dstruct XR) corr c, accepted d /\ timeseries d = map Fin (grid 0 1 M) /\ data_2d d = Ok [map Fin rs] /\
    autocorrelation (A := XR) p d None None None None "natural" wgt = Ok (map (fun i => Fin ((INR i - INR (M - 1)) * 1)) (seq 0 (2 * M - 1)), corr, c) /\
    opt_or (A := XR) None (median_time d) = Fin (INR (M - 1) / 2 * 1) /\
    forall m, (m < M)%nat -> nth_error (map (fun i => Fin ((INR i - INR (M - 1)) * 1)) (seq 0 (2 * M - 1))) (M - 1 + m) = Some (Fin (INR m * 1)).
Proof.
  intros M HM HM' Hp Hw. destruct (one_dataset (A := XR) (map Fin (grid 0 1 M)) (map Fin rs) None) as [_ [_ H]].
  assert (Lg : length (grid 0 1 M) = M) by apply grid_length.
  destruct H as [d [Ed [Ht [Hd _]]]].
  - intros C. apply (f_equal (@length _)) in C. rewrite map_length, Lg in C. cbn in C. lia.
  - intros C. apply (f_equal (@length _)) in C. rewrite map_length in C. cbn in C. fold M in C. lia.
  - rewrite !map_length, Lg. apply Nat.mod_same. lia.
  - rewrite map_length, Lg in Hd. rewrite firstn_all2 in Hd by (rewrite map_length; apply le_n). exists d.
    assert (Ha : accepted d) by (left; eauto).
    assert (B : INR (M - 1) * 1 <= 1000) by (rewrite Rmult_1_r; apply (Rle_trans _ (INR 1000)); [apply le_INR; lia|rewrite INR_IZR_INZ; apply IZR_le; reflexivity || lia]).
    assert (Hb : INR (M - 1) * 1 <= dbl_max).
    { unfold dbl_max. assert (bpow radix2 (-52) <= 1) by (change 1 with (bpow radix2 0); apply bpow_le; lia).
      assert (bpow radix2 10 <= bpow radix2 1023) by (apply bpow_le; lia). change (bpow radix2 10) with (IZR 1024) in H0. nra. }
    assert (Hi : (2 * Z.of_nat M + 1 <= INT_MAX)%Z) by (unfold INT_MAX; lia).
    destruct (grid_call p d wgt 0 1 M [map Fin rs] Ha Ht HM Rlt_0_1 Hb Hi Hp Hw) as [corr [c [E _]]].
    + intros _. unfold INT_MAX. lra.
    + exact Hd.
    + exists corr, c. split; [exact Ha|]. split; [exact Ht|]. split; [exact Hd|]. split; [exact E|]. split.
      * destruct (grid_defaults d 0 1 M Ha Ht HM Rlt_0_1 Hb Hi) as [_ [_ [_ [_ [_ [Hm _]]]]]]. exact Hm.
      * intros m Hm. rewrite nth_error_map, nth_error_seq. destruct (Nat.ltb_spec (M - 1 + m) (2 * M - 1)) as [_|C]; [|lia]. cbn [option_map Nat.add]. do 2 f_equal.
        rewrite plus_INR. ring.
Qed.
