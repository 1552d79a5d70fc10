(** Correlations in exact arithmetic: one value far from all others. *)
From Coq Require Import String.
From Coq Require Import ZArith Reals List Bool Arith Lia Lra Psatz.
From Flocq Require Import Core.
From Verif Require Import Num Mem MemFacts XR B64 Spec SpecR SpecOutlier DataStructure Correlator Sacf Api ExactFacts WeightFacts ConstrFacts GridVals GridCall GridSums PairBounds SignalFacts SignalFacts2 Laws.
Import ListNotations.
Local Open Scope list_scope.
Local Open Scope R_scope.

Lemma mark_abs u M : (u < M)%nat -> rsum_n M (fun q => Rabs (mark u M q)) = 2 * (1 - / INR M).
Proof.
  intros Hu. assert (H1 : 1 <= INR M) by (apply (le_INR 1); lia). assert (H2 : 0 < / INR M) by (apply Rinv_0_lt_compat; lra).
  assert (H3 : / INR M <= 1) by (rewrite <- Rinv_1; apply Rinv_le_contravar; lra).
  rewrite (rsum_n_ext _ _ (fun q => / INR M + (1 - 2 * / INR M) * ind u q)).
  - rewrite rsum_n_plus, sum_const, rsum_n_scal, sum_ind. destruct (Nat.ltb_spec u M); [|lia]. field. lra.
  - intros q _. unfold mark, ind. destruct (Nat.eqb q u); [rewrite Rabs_pos_eq by lra; ring|rewrite Rabs_left by lra; ring].
Qed.

Lemma mark_max u M q : (u < M)%nat -> (2 <= M)%nat -> Rabs (mark u M q) <= 1 - / INR M.
Proof.
  intros Hu HM. assert (H1 : 2 <= INR M) by (apply (le_INR 2); lia). assert (H2 : 0 < / INR M) by (apply Rinv_0_lt_compat; lra).
  assert (H3 : / INR M <= / 2) by (apply Rinv_le_contravar; lra).
  unfold mark. destruct (Nat.eqb q u); unfold Rabs; destruct Rcase_abs; lra.
Qed.

Lemma rsum_n_prefix n M f : (n <= M)%nat -> (forall q, 0 <= f q) -> rsum_n n f <= rsum_n M f.
Proof. intros H Hf. induction H as [|M H IH]; [lra|]. rewrite rsum_n_S. specialize (Hf M). lra. Qed.

Lemma mark_pairs w s u M : (forall q, 0 <= w q <= 1) -> (length s <= M)%nat -> (u < M)%nat -> (2 <= M)%nat ->
  Rabs (rsum_n (length s) (fun q => w q * (mark u M q * mark u M (nth q s 0%nat)))) <= 2 * (1 - / INR M) * (1 - / INR M).
Proof.
  intros Hw Hl Hu HM. rewrite <- (mark_abs u M Hu).
  apply Rle_trans with (rsum_n (length s) (fun q => (1 - / INR M) * Rabs (mark u M q))).
  - clear Hl. induction (length s) as [|n IH]; [rewrite !rsum_n_0, Rabs_R0; lra|]. rewrite !rsum_n_S.
    eapply Rle_trans; [apply Rabs_triang|]. apply Rplus_le_compat; [exact IH|]. rewrite !Rabs_mult, (Rabs_pos_eq (w n)) by apply Hw.
    pose proof (mark_max u M (nth n s 0%nat) Hu HM) as A. pose proof (Rabs_pos (mark u M n)) as B. pose proof (Rabs_pos (mark u M (nth n s 0%nat))) as C.
    destruct (Hw n) as [W0 W1]. set (x := Rabs (mark u M n)) in *. set (z := Rabs (mark u M (nth n s 0%nat))) in *.
    assert (x * z <= (1 - / INR M) * x) by (rewrite Rmult_comm; apply Rmult_le_compat_r; assumption).
    assert (w n * (x * z) <= 1 * (x * z)) by (apply Rmult_le_compat_r; [apply Rmult_le_pos; assumption|exact W1]). lra.
  - rewrite rsum_n_scal, (Rmult_comm (rsum_n M _)). apply Rmult_le_compat_l.
    + pose proof (mark_max u M 0%nat Hu HM). pose proof (Rabs_pos (mark u M 0%nat)). lra.
    + apply rsum_n_prefix; [exact Hl|]. intros q. apply Rabs_pos.
Qed.

Lemma outlier_core w s (rs : list R) u b h e : let M := length rs in
  outlier rs u b h e -> (2 <= M)%nat -> (forall q, 0 <= w q <= 1) -> (length s <= M)%nat -> (forall x, In x s -> (x < M)%nat) ->
  0 <= e -> h <> 0 -> 32 * INR M * e <= Rabs h ->
  0 < sq_dev rs /\
  Rabs (rsum_n (length s) (fun q => w q * (dev rs q * dev rs (nth q s 0%nat))) / sq_dev rs -
        rsum_n (length s) (fun q => w q * (mark u M q * mark u M (nth q s 0%nat))) / (1 - / INR M)) <= 96 * INR M * e / Rabs h.
Proof.
  intros M [Hu [Eu Ho]] HM Hw Hl Hs He Hh Hsm. fold M in Hu, Ho.
  assert (Ha : 0 < Rabs h) by (apply Rabs_pos_lt; exact Hh).
  assert (H1 : 2 <= INR M) by (apply (le_INR 2); lia).
  set (ys := map (fun v => v - b) rs). set (xs := spike 0 h u M).
  assert (Ly : length ys = M) by (unfold ys; rewrite map_length; reflexivity). assert (Lx : length xs = M) by apply spike_length.
  assert (Ny : forall q, (q < M)%nat -> nth q ys 0 = nth q rs 0 - b).
  { intros q Hq. unfold ys. rewrite (nth_indep _ 0 (0 - b)) by (rewrite map_length; exact Hq). rewrite (map_nth (fun v => v - b)). reflexivity. }
  assert (Hd : forall q, (q < M)%nat -> dev ys q = dev rs q).
  { intros q Hq. unfold dev. rewrite Ny by exact Hq. assert (E : rmean ys = rmean rs - b); [|rewrite E; ring].
    unfold rmean. rewrite Ly. fold M. rewrite !rsum_n_list, Ly. fold M.
    rewrite (rsum_n_ext _ _ (fun q => nth q rs 0 + - b)) by (intros k Hk; rewrite Ny by exact Hk; ring).
    rewrite rsum_n_plus, sum_const. field. lra. }
  assert (Ee : e <= Rabs h) by nra.
  assert (C : forall k, (k < M)%nat -> Rabs (nth k xs 0 - nth k ys 0) <= e).
  { intros k Hk. rewrite Ny by exact Hk. unfold xs. rewrite spike_nth by exact Hk. unfold ind. destruct (Nat.eqb_spec k u) as [->|Hn].
    - rewrite Eu. replace (0 + h * 1 - (b + h - b)) with 0 by ring. rewrite Rabs_R0. exact He.
    - rewrite Rabs_minus_sym. replace (nth k rs 0 - b - (0 + h * 0)) with (nth k rs 0 - b) by ring. apply Ho; assumption. }
  assert (Bx : forall v, In v xs -> Rabs v <= Rabs h).
  { intros v Hv. apply (In_nth _ _ 0) in Hv. destruct Hv as [k [Hk <-]]. rewrite Lx in Hk. unfold xs. rewrite spike_nth by exact Hk. unfold ind.
    destruct (Nat.eqb k u); [rewrite Rplus_0_l, Rmult_1_r; lra|rewrite Rplus_0_l, Rmult_0_r, Rabs_R0; lra]. }
  assert (By : forall v, In v ys -> Rabs v <= Rabs h).
  { intros v Hv. apply (In_nth _ _ 0) in Hv. destruct Hv as [k [Hk <-]]. rewrite Ly in Hk. rewrite Ny by exact Hk.
    destruct (Nat.eq_dec k u) as [->|Hn]; [rewrite Eu; replace (b + h - b) with h by ring; lra|]. apply Rle_trans with e; [apply Ho; assumption|exact Ee]. }
  destruct (pair_sum_close w s xs ys M (Rabs h) e Lx Ly Hl Hs Hw ltac:(lra) He Bx By C) as [CA CD].
  assert (Ey : pair_sum w s ys = rsum_n (length s) (fun q => w q * (dev rs q * dev rs (nth q s 0%nat)))).
  { unfold pair_sum. apply rsum_n_ext. intros q Hq. rewrite !Hd; [reflexivity|apply Hs, nth_In; exact Hq|lia]. }
  assert (Es : sq_dev ys = sq_dev rs).
  { rewrite !sq_dev_n, Ly. fold M. apply rsum_n_ext. intros q Hq. rewrite Hd by exact Hq. reflexivity. }
  set (Y := rsum_n (length s) (fun q => w q * (mark u M q * mark u M (nth q s 0%nat)))).
  assert (Ex : pair_sum w s xs = h * h * Y).
  { unfold pair_sum, Y. rewrite <- rsum_n_scal. apply rsum_n_ext. intros q Hq. unfold xs. rewrite !spike_dev; [unfold mark, ind; ring|exact Hu|apply Hs, nth_In; exact Hq|exact Hu|lia]. }
  assert (Ds : sq_dev xs = h * h * (1 - / INR M)) by (unfold xs; rewrite spike_sq by exact Hu; field; lra).
  assert (Hi : 0 < / INR M) by (apply Rinv_0_lt_compat; lra). assert (Hi2 : / INR M <= / 2) by (apply Rinv_le_contravar; lra).
  set (k := 1 - / INR M) in *. assert (Hk : / 2 <= k < 1) by (unfold k; lra).
  assert (Hhh : h * h = Rabs h * Rabs h) by (rewrite <- Rabs_mult, Rabs_pos_eq by nra; reflexivity).
  set (H := Rabs h) in *. rewrite Ey, Ex in CA. rewrite Es, Ds in CD. rewrite Hhh in *.
  pose proof (mark_pairs w s u M Hw Hl Hu HM) as HY. fold Y k in HY.
  set (A := rsum_n (length s) (fun q => w q * (dev rs q * dev rs (nth q s 0%nat)))) in *. set (D := sq_dev rs) in *.
  (* x = M e *)
  set (x := INR M * e) in *. assert (Hx : 0 <= x) by (unfold x; nra). replace (32 * INR M * e) with (32 * x) in Hsm by (unfold x; ring).
  replace (96 * INR M * e / H) with (96 * x / H) by (unfold x; field; lra).
  assert (CA' : Rabs (H * H * Y - A) <= 8 * x * H).
  { eapply Rle_trans; [exact CA|]. unfold x. assert (INR (length s) <= INR M) by (apply le_INR; exact Hl). assert (0 <= 8 * e * H) by nra. nra. }
  assert (CD' : Rabs (H * H * k - D) <= 8 * x * H) by (eapply Rle_trans; [exact CD|unfold x; right; ring]).
  assert (DP : H * H / 4 <= D).
  { apply Rabs_le_inv in CD'. nra. }
  assert (D0 : 0 < D) by nra. split; [exact D0|].
  replace (A / D - Y / k) with ((- (H * H * Y - A) + Y / k * (H * H * k - D)) / D) by (field; lra).
  unfold Rdiv at 1. rewrite Rabs_mult, (Rabs_pos_eq (/ D)) by (left; apply Rinv_0_lt_compat; exact D0).
  apply Rmult_le_reg_r with D; [exact D0|]. rewrite Rmult_assoc, Rinv_l, Rmult_1_r by lra.
  assert (HYk : Rabs (Y / k) <= 2).
  { unfold Rdiv. rewrite Rabs_mult, (Rabs_pos_eq (/ k)) by (left; apply Rinv_0_lt_compat; lra). apply Rmult_le_reg_r with k; [lra|].
    rewrite Rmult_assoc, Rinv_l, Rmult_1_r by lra. nra. }
  eapply Rle_trans; [apply Rabs_triang|]. rewrite Rabs_Ropp, Rabs_mult.
  assert (T : Rabs (Y / k) * Rabs (H * H * k - D) <= 2 * (8 * x * H)) by (apply Rmult_le_compat; try apply Rabs_pos; assumption).
  apply Rle_trans with (24 * x * H); [lra|].
  apply Rle_trans with (96 * x / H * (H * H / 4)); [right; field; lra|]. apply Rmult_le_compat_l; [|exact DP].
  unfold Rdiv. apply Rmult_le_pos; [lra|left; apply Rinv_0_lt_compat; lra].
Qed.

Section Call.
Context (p : platform) (d : @dstruct XR) (mi ma re al : option xr) (sel wgt : string) (lags : list xr) (corr : @py_corr XR) (c : @correlator XR) (rows : list (list xr)).
Hypothesis Ha : accepted d.
Hypothesis E : autocorrelation (A := XR) p d mi ma re al sel wgt = Ok (lags, corr, c).
Hypothesis Hd : data_2d d = Ok rows.

Lemma outlier_any j i (rs ts os : list R) (kk a : R) f n s u b h e :
  nth_error rows j = Some (map Fin rs) -> nth_error lags i = Some (Fin kk) ->
  timeseries d = map Fin ts -> opt_or (A := XR) al (median_time d) = Fin a -> 0 < a ->
  selection_function p sel d = Some f -> pairs_by (A := XR) p d f (Fin kk) n = Ok (s, map Fin os) -> Forall single rs ->
  let M := length rs in
  outlier rs u b h e -> (2 <= M)%nat -> 0 <= e -> h <> 0 -> 32 * INR M * e <= Rabs h ->
  exists r, corr_at corr j i = Some (Fin r) /\
    Rabs (r - rsum_n (length s) (fun q => rweight wgt a (nth q os 0) * (mark u M q * mark u M (nth q s 0%nat))) / (1 - / INR M)) <= 96 * INR M * e / Rabs h.
Proof.
  intros Hj Hi Ht Hal Hpos Hf HP Hs M Ho HM He Hh Hsm.
  destruct (value_exact_pairs p d mi ma re al sel wgt lags corr c rows j i rs ts os kk a f n s Ha E Hd Hj Hi Ht Hal Hpos Hf HP) as [_ [L [L1 [L2 [_ [L4 V]]]]]].
  rewrite <- L in L1, L2.
  destruct (outlier_core (fun q => rweight wgt a (nth q os 0)) s rs u b h e Ho HM (fun q => rweight_range wgt a _ Hpos (L4 q)) L1 L2 He Hh Hsm) as [HN HB].
  rewrite sq_dev_single in V by exact Hs. cbn [xdiv] in V. destruct (Reqb_spec (sq_dev rs) 0) as [C|_]; [lra|]. eexists. split; [exact V|exact HB].
Qed.
End Call.

Lemma outlier_lagged (rs : list R) (b h e : R) (M m u : nat) : length rs = M -> (0 < m <= M)%nat -> outlier rs u b h e -> (2 <= M)%nat -> 0 <= e -> h <> 0 -> 32 * INR M * e <= Rabs h ->
  let containing := (if (u <? M - m)%nat then 1 else 0) + (if (m <=? u)%nat then 1 else 0) in
  0 < sq_dev rs /\ Rabs (lagged M (dev rs) m / sq_dev rs - (INR (M - m) / INR M - containing) / (INR M - 1)) <= 96 * INR M * e / Rabs h.
Proof.
  intros L Hm Ho HM He Hh Hsm cn.
  set (s := map (fun q => (q + m)%nat) (seq 0 (M - m))).
  assert (Ls : length s = (M - m)%nat) by (unfold s; rewrite map_length, seq_length; reflexivity).
  assert (Ns : forall q, (q < M - m)%nat -> nth q s 0%nat = (q + m)%nat).
  { intros q Hq. apply nth_error_nth. unfold s. rewrite nth_error_map, nth_error_seq. destruct (Nat.ltb_spec q (M - m)); [reflexivity|lia]. }
  destruct (outlier_core (fun _ => 1) s rs u b h e Ho ltac:(lia) ltac:(intros; lra) ltac:(lia)) as [HN HB]; try assumption; try (rewrite L; assumption).
  { intros x Hx. apply in_map_iff in Hx. destruct Hx as [q [<- Hq]]. apply in_seq in Hq. lia. }
  rewrite L, Ls in HB. split; [exact HN|].
  assert (E1 : rsum_n (M - m) (fun q => 1 * (dev rs q * dev rs (nth q s 0%nat))) = lagged M (dev rs) m) by (unfold lagged; apply rsum_n_ext; intros q Hq; rewrite Ns by exact Hq; ring).
  assert (H1 : 2 <= INR M) by (apply (le_INR 2); lia). destruct Ho as [Hu _]. rewrite L in Hu.
  assert (E2 : rsum_n (M - m) (fun q => 1 * (mark u M q * mark u M (nth q s 0%nat))) = / INR M * (INR (M - m) / INR M - cn)).
  { pose proof (spike_lagged 0 1 u M m Hu Hm) as Q. unfold lagged in Q. fold cn in Q.
    rewrite (rsum_n_ext _ _ (fun q => dev (spike 0 1 u M) q * dev (spike 0 1 u M) (q + m))); [rewrite Q; field; lra|].
    intros q Hq. rewrite Ns by exact Hq. rewrite !spike_dev by lia. unfold mark, ind. ring. }
  rewrite E1, E2 in HB. replace ((INR (M - m) / INR M - cn) / (INR M - 1)) with (/ INR M * (INR (M - m) / INR M - cn) / (1 - / INR M)) by (field; lra). exact HB.
Qed.

Lemma outlier_grid p d mi ma re al wgt lags corr c rows j i (rs : list R) (t0 dd a b h e : R) (M m u : nat) :
  accepted d -> autocorrelation (A := XR) p d mi ma re al "natural" wgt = Ok (lags, corr, c) -> data_2d d = Ok rows ->
  nth_error rows j = Some (map Fin rs) -> timeseries d = map Fin (grid t0 dd M) -> 0 < dd ->
  opt_or (A := XR) al (median_time d) = Fin a -> 0 < a -> Forall single rs -> nth_error lags i = Some (Fin (INR m * dd)) -> (0 < m <= M)%nat ->
  outlier rs u b h e -> (2 <= M)%nat -> 0 <= e -> h <> 0 -> 32 * INR M * e <= Rabs h ->
  let containing := (if (u <? M - m)%nat then 1 else 0) + (if (m <=? u)%nat then 1 else 0) in
  exists r, corr_at corr j i = Some (Fin r) /\ Rabs (r - (INR (M - m) / INR M - containing) / (INR M - 1)) <= 96 * INR M * e / Rabs h.
Proof.
  intros Ha E Hd Hj Ht Hdd Hal Hpos Hs Hi Hm Ho HM He Hh Hsm cn.
  destruct (grid_value_pos p d mi ma re al wgt lags corr c rows j i rs t0 dd a M m Ha E Hd Hj Hi Ht Hdd Hal Hpos) as [L _].
  destruct (outlier_lagged rs b h e M m u L Hm Ho HM He Hh Hsm) as [HN HB].
  destruct (lag_value p d mi ma re al wgt lags corr c rows j rs t0 dd a M Ha E Hd Hj Ht Hdd Hal Hpos i m Hi) as [_ [_ V]]; [rewrite sq_dev_single by exact Hs; exact HN|].
  rewrite sq_dev_single in V by exact Hs. eauto.
Qed.

Lemma outlier_rest p d mi ma re al sel wgt lags corr c rows j j' i (rs rs' ts : list R) (kk a : R) u (b h e b' h' e' : R) :
  accepted d -> autocorrelation (A := XR) p d mi ma re al sel wgt = Ok (lags, corr, c) -> data_2d d = Ok rows ->
  nth_error rows j = Some (map Fin rs) -> nth_error rows j' = Some (map Fin rs') -> nth_error lags i = Some (Fin kk) ->
  timeseries d = map Fin ts -> opt_or (A := XR) al (median_time d) = Fin a -> 0 < a -> Forall single rs -> Forall single rs' ->
  let M := length ts in
  outlier rs u b h e -> outlier rs' u b' h' e' -> (2 <= M)%nat -> 0 <= e -> 0 <= e' -> h <> 0 -> h' <> 0 ->
  32 * INR M * e <= Rabs h -> 32 * INR M * e' <= Rabs h' ->
  exists r r', corr_at corr j i = Some (Fin r) /\ corr_at corr j' i = Some (Fin r') /\ Rabs (r - r') <= 96 * INR M * (e / Rabs h + e' / Rabs h').
Proof.
  intros Ha E Hd Hj Hj' Hi Ht Hal Hpos Hs Hs' M Ho Ho' HM He He' Hh Hh' Hsm Hsm'.
  destruct (call_pairs p d mi ma re al sel wgt lags corr c rows j i rs ts kk Ha E Hd Hj Hi Ht) as [f [s [os [Hf [HP _]]]]].
  destruct (value_exact_pairs p d mi ma re al sel wgt lags corr c rows j i rs ts os kk a f _ s Ha E Hd Hj Hi Ht Hal Hpos Hf HP) as [_ [L _]].
  destruct (value_exact_pairs p d mi ma re al sel wgt lags corr c rows j' i rs' ts os kk a f _ s Ha E Hd Hj' Hi Ht Hal Hpos Hf HP) as [_ [L' _]].
  destruct (outlier_any p d mi ma re al sel wgt lags corr c rows Ha E Hd j i rs ts os kk a f _ s u b h e Hj Hi Ht Hal Hpos Hf HP Hs Ho) as [r [V B]]; try assumption; try (rewrite L; assumption).
  destruct (outlier_any p d mi ma re al sel wgt lags corr c rows Ha E Hd j' i rs' ts os kk a f _ s u b' h' e' Hj' Hi Ht Hal Hpos Hf HP Hs' Ho') as [r' [V' B']]; try assumption; try (rewrite L'; assumption).
  exists r, r'. split; [exact V|]. split; [exact V'|]. rewrite L in B. rewrite L' in B'. fold M in B, B'.
  set (y := _ / (1 - / INR M)) in B. change (Rabs (r' - y) <= 96 * INR M * e' / Rabs h') in B'.
  replace (r - r') with ((r - y) + - (r' - y)) by ring. eapply Rle_trans; [apply Rabs_triang|]. rewrite Rabs_Ropp.
  replace (96 * INR M * (e / Rabs h + e' / Rabs h')) with (96 * INR M * e / Rabs h + 96 * INR M * e' / Rabs h') by (unfold Rdiv; ring). lra.
Qed.
