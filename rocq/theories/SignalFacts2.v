(** Correlations in exact arithmetic: a lone spike, sums and differences of two signals, perturbed values. *)
From Coq Require Import String.
From Coq Require Import ZArith Reals List Bool Arith Lia Lra Psatz.
From Flocq Require Import Core.
From Verif Require Import Num Mem MemFacts XR B64 Spec SpecR DataStructure Correlator Sacf Api ExactFacts ConstrFacts GridVals GridCall GridSums PairBounds SignalFacts Laws.
Import ListNotations.
Local Open Scope list_scope.
Local Open Scope R_scope.

(** ** a lone spike *)
Definition ind (u q : nat) : R := if Nat.eqb q u then 1 else 0.

Lemma sum_ind n u : rsum_n n (ind u) = if Nat.ltb u n then 1 else 0.
Proof.
  induction n as [|n IH]; [rewrite rsum_n_0; reflexivity|]. rewrite rsum_n_S, IH. unfold ind.
  destruct (Nat.ltb_spec u n), (Nat.ltb_spec u (S n)), (Nat.eqb_spec n u); try lia; lra.
Qed.
Lemma sum_const n (k : R) : rsum_n n (fun _ => k) = INR n * k.
Proof. induction n as [|n IH]; [rewrite rsum_n_0; cbn; ring|]. rewrite rsum_n_S, IH, S_INR. ring. Qed.
Lemma sum_ind_shift n m u : rsum_n n (fun q => ind u (q + m)) = if (Nat.leb m u && Nat.ltb u (n + m))%bool then 1 else 0.
Proof.
  induction n as [|n IH]; [rewrite rsum_n_0; destruct (Nat.leb_spec m u), (Nat.ltb_spec u (0 + m)); cbn; try lia; reflexivity|].
  rewrite rsum_n_S, IH. unfold ind.
  destruct (Nat.leb_spec m u), (Nat.ltb_spec u (n + m)), (Nat.ltb_spec u (S n + m)), (Nat.eqb_spec (n + m) u); cbn [andb]; try lia; lra.
Qed.

Definition spike (b h : R) (u M : nat) : list R := map (fun q => if Nat.eqb q u then b + h else b) (seq 0 M).

Lemma spike_length b h u M : length (spike b h u M) = M.
Proof. unfold spike. rewrite map_length, seq_length. reflexivity. Qed.
Lemma spike_nth b h u M q : (q < M)%nat -> nth q (spike b h u M) 0 = b + h * ind u q.
Proof.
  intros H. apply nth_error_nth. unfold spike. rewrite nth_error_map, nth_error_seq. destruct (Nat.ltb_spec q M); [|lia].
  cbn [option_map]. unfold ind. cbn [Nat.add]. destruct (Nat.eqb q u); f_equal; ring.
Qed.
Lemma spike_mean b h u M : (u < M)%nat -> rmean (spike b h u M) = b + h / INR M.
Proof.
  intros HM. unfold rmean. rewrite spike_length. change (rsum (spike b h u M)) with (rsum_n M (fun q => if Nat.eqb q u then b + h else b)).
  rewrite (rsum_n_ext _ _ (fun q => b + h * ind u q)) by (intros q _; unfold ind; destruct (Nat.eqb q u); ring).
  rewrite rsum_n_plus, rsum_n_scal, sum_const, sum_ind. destruct (Nat.ltb_spec u M); [|lia]. field. apply not_0_INR. lia.
Qed.
Lemma spike_dev b h u M q : (u < M)%nat -> (q < M)%nat -> dev (spike b h u M) q = h * (ind u q - / INR M).
Proof. intros Hu H. unfold dev. rewrite spike_nth by exact H. rewrite spike_mean by exact Hu. unfold Rdiv. ring. Qed.

Lemma spike_lagged b h u M m : (u < M)%nat -> (0 < m <= M)%nat -> lagged M (dev (spike b h u M)) m =
  h * h / INR M * (INR (M - m) / INR M - ((if Nat.ltb u (M - m) then 1 else 0) + (if Nat.leb m u then 1 else 0))).
Proof.
  intros Hu Hm. unfold lagged.
  rewrite (rsum_n_ext _ _ (fun q => (h * h / INR M) * (/ INR M + (-1 * ind u q + -1 * ind u (q + m))))).
  - rewrite rsum_n_scal, rsum_n_plus, sum_const, rsum_n_plus, !rsum_n_scal, sum_ind, sum_ind_shift.
    replace (Nat.leb m u && Nat.ltb u (M - m + m))%bool with (Nat.leb m u).
    + unfold Rdiv. ring.
    + destruct (Nat.leb_spec m u), (Nat.ltb_spec u (M - m + m)); cbn; try reflexivity; lia.
  - intros q Hq. rewrite !spike_dev by lia.
    assert (P : ind u q * ind u (q + m) = 0) by (unfold ind; destruct (Nat.eqb_spec q u), (Nat.eqb_spec (q + m) u); try lia; ring).
    unfold Rdiv. transitivity (h * h * (ind u q * ind u (q + m) - / INR M * (ind u q + ind u (q + m)) + / INR M * / INR M)); [ring|]. rewrite P. ring.
Qed.

Lemma spike_sq b h u M : (u < M)%nat -> sq_dev (spike b h u M) = h * h / INR M * (INR M - 1).
Proof.
  intros Hu. rewrite sq_dev_n, spike_length.
  rewrite (rsum_n_ext _ _ (fun q => (h * h) * (/ INR M * / INR M + (1 - 2 * / INR M) * ind u q))).
  - rewrite rsum_n_scal, rsum_n_plus, sum_const, rsum_n_scal, sum_ind. destruct (Nat.ltb_spec u M); [|lia]. field. apply not_0_INR. lia.
  - intros q Hq. rewrite spike_dev by lia. assert (P : ind u q * ind u q = ind u q) by (unfold ind; destruct (Nat.eqb q u); ring).
    transitivity (h * h * (ind u q * ind u q - 2 * / INR M * ind u q + / INR M * / INR M)); [ring|]. rewrite P. ring.
Qed.

(** ** sums over pairs *)
Definition pair_sum (w : nat -> R) (s : list nat) (rs : list R) : R := rsum_n (length s) (fun q => w q * (dev rs q * dev rs (nth q s 0%nat))).

Lemma rsum_n_list (rs : list R) : rsum rs = rsum_n (length rs) (fun q => nth q rs 0).
Proof. pose proof (rsum_list (fun v => v) rs) as H. rewrite map_id in H. exact H. Qed.

Lemma dev_combine (xs ys zs : list R) (a b : R) : length xs = length zs -> length ys = length zs ->
  (forall q, (q < length zs)%nat -> nth q zs 0 = a * nth q xs 0 + b * nth q ys 0) -> forall q, (q < length zs)%nat -> dev zs q = a * dev xs q + b * dev ys q.
Proof.
  intros Lx Ly H q Hq. unfold dev, rmean. rewrite H by exact Hq. rewrite !rsum_n_list, Lx, Ly.
  rewrite (rsum_n_ext _ _ _ H), rsum_n_plus, !rsum_n_scal. unfold Rdiv. ring.
Qed.

Lemma parallelogram_sum w s (xs ys ps ms : list R) M : length xs = M -> length ys = M -> length ps = M -> length ms = M ->
  (length s <= M)%nat -> (forall x, In x s -> (x < M)%nat) ->
  (forall q, (q < M)%nat -> nth q ps 0 = nth q xs 0 + nth q ys 0) -> (forall q, (q < M)%nat -> nth q ms 0 = nth q xs 0 - nth q ys 0) ->
  pair_sum w s ps + pair_sum w s ms = 2 * (pair_sum w s xs + pair_sum w s ys).
Proof.
  intros Lx Ly Lp Lm Ls Hs Hp Hm. unfold pair_sum. rewrite <- !rsum_n_plus, <- rsum_n_scal. apply rsum_n_ext. intros q Hq.
  assert (Hi : (nth q s 0%nat < M)%nat) by (apply Hs, nth_In; exact Hq).
  assert (P : forall q, (q < M)%nat -> dev ps q = 1 * dev xs q + 1 * dev ys q).
  { intros q' Hq'. apply (dev_combine xs ys ps 1 1); try congruence. intros k Hk. rewrite Hp by congruence. ring. }
  assert (N : forall q, (q < M)%nat -> dev ms q = 1 * dev xs q + -1 * dev ys q).
  { intros q' Hq'. apply (dev_combine xs ys ms 1 (-1)); try congruence. intros k Hk. rewrite Hm by congruence. ring. }
  rewrite !P, !N by lia. ring.
Qed.

(** ** perturbed values *)
Lemma mean_bound (rs : list R) B : (0 < length rs)%nat -> (forall v, In v rs -> Rabs v <= B) -> Rabs (rmean rs) <= B.
Proof.
  intros L H. unfold rmean, Rdiv. assert (HL : 0 < INR (length rs)) by (apply lt_0_INR; exact L).
  rewrite Rabs_mult, (Rabs_pos_eq (/ _)) by (left; apply Rinv_0_lt_compat; exact HL).
  apply (Rmult_le_reg_r (INR (length rs))); [exact HL|]. rewrite Rmult_assoc, Rinv_l, Rmult_1_r by lra.
  clear L HL. induction rs as [|r rs IH]; [cbn; rewrite Rabs_R0; lra|].
  change (rsum (r :: rs)) with (r + rsum rs). change (length (r :: rs)) with (S (length rs)). rewrite S_INR.
  pose proof (Rabs_triang r (rsum rs)). pose proof (H r (or_introl eq_refl)). specialize (IH (fun v Hv => H v (or_intror Hv))). lra.
Qed.

Lemma dev_bound (rs : list R) B q : (q < length rs)%nat -> (forall v, In v rs -> Rabs v <= B) -> Rabs (dev rs q) <= 2 * B.
Proof.
  intros Hq H. pose proof (mean_bound rs B ltac:(lia) H) as Hm. pose proof (H _ (nth_In rs 0 Hq)) as Hn. unfold dev.
  pose proof (Rabs_triang (nth q rs 0) (- rmean rs)) as T. rewrite Rabs_Ropp in T. unfold Rminus. lra.
Qed.

Lemma dev_close (xs ys : list R) e q : length xs = length ys -> (q < length xs)%nat ->
  (forall k, (k < length xs)%nat -> Rabs (nth k xs 0 - nth k ys 0) <= e) -> Rabs (dev xs q - dev ys q) <= 2 * e.
Proof.
  intros L Hq H. set (zs := map (fun k => nth k xs 0 - nth k ys 0) (seq 0 (length xs))).
  assert (Lz : length zs = length xs) by (unfold zs; rewrite map_length, seq_length; reflexivity).
  assert (Nz : forall k, (k < length xs)%nat -> nth k zs 0 = nth k xs 0 - nth k ys 0).
  { intros k Hk. apply nth_error_nth. unfold zs. rewrite nth_error_map, nth_error_seq. destruct (Nat.ltb_spec k (length xs)); [reflexivity|lia]. }
  assert (Ez : dev zs q = dev xs q - dev ys q).
  { rewrite (dev_combine xs ys zs 1 (-1)); [ring|congruence|congruence| |congruence]. intros k Hk. rewrite Nz by congruence. ring. }
  rewrite <- Ez. apply dev_bound; [lia|]. intros v Hv. apply (In_nth _ _ 0) in Hv. destruct Hv as [k [Hk <-]]. rewrite Nz by lia. apply H. lia.
Qed.

Lemma rsum_n_abs n f K : (forall q, (q < n)%nat -> Rabs (f q) <= K) -> Rabs (rsum_n n f) <= INR n * K.
Proof.
  intros H. induction n as [|n IH]; [rewrite rsum_n_0, Rabs_R0; cbn; lra|]. rewrite rsum_n_S, S_INR.
  pose proof (Rabs_triang (rsum_n n f) (f n)). pose proof (H n ltac:(lia)). specialize (IH (fun q Hq => H q (Nat.lt_lt_succ_r _ _ Hq))). lra.
Qed.

Lemma product_close a b a' b' B e : 0 <= B -> 0 <= e -> Rabs a <= 2 * B -> Rabs b' <= 2 * B -> Rabs (b - b') <= 2 * e -> Rabs (a - a') <= 2 * e -> Rabs (a * b - a' * b') <= 8 * e * B.
Proof.
  intros HB He Ha Hb H1 H2. replace (a * b - a' * b') with (a * (b - b') + b' * (a - a')) by ring.
  eapply Rle_trans; [apply Rabs_triang|]. rewrite !Rabs_mult.
  pose proof (Rmult_le_compat _ _ _ _ (Rabs_pos a) (Rabs_pos (b - b')) Ha H1).
  pose proof (Rmult_le_compat _ _ _ _ (Rabs_pos b') (Rabs_pos (a - a')) Hb H2). lra.
Qed.

Lemma pair_sum_close w s (xs ys : list R) M B e : length xs = M -> length ys = M -> (length s <= M)%nat -> (forall x, In x s -> (x < M)%nat) ->
  (forall q, 0 <= w q <= 1) -> 0 <= B -> 0 <= e -> (forall v, In v xs -> Rabs v <= B) -> (forall v, In v ys -> Rabs v <= B) ->
  (forall k, (k < M)%nat -> Rabs (nth k xs 0 - nth k ys 0) <= e) ->
  Rabs (pair_sum w s xs - pair_sum w s ys) <= INR (length s) * (8 * e * B) /\ Rabs (sq_dev xs - sq_dev ys) <= INR M * (8 * e * B).
Proof.
  intros Lx Ly Ls Hs Hw HB He Hx Hy H.
  assert (D : forall q q', (q < M)%nat -> (q' < M)%nat -> Rabs (dev xs q * dev xs q' - dev ys q * dev ys q') <= 8 * e * B).
  { intros q q' Hq Hq'. apply product_close; try assumption; [apply dev_bound; [lia|exact Hx]|apply dev_bound; [lia|exact Hy]| |];
      apply dev_close; try lia; intros k Hk; apply H; lia. }
  split.
  - unfold pair_sum, Rminus. replace (- rsum_n (length s) (fun q => w q * (dev ys q * dev ys (nth q s 0%nat)))) with (-1 * rsum_n (length s) (fun q => w q * (dev ys q * dev ys (nth q s 0%nat)))) by ring.
    rewrite <- rsum_n_scal, <- rsum_n_plus. apply rsum_n_abs. intros q Hq.
    assert (Hi : (nth q s 0%nat < M)%nat) by (apply Hs, nth_In; exact Hq).
    replace (w q * (dev xs q * dev xs (nth q s 0%nat)) + -1 * (w q * (dev ys q * dev ys (nth q s 0%nat)))) with (w q * (dev xs q * dev xs (nth q s 0%nat) - dev ys q * dev ys (nth q s 0%nat))) by ring.
    rewrite Rabs_mult, (Rabs_pos_eq (w q)) by apply Hw. pose proof (D q (nth q s 0%nat) ltac:(lia) Hi) as Dq. pose proof (Hw q) as [W0 W1].
    pose proof (Rabs_pos (dev xs q * dev xs (nth q s 0%nat) - dev ys q * dev ys (nth q s 0%nat))). nra.
  - rewrite !sq_dev_n, Lx, Ly. unfold Rminus. replace (- rsum_n M (fun i => dev ys i * dev ys i)) with (-1 * rsum_n M (fun i => dev ys i * dev ys i)) by ring.
    rewrite <- rsum_n_scal, <- rsum_n_plus. apply rsum_n_abs. intros q Hq. pose proof (D q q Hq Hq) as Dq.
    replace (dev xs q * dev xs q + -1 * (dev ys q * dev ys q)) with (dev xs q * dev xs q - dev ys q * dev ys q) by ring. exact Dq.
Qed.

Lemma quotient_close A D A' D' n M e : 0 < D -> 0 < D' -> 0 <= M -> Rabs (A - A') <= n * e -> Rabs (D - D') <= M * e ->
  Rabs (A / D - A' / D') <= e * (n + M * Rabs (A' / D')) / D.
Proof.
  intros HD HD' HM HA HDD. replace (A / D - A' / D') with (((A - A') + (A' / D') * (D' - D)) * / D) by (field; lra).
  rewrite Rabs_mult, (Rabs_pos_eq (/ D)) by (left; apply Rinv_0_lt_compat; exact HD). unfold Rdiv at 2.
  apply Rmult_le_compat_r; [left; apply Rinv_0_lt_compat; exact HD|].
  eapply Rle_trans; [apply Rabs_triang|]. rewrite Rabs_mult, (Rabs_minus_sym D' D).
  pose proof (Rmult_le_compat_l _ _ _ (Rabs_pos (A' / D')) HDD). lra.
Qed.

Section Call.
Variables (p : platform) (d : @dstruct XR) (mi ma re al : option xr) (sel wgt : string) (lags : list xr) (corr : @py_corr XR) (c : @correlator XR)
  (rows : list (list xr)) (i : nat) (ts : list R) (kk a : R).
Hypotheses (Ha : accepted d) (E : autocorrelation (A := XR) p d mi ma re al sel wgt = Ok (lags, corr, c)) (Hd : data_2d d = Ok rows)
  (Hi : nth_error lags i = Some (Fin kk)) (Ht : timeseries d = map Fin ts) (Hal : opt_or (A := XR) al (median_time d) = Fin a) (Hpos : 0 < a).

(** one set of pairs and weights for all rows *)
Lemma common_pairs j0 rs0 : nth_error rows j0 = Some (map Fin rs0) ->
  exists (w : nat -> R) s, (forall q, 0 <= w q <= 1) /\ (length s <= length ts)%nat /\ (forall x, In x s -> (x < length ts)%nat) /\
    forall j rs, nth_error rows j = Some (map Fin rs) -> length rs = length ts /\
      (0 < sq_dev32 rs -> corr_at corr j i = Some (Fin (pair_sum w s rs / sq_dev32 rs))).
Proof.
  intros H0. destruct (call_pairs p d mi ma re al sel wgt lags corr c rows j0 i rs0 ts kk Ha E Hd H0 Hi Ht) as [f [s [os [Hf [HP _]]]]].
  destruct (value_exact_pairs p d mi ma re al sel wgt lags corr c rows j0 i rs0 ts os kk a f _ s Ha E Hd H0 Hi Ht Hal Hpos Hf HP) as [_ [_ [L [Hs [_ [Ho _]]]]]].
  exists (fun q => rweight wgt a (nth q os 0)), s. split; [intros q; apply rweight_range; [exact Hpos|apply Ho]|]. split; [exact L|]. split; [exact Hs|].
  intros j rs Hj. destruct (value_exact_pairs p d mi ma re al sel wgt lags corr c rows j i rs ts os kk a f _ s Ha E Hd Hj Hi Ht Hal Hpos Hf HP) as [_ [Lr [_ [_ [_ [_ V]]]]]].
  split; [exact Lr|]. intros HN. rewrite V. f_equal. cbn [xdiv]. destruct (Reqb_spec (sq_dev32 rs) 0) as [C|_]; [lra|]. reflexivity.
Qed.

Lemma signal_parallelogram jx jy jp jm (xs ys ps ms : list R) :
  nth_error rows jx = Some (map Fin xs) -> nth_error rows jy = Some (map Fin ys) -> nth_error rows jp = Some (map Fin ps) -> nth_error rows jm = Some (map Fin ms) ->
  (forall q, (q < length ts)%nat -> nth q ps 0 = nth q xs 0 + nth q ys 0) -> (forall q, (q < length ts)%nat -> nth q ms 0 = nth q xs 0 - nth q ys 0) ->
  0 < sq_dev32 xs -> 0 < sq_dev32 ys -> 0 < sq_dev32 ps -> 0 < sq_dev32 ms ->
  exists rx ry rp rm, corr_at corr jx i = Some (Fin rx) /\ corr_at corr jy i = Some (Fin ry) /\ corr_at corr jp i = Some (Fin rp) /\ corr_at corr jm i = Some (Fin rm) /\
    sq_dev32 ps * rp + sq_dev32 ms * rm = 2 * (sq_dev32 xs * rx + sq_dev32 ys * ry).
Proof.
  intros Hx Hy Hp Hm Ep Em Nx Ny Np Nm. destruct (common_pairs jx xs Hx) as [w [s [_ [L [Hs V]]]]].
  destruct (V jx xs Hx) as [Lx Vx]. destruct (V jy ys Hy) as [Ly Vy]. destruct (V jp ps Hp) as [Lp Vp]. destruct (V jm ms Hm) as [Lm Vm].
  do 4 eexists. do 4 (split; [first [exact (Vx Nx)|exact (Vy Ny)|exact (Vp Np)|exact (Vm Nm)]|]).
  pose proof (parallelogram_sum w s xs ys ps ms (length ts) Lx Ly Lp Lm L Hs Ep Em) as P.
  transitivity (pair_sum w s ps + pair_sum w s ms); [field; lra|]. rewrite P. field. lra.
Qed.

Lemma signal_close jx jy (xs ys : list R) B e :
  nth_error rows jx = Some (map Fin xs) -> nth_error rows jy = Some (map Fin ys) -> Forall single xs -> Forall single ys ->
  (forall v, In v xs -> Rabs v <= B) -> (forall v, In v ys -> Rabs v <= B) ->
  (forall k, (k < length ts)%nat -> Rabs (nth k xs 0 - nth k ys 0) <= e) -> 0 < sq_dev xs -> 0 < sq_dev ys ->
  exists rx ry, corr_at corr jx i = Some (Fin rx) /\ corr_at corr jy i = Some (Fin ry) /\
    Rabs (rx - ry) <= 8 * e * B * INR (length ts) * (1 + Rabs ry) / sq_dev xs.
Proof.
  intros Hx Hy Sx Sy Bx By H Nx Ny. destruct (common_pairs jx xs Hx) as [w [s [Hw [L [Hs V]]]]].
  destruct (V jx xs Hx) as [Lx Vx]. destruct (V jy ys Hy) as [Ly Vy]. rewrite !sq_dev_single in * by assumption.
  assert (L0 : (0 < length ts)%nat) by (rewrite <- Lx; destruct xs; [exfalso; revert Nx; cbn; lra|cbn; lia]).
  assert (He : 0 <= e) by (eapply Rle_trans; [apply Rabs_pos|exact (H 0%nat L0)]).
  assert (HB : 0 <= B) by (destruct xs as [|x xs]; [cbn in Lx; lia|]; eapply Rle_trans; [apply Rabs_pos|exact (Bx x (or_introl eq_refl))]).
  destruct (pair_sum_close w s xs ys (length ts) B e Lx Ly L Hs Hw HB He Bx By H) as [CA CD].
  do 2 eexists. do 2 (split; [first [exact (Vx Nx)|exact (Vy Ny)]|]).
  eapply Rle_trans; [apply (quotient_close _ _ _ _ _ _ _ Nx Ny (pos_INR _) CA CD)|].
  unfold Rdiv. apply Rmult_le_compat_r; [left; apply Rinv_0_lt_compat; exact Nx|].
  set (r := Rabs _). assert (Hl : INR (length s) <= INR (length ts)) by (apply le_INR; exact L).
  assert (HE : 0 <= 8 * e * B) by (assert (0 <= e * B) by (apply Rmult_le_pos; assumption); lra).
  apply (Rle_trans _ (8 * e * B * (INR (length ts) + INR (length ts) * r))); [|right; ring]. apply Rmult_le_compat_l; [exact HE|]. lra.
Qed.
End Call.

(** a call with all defaults on several datasets at the times 0, 1, .., M-1 *)
Lemma grid_example_rows (rss : list (list R)) (M : nat) (p : platform) (wgt : string) :
  (2 <= M)%nat -> (M <= 1000)%nat -> rss <> [] -> (forall rs, In rs rss -> length rs = M) -> p_checked p = false -> known_weight wgt ->
  exists (d : @dstruct XR) corr c, accepted d /\ timeseries d = map Fin (grid 0 1 M) /\ data_2d d = Ok (map (map Fin) rss) /\
    autocorrelation (A := XR) p d None None None None "natural" wgt = Ok (map (fun i => Fin ((INR i - INR (M - 1)) * 1)) (seq 0 (2 * M - 1)), corr, c) /\
    opt_or (A := XR) None (median_time d) = Fin (INR (M - 1) / 2 * 1) /\
    forall m, (m < M)%nat -> nth_error (map (fun i => Fin ((INR i - INR (M - 1)) * 1)) (seq 0 (2 * M - 1))) (M - 1 + m) = Some (Fin (INR m * 1)).
Proof.
  intros HM HM' Hn Hl Hp Hw.
  assert (Lg : length (grid 0 1 M) = M) by apply grid_length.
  destruct (two_d_round_trip (A := XR) (map Fin (grid 0 1 M)) (map (map Fin) rss) None) as [d [Ed [Ht [Hd _]]]].
  - intros C. apply (f_equal (@length _)) in C. rewrite map_length, Lg in C. cbn in C. lia.
  - destruct rss; [contradiction|discriminate].
  - intros r Hr. apply in_map_iff in Hr. destruct Hr as [rs [<- Hr]]. rewrite !map_length, Lg. exact (Hl rs Hr).
  - exists d. assert (Ha : accepted d) by (right; eauto).
    assert (B : INR (M - 1) * 1 <= 1000) by (rewrite Rmult_1_r; apply (Rle_trans _ (INR 1000)); [apply le_INR; lia|rewrite INR_IZR_INZ; apply IZR_le; reflexivity || lia]).
    assert (Hb : INR (M - 1) * 1 <= dbl_max).
    { unfold dbl_max. assert (bpow radix2 (-52) <= 1) by (change 1 with (bpow radix2 0); apply bpow_le; lia).
      assert (bpow radix2 10 <= bpow radix2 1023) by (apply bpow_le; lia). change (bpow radix2 10) with (IZR 1024) in H0. nra. }
    assert (Hi : (2 * Z.of_nat M + 1 <= INT_MAX)%Z) by (unfold INT_MAX; lia).
    destruct (grid_call p d wgt 0 1 M (map (map Fin) rss) Ha Ht HM Rlt_0_1 Hb Hi Hp Hw) as [corr [c [E _]]].
    + intros _. unfold INT_MAX. lra.
    + exact Hd.
    + exists corr, c. split; [exact Ha|]. split; [exact Ht|]. split; [exact Hd|]. split; [exact E|]. split.
      * destruct (grid_defaults d 0 1 M Ha Ht HM Rlt_0_1 Hb Hi) as [_ [_ [_ [_ [_ [Hm _]]]]]]. exact Hm.
      * intros m Hm. rewrite nth_error_map, nth_error_seq. destruct (Nat.ltb_spec (M - 1 + m) (2 * M - 1)) as [_|C]; [|lia]. cbn [option_map Nat.add]. do 2 f_equal.
        rewrite plus_INR. ring.
Qed.
