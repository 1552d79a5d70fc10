(** Exact values at lag zero, on evenly sampled grids, and for the fast selection. *)
From Coq Require Import String.
From Coq Require Import ZArith Reals List Bool Arith Lia Lra.
From Flocq Require Import Core.
From Verif Require Import Num Mem MemFacts XR B64 Spec SpecR DataStructure DSFacts Correlator Sacf Api CorrFacts LoopFacts MainFacts
  Laws Laws2 ConstrFacts SelFacts SelThms FastFacts TimeFacts WeightFacts ValFacts ExactFacts.
Import ListNotations.
Local Open Scope list_scope.
Local Open Scope R_scope.

Lemma nth_lt {X} (l : list X) i x : nth_error l i = Some x -> (i < length l)%nat.
Proof. intros H. apply nth_error_Some. congruence. Qed.

Lemma nlt_Fin a b : @nlt XR (Fin a) (Fin b) = true <-> a < b.
Proof. cbn. unfold Rltb. destruct (Rlt_dec a b); split; intros; try assumption; try reflexivity; try discriminate; contradiction. Qed.
Lemma nle_Fin a b : @nle XR (Fin a) (Fin b) = true <-> a <= b.
Proof. cbn. unfold Rleb. destruct (Rle_dec a b); split; intros; try assumption; try reflexivity; try discriminate; contradiction. Qed.
Lemma nlt_Fin_false a b : @nlt XR (Fin a) (Fin b) = false <-> b <= a.
Proof. cbn. unfold Rltb. destruct (Rlt_dec a b); split; intros; try reflexivity; try discriminate; lra. Qed.

(** strictly increasing real numbers *)
Lemma increasing_map (f : R -> R) l : (forall x y, x < y -> f x < f y) -> increasing (A := XR) (map Fin l) -> increasing (A := XR) (map Fin (map f l)).
Proof.
  intros Hf [H1 H2].
  assert (E : forall i a, nth_error (map Fin (map f l)) i = Some a -> exists r, nth_error (map Fin l) i = Some (Fin r) /\ a = Fin (f r)).
  { intros i a Ha. rewrite !nth_error_map in Ha. rewrite nth_error_map. destruct (nth_error l i) as [r|]; [|discriminate].
    injection Ha as <-. exists r. auto. }
  assert (S : forall i j a b, (i < j)%nat -> nth_error (map Fin (map f l)) i = Some a -> nth_error (map Fin (map f l)) j = Some b -> @nlt XR a b = true).
  { intros i j a b Hij Ha Hb. destruct (E i a Ha) as [r [Hr ->]]. destruct (E j b Hb) as [s [Hs ->]].
    apply nlt_Fin. apply Hf. apply nlt_Fin. exact (H2 i j _ _ Hij Hr Hs). }
  split; [|exact S]. intros i j a b Hij Ha Hb. destruct (Nat.eq_dec i j) as [->|Hne].
  - rewrite Ha in Hb. injection Hb as <-. destruct (E j a Ha) as [r [_ ->]]. apply nle_Fin. lra.
  - assert (Hlt : (i < j)%nat) by lia. pose proof (S i j a b Hlt Ha Hb) as HS.
    destruct (E i a Ha) as [r [_ ->]]. destruct (E j b Hb) as [s [_ ->]]. apply nlt_Fin in HS. apply nle_Fin. lra.
Qed.

Lemma fin_all (l : list R) : forall x, In x (map Fin l) -> finite (A := XR) x.
Proof. intros x H. apply in_map_iff in H. destruct H as [r [<- _]]. discriminate. Qed.

Lemma nfin_all (l : list R) : forall x, In x (map Fin l) -> @nfin XR x = true.
Proof. intros x H. apply in_map_iff in H. destruct H as [r [<- _]]. reflexivity. Qed.

Lemma times_exact (d : @dstruct XR) ts : normalised_timeseries d = map Fin (map (fun x => x - nth 0 ts 0) ts) ->
  timeseries d = map Fin ts -> increasing (A := XR) (timeseries d) -> times_ok (A := XR) d /\ increasing (A := XR) (normalised_timeseries d).
Proof.
  intros En Et Hi. split.
  - split; [exact (proj1 Hi)|]. split; [rewrite Et|rewrite En]; apply fin_all.
  - rewrite En. apply increasing_map; [intros; lra|]. rewrite <- Et. exact Hi.
Qed.

Lemma fast_run {A : Num} p d kk n sidx Sv : fast_sel p (normalised_timeseries d) kk = Ok (sidx, Sv) ->
  exists it, fastSelectionFunctionIdx p d (CorrelationIterator kk n) = (it, Ok tt) /\ selection it = sidx.
Proof.
  intros E. pose proof (fast_closed p d kk n) as HC. change (norm_t d) with (normalised_timeseries d) in HC. rewrite E in HC.
  destruct HC as [it [H1 H2]]. exists it. split; [exact H1|]. apply H2.
Qed.

(** squares *)
Lemma sq_dev_single rs : Forall single rs -> sq_dev32 rs = sq_dev rs.
Proof.
  intros H. unfold sq_dev32, sq_dev. f_equal. apply map_ext_in. intros v Hv. rewrite Forall_forall in H. rewrite (H v Hv). reflexivity.
Qed.

Lemma rsum_n_zero n f : (forall i, (i < n)%nat -> 0 <= f i) -> rsum_n n f = 0 -> forall i, (i < n)%nat -> f i = 0.
Proof.
  induction n as [|n IH]; intros H E i Hi; [lia|]. rewrite rsum_n_S in E.
  assert (H0 : 0 <= rsum_n n f) by (apply rsum_n_nonneg; intros; apply H; lia). pose proof (H n (Nat.lt_succ_diag_r n)).
  destruct (Nat.eq_dec i n) as [->|Hne]; [lra|]. apply IH; [intros; apply H; lia|lra|lia].
Qed.

Lemma sq_dev_pos rs v w : In v rs -> In w rs -> v <> w -> 0 < sq_dev rs.
Proof.
  intros Hv Hw Hne. assert (H0 : 0 <= sq_dev rs) by (rewrite sq_dev_n; apply rsum_n_nonneg; intros; apply Rle_0_sqr).
  destruct H0 as [H0|H0]; [exact H0|]. exfalso. apply Hne. rewrite sq_dev_n in H0.
  assert (Z : forall u, In u rs -> u = rmean rs).
  { intros u Hu. apply (In_nth _ _ 0) in Hu. destruct Hu as [i [Hi Hu]].
    pose proof (rsum_n_zero _ _ (fun i _ => Rle_0_sqr (dev rs i)) (Logic.eq_sym H0) i Hi) as E. apply Rsqr_0_uniq in E. unfold dev in E. lra. }
  rewrite (Z v Hv), (Z w Hw). reflexivity.
Qed.

Lemma xdiv_self D : 0 < D -> xdiv (Fin D) (Fin D) = Fin 1.
Proof. intros H. cbn. unfold Reqb. destruct (Req_EM_T D 0); [lra|]. f_equal. field. lra. Qed.

(** ** C23: lag zero *)
Lemma zero_lag_value p d mi ma re al wgt lags corr c rows j i (rs ts : list R) (a : R) :
  accepted d -> autocorrelation (A := XR) p d mi ma re al "natural" wgt = Ok (lags, corr, c) ->
  data_2d d = Ok rows -> nth_error rows j = Some (map Fin rs) -> nth_error lags i = Some (Fin 0) ->
  timeseries d = map Fin ts -> increasing (A := XR) (timeseries d) -> opt_or al (median_time d) = Fin a -> 0 < a ->
  corr_at corr j i = Some (xdiv (Fin (sq_dev rs)) (Fin (sq_dev32 rs))).
Proof.
  intros Ha E Hd Hj Hi Ht Hinc Hal Hpos.
  destruct (exact_value p d mi ma re al _ wgt lags corr c rows j i rs ts 0 a Ha E Hd Hj Hi Ht Hal Hpos)
    as [sf [sidx [Sv [Hs [_ [En [HS [Hn [HL [K1 [K2 HV]]]]]]]]]]].
  destruct (times_exact d ts En Ht Hinc) as [_ Hinc'].
  injection Hs as <-. destruct (natural_sel_zero (A := XR) p (normalised_timeseries d) (Fin 0) sidx Sv Hinc') as [Es _].
  { rewrite En. apply nfin_all. }
  { rewrite En. destruct ts; [destruct rs; [congruence|discriminate]|discriminate]. }
  { cbn. unfold Reqb. destruct (Req_EM_T 0 0); congruence. }
  { exact HS. }
  assert (El : length sidx = length rs) by (rewrite Es, seq_length, En, !map_length; congruence).
  rewrite HV. do 3 f_equal. rewrite El, sq_dev_n. apply rsum_n_ext. intros q Hq.
  assert (Eq : nth q sidx 0%nat = q) by (rewrite Es, seq_nth; [reflexivity|rewrite <- El, Es, seq_length in Hq; exact Hq]).
  rewrite Eq. replace (nth q ts 0 - (nth q ts 0 + 0)) with 0 by ring. rewrite dist_0, rweight_0 by exact Hpos. ring.
Qed.

(** ** evenly sampled grids *)
Lemma grid_length t0 dd M : length (grid t0 dd M) = M.
Proof. unfold grid. rewrite map_length, seq_length. reflexivity. Qed.

Lemma grid_nth t0 dd M i : (i < M)%nat -> nth_error (grid t0 dd M) i = Some (t0 + INR i * dd).
Proof. intros H. unfold grid. rewrite nth_error_map, nth_error_seq. destruct (Nat.ltb_spec i M); [reflexivity|lia]. Qed.

Lemma grid_nth0 t0 dd M i : (i < M)%nat -> nth i (grid t0 dd M) 0 = t0 + INR i * dd.
Proof. intros H. apply nth_error_nth. apply grid_nth. exact H. Qed.

Lemma grid_rel t0 dd M : map (fun x => x - nth 0 (grid t0 dd M) 0) (grid t0 dd M) = grid 0 dd M.
Proof.
  destruct M as [|M]; [reflexivity|]. rewrite grid_nth0 by lia. unfold grid. rewrite map_map. apply map_ext. intros i. cbn [INR]. lra.
Qed.

Lemma grid_increasing t0 dd M : 0 < dd -> increasing (A := XR) (map Fin (grid t0 dd M)).
Proof.
  intros Hd.
  assert (S : forall i j a b, (i <= j)%nat -> nth_error (map Fin (grid t0 dd M)) i = Some a -> nth_error (map Fin (grid t0 dd M)) j = Some b ->
            exists x y, a = Fin x /\ b = Fin y /\ x <= y /\ ((i < j)%nat -> x < y)).
  { intros i j a b Hij Ha Hb. rewrite nth_error_map in Ha, Hb.
    destruct (Nat.lt_ge_cases j M) as [Hj|Hj].
    2:{ replace (nth_error (grid t0 dd M) j) with (@None R) in Hb by (symmetry; apply nth_error_None; rewrite grid_length; exact Hj). discriminate. }
    rewrite grid_nth in Ha, Hb by lia. injection Ha as <-. injection Hb as <-. do 2 eexists. do 2 (split; [reflexivity|]).
    pose proof (le_INR _ _ Hij). split; [apply Rplus_le_compat_l, Rmult_le_compat_r; lra|].
    intros Hl. apply lt_INR in Hl. apply Rplus_lt_compat_l, Rmult_lt_compat_r; lra. }
  split; intros i j a b Hij Ha Hb.
  - destruct (S i j a b Hij Ha Hb) as [x [y [-> [-> [H _]]]]]. apply nle_Fin. exact H.
  - destruct (S i j a b (Nat.lt_le_incl _ _ Hij) Ha Hb) as [x [y [-> [-> [_ H]]]]]. apply nlt_Fin. apply H. exact Hij.
Qed.

Lemma grid_back dd M back : @lback xr (map Fin (grid 0 dd M)) = Ok back -> (0 < M)%nat /\ back = Fin (INR (M - 1) * dd).
Proof.
  intros H. destruct (back_In _ _ H) as [H1 H2]. rewrite map_length, grid_length in H2.
  destruct M as [|M]; [destruct H1|]. split; [lia|]. rewrite nth_error_map, grid_nth in H2 by lia.
  injection H2 as <-. f_equal. apply Rplus_0_l.
Qed.

(** lag [m * dd]: point [i] is paired with [i + m] *)
Lemma grid_sel_pos p dd M m sidx Sv : 0 < dd -> (0 < M)%nat -> natural_sel (A := XR) p (map Fin (grid 0 dd M)) (Fin (INR m * dd)) = Ok (sidx, Sv) ->
  sidx = seq m (M - m).
Proof.
  intros Hd HM E.
  destruct (natural_sel_map (A := XR) p (map Fin (grid 0 dd M)) (Fin (INR m * dd)) sidx Sv (M - m) E) as [H1 [H2 H3]].
  { destruct M; [lia|discriminate]. }
  { intros back Hb. apply grid_back in Hb. destruct Hb as [_ ->]. split; [rewrite map_length, grid_length; lia|]. split.
    - intros i x Hi Hx. rewrite nth_error_map, grid_nth in Hx by lia. injection Hx as <-. apply nlt_Fin_false.
      replace (0 + INR i * dd + INR m * dd) with (INR (i + m) * dd) by (rewrite plus_INR; ring).
      apply Rmult_le_compat_r; [lra|]. apply le_INR. lia.
    - intros x Hx. assert (Hi : (M - m < M)%nat).
      { assert (M - m < length (map Fin (grid 0 dd M)))%nat by exact (nth_lt _ _ _ Hx). rewrite map_length, grid_length in H. exact H. }
      rewrite nth_error_map, grid_nth in Hx by lia. injection Hx as <-. apply nlt_Fin.
      replace (0 + INR (M - m) * dd + INR m * dd) with (INR (M - m + m) * dd) by (rewrite plus_INR; ring).
      apply Rmult_lt_compat_r; [lra|]. apply lt_INR. lia. }
  apply list_ext. intros i. rewrite nth_error_seq. destruct (Nat.ltb_spec i (M - m)) as [Hi|Hi]; [|apply nth_error_None; lia].
  assert (Hx : nth_error (map Fin (grid 0 dd M)) i = Some (Fin (0 + INR i * dd))) by (rewrite nth_error_map, grid_nth by lia; reflexivity).
  specialize (H3 i _ Hi Hx). rewrite (nth_error_nth' sidx 0%nat) by lia. f_equal.
  refine (hit (A := XR) p (map Fin (grid 0 dd M)) (Fin (0 + INR i * dd + INR m * dd)) (Fin (0 + INR (m + i) * dd)) (m + i) _ (grid_increasing 0 dd M Hd) eq_refl eq_refl (nfin_all _) _ _ H3).
  - rewrite nth_error_map, grid_nth by lia. reflexivity.
  - cbn. unfold Reqb. destruct Req_EM_T as [_|Hne]; [reflexivity|]. exfalso. apply Hne. rewrite plus_INR. ring.
Qed.

(** lag [- m * dd]: point [i] is paired with [i - m], or with the first *)
Lemma grid_sel_neg p dd M m sidx Sv : 0 < dd -> (0 < M)%nat -> natural_sel (A := XR) p (map Fin (grid 0 dd M)) (Fin (- (INR m * dd))) = Ok (sidx, Sv) ->
  sidx = map (fun i => (i - m)%nat) (seq 0 M).
Proof.
  intros Hd HM E.
  destruct (natural_sel_map (A := XR) p (map Fin (grid 0 dd M)) (Fin (- (INR m * dd))) sidx Sv M E) as [H1 [H2 H3]].
  { destruct M; [lia|discriminate]. }
  { intros back Hb. apply grid_back in Hb. destruct Hb as [_ ->]. split; [rewrite map_length, grid_length; lia|]. split.
    - intros i x Hi Hx. rewrite nth_error_map, grid_nth in Hx by lia. injection Hx as <-. apply nlt_Fin_false.
      assert (INR i * dd <= INR (M - 1) * dd) by (apply Rmult_le_compat_r; [lra|]; apply le_INR; lia).
      assert (0 <= INR m * dd) by (apply Rmult_le_pos; [apply pos_INR|lra]). lra.
    - intros x Hx. exfalso. assert (M < length (map Fin (grid 0 dd M)))%nat by exact (nth_lt _ _ _ Hx). rewrite map_length, grid_length in H. lia. }
  apply list_ext. intros i. rewrite nth_error_map, nth_error_seq. destruct (Nat.ltb_spec i M) as [Hi|Hi]; [|apply nth_error_None; lia].
  assert (Hx : nth_error (map Fin (grid 0 dd M)) i = Some (Fin (0 + INR i * dd))) by (rewrite nth_error_map, grid_nth by lia; reflexivity).
  specialize (H3 i _ Hi Hx). rewrite (nth_error_nth' sidx 0%nat) by lia. cbn [option_map Nat.add]. f_equal.
  destruct (Nat.le_gt_cases m i) as [Hm|Hm].
  - refine (hit (A := XR) p (map Fin (grid 0 dd M)) (Fin (0 + INR i * dd + - (INR m * dd))) (Fin (0 + INR (i - m) * dd)) (i - m) _ (grid_increasing 0 dd M Hd) eq_refl eq_refl (nfin_all _) _ _ H3).
    + rewrite nth_error_map, grid_nth by lia. reflexivity.
    + cbn. unfold Reqb. destruct Req_EM_T as [_|Hne]; [reflexivity|]. exfalso. apply Hne. rewrite minus_INR by exact Hm. ring.
  - replace (i - m)%nat with 0%nat by lia.
    destruct (natural_index_cases (A := XR) p _ _ _ H3) as [q [[Q1 [Q2 _]] Hc]].
    assert (Hq : q = 0%nat).
    { destruct Q2 as [Q2|[y [Hy Hlt]]]; [exact Q2|]. exfalso. rewrite nth_error_map in Hy.
      rewrite map_length, grid_length in Q1. destruct (Nat.eq_dec q 0) as [->|Hq0].
      - change (0 - 1)%nat with 0%nat in Hy. rewrite grid_nth in Hy by lia. injection Hy as <-. apply nlt_Fin in Hlt. cbn [INR] in Hlt. apply lt_INR in Hm.
        assert (INR i * dd < INR m * dd) by (apply Rmult_lt_compat_r; lra). lra.
      - rewrite grid_nth in Hy by lia. injection Hy as <-. apply nlt_Fin in Hlt. apply lt_INR in Hm.
        assert (INR i * dd < INR m * dd) by (apply Rmult_lt_compat_r; lra).
        assert (0 <= INR (q - 1) * dd) by (apply Rmult_le_pos; [apply pos_INR|lra]). lra. }
    subst q. destruct Hc as [[_ Hc]|[Hc _]]; [exact Hc|lia].
Qed.

Lemma grid_value_pos p d mi ma re al wgt lags corr c rows j i (rs : list R) (t0 dd a : R) (M m : nat) :
  accepted d -> autocorrelation (A := XR) p d mi ma re al "natural" wgt = Ok (lags, corr, c) ->
  data_2d d = Ok rows -> nth_error rows j = Some (map Fin rs) -> nth_error lags i = Some (Fin (INR m * dd)) ->
  timeseries d = map Fin (grid t0 dd M) -> 0 < dd -> opt_or al (median_time d) = Fin a -> 0 < a ->
  length rs = M /\ (0 < M)%nat /\
  corr_at corr j i = Some (xdiv (Fin (rsum_n (M - m) (fun q => dev rs q * dev rs (q + m)))) (Fin (sq_dev32 rs))).
Proof.
  intros Ha E Hd Hj Hi Ht Hdd Hal Hpos.
  destruct (exact_value p d mi ma re al _ wgt lags corr c rows j i rs _ _ a Ha E Hd Hj Hi Ht Hal Hpos)
    as [sf [sidx [Sv [Hs [_ [En [HS [Hn [HL [K1 [K2 HV]]]]]]]]]]].
  rewrite grid_rel in En. rewrite grid_length in HL, K1, K2. injection Hs as <-. rewrite En in HS.
  assert (HM : (0 < M)%nat) by (rewrite <- HL; destruct rs; [congruence|cbn; lia]).
  pose proof (grid_sel_pos p dd M m sidx Sv Hdd HM HS) as Es.
  split; [exact HL|]. split; [exact HM|]. rewrite HV. do 3 f_equal.
  assert (El : length sidx = (M - m)%nat) by (rewrite Es, seq_length; reflexivity). rewrite El. apply rsum_n_ext. intros q Hq.
  assert (Eq : nth q sidx 0%nat = (q + m)%nat) by (rewrite Es, seq_nth; [lia|exact Hq]).
  rewrite Eq. rewrite !grid_nth0 by lia. replace (t0 + INR (q + m) * dd - (t0 + INR q * dd + INR m * dd)) with 0 by (rewrite plus_INR; ring).
  rewrite dist_0, rweight_0 by exact Hpos. ring.
Qed.

Lemma grid_value_neg p d mi ma re al wgt lags corr c rows j i (rs : list R) (t0 dd a : R) (M m : nat) :
  accepted d -> autocorrelation (A := XR) p d mi ma re al "natural" wgt = Ok (lags, corr, c) ->
  data_2d d = Ok rows -> nth_error rows j = Some (map Fin rs) -> nth_error lags i = Some (Fin (- (INR m * dd))) ->
  timeseries d = map Fin (grid t0 dd M) -> 0 < dd -> opt_or al (median_time d) = Fin a -> 0 < a -> (m <= M)%nat ->
  corr_at corr j i = Some (xdiv (Fin (rsum_n (M - m) (fun q => dev rs q * dev rs (q + m)) +
      dev rs 0 * rsum_n m (fun q => rweight wgt a (dist p (INR (m - q) * dd)) * dev rs q))) (Fin (sq_dev32 rs))).
Proof.
  intros Ha E Hd Hj Hi Ht Hdd Hal Hpos Hm.
  destruct (exact_value p d mi ma re al _ wgt lags corr c rows j i rs _ _ a Ha E Hd Hj Hi Ht Hal Hpos)
    as [sf [sidx [Sv [Hs [_ [En [HS [Hn [HL [K1 [K2 HV]]]]]]]]]]].
  rewrite grid_rel in En. rewrite grid_length in HL, K1, K2. injection Hs as <-. rewrite En in HS.
  assert (HM : (0 < M)%nat) by (rewrite <- HL; destruct rs; [congruence|cbn; lia]).
  pose proof (grid_sel_neg p dd M m sidx Sv Hdd HM HS) as Es.
  rewrite HV. do 3 f_equal.
  assert (El : length sidx = M) by (rewrite Es, map_length, seq_length; reflexivity). rewrite El.
  replace M with (m + (M - m))%nat at 1 by lia. rewrite rsum_n_split, Rplus_comm. f_equal.
  - apply rsum_n_ext. intros q Hq.
    assert (Eq : nth (m + q) sidx 0%nat = q).
    { apply nth_error_nth. rewrite Es, nth_error_map, nth_error_seq. destruct (Nat.ltb_spec (m + q) M); [cbn; f_equal; lia|lia]. }
    rewrite Eq. rewrite !grid_nth0 by lia. replace (t0 + INR q * dd - (t0 + INR (m + q) * dd + - (INR m * dd))) with 0 by (rewrite plus_INR; ring).
    rewrite dist_0, rweight_0 by exact Hpos. rewrite (Nat.add_comm m q). ring.
  - rewrite <- rsum_n_scal. apply rsum_n_ext. intros q Hq.
    assert (Eq : nth q sidx 0%nat = 0%nat).
    { apply nth_error_nth. rewrite Es, nth_error_map, nth_error_seq. destruct (Nat.ltb_spec q M); [cbn; f_equal; lia|lia]. }
    rewrite Eq. rewrite !grid_nth0 by lia.
    replace (t0 + INR 0 * dd - (t0 + INR q * dd + - (INR m * dd))) with (INR (m - q) * dd); [ring|].
    rewrite minus_INR by lia. cbn [INR]. ring.
Qed.

(** ** Bounds *)
Lemma cross_bound n m f : (m <= n)%nat -> Rabs (rsum_n (n - m) (fun q => f q * f (q + m)%nat)) <= rsum_n n (fun q => f q * f q).
Proof.
  intros Hm.
  assert (H1 : rsum_n (n - m) (fun q => f q * f q) <= rsum_n n (fun q => f q * f q)).
  { replace n with ((n - m) + m)%nat at 2 by lia. rewrite rsum_n_split.
    pose proof (rsum_n_nonneg m (fun i => f (n - m + i)%nat * f (n - m + i)%nat) (fun i _ => Rle_0_sqr _)). lra. }
  assert (H2 : rsum_n (n - m) (fun q => f (q + m)%nat * f (q + m)%nat) <= rsum_n n (fun q => f q * f q)).
  { replace n with (m + (n - m))%nat at 2 by lia. rewrite rsum_n_split.
    pose proof (rsum_n_nonneg m (fun i => f i * f i) (fun i _ => Rle_0_sqr _)).
    rewrite (rsum_n_ext (n - m) _ (fun i => f (m + i)%nat * f (m + i)%nat)); [lra|]. intros i _. rewrite Nat.add_comm. reflexivity. }
  apply Rabs_le. split.
  - apply Rle_trans with (rsum_n (n - m) (fun q => (- (1/2)) * (f q * f q + f (q + m)%nat * f (q + m)%nat))).
    + rewrite rsum_n_scal, rsum_n_plus. lra.
    + apply rsum_n_le. intros i _. pose proof (Rle_0_sqr (f i + f (i + m)%nat)) as H. unfold Rsqr in H. lra.
  - apply Rle_trans with (rsum_n (n - m) (fun q => (1/2) * (f q * f q + f (q + m)%nat * f (q + m)%nat))).
    + apply rsum_n_le. intros i _. pose proof (Rle_0_sqr (f i - f (i + m)%nat)) as H. unfold Rsqr in H. lra.
    + rewrite rsum_n_scal, rsum_n_plus. lra.
Qed.

(** Cauchy-Schwarz *)
Lemma cauchy n f g : rsum_n n (fun q => f q * g q) * rsum_n n (fun q => f q * g q) <=
  rsum_n n (fun q => f q * f q) * rsum_n n (fun q => g q * g q).
Proof.
  set (A := rsum_n n (fun q => f q * f q)). set (B := rsum_n n (fun q => g q * g q)). set (C := rsum_n n (fun q => f q * g q)).
  assert (HA : 0 <= A) by (apply rsum_n_nonneg; intros; apply Rle_0_sqr).
  assert (HB : 0 <= B) by (apply rsum_n_nonneg; intros; apply Rle_0_sqr).
  assert (Q : forall s t, 0 <= s * s * A + 2 * s * t * C + t * t * B).
  { intros s t. replace (s * s * A + 2 * s * t * C + t * t * B) with (rsum_n n (fun q => (s * f q + t * g q) * (s * f q + t * g q))).
    - apply rsum_n_nonneg. intros; apply Rle_0_sqr.
    - unfold A, B, C. rewrite <- !rsum_n_scal, <- !rsum_n_plus. apply rsum_n_ext. intros. ring. }
  destruct (Rle_lt_or_eq_dec 0 A HA) as [HA'|HA'].
  - pose proof (Q C (- A)) as H. replace (C * C * A + 2 * C * - A * C + - A * - A * B) with (A * (A * B - C * C)) in H by ring.
    destruct (Rle_or_lt (C * C) (A * B)) as [H'|H']; [exact H'|]. exfalso.
    assert (A * (A * B - C * C) < A * 0) by (apply Rmult_lt_compat_l; lra). lra.
  - destruct (Rle_lt_or_eq_dec 0 B HB) as [HB'|HB'].
    + pose proof (Q (- B) C) as H. replace (- B * - B * A + 2 * - B * C * C + C * C * B) with (B * (A * B - C * C)) in H by ring.
      destruct (Rle_or_lt (C * C) (A * B)) as [H'|H']; [exact H'|]. exfalso.
      assert (B * (A * B - C * C) < B * 0) by (apply Rmult_lt_compat_l; lra). lra.
    + pose proof (Q 1 C) as H. pose proof (Q 1 (- C)) as H'. rewrite <- HA', <- HB' in *. lra.
Qed.

Lemma term_le n f i : (i < n)%nat -> (forall q, (q < n)%nat -> 0 <= f q) -> f i <= rsum_n n f.
Proof.
  induction n as [|n IH]; intros Hi H; [lia|]. rewrite rsum_n_S.
  assert (H0 : 0 <= rsum_n n f) by (apply rsum_n_nonneg; intros; apply H; lia). pose proof (H n (Nat.lt_succ_diag_r n)).
  destruct (Nat.eq_dec i n) as [->|Hne]; [lra|]. assert (f i <= rsum_n n f) by (apply IH; [lia|intros; apply H; lia]). lra.
Qed.

Lemma rweight_range wgt a x : 0 < a -> 0 <= x -> 0 <= rweight wgt a x <= 1.
Proof.
  intros Ha Hx. unfold rweight. assert (H0 : 0 <= x / a) by (apply Rmult_le_pos; [exact Hx|]; left; apply Rinv_0_lt_compat; exact Ha).
  assert (G : forall y, 0 <= y -> 0 <= / (1 + y) <= 1).
  { intros y Hy. split; [left; apply Rinv_0_lt_compat; lra|]. rewrite <- Rinv_1 at 2. apply Rinv_le_contravar; lra. }
  destruct (String.eqb _ _); [apply G; exact H0|]. destruct (String.eqb _ _); [apply G; apply Rmult_le_pos; exact H0|].
  split; [left; apply exp_pos|]. rewrite <- exp_0.
  assert (Hle : - (x * x) / (2 * a * a) <= 0).
  { unfold Rdiv. assert (0 < / (2 * a * a)) by (apply Rinv_0_lt_compat; apply Rmult_lt_0_compat; lra).
    assert (0 <= x * x) by (apply Rmult_le_pos; exact Hx).
    assert (0 <= x * x * / (2 * a * a)) by (apply Rmult_le_pos; lra). lra. }
  destruct Hle as [Hlt|Heq]; [left; apply exp_increasing; exact Hlt|rewrite Heq; lra].
Qed.

Lemma weighted_bound n N (w f : nat -> R) (s : nat -> nat) : (n <= N)%nat -> (forall q, (q < n)%nat -> 0 <= w q <= 1 /\ (s q < N)%nat) ->
  let P := rsum_n n (fun q => w q * f q * f (s q)) in let D := rsum_n N (fun q => f q * f q) in
  P * P <= INR N * (D * D).
Proof.
  intros Hn H P D.
  assert (HD : 0 <= D) by (apply rsum_n_nonneg; intros; apply Rle_0_sqr).
  pose proof (cauchy n f (fun q => w q * f (s q))) as C. cbv beta in C.
  rewrite (rsum_n_ext n (fun q => f q * (w q * f (s q))) (fun q => w q * f q * f (s q))) in C by (intros; ring).
  fold P in C. eapply Rle_trans; [exact C|].
  assert (H1 : rsum_n n (fun q => f q * f q) <= D).
  { unfold D. replace N with (n + (N - n))%nat by lia. rewrite rsum_n_split.
    pose proof (rsum_n_nonneg (N - n) (fun i => f (n + i)%nat * f (n + i)%nat) (fun i _ => Rle_0_sqr _)). lra. }
  assert (H2 : rsum_n n (fun q => w q * f (s q) * (w q * f (s q))) <= INR N * D).
  { apply Rle_trans with (rsum_n n (fun _ => D)).
    - apply rsum_n_le. intros q Hq. destruct (H q Hq) as [[W0 W1] Hs].
      apply Rle_trans with (f (s q) * f (s q)).
      + replace (w q * f (s q) * (w q * f (s q))) with ((w q * w q) * (f (s q) * f (s q))) by ring.
        rewrite <- (Rmult_1_l (f (s q) * f (s q))) at 2. apply Rmult_le_compat_r; [apply Rle_0_sqr|].
        rewrite <- (Rmult_1_l 1). apply Rmult_le_compat; lra.
      + unfold D. apply (term_le N (fun q => f q * f q) (s q) Hs). intros; apply Rle_0_sqr.
    - assert (Hc : forall k, rsum_n k (fun _ => D) = INR k * D).
      { induction k as [|k IH]; [rewrite rsum_n_0; cbn; lra|]. rewrite rsum_n_S, IH, S_INR. lra. }
      rewrite Hc. apply Rmult_le_compat_r; [exact HD|]. apply le_INR. exact Hn. }
  assert (H0 : 0 <= rsum_n n (fun q => f q * f q)) by (apply rsum_n_nonneg; intros; apply Rle_0_sqr).
  assert (H3 : 0 <= rsum_n n (fun q => w q * f (s q) * (w q * f (s q)))) by (apply rsum_n_nonneg; intros; apply Rle_0_sqr).
  replace (INR N * (D * D)) with (D * (INR N * D)) by ring. apply Rmult_le_compat; assumption.
Qed.

Lemma quotient_bound P D K : 0 < D -> 0 <= K -> P * P <= K * (D * D) -> exists v, xdiv (Fin P) (Fin D) = Fin v /\ v * v <= K.
Proof.
  intros HD HK H. cbn. unfold Reqb. destruct (Req_EM_T D 0); [lra|]. exists (P / D). split; [reflexivity|].
  replace (P / D * (P / D)) with (P * P * / (D * D)) by (field; lra).
  assert (0 < D * D) by (apply Rmult_lt_0_compat; exact HD).
  apply Rmult_le_reg_r with (D * D); [assumption|]. rewrite Rmult_assoc, Rinv_l, Rmult_1_r by lra. exact H.
Qed.

Lemma grid_bound p d mi ma re al wgt lags corr c rows j i (rs : list R) (t0 dd a : R) (M m : nat) v w :
  accepted d -> autocorrelation (A := XR) p d mi ma re al "natural" wgt = Ok (lags, corr, c) ->
  data_2d d = Ok rows -> nth_error rows j = Some (map Fin rs) -> nth_error lags i = Some (Fin (INR m * dd)) ->
  timeseries d = map Fin (grid t0 dd M) -> 0 < dd -> opt_or al (median_time d) = Fin a -> 0 < a ->
  Forall single rs -> In v rs -> In w rs -> v <> w ->
  exists r, corr_at corr j i = Some (Fin r) /\ -1 <= r <= 1.
Proof.
  intros Ha E Hd Hj Hi Ht Hdd Hal Hpos Hs Hv Hw Hne.
  destruct (grid_value_pos p d mi ma re al wgt lags corr c rows j i rs t0 dd a M m Ha E Hd Hj Hi Ht Hdd Hal Hpos) as [HL [HM HV]].
  rewrite (sq_dev_single rs Hs) in HV. pose proof (sq_dev_pos rs v w Hv Hw Hne) as HD. rewrite HV.
  set (P := rsum_n (M - m) (fun q => dev rs q * dev rs (q + m))).
  assert (HP : Rabs P <= sq_dev rs).
  { rewrite sq_dev_n, HL. destruct (Nat.le_gt_cases m M) as [Hm|Hm]; [apply cross_bound; exact Hm|].
    unfold P. replace (M - m)%nat with 0%nat by lia. rewrite rsum_n_0, Rabs_R0. apply rsum_n_nonneg. intros; apply Rle_0_sqr. }
  cbn. unfold Reqb. destruct (Req_EM_T (sq_dev rs) 0); [lra|]. eexists. split; [reflexivity|].
  assert (-(sq_dev rs) <= P <= sq_dev rs) by (revert HP; unfold Rabs; destruct (Rcase_abs P); intros; split; lra).
  split; (apply Rmult_le_reg_r with (sq_dev rs); [exact HD|]); unfold Rdiv; rewrite Rmult_assoc, Rinv_l, Rmult_1_r by lra; lra.
Qed.

Lemma any_bound p d mi ma re al sel wgt lags corr c rows j i (rs ts : list R) (kk a : R) v w :
  accepted d -> autocorrelation (A := XR) p d mi ma re al sel wgt = Ok (lags, corr, c) ->
  data_2d d = Ok rows -> nth_error rows j = Some (map Fin rs) -> nth_error lags i = Some (Fin kk) ->
  timeseries d = map Fin ts -> opt_or al (median_time d) = Fin a -> 0 < a ->
  Forall single rs -> In v rs -> In w rs -> v <> w ->
  exists r, corr_at corr j i = Some (Fin r) /\ r * r <= INR (length ts).
Proof.
  intros Ha E Hd Hj Hi Ht Hal Hpos Hs Hv Hw Hne.
  destruct (exact_value p d mi ma re al _ wgt lags corr c rows j i rs ts kk a Ha E Hd Hj Hi Ht Hal Hpos)
    as [sf [sidx [Sv [_ [_ [En [HS [Hn [HL [K1 [K2 HV]]]]]]]]]]].
  rewrite (sq_dev_single rs Hs) in HV. pose proof (sq_dev_pos rs v w Hv Hw Hne) as HD. rewrite HV.
  set (P := rsum_n (length sidx) _).
  destruct (quotient_bound P (sq_dev rs) (INR (length ts)) HD (pos_INR _)) as [r [-> Hr]]; [|exists r; auto].
  rewrite sq_dev_n, HL. unfold P.
  apply (weighted_bound (length sidx) (length ts) (fun q => rweight wgt a (dist p (nth (nth q sidx 0%nat) ts 0 - (nth q ts 0 + kk))))
           (dev rs) (fun q => nth q sidx 0%nat) K1).
  intros q Hq. split; [apply rweight_range; [exact Hpos|apply dist_pos]|]. apply K2. apply nth_In. exact Hq.
Qed.

(** ** the fast selection *)
Lemma fast_negative_value p d mi ma re al wgt lags corr c rows j i (rs ts : list R) (kk a : R) :
  accepted d -> autocorrelation (A := XR) p d mi ma re al "fast" wgt = Ok (lags, corr, c) ->
  data_2d d = Ok rows -> nth_error rows j = Some (map Fin rs) -> nth_error lags i = Some (Fin kk) -> kk < 0 ->
  timeseries d = map Fin ts -> increasing (A := XR) (timeseries d) -> opt_or al (median_time d) = Fin a -> 0 < a ->
  corr_at corr j i = Some (xdiv (Fin (rweight wgt a (dist p (- kk)) * sq_dev rs)) (Fin (sq_dev32 rs))).
Proof.
  intros Ha E Hd Hj Hi Hk Ht Hinc Hal Hpos.
  destruct (exact_value p d mi ma re al _ wgt lags corr c rows j i rs ts kk a Ha E Hd Hj Hi Ht Hal Hpos)
    as [sf [sidx [Sv [Hs [_ [En [HS [Hn [HL [K1 [K2 HV]]]]]]]]]]].
  destruct (times_exact d ts En Ht Hinc) as [Hto Hinc'].
  injection Hs as <-. destruct (fast_run p d (Fin kk) 1 sidx Sv HS) as [it [Hrun Hsel]].
  pose proof (fast_negative (A := XR) p d (Fin kk) 1 it Ha Hto Hinc' (proj2 (nlt_Fin kk 0) Hk) Hrun) as Hf. cbv zeta in Hf. destruct Hf as [_ Hf].
  assert (Es : sidx = seq 0 (length ts)).
  { rewrite <- Hsel. replace (length ts) with (length (normalised_timeseries d)) by (rewrite En, !map_length; reflexivity).
    destruct (lback (normalised_timeseries d)) as [back|e|u|] eqn:Hb.
    - apply (Hf back eq_refl). destruct (back_In _ _ Hb) as [B1 _]. rewrite En in B1. apply in_map_iff in B1. destruct B1 as [r [<- _]].
      change (@nlt XR (Fin (r + kk)) (Fin r) = true). apply nlt_Fin. lra.
    - exfalso. rewrite (lback_ok _ (Fin 0)) in Hb; [discriminate|]. rewrite En. destruct ts; [destruct rs; [congruence|discriminate]|discriminate].
    - exfalso. rewrite (lback_ok _ (Fin 0)) in Hb; [discriminate|]. rewrite En. destruct ts; [destruct rs; [congruence|discriminate]|discriminate].
    - exfalso. rewrite (lback_ok _ (Fin 0)) in Hb; [discriminate|]. rewrite En. destruct ts; [destruct rs; [congruence|discriminate]|discriminate]. }
  rewrite HV. do 3 f_equal. rewrite Es, seq_length, sq_dev_n, <- rsum_n_scal, HL. apply rsum_n_ext. intros q Hq.
  rewrite seq_nth by exact Hq. cbn [Nat.add]. replace (nth q ts 0 - (nth q ts 0 + kk)) with (- kk) by ring. ring.
Qed.

Lemma fast_zero_value p d mi ma re al wgt lags corr c rows j i (rs ts : list R) (a : R) :
  accepted d -> autocorrelation (A := XR) p d mi ma re al "fast" wgt = Ok (lags, corr, c) ->
  data_2d d = Ok rows -> nth_error rows j = Some (map Fin rs) -> nth_error lags i = Some (Fin 0) ->
  timeseries d = map Fin ts -> increasing (A := XR) (timeseries d) -> opt_or al (median_time d) = Fin a -> 0 < a ->
  corr_at corr j i = Some (xdiv (Fin (sq_dev rs - dev rs (length rs - 1) * dev rs (length rs - 1))) (Fin (sq_dev32 rs))).
Proof.
  intros Ha E Hd Hj Hi Ht Hinc Hal Hpos.
  destruct (exact_value p d mi ma re al _ wgt lags corr c rows j i rs ts 0 a Ha E Hd Hj Hi Ht Hal Hpos)
    as [sf [sidx [Sv [Hs [_ [En [HS [Hn [HL [K1 [K2 HV]]]]]]]]]]].
  destruct (times_exact d ts En Ht Hinc) as [Hto Hinc'].
  injection Hs as <-. destruct (fast_run p d (Fin 0) 1 sidx Sv HS) as [it [Hrun Hsel]].
  assert (Hz : @neqb XR (Fin 0) (@nzero XR) = true) by (cbn; unfold Reqb; destruct (Req_EM_T 0 0); congruence).
  pose proof (fast_zero (A := XR) p d (Fin 0) 1 it Ha Hto Hinc' Hz Hrun) as Hf.
  assert (Es : sidx = seq 0 (length ts - 1)) by (rewrite <- Hsel, Hf, En, !map_length; reflexivity).
  rewrite HV. do 3 f_equal. rewrite Es, seq_length, sq_dev_n, HL.
  assert (H0 : (0 < length ts)%nat) by (rewrite <- HL; destruct rs; [congruence|cbn; lia]).
  replace (length ts) with (S (length ts - 1)) at 2 by lia. rewrite rsum_n_S.
  match goal with |- _ = ?x + ?y - ?y => replace (x + y - y) with x by ring end. apply rsum_n_ext. intros q Hq.
  rewrite seq_nth by exact Hq. cbn [Nat.add]. replace (nth q ts 0 - (nth q ts 0 + 0)) with 0 by ring.
  rewrite dist_0, rweight_0 by exact Hpos. ring.
Qed.
