(** Evenly sampled data with points missing. *)
From Coq Require Import String.
From Coq Require Import ZArith Reals List Bool Arith Lia Lra.
From Flocq Require Import Core.
From Verif Require Import Num Mem XR B64 Spec SpecR SpecTime SpecGaps DataStructure Correlator Sacf Api SelFacts ValFacts ExactFacts GridVals GridSums PairBounds TimeCloseFacts.
Import ListNotations.
Local Open Scope list_scope.
Local Open Scope R_scope.

Lemma rsum_n_single n f z : (z < n)%nat -> (forall i, (i < n)%nat -> i <> z -> f i = 0) -> rsum_n n f = f z.
Proof.
  intros Hz H. replace n with (z + S (n - S z))%nat by lia. rewrite rsum_n_split, rsum_n_first.
  rewrite rsum_n_const0 by (intros i Hi; apply H; lia). rewrite (rsum_n_const0 (n - S z)) by (intros i Hi; apply H; lia).
  rewrite Nat.add_0_r. lra.
Qed.

Lemma on_grid_length t0 dd ns : length (on_grid t0 dd ns) = length ns.
Proof. apply map_length. Qed.

Lemma on_grid_nth t0 dd ns q : (q < length ns)%nat -> nth q (on_grid t0 dd ns) 0 = t0 + IZR (nth q ns 0%Z) * dd.
Proof.
  intros H. unfold on_grid. rewrite (nth_indep _ 0 (t0 + IZR 0 * dd)) by (rewrite map_length; exact H). apply (map_nth (fun k => t0 + IZR k * dd)).
Qed.

Lemma gap_grid t0 dd ns m q x : (q < length ns)%nat -> (x < length ns)%nat ->
  gap (on_grid t0 dd ns) (IZR m * dd) q x = IZR (nth x ns 0%Z - (nth q ns 0%Z + m)) * dd.
Proof. intros Hq Hx. unfold gap. rewrite !on_grid_nth by assumption. rewrite minus_IZR, plus_IZR. ring. Qed.

Lemma rising_last ns z : rising ns -> (z < length ns)%nat -> (nth z ns 0 <= nth (length ns - 1) ns 0)%Z.
Proof. intros H Hz. destruct (Nat.eq_dec z (length ns - 1)) as [->|N]; [lia|]. apply Z.lt_le_incl, H; lia. Qed.

Lemma rising_inj ns x y : rising ns -> (x < length ns)%nat -> (y < length ns)%nat -> nth x ns 0%Z = nth y ns 0%Z -> x = y.
Proof. intros H Hx Hy E. destruct (Nat.lt_trichotomy x y) as [L|[L|L]]; [|exact L|]; apply H in L; try assumption; lia. Qed.

Lemma abs_grid dd k : 0 < dd -> Rabs (IZR k * dd) = IZR (Z.abs k) * dd.
Proof. intros H. rewrite Rabs_mult, (Rabs_pos_eq dd), <- abs_IZR by lra. reflexivity. Qed.

Lemma rweight_mono wgt a x y : 0 < a -> 0 <= x -> x <= y -> rweight wgt a y <= rweight wgt a x.
Proof.
  intros Ha Hx Hy. assert (G : x / a <= y / a) by (apply Rmult_le_compat_r; [left; apply Rinv_0_lt_compat, Ha|exact Hy]).
  assert (G0 : 0 <= x / a) by (apply Rmult_le_pos; [exact Hx|left; apply Rinv_0_lt_compat, Ha]).
  unfold rweight. destruct (String.eqb wgt "fractional"); [apply Rinv_le_contravar; lra|].
  destruct (String.eqb wgt "fractional_squared"); [apply Rinv_le_contravar; nra|].
  assert (H : - (y * y) / (2 * a * a) <= - (x * x) / (2 * a * a)).
  { apply Rmult_le_compat_r; [left; apply Rinv_0_lt_compat; nra|]. nra. }
  destruct H as [H|H]; [left; apply exp_increasing, H|rewrite H; right; reflexivity].
Qed.

Section Gaps.
Variables (t0 dd a : R) (ns : list Z) (m : Z) (wgt : string) (rs : list R).
Hypotheses (Hdd : 0 < dd) (Hns : rising ns) (Ha : 0 < a).
Let ts := on_grid t0 dd ns.
Let kk := IZR m * dd.
Let M := length ns.

Lemma partner_sum q z : (q < M)%nat -> (z < M)%nat -> nth z ns 0%Z = (nth q ns 0 + m)%Z ->
  rsum_n M (fun z => if steps ns m q z then dev rs q * dev rs z else 0) = dev rs q * dev rs z.
Proof.
  intros Hq Hz E. rewrite (rsum_n_single M _ z Hz).
  - unfold steps. rewrite E, Z.eqb_refl. reflexivity.
  - intros i Hi N. unfold steps. destruct (Z.eqb_spec (nth i ns 0%Z) (nth q ns 0 + m)%Z) as [G|G]; [|reflexivity].
    exfalso. apply N. apply (rising_inj ns); [exact Hns|assumption..|lia].
Qed.

Lemma no_partner_sum q : existsb (fun k => k =? nth q ns 0 + m)%Z ns = false ->
  rsum_n M (fun z => if steps ns m q z then dev rs q * dev rs z else 0) = 0.
Proof.
  intros H. apply rsum_n_const0. intros z Hz. unfold steps. destruct (nth z ns 0 =? nth q ns 0 + m)%Z eqn:G; [|reflexivity].
  exfalso. rewrite <- not_true_iff_false in H. apply H, existsb_exists. exists (nth z ns 0%Z). split; [apply nth_In, Hz|exact G].
Qed.

Lemma gaps_sum (s : list nat) (os : list R) :
  (length s <= M)%nat ->
  (forall q, (q < M)%nat -> ((q < length s)%nat <-> 0 <= gap ts kk q (M - 1))) ->
  (forall q, (q < length s)%nat -> (nth q s 0 < M)%nat /\ nth q os 0 = Rabs (gap ts kk q (nth q s 0%nat)) /\
     forall z, (z < M)%nat -> Rabs (gap ts kk q (nth q s 0%nat)) <= Rabs (gap ts kk q z)) ->
  let n := fun q => nth q ns 0%Z in
  let s' := fun q => nth q s 0%nat in
  (forall q, (q < M)%nat -> lonely ns m q = true -> (s' q < M)%nat /\ (1 <= Z.abs (n (s' q) - (n q + m)))%Z /\
     forall z, (z < M)%nat -> (Z.abs (n (s' q) - (n q + m)) <= Z.abs (n z - (n q + m)))%Z) /\
  rsum_n (length s) (fun q => rweight wgt a (nth q os 0) * (dev rs q * dev rs (nth q s 0%nat))) =
  pair_sum ns m rs + rsum_n M (fun q => if lonely ns m q then rweight wgt a (IZR (Z.abs (n (s' q) - (n q + m))) * dd) * (dev rs q * dev rs (s' q)) else 0).
Proof.
  intros L HL HS n s'.
  assert (HL' : forall q, (q < M)%nat -> ((q < length s)%nat <-> (n q + m <= n (M - 1)%nat)%Z)).
  { intros q Hq. rewrite (HL q Hq). unfold ts, kk. rewrite gap_grid by lia. fold (n q) (n (M - 1)%nat). split; intros G.
    - apply le_IZR. destruct (Rle_or_lt 0 (IZR (n (M - 1)%nat - (n q + m)))) as [G'|G']; [apply le_IZR in G'; apply IZR_le; lia|exfalso; nra].
    - apply Rmult_le_pos; [apply IZR_le; lia|lra]. }
  assert (HS' : forall q, (q < length s)%nat -> (s' q < M)%nat /\ nth q os 0 = IZR (Z.abs (n (s' q) - (n q + m))) * dd /\
     forall z, (z < M)%nat -> (Z.abs (n (s' q) - (n q + m)) <= Z.abs (n z - (n q + m)))%Z).
  { intros q Hq. destruct (HS q Hq) as [H1 [H2 H3]]. split; [exact H1|]. split.
    - rewrite H2. unfold ts, kk. rewrite gap_grid by (fold M; lia || exact H1). rewrite abs_grid by exact Hdd. reflexivity.
    - intros z Hz. specialize (H3 z Hz). unfold ts, kk in H3. rewrite !gap_grid in H3 by (fold M; lia || assumption). rewrite !abs_grid in H3 by exact Hdd.
      apply Rmult_le_reg_r in H3; [|exact Hdd]. apply le_IZR in H3. exact H3. }
  split.
  - intros q Hq G. unfold lonely in G. apply andb_true_iff in G. destruct G as [G1 G2]. apply Z.leb_le in G1.
    assert (Hs : (q < length s)%nat) by (apply HL'; [exact Hq|exact G1]). destruct (HS' q Hs) as [H1 [_ H3]]. split; [exact H1|]. split; [|exact H3].
    apply negb_true_iff, not_true_iff_false in G2. destruct (Z.eq_dec (n (s' q)) (n q + m)) as [E|E]; [|lia].
    exfalso. apply G2, existsb_exists. exists (n (s' q)). split; [apply nth_In, H1|apply Z.eqb_eq, E].
  - transitivity (rsum_n M (fun q => if (q <? length s)%nat then rweight wgt a (nth q os 0) * (dev rs q * dev rs (nth q s 0%nat)) else 0)).
    { replace M with (length s + (M - length s))%nat by lia. rewrite rsum_n_split, (rsum_n_const0 (M - length s)), Rplus_0_r.
      - apply rsum_n_ext. intros q Hq. destruct (Nat.ltb_spec q (length s)); [reflexivity|lia].
      - intros q Hq. destruct (Nat.ltb_spec (length s + q) (length s)); [lia|reflexivity]. }
    unfold pair_sum. fold M. rewrite <- rsum_n_plus. apply rsum_n_ext. intros q Hq. unfold lonely. fold M.
    destruct (existsb (fun k => k =? nth q ns 0 + m)%Z ns) eqn:EX; rewrite ?andb_false_r, ?andb_true_r; cbn [negb]; rewrite ?andb_false_r, ?andb_true_r.
    + apply existsb_exists in EX. destruct EX as [k [Hk E]]. apply Z.eqb_eq in E. apply (In_nth _ _ 0%Z) in Hk. destruct Hk as [z [Hz Ez]]. subst k.
      rewrite (partner_sum q z Hq Hz E), Rplus_0_r.
      assert (Hs : (q < length s)%nat) by (apply HL'; [exact Hq|]; unfold n; rewrite <- E; apply rising_last; assumption).
      destruct (Nat.ltb_spec q (length s)); [|lia]. destruct (HS' q Hs) as [H1 [H2 H3]]. specialize (H3 z Hz). unfold n in H3 at 3. rewrite E, Z.sub_diag in H3.
      assert (E0 : (n (s' q) - (n q + m) = 0)%Z) by (unfold n in *; lia). rewrite H2, E0. cbn [Z.abs]. rewrite Rmult_0_l, rweight_0, Rmult_1_l by exact Ha.
      do 2 f_equal. apply (rising_inj ns); [exact Hns|exact H1|exact Hz|]. fold (s' q) (n (s' q)). rewrite E. unfold n in *. lia.
    + rewrite no_partner_sum, Rplus_0_l by exact EX. fold (n q) (n (M - 1)%nat).
      destruct (Nat.ltb_spec q (length s)) as [Hs|Hs].
      * destruct (Z.leb_spec (n q + m) (n (M - 1)%nat)) as [G|G]; [|apply HL' in Hs; [lia|exact Hq]].
        destruct (HS' q Hs) as [_ [-> _]]. reflexivity.
      * destruct (Z.leb_spec (n q + m) (n (M - 1)%nat)) as [G|G]; [|reflexivity]. apply HL' in G; [lia|exact Hq].
Qed.

Lemma lonely_count f K : 0 <= K -> (forall q, (q < M)%nat -> lonely ns m q = true -> Rabs (f q) <= K) ->
  Rabs (rsum_n M (fun q => if lonely ns m q then f q else 0)) <= INR (n_lonely ns m) * K.
Proof.
  intros HK H. unfold n_lonely. fold M.
  assert (G : forall l, (forall q, In q l -> (q < M)%nat) -> Rabs (rsum (map (fun q => if lonely ns m q then f q else 0) l)) <= INR (length (filter (lonely ns m) l)) * K).
  { induction l as [|q l IH]; intros Hl; [cbn; rewrite Rabs_R0; lra|]. unfold rsum in *. cbn [map fold_right filter].
    eapply Rle_trans; [apply Rabs_triang|]. specialize (IH (fun x Hx => Hl x (or_intror Hx))). destruct (lonely ns m q) eqn:E.
    - cbn [length]. rewrite S_INR. specialize (H q (Hl q (or_introl eq_refl)) E). lra.
    - rewrite Rabs_R0. lra. }
  apply G. intros q Hq. apply in_seq in Hq. lia.
Qed.
End Gaps.


Lemma on_grid_increasing t0 dd ns : 0 < dd -> rising ns -> increasing (A := XR) (map Fin (on_grid t0 dd ns)).
Proof.
  intros Hd Hr.
  assert (S : forall i j a b, (i <= j)%nat -> nth_error (map Fin (on_grid t0 dd ns)) i = Some a -> nth_error (map Fin (on_grid t0 dd ns)) j = Some b ->
            exists x y, a = Fin x /\ b = Fin y /\ x <= y /\ ((i < j)%nat -> x < y)).
  { intros i j a b Hij Ha Hb. rewrite nth_error_map in Ha, Hb.
    destruct (Nat.lt_ge_cases j (length ns)) as [Hj|Hj].
    2:{ replace (nth_error (on_grid t0 dd ns) j) with (@None R) in Hb by (symmetry; apply nth_error_None; rewrite on_grid_length; exact Hj). discriminate. }
    rewrite (nth_error_nth' _ 0), on_grid_nth in Ha by (rewrite ?on_grid_length; lia). rewrite (nth_error_nth' _ 0), on_grid_nth in Hb by (rewrite ?on_grid_length; lia). injection Ha as <-. injection Hb as <-. do 2 eexists. do 2 (split; [reflexivity|]).
    assert (L : (i < j)%nat -> t0 + IZR (nth i ns 0%Z) * dd < t0 + IZR (nth j ns 0%Z) * dd).
    { intros Hl. pose proof (IZR_lt _ _ (Hr i j Hl Hj)). apply Rplus_lt_compat_l, Rmult_lt_compat_r; lra. }
    split; [|exact L]. destruct (Nat.eq_dec i j) as [->|N]; [lra|]. left. apply L. lia. }
  split; intros i j a b Hij Ha Hb.
  - destruct (S i j a b Hij Ha Hb) as [x [y [-> [-> [H _]]]]]. apply nle_Fin. exact H.
  - destruct (S i j a b (Nat.lt_le_incl _ _ Hij) Ha Hb) as [x [y [-> [-> [_ H]]]]]. apply nlt_Fin. apply H. exact Hij.
Qed.

Lemma on_grid_times_ok t0 dd ns (d : @dstruct XR) : 0 < dd -> rising ns -> accepted d -> timeseries d = map Fin (on_grid t0 dd ns) -> times_ok (A := XR) d.
Proof.
  intros Hdd Hr Ha Ht.
  destruct (accepted_times d Ha) as [tx [data [er [N [Ed [Hnil [Ent _]]]]]]].
  assert (Etx : tx = map Fin (on_grid t0 dd ns)) by (rewrite <- Ht, Ed; reflexivity). rewrite Etx, rel_times_Fin in Ent.
  refine (proj1 (times_exact d (on_grid t0 dd ns) Ent Ht _)). rewrite Ht. apply on_grid_increasing; assumption.
Qed.

Lemma gaps_value p d mi ma re al wgt lags corr c rows j i (rs : list R) (t0 dd a : R) ns m :
  accepted d -> autocorrelation (A := XR) p d mi ma re al "natural" wgt = Ok (lags, corr, c) -> p_abs p = AbsFloat ->
  data_2d d = Ok rows -> nth_error rows j = Some (map Fin rs) -> nth_error lags i = Some (Fin (IZR m * dd)) ->
  timeseries d = map Fin (on_grid t0 dd ns) -> rising ns -> 0 < dd -> opt_or (A := XR) al (median_time d) = Fin a -> 0 < a -> 0 < sq_dev32 rs ->
  let n := fun q => nth q ns 0%Z in
  exists s : nat -> nat,
  (forall q, (q < length ns)%nat -> lonely ns m q = true -> (s q < length ns)%nat /\ (1 <= Z.abs (n (s q) - (n q + m)))%Z /\
     forall z, (z < length ns)%nat -> (Z.abs (n (s q) - (n q + m)) <= Z.abs (n z - (n q + m)))%Z) /\
  corr_at corr j i = Some (Fin ((pair_sum ns m rs +
     rsum_n (length ns) (fun q => if lonely ns m q then rweight wgt a (IZR (Z.abs (n (s q) - (n q + m))) * dd) * (dev rs q * dev rs (s q)) else 0)) / sq_dev32 rs)).
Proof.
  intros Ha E Hp Hd Hj Hi Ht Hns Hdd Hal Hpos HD n.
  destruct (call_pairs p d mi ma re al "natural" wgt lags corr c rows j i rs _ _ Ha E Hd Hj Hi Ht) as [f [s [os [Hf [HP _]]]]].
  pose proof Hf as Hg. injection Hf as <-. pose proof (on_grid_times_ok t0 dd ns d Hdd Hns Ha Ht) as Hok.
  destruct (natural_exact p d _ _ s os _ Ha Hok Hp Ht HP) as [H1 [H2 H3]]. rewrite on_grid_length in H1, H2, H3.
  destruct (value_exact_pairs p d mi ma re al "natural" wgt lags corr c rows j i rs _ os _ a _ _ s Ha E Hd Hj Hi Ht Hal Hpos Hg HP) as [_ [_ [_ [_ [_ [_ HV]]]]]].
  destruct (gaps_sum t0 dd a ns m wgt rs Hdd Hns Hpos s os H1 H2 H3) as [K1 K2].
  exists (fun q => nth q s 0%nat). split; [exact K1|]. rewrite HV. cbn [xdiv]. unfold Reqb. destruct (Req_EM_T (sq_dev32 rs) 0); [lra|].
  rewrite K2. reflexivity.
Qed.

Lemma gaps_close p d mi ma re al wgt lags corr c rows j i (rs : list R) (t0 dd a : R) ns m B :
  accepted d -> autocorrelation (A := XR) p d mi ma re al "natural" wgt = Ok (lags, corr, c) -> p_abs p = AbsFloat ->
  data_2d d = Ok rows -> nth_error rows j = Some (map Fin rs) -> nth_error lags i = Some (Fin (IZR m * dd)) ->
  timeseries d = map Fin (on_grid t0 dd ns) -> rising ns -> 0 < dd -> opt_or (A := XR) al (median_time d) = Fin a -> 0 < a -> 0 < sq_dev32 rs ->
  (forall q, (q < length ns)%nat -> Rabs (dev rs q) <= B) ->
  exists r, corr_at corr j i = Some (Fin r) /\
    Rabs (r - pair_sum ns m rs / sq_dev32 rs) <= INR (n_lonely ns m) * rweight wgt a dd * (B * B) / sq_dev32 rs.
Proof.
  intros Ha E Hp Hd Hj Hi Ht Hns Hdd Hal Hpos HD HB.
  destruct (gaps_value p d mi ma re al wgt lags corr c rows j i rs t0 dd a ns m Ha E Hp Hd Hj Hi Ht Hns Hdd Hal Hpos HD) as [s [HS HV]].
  cbv zeta in HS, HV. eexists. split; [exact HV|]. set (X := rsum_n _ _).
  replace ((pair_sum ns m rs + X) / sq_dev32 rs - pair_sum ns m rs / sq_dev32 rs) with (X / sq_dev32 rs) by (field; lra).
  unfold Rdiv. rewrite Rabs_mult, (Rabs_pos_eq (/ sq_dev32 rs)) by (left; apply Rinv_0_lt_compat, HD).
  apply Rmult_le_compat_r; [left; apply Rinv_0_lt_compat, HD|]. rewrite Rmult_assoc. subst X.
  pose proof (rweight_range wgt a dd Hpos (Rlt_le _ _ Hdd)) as [W0 _].
  assert (L0 : ns <> []). { intros ->. destruct (accepted_times d Ha) as [tx [data [er [N [Ed [Hnil _]]]]]]. apply Hnil. transitivity (timeseries d); [rewrite Ed; reflexivity|exact Ht]. }
  assert (B0 : 0 <= B) by (apply Rle_trans with (Rabs (dev rs 0)); [apply Rabs_pos|apply HB; destruct ns; [congruence|cbn; lia]]).
  apply lonely_count; [apply Rmult_le_pos; [exact W0|nra]|]. intros q Hq HQ. destruct (HS q Hq HQ) as [S1 [S2 _]].
  assert (G : dd <= IZR (Z.abs (nth (s q) ns 0%Z - (nth q ns 0%Z + m))) * dd) by (apply IZR_le in S2; nra).
  assert (W : 0 <= rweight wgt a (IZR (Z.abs (nth (s q) ns 0%Z - (nth q ns 0%Z + m))) * dd) <= rweight wgt a dd).
  { split; [apply rweight_range; [exact Hpos|lra]|apply rweight_mono; lra]. }
  rewrite Rabs_mult, (Rabs_pos_eq (rweight _ _ _)) by apply W. apply Rmult_le_compat; [apply W|apply Rabs_pos|apply W|].
  rewrite Rabs_mult. apply Rmult_le_compat; try apply Rabs_pos; apply HB; assumption.
Qed.

(** ** no more lonely points than points missing *)
Definition zrange (a : Z) (n : nat) : list Z := map (fun i => a + Z.of_nat i)%Z (seq 0 n).

Lemma zrange_In a n k : (a <= k < a + Z.of_nat n)%Z -> In k (zrange a n).
Proof. intros H. apply in_map_iff. exists (Z.to_nat (k - a)). split; [lia|]. apply in_seq. lia. Qed.

Lemma rising_first ns z : rising ns -> (z < length ns)%nat -> (nth 0 ns 0 <= nth z ns 0)%Z.
Proof. intros H Hz. destruct z as [|z]; [lia|]. apply Z.lt_le_incl, H; lia. Qed.

Lemma rising_NoDup ns : rising ns -> NoDup ns.
Proof. intros H. apply (NoDup_nth ns 0%Z). intros x y Hx Hy E. apply (rising_inj ns); assumption. Qed.

Lemma NoDup_app2 {X} (l k : list X) : NoDup l -> NoDup k -> (forall x, In x l -> ~ In x k) -> NoDup (l ++ k).
Proof.
  induction l as [|a l IH]; intros H1 H2 H3; [exact H2|]. inversion H1 as [|? ? G1 G2]; subst. cbn. constructor.
  - rewrite in_app_iff. intros [G|G]; [exact (G1 G)|exact (H3 a (or_introl eq_refl) G)].
  - apply IH; [exact G2|exact H2|]. intros x Hx. apply H3. right. exact Hx.
Qed.

Lemma NoDup_map2 {X Y} (f : X -> Y) l : (forall x y, In x l -> In y l -> f x = f y -> x = y) -> NoDup l -> NoDup (map f l).
Proof.
  induction l as [|a l IH]; intros H N; [constructor|]. inversion N as [|? ? G1 G2]; subst. cbn. constructor.
  - intros G. apply in_map_iff in G. destruct G as [y [E Hy]]. apply G1. rewrite (H a y); [exact Hy|left; reflexivity|right; exact Hy|symmetry; exact E].
  - apply IH; [|exact G2]. intros x y Hx Hy. apply H; right; assumption.
Qed.

Lemma lonely_holes ns m : rising ns -> ns <> [] ->
  (Z.of_nat (n_lonely ns m) <= nth (length ns - 1) ns 0 - nth 0 ns 0 + 1 - Z.of_nat (length ns) + Z.max 0 (- m))%Z.
Proof.
  intros Hr Hn. assert (L : (0 < length ns)%nat) by (destruct ns; [congruence|cbn; lia]).
  set (lo := (nth 0 ns 0 + Z.min 0 m)%Z). set (hi := nth (length ns - 1) ns 0%Z). set (ls := filter (lonely ns m) (seq 0 (length ns))).
  assert (HL : forall q, In q ls -> (q < length ns)%nat /\ (nth q ns 0 + m <= hi)%Z /\ ~ In (nth q ns 0 + m)%Z ns).
  { intros q Hq. apply filter_In in Hq. destruct Hq as [Hq G]. apply in_seq in Hq. unfold lonely in G. apply andb_true_iff in G. destruct G as [G1 G2].
    split; [lia|]. split; [apply Z.leb_le, G1|]. intros C. apply negb_true_iff, not_true_iff_false in G2. apply G2, existsb_exists. eexists. split; [exact C|apply Z.eqb_refl]. }
  assert (HI : incl (map (fun q => nth q ns 0 + m)%Z ls ++ ns) (zrange lo (Z.to_nat (hi - lo + 1)))).
  { intros k Hk. apply zrange_In. apply in_app_iff in Hk. destruct Hk as [Hk|Hk].
    - apply in_map_iff in Hk. destruct Hk as [q [<- Hq]]. destruct (HL q Hq) as [H1 [H2 _]]. pose proof (rising_first ns q Hr H1). unfold lo. lia.
    - apply (In_nth _ _ 0%Z) in Hk. destruct Hk as [z [Hz <-]]. pose proof (rising_first ns z Hr Hz). pose proof (rising_last ns z Hr Hz). unfold lo, hi. lia. }
  assert (ND : NoDup (map (fun q => nth q ns 0 + m)%Z ls ++ ns)).
  { apply NoDup_app2.
    - apply NoDup_map2; [|apply NoDup_filter, seq_NoDup]. intros x y Hx Hy E. apply (rising_inj ns); [exact Hr|apply HL, Hx|apply HL, Hy|lia].
    - apply rising_NoDup, Hr.
    - intros k Hk. apply in_map_iff in Hk. destruct Hk as [q [<- Hq]]. apply HL, Hq. }
  pose proof (NoDup_incl_length ND HI) as G. rewrite app_length, map_length in G. unfold zrange in G. rewrite map_length, seq_length in G.
  unfold n_lonely. fold ls. pose proof (rising_last ns 0 Hr L) as G0. fold hi in G0 |- *. unfold lo in G. lia.
Qed.
