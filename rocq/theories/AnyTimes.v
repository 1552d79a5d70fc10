(** The natural selection in binary64 for any time stamps, by real numbers. *)
From Coq Require Import String.
From Coq Require Import ZArith Reals List Bool Arith Lia Lra Psatz.
From Flocq Require Import Core BinarySingleNaN.
From Verif Require Import Num Mem MemFacts XR B64 Spec SpecR SpecTime DataStructure Correlator Sacf Api Laws B64Facts Laws2 DSFacts CorrFacts LoopFacts MainFacts
  RelFacts ConstrFacts TimeFacts SelFacts SelThms WeightFacts DefaultFacts WeightAcc ValFacts ExactFacts AccFacts FixedThms PairBounds TimeCloseFacts.
Import ListNotations.
Local Open Scope list_scope.
Local Open Scope R_scope.

(** ** Rounding of the three subtractions and additions *)
Lemma big_2 : 4 * bpow radix2 1021 < big.
Proof. change 4 with (bpow radix2 2). rewrite <- bpow_plus. unfold big. apply bpow_lt. lia. Qed.

Section Times.
Context (exp64 : b64 -> b64).
Notation BN := (B64 exp64).

Lemma finite_is (y : b64) : finite (A := BN) y -> is_finite y = true.
Proof. intros H. destruct y as [s|s| |s m e h]; try reflexivity; exfalso; apply H; reflexivity. Qed.

Lemma nle_R (y z : b64) : is_finite y = true -> is_finite z = true -> (nle (Num := BN) y z = true <-> B2R y <= B2R z).
Proof.
  intros Fy Fz. change (Bleb y z = true <-> B2R y <= B2R z). rewrite Bleb_correct by assumption.
  destruct (Rle_bool_spec (B2R y) (B2R z)); split; intros; try reflexivity; try assumption; try discriminate; lra.
Qed.

Lemma nth_R (l : list b64) i : (i < length l)%nat -> nth i (map B2R l) 0 = B2R (nth i l (b64_ofZ 0)).
Proof. intros H. apply nth_error_nth. rewrite nth_error_map, (nth_error_nth' l (b64_ofZ 0) H). reflexivity. Qed.

Section Data.
Variables (d : @dstruct BN) (kk : b64).
Let tl : list b64 := timeseries d.
Let nt : list b64 := normalised_timeseries d.
Let ts : list R := map B2R tl.
Let T : R := nth (length ts - 1) ts 0 - nth 0 ts 0.
Let er : R := u64 * (5 * T + 3 * Rabs (B2R kk)).
Hypotheses (Ha : accepted d) (Hok : times_ok (A := BN) d) (Fk : is_finite kk = true)
  (HT : T <= bpow radix2 1021) (Hk : Rabs (B2R kk) <= bpow radix2 1021).
Let x (q : nat) : b64 := nth q nt (b64_ofZ 0).
Let s (q : nat) : b64 := Bplus mode_NE (x q) kk.

Lemma len_nt : length nt = length ts /\ length tl = length ts /\ (0 < length ts)%nat /\
  forall q, (q < length ts)%nat -> x q = Bminus mode_NE (nth q tl (b64_ofZ 0)) (nth 0 tl (b64_ofZ 0)).
Proof.
  destruct (accepted_times d Ha) as [tx [data [e0 [N [Ed [Hnil [Ent [_ [_ Hl]]]]]]]]].
  assert (E1 : tl = tx) by (unfold tl; rewrite Ed; reflexivity). assert (E2 : nt = rel_times (A := BN) tx) by exact Ent.
  unfold ts. rewrite map_length, E1, E2. change (@num BN) with b64 in Hl. split; [exact Hl|]. split; [reflexivity|]. split; [destruct tx; [congruence|cbn; lia]|].
  intros q Hq. unfold x. rewrite E2. apply nth_error_nth. unfold rel_times. destruct tx as [|t0 tx]; [congruence|].
  change (nth_error (map (fun z : b64 => Bminus mode_NE z t0) (t0 :: tx)) q = Some (Bminus mode_NE (nth q (t0 :: tx) (b64_ofZ 0)) t0)).
  rewrite nth_error_map. transitivity (option_map (fun z : b64 => Bminus mode_NE z t0) (Some (nth q (t0 :: tx) (b64_ofZ 0)))); [|reflexivity].
  f_equal. apply (nth_error_nth' (A := b64) (t0 :: tx) (b64_ofZ 0) Hq).
Qed.

Lemma tl_fin q : (q < length ts)%nat -> is_finite (nth q tl (b64_ofZ 0)) = true /\ is_finite (x q) = true.
Proof.
  intros Hq. destruct len_nt as [L1 [L2 _]]. destruct Hok as [_ [H1 H2]].
  split; apply finite_is; [apply H1|apply H2]; apply nth_In; [change (q < length tl)%nat|change (q < length nt)%nat]; lia.
Qed.

Lemma ts_order q r : (q <= r)%nat -> (r < length ts)%nat -> nth q ts 0 <= nth r ts 0.
Proof.
  intros H1 H2. destruct len_nt as [_ [L2 _]]. unfold ts. rewrite !nth_R by lia. apply nle_R; try (apply tl_fin; lia).
  destruct Hok as [Ho _]. apply (Ho q r); [exact H1| |]; apply nth_error_nth'; [change (q < length tl)%nat|change (r < length tl)%nat]; lia.
Qed.

Lemma span q z : (q < length ts)%nat -> (z < length ts)%nat -> Rabs (nth q ts 0 - nth z ts 0) <= T /\ 0 <= T.
Proof.
  intros H1 H2. pose proof (ts_order 0 q ltac:(lia) H1). pose proof (ts_order 0 z ltac:(lia) H2).
  pose proof (ts_order q (length ts - 1) ltac:(lia) ltac:(lia)). pose proof (ts_order z (length ts - 1) ltac:(lia) ltac:(lia)).
  unfold T. split; [apply Rabs_le; lra|lra].
Qed.

Lemma x_near q : (q < length ts)%nat -> Rabs (B2R (x q) - (nth q ts 0 - nth 0 ts 0)) <= u64 * T.
Proof.
  intros Hq. destruct len_nt as [L1 [L2 [L3 Hx]]]. pose proof (proj2 (tl_fin q Hq)) as F. rewrite (Hx q Hq) in F |- *.
  destruct (minus_inv _ _ F) as [_ [_ ->]]. unfold ts. rewrite !nth_R by lia. eapply Rle_trans; [apply rnd_minus|].
  pose proof (span q 0 Hq L3) as [S _]. unfold ts in S at 1 2. rewrite !nth_R in S by lia. apply Rmult_le_compat_l; [pose proof u64_pos; lra|exact S].
Qed.

Lemma tri a b c : Rabs (a + b + c) <= Rabs a + Rabs b + Rabs c.
Proof. eapply Rle_trans; [apply Rabs_triang|]. pose proof (Rabs_triang a b). lra. Qed.

(** the shifted time *)
Lemma s_near q : (q < length ts)%nat -> is_finite (s q) = true /\ B2R (s q) = rnd (B2R (x q) + B2R kk) /\
  Rabs (B2R (s q) - (nth q ts 0 - nth 0 ts 0 + B2R kk)) <= u64 * (201/100 * T + Rabs (B2R kk)).
Proof.
  intros Hq. destruct (tl_fin q Hq) as [_ Fx]. pose proof (x_near q Hq) as Hx. pose proof (span q 0 Hq ltac:(lia)) as [S S0].
  pose proof u64_pos as U. pose proof u64_small as U2. pose proof (rnd_plus (x q) kk) as R.
  assert (B1 : Rabs (B2R (x q) + B2R kk) <= 101/100 * T + Rabs (B2R kk)).
  { replace (B2R (x q) + B2R kk) with (B2R (x q) - (nth q ts 0 - nth 0 ts 0) + (nth q ts 0 - nth 0 ts 0) + B2R kk) by ring.
    eapply Rle_trans; [apply tri|]. nra. }
  assert (B2 : Rabs (rnd (B2R (x q) + B2R kk) - (B2R (x q) + B2R kk)) <= u64 * (101/100 * T + Rabs (B2R kk))).
  { eapply Rle_trans; [exact R|]. apply Rmult_le_compat_l; lra. }
  destruct (plus_fin (x q) kk Fx Fk) as [F1 F2].
  { eapply Rle_lt_trans; [apply (near _ _ _ R)|]. pose proof big_2. pose proof (bpow_gt_0 radix2 1021). pose proof (Rabs_pos (B2R kk)). nra. }
  split; [exact F1|]. split; [exact F2|]. unfold s. rewrite F2.
  replace (rnd (B2R (x q) + B2R kk) - (nth q ts 0 - nth 0 ts 0 + B2R kk)) with
    (rnd (B2R (x q) + B2R kk) - (B2R (x q) + B2R kk) + (B2R (x q) - (nth q ts 0 - nth 0 ts 0)) + 0) by ring.
  eapply Rle_trans; [apply tri|]. rewrite Rabs_R0. lra.
Qed.

(** the difference to another time, before and after rounding *)
Lemma diff_near q z : (q < length ts)%nat -> (z < length ts)%nat ->
  let D := Bminus mode_NE (x z) (s q) : b64 in
  is_finite D = true /\ Rabs (B2R (x z) - B2R (s q) - gap ts (B2R kk) q z) <= er /\ Rabs (B2R D - gap ts (B2R kk) q z) <= er.
Proof.
  intros Hq Hz D. destruct (tl_fin z Hz) as [_ Fz]. destruct (s_near q Hq) as [Fs [_ Hs]]. pose proof (x_near z Hz) as Hx.
  pose proof (span z q Hz Hq) as [S S0]. pose proof u64_pos as U. pose proof u64_small as U2. pose proof (Rabs_pos (B2R kk)) as K0.
  assert (B0 : Rabs (B2R (x z) - B2R (s q) - gap ts (B2R kk) q z) <= u64 * (301/100 * T + Rabs (B2R kk))).
  { unfold gap. replace (B2R (x z) - B2R (s q) - (nth z ts 0 - (nth q ts 0 + B2R kk))) with
      (B2R (x z) - (nth z ts 0 - nth 0 ts 0) + - (B2R (s q) - (nth q ts 0 - nth 0 ts 0 + B2R kk)) + 0) by ring.
    eapply Rle_trans; [apply tri|]. rewrite Rabs_R0, Rabs_Ropp. lra. }
  assert (G : Rabs (gap ts (B2R kk) q z) <= T + Rabs (B2R kk)).
  { unfold gap. replace (nth z ts 0 - (nth q ts 0 + B2R kk)) with (nth z ts 0 - nth q ts 0 + - B2R kk) by ring.
    eapply Rle_trans; [apply Rabs_triang|]. rewrite Rabs_Ropp. lra. }
  assert (B1 : Rabs (B2R (x z) - B2R (s q)) <= 101/100 * (T + Rabs (B2R kk))).
  { eapply Rle_trans; [apply (near _ _ _ B0)|]. nra. }
  pose proof (rnd_minus (x z) (s q)) as R.
  assert (B2 : Rabs (rnd (B2R (x z) - B2R (s q)) - (B2R (x z) - B2R (s q))) <= u64 * (101/100 * (T + Rabs (B2R kk)))).
  { eapply Rle_trans; [exact R|]. apply Rmult_le_compat_l; lra. }
  destruct (minus_fin (x z) (s q) Fz Fs) as [F1 F2].
  { eapply Rle_lt_trans; [apply (near _ _ _ R)|]. pose proof big_2. pose proof (bpow_gt_0 radix2 1021). nra. }
  split; [exact F1|]. split.
  - eapply Rle_trans; [exact B0|]. unfold er. apply Rmult_le_compat_l; lra.
  - unfold D. rewrite F2. replace (rnd (B2R (x z) - B2R (s q)) - gap ts (B2R kk) q z) with
      (rnd (B2R (x z) - B2R (s q)) - (B2R (x z) - B2R (s q)) + (B2R (x z) - B2R (s q) - gap ts (B2R kk) q z) + 0) by ring.
    eapply Rle_trans; [apply tri|]. rewrite Rabs_R0.
    apply Rle_trans with (u64 * (101/100 * (T + Rabs (B2R kk))) + u64 * (301/100 * T + Rabs (B2R kk))); [lra|].
    unfold er. rewrite <- Rmult_plus_distr_l. apply Rmult_le_compat_l; lra.
Qed.

(** the outcome of the selection *)
Lemma natural_64 p n (si : list nat) (os : list b64) : p_abs p = AbsFloat ->
  pairs_by (A := BN) p d (naturalSelectionFunctionIdx (A := BN) p d) kk n = Ok (si, os) ->
  (length si <= length ts)%nat /\ length os = length si /\
  (forall q, (q < length ts)%nat -> ((q < length si)%nat <-> B2R (s q) <= B2R (x (length ts - 1)))) /\
  (forall q, (q < length si)%nat -> (nth q si 0 < length ts)%nat /\
     nth q os (b64_ofZ 0) = Babs (Bminus mode_NE (x (nth q si 0%nat)) (s q)) /\
     forall z, (z < length ts)%nat -> Rabs (B2R (Bminus mode_NE (x (nth q si 0%nat)) (s q) : b64)) <= Rabs (B2R (Bminus mode_NE (x z) (s q) : b64))).
Proof.
  intros Hp HP. destruct len_nt as [L1 [L2 [L3 Hx]]].
  assert (Hx' : forall q, (q < length ts)%nat -> nth_error nt q = Some (x q)) by (intros q Hq; apply nth_error_nth'; lia).
  destruct (natural_pairs_run (A := BN) p d kk n si os Ha HP) as [it [Hrun Hsel]].
  assert (Hn : nisnan (Num := BN) kk = false) by (clear - Fk; destruct kk; try reflexivity; discriminate).
  assert (Hb : nth_error (normalised_timeseries d) (length (normalised_timeseries d) - 1) = Some (x (length ts - 1))).
  { change (nth_error nt (length nt - 1) = Some (x (length ts - 1))). rewrite L1. apply Hx'. lia. }
  destruct (@retained_iff BN (arith_laws BN (arith_binary64 exp64)) (arith_laws2 BN (arith_binary64 exp64)) p d kk _ n it Ha Hok Hn Hb Hrun) as [RL RI].
  rewrite Hsel in RL, RI. change (length (normalised_timeseries d)) with (length nt) in RL. rewrite L1 in RL.
  destruct (pairs_by_closed p d "natural" (naturalSelectionFunctionIdx p d) kk n Ha eq_refl) as [sf [Hs C]].
  pose proof Hs as Hs0. injection Hs as <-. rewrite HP in C.
  destruct (natural_sel p (normalised_timeseries d) kk) as [[si' Sv]|?|?|] eqn:HS; cbn [bind same_outcome] in C; try contradiction.
  cbn [fst snd] in C. destruct (deltas p (normalised_timeseries d) si' Sv) as [dts|?|?|] eqn:HD; cbn [bind same_outcome] in C; try contradiction.
  injection C as -> ->.
  assert (L0 : (0 < length (normalised_timeseries d))%nat) by (change (0 < length nt)%nat; lia).
  destruct (sel_named_ok "natural" _ Hs0 p _ kk si Sv L0 HS) as [K1 [K2 K3]].
  change (length (normalised_timeseries d)) with (length nt) in K2, K3. rewrite L1 in K2, K3.
  destruct (mapM_Ok_inv _ _ _ HD) as [Hdl HdN]. rewrite combine_length, <- K1, Nat.min_id in Hdl.
  split; [exact K2|]. split; [exact Hdl|]. split.
  - intros q Hq. rewrite (RI q (x q) (Hx' q Hq)). change (nadd (Num := BN) (x q) kk) with (s q).
    apply nle_R; [apply s_near; exact Hq|apply tl_fin; lia].
  - intros q Hq. assert (Hq' : (q < length ts)%nat) by lia. assert (HsN : (nth q si 0 < length ts)%nat) by (apply K3, nth_In; exact Hq). split; [exact HsN|]. split.
    + assert (exists sv, nth_error Sv q = Some sv) as [sv Es] by (destruct (nth_error Sv q) eqn:Z; [eauto|apply nth_error_None in Z; lia]).
      destruct (sel_shifted (A := BN) "natural" _ p _ kk si Sv Hs0 HS q sv Es) as [y [Hy ->]]. change (nth_error nt q = Some y) in Hy. rewrite (Hx' q Hq') in Hy. injection Hy as <-.
      destruct (HdN q (nth q si 0%nat, nadd (Num := BN) (x q) kk)) as [o [Ho Hd]].
      { apply nth_error_combine; [apply nth_error_nth'; exact Hq|exact Es]. }
      rewrite (nth_error_nth _ _ (b64_ofZ 0) Ho). unfold delta_of in Hd. cbn [fst snd] in Hd.
      rewrite (lat_ok (A := @num BN) nt _ (b64_ofZ 0)) in Hd by (change (nth q si 0 < length nt)%nat; rewrite L1; exact HsN). cbn [bind] in Hd.
      destruct (p_checked p); [discriminate|]. cbn [bind] in Hd. rewrite cabs_float in Hd by exact Hp. injection Hd as <-. reflexivity.
    + assert (Hi : nth_error (selection it) q = Some (nth q si 0%nat)) by (rewrite Hsel; apply nth_error_nth'; exact Hq).
      destruct (@natural_nearest BN (arith_laws BN (arith_binary64 exp64)) (arith_laws2 BN (arith_binary64 exp64)) p d kk n it Ha Hok Hp Hn Hrun q _ Hi) as [y [y' [Ey [Ey' Hmin]]]].
      change (nth_error nt q = Some y) in Ey. change (nth_error nt (nth q si 0%nat) = Some y') in Ey'. rewrite Hx' in Ey by exact Hq'. rewrite Hx' in Ey' by exact HsN.
      injection Ey as <-. injection Ey' as <-. intros z Hz. specialize (Hmin _ (nth_error_In _ _ (Hx' z Hz))).
      change (nle (Num := BN) (Babs (Bminus mode_NE (s q) (x (nth q si 0%nat)))) (Babs (Bminus mode_NE (s q) (x z))) = true) in Hmin.
      assert (SW : forall w, (w < length ts)%nat -> is_finite (Bminus mode_NE (s q) (x w) : b64) = true /\
          Rabs (B2R (Bminus mode_NE (s q) (x w) : b64)) = Rabs (B2R (Bminus mode_NE (x w) (s q) : b64))).
      { intros w Hw. pose proof (proj1 (diff_near q w Hq' Hw)) as F. destruct (minus_inv _ _ F) as [F1 [F2 F3]].
        assert (SY : rnd (B2R (s q) - B2R (x w)) = - rnd (B2R (x w) - B2R (s q))).
        { replace (B2R (s q) - B2R (x w)) with (- (B2R (x w) - B2R (s q))) by ring. apply round_NE_opp. }
        destruct (minus_fin (s q) (x w) F2 F1) as [G1 G2].
        { rewrite SY, Rabs_Ropp, <- F3. apply abs_B2R_lt_emax. }
        split; [exact G1|]. rewrite G2, SY, Rabs_Ropp, F3. reflexivity. }
      destruct (SW _ HsN) as [A1 A2]. destruct (SW _ Hz) as [A3 A4].
      apply nle_R in Hmin; [|rewrite is_finite_Babs; assumption..]. rewrite !B2R_Babs, A2, A4 in Hmin. exact Hmin.
Qed.

(** ** Real distances *)
Lemma natural_real p n (si : list nat) (os : list b64) : p_abs p = AbsFloat ->
  pairs_by (A := BN) p d (naturalSelectionFunctionIdx (A := BN) p d) kk n = Ok (si, os) ->
  (length si <= length ts)%nat /\ length os = length si /\
  (forall q, (q < length ts)%nat -> ((q < length si)%nat -> - er <= gap ts (B2R kk) q (length ts - 1)) /\ ((length si <= q)%nat -> gap ts (B2R kk) q (length ts - 1) <= er)) /\
  (forall q, (q < length si)%nat -> (nth q si 0 < length ts)%nat /\ is_finite (nth q os (b64_ofZ 0)) = true /\ 0 <= B2R (nth q os (b64_ofZ 0)) /\
     Rabs (B2R (nth q os (b64_ofZ 0)) - Rabs (gap ts (B2R kk) q (nth q si 0%nat))) <= er /\
     forall z, (z < length ts)%nat -> Rabs (gap ts (B2R kk) q (nth q si 0%nat)) <= Rabs (gap ts (B2R kk) q z) + 2 * er).
Proof.
  intros Hp HP. destruct (natural_64 p n si os Hp HP) as [N1 [N2 [N3 N4]]]. split; [exact N1|]. split; [exact N2|]. split.
  - intros q Hq. destruct (diff_near q (length ts - 1) Hq ltac:(lia)) as [_ [D1 _]]. apply Rabs_le_inv in D1. split; intros H.
    + apply (N3 q Hq) in H. lra.
    + assert (~ B2R (s q) <= B2R (x (length ts - 1))) by (intros C; apply (N3 q Hq) in C; lia). lra.
  - intros q Hq. destruct (N4 q Hq) as [M1 [M2 M3]]. split; [exact M1|]. destruct (diff_near q (nth q si 0%nat) ltac:(lia) M1) as [F [_ D1]].
    rewrite M2, is_finite_Babs, B2R_Babs. split; [exact F|]. split; [apply Rabs_pos|]. destruct (abs_near _ _ _ D1) as [E1 E2]. split; [apply Rabs_le; lra|].
    intros z Hz. destruct (diff_near q z ltac:(lia) Hz) as [_ [_ D2]]. destruct (abs_near _ _ _ D2). specialize (M3 z Hz). lra.
Qed.

(** ** The same pairs as in exact arithmetic *)
Lemma same_as_exact p n (si : list nat) (os : list b64) n' (si' : list nat) (os' : list R) (e : @dstruct XR) : p_abs p = AbsFloat ->
  accepted e -> times_ok (A := XR) e -> timeseries e = map Fin ts -> clear_choice ts (B2R kk) er -> B2R kk <= 0 \/ er < B2R kk ->
  pairs_by (A := BN) p d (naturalSelectionFunctionIdx (A := BN) p d) kk n = Ok (si, os) ->
  pairs_by (A := XR) p e (naturalSelectionFunctionIdx (A := XR) p e) (Fin (B2R kk)) n' = Ok (si', map Fin os') ->
  si' = si /\ forall q, (q < length si)%nat -> nth q os' 0 = Rabs (gap ts (B2R kk) q (nth q si 0%nat)).
Proof.
  intros Hp He Hoe Hte [Q1 Q2] HK HP HP'. destruct (natural_64 p n si os Hp HP) as [_ [_ [N3 _]]].
  destruct (natural_real p n si os Hp HP) as [N1 [_ [_ N4]]].
  destruct (natural_exact p e (B2R kk) n' si' os' ts He Hoe Hp Hte HP') as [B1 [B2 B3]]. destruct len_nt as [_ [_ [L3 _]]].
  assert (E0 : 0 <= er).
  { unfold er. apply Rmult_le_pos; [pose proof u64_pos; lra|]. pose proof (span 0 0 L3 L3) as [_ S0]. pose proof (Rabs_pos (B2R kk)). lra. }
  assert (IFF : forall q, (q < length ts)%nat -> ((q < length si)%nat <-> (q < length si')%nat)).
  { intros q Hq. rewrite (B2 q Hq), (N3 q Hq). destruct (diff_near q (length ts - 1) Hq ltac:(lia)) as [_ [D1 _]].
    destruct (Nat.eq_dec (S q) (length ts)) as [Eq|Eq].
    - replace (length ts - 1)%nat with q in * by lia. unfold gap in *. replace (nth q ts 0 - (nth q ts 0 + B2R kk)) with (- B2R kk) in * by ring.
      destruct HK as [HK|HK].
      + split; intros _; [lra|]. destruct (s_near q Hq) as [_ [-> _]]. rewrite <- (round_generic radix2 (FLT_exp (-1074) 53) (round_mode mode_NE) (B2R (x q))) at 2 by apply (generic_format_B2R 53 1024).
        apply round_le; [apply FLT_exp_valid; reflexivity|apply valid_rnd_N|lra].
      + apply Rabs_le_inv in D1. split; intros; lra.
    - specialize (Q1 q ltac:(lia)). apply Rabs_le_inv in D1. unfold Rabs in Q1. destruct Rcase_abs in Q1; split; intros; lra. }
  assert (EL : length si' = length si).
  { destruct (Nat.lt_trichotomy (length si') (length si)) as [K|[K|K]]; [exfalso|exact K|exfalso].
    - pose proof (proj1 (IFF (length si') ltac:(lia)) K). lia.
    - pose proof (proj2 (IFF (length si) ltac:(lia)) K). lia. }
  assert (PQ : forall q, (q < length si)%nat -> nth q si' 0%nat = nth q si 0%nat).
  { intros q Hq. destruct (N4 q Hq) as [S1 [_ [_ [_ S2]]]]. destruct (B3 q ltac:(lia)) as [T1 [_ T2]].
    destruct (Q2 q ltac:(lia) (proj1 (B2 q ltac:(lia)) ltac:(lia))) as [x0 [X1 X2]].
    assert (nth q si 0%nat = x0) as ->.
    { destruct (Nat.eq_dec (nth q si 0%nat) x0) as [Eq|Eq]; [exact Eq|exfalso]. pose proof (X2 _ S1 Eq). pose proof (S2 x0 X1). lra. }
    destruct (Nat.eq_dec (nth q si' 0%nat) x0) as [Eq|Eq]; [exact Eq|exfalso]. pose proof (X2 _ T1 Eq). pose proof (T2 x0 X1). lra. }
  split; [apply (nth_ext _ _ 0%nat 0%nat); [exact EL|]; intros q Hq; apply PQ; lia|].
  intros q Hq. destruct (B3 q ltac:(lia)) as [_ [-> _]]. rewrite (PQ q Hq). reflexivity.
Qed.
End Data.
End Times.
