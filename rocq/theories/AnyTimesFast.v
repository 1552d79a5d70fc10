(** The fast selection in binary64 for any time stamps, against exact arithmetic (C115). *)
From Coq Require Import String.
From Coq Require Import ZArith Reals List Bool Arith Lia Lra.
From Flocq Require Import Core BinarySingleNaN.
From Verif Require Import Num Mem MemFacts XR B64 Spec SpecR SpecTime SpecFast DataStructure Correlator Sacf Api Laws B64Facts Laws2 DSFacts CorrFacts LoopFacts MainFacts
  RelFacts ConstrFacts TimeFacts SelFacts SelThms FastFacts WeightFacts DefaultFacts WeightAcc ValFacts ExactFacts AccFacts OffFacts AccThms SimFacts FixedFacts GridVals FixedThms AccExact PairBounds
  TimeCloseFacts AnyTimes AnyTimesVal LagNumber FastAny.
Import ListNotations.
Local Open Scope list_scope.
Local Open Scope R_scope.

Lemma filter_nth {X Y} (P : X -> bool) (Q : Y -> bool) (l : list X) (m : list Y) x y : length l = length m ->
  (forall i, (i < length m)%nat -> P (nth i l x) = Q (nth i m y)) -> length (filter P l) = length (filter Q m).
Proof.
  revert m. induction l as [|a l IH]; intros [|b m] L H; try discriminate L; [reflexivity|]. cbn [filter].
  pose proof (H 0%nat ltac:(cbn; lia)) as H0. cbn [nth] in H0. rewrite H0.
  assert (E : length (filter P l) = length (filter Q m)).
  { apply IH; [cbn in L; lia|]. intros i Hi. exact (H (S i) ltac:(cbn; lia)). }
  destruct (Q b); cbn [length]; lia.
Qed.

Section Times.
Context (exp64 : b64 -> b64).
Notation BN := (B64 exp64).

Lemma nlt_R (y z : b64) : is_finite y = true -> is_finite z = true -> (nlt (Num := BN) y z = true <-> B2R y < B2R z).
Proof.
  intros Fy Fz. change (Bltb y z = true <-> B2R y < B2R z). rewrite Bltb_correct by assumption.
  destruct (Rlt_bool_spec (B2R y) (B2R z)); split; intros; try reflexivity; try assumption; try discriminate; lra.
Qed.

Section Data.
Variables (d : @dstruct BN) (kk : b64).
Let tl : list b64 := timeseries d.
Let nt : list b64 := normalised_timeseries d.
Let ts : list R := map B2R tl.
Let T : R := nth (length ts - 1) ts 0 - nth 0 ts 0.
Let er : R := u64 * (5 * T + 3 * Rabs (B2R kk)).
Hypotheses (Ha : accepted d) (Hok : times_ok (A := BN) d) (Fk : is_finite kk = true)
  (HT : T <= bpow radix2 1021) (Hk : Rabs (B2R kk) <= bpow radix2 1021).
Let x (q : nat) : b64 := nth q nt (b64_ofZ 0).
Let s (q : nat) : b64 := Bplus mode_NE (x q) kk.
Hypotheses (HC : clear_fast ts (B2R kk) er) (HK : 0 <= B2R kk \/ B2R kk < - er).

Lemma er_pos : 0 <= er.
Proof.
  pose proof (len_nt exp64 d Ha) as [_ [_ [L3 _]]]. pose proof (span exp64 d Ha Hok 0 0 L3 L3) as [_ S0]. fold tl ts T in S0.
  unfold er. apply Rmult_le_pos; [pose proof u64_pos; lra|]. pose proof (Rabs_pos (B2R kk)). lra.
Qed.

Lemma zero_kk : is_finite (Bplus mode_NE (b64_ofZ 0) kk : b64) = true /\ B2R (Bplus mode_NE (b64_ofZ 0) kk : b64) = B2R kk.
Proof.
  assert (G : rnd (B2R (b64_ofZ 0) + B2R kk) = B2R kk).
  { change (B2R (b64_ofZ 0)) with 0. rewrite Rplus_0_l. apply round_generic; [apply valid_rnd_N|apply (generic_format_B2R 53 1024)]. }
  destruct (plus_fin (b64_ofZ 0) kk eq_refl Fk) as [F1 F2]; [rewrite G; apply abs_B2R_lt_emax|]. split; [exact F1|]. rewrite F2. exact G.
Qed.

Lemma places_64 : length (filter (fun y => nlt (Num := BN) y (nadd (Num := BN) nzero kk)) nt) = places ts (B2R kk).
Proof.
  destruct (len_nt exp64 d Ha) as [L1 [L2 [L3 Hx]]]. fold tl nt ts in L1, L2, L3, Hx. unfold places, below.
  apply (filter_nth _ _ nt ts (b64_ofZ 0) 0 L1). intros z Hz. fold (x z). destruct zero_kk as [Fz Ez].
  change (nadd (Num := BN) nzero kk) with (Bplus mode_NE (b64_ofZ 0) kk : b64).
  destruct (tl_fin exp64 d Ha Hok z Hz) as [_ Fx]. change (is_finite (x z) = true) in Fx. pose proof (x_near exp64 d Ha Hok z Hz) as N. change (Rabs (B2R (x z) - (nth z ts 0 - nth 0 ts 0)) <= u64 * T) in N.
  pose proof er_pos as E0. pose proof (span exp64 d Ha Hok 0 0 L3 L3) as [_ S0]. fold tl ts T in S0.
  assert (B : u64 * T <= er) by (unfold er; apply Rmult_le_compat_l; [pose proof u64_pos; lra|pose proof (Rabs_pos (B2R kk)); lra]).
  apply Rabs_le_inv in N.
  assert (IFF : B2R (x z) < B2R kk <-> nth z ts 0 < nth 0 ts 0 + B2R kk).
  { destruct z as [|z].
    - assert (X0 : B2R (x 0%nat) = 0).
      { unfold x in Fx |- *. rewrite (Hx 0%nat L3) in Fx |- *. destruct (minus_inv _ _ Fx) as [_ [_ ->]]. rewrite Rminus_eq_0. apply round_0. apply valid_rnd_N. }
      rewrite X0. lra.
    - destruct HC as [_ H2]. specialize (H2 (S z) ltac:(lia)). unfold gap in H2. unfold Rabs in H2. destruct Rcase_abs in H2; split; intros; lra. }
  destruct (Rlt_dec (nth z ts 0) (nth 0 ts 0 + B2R kk)) as [G|G].
  - apply nlt_R; [assumption..|]. rewrite Ez. apply IFF, G.
  - apply not_true_is_false. intros C. apply nlt_R in C; [|assumption..]. rewrite Ez in C. apply IFF in C. lra.
Qed.

Lemma fast_64 p n (si : list nat) (os : list b64) : p_abs p = AbsFloat ->
  pairs_by (A := BN) p d (fastSelectionFunctionIdx (A := BN) p d) kk n = Ok (si, os) ->
  si = map (fast_partner ts (B2R kk)) (seq 0 (kept ts (B2R kk))) /\ length os = length si /\ (length si <= length ts)%nat /\
  (forall q, (q < length si)%nat -> (nth q si 0 < length ts)%nat /\ is_finite (nth q os (b64_ofZ 0)) = true /\ 0 <= B2R (nth q os (b64_ofZ 0)) /\
     Rabs (B2R (nth q os (b64_ofZ 0)) - Rabs (gap ts (B2R kk) q (nth q si 0%nat))) <= er).
Proof.
  intros Hp HP. destruct (len_nt exp64 d Ha) as [L1 [L2 [L3 Hx]]]. fold tl nt ts in L1, L2, L3, Hx.
  assert (Hx' : forall q, (q < length ts)%nat -> nth_error nt q = Some (x q)) by (intros q Hq; apply nth_error_nth'; lia).
  destruct (fast_pairs_run (A := BN) p d kk n si os Ha HP) as [it [Hrun Hsel]].
  pose proof (@fast_selection BN (arith_laws BN (arith_binary64 exp64)) (arith_laws2 BN (arith_binary64 exp64)) p d kk n Ha Hok) as F. cbv zeta in F.
  destruct F as [back [m [Hb [Hm [_ [_ F]]]]]]. rewrite Hrun in F. specialize (F eq_refl). cbn [fst] in F. rewrite Hsel in F.
  change (normalised_timeseries d) with nt in Hb, Hm, F. rewrite places_64 in F.
  assert (Eb : back = x (length ts - 1)).
  { destruct (back_In _ _ Hb) as [_ K]. change (@num BN) with b64 in *. rewrite L1, Hx' in K by lia. injection K as <-. reflexivity. }
  subst back. pose proof er_pos as E0.
  assert (KP : forall q, (q < length ts)%nat -> (nle (Num := BN) (x (length ts - 1)) (s q) = false <-> nth q ts 0 < nth (length ts - 1) ts 0 - B2R kk)).
  { intros q Hq. destruct (s_near exp64 d kk Ha Hok Fk HT Hk q Hq) as [Fs [Es _]]. change (is_finite (s q) = true) in Fs. change (B2R (s q) = rnd (B2R (x q) + B2R kk)) in Es.
    destruct (tl_fin exp64 d Ha Hok (length ts - 1) ltac:(fold tl ts; lia)) as [_ Fl]. change (is_finite (x (length ts - 1)) = true) in Fl.
    destruct (diff_near exp64 d kk Ha Hok Fk HT Hk q (length ts - 1) Hq ltac:(fold tl ts; lia)) as [_ [D1 _]].
    change (Rabs (B2R (x (length ts - 1)) - B2R (s q) - gap ts (B2R kk) q (length ts - 1)) <= er) in D1. apply Rabs_le_inv in D1.
    assert (IFF : B2R (s q) < B2R (x (length ts - 1)) <-> nth q ts 0 < nth (length ts - 1) ts 0 - B2R kk).
    { destruct (Nat.eq_dec (S q) (length ts)) as [Eq|Eq].
      - replace (length ts - 1)%nat with q in * by lia. unfold gap in D1. destruct HK as [HK0|HK0].
        + split; intros H; [exfalso|lra]. apply (Rlt_not_le _ _ H). rewrite Es.
          rewrite <- (round_generic radix2 (FLT_exp (-1074) 53) (round_mode mode_NE) (B2R (x q))) at 1 by apply (generic_format_B2R 53 1024).
          apply round_le; [apply FLT_exp_valid; reflexivity|apply valid_rnd_N|lra].
        + split; intros; lra.
      - destruct HC as [H1 _]. specialize (H1 q ltac:(lia)). unfold gap in H1, D1. unfold Rabs in H1. destruct Rcase_abs in H1; split; intros; lra. }
    rewrite <- IFF. split; intros H.
    - apply Rnot_le_lt. intros C. apply (nle_R exp64) in C; [|assumption..]. rewrite C in H. discriminate H.
    - apply not_true_is_false. intros C. apply (nle_R exp64) in C; [|assumption..]. lra. }
  assert (Em : kept ts (B2R kk) = m).
  { destruct Hm as [M1 [M2 M3]]. change (@num BN) with b64 in *. rewrite L1 in M1. apply below_split; [exact M1| |].
    - intros i Hi. apply KP; [lia|]. exact (M2 i _ Hi (Hx' i ltac:(lia))).
    - intros i Hi C. pose proof (M3 _ (Hx' m ltac:(lia))) as K. pose proof (ts_order exp64 d Ha Hok m i ltac:(lia) ltac:(fold tl ts; lia)) as O. fold tl ts in O.
      assert (K' : nle (Num := BN) (x (length ts - 1)) (s m) = false) by (apply KP; [lia|lra]).
      change (nle (Num := BN) (x (length ts - 1)) (s m) = true) in K. congruence. }
  rewrite <- Em in F. change (fun i : nat => if (places ts (B2R kk) + i <? kept ts (B2R kk))%nat then (places ts (B2R kk) + i)%nat else 0%nat) with (fast_partner ts (B2R kk)) in F.
  split; [exact F|].
  destruct (pairs_by_closed p d "fast" (fastSelectionFunctionIdx p d) kk n Ha eq_refl) as [sf [Hs C]].
  pose proof Hs as Hs0. injection Hs as <-. rewrite HP in C.
  destruct (fast_sel p (normalised_timeseries d) kk) as [[si' Sv]|?|?|] eqn:HS; cbn [bind same_outcome] in C; try contradiction.
  cbn [fst snd] in C. destruct (deltas p (normalised_timeseries d) si' Sv) as [dts|?|?|] eqn:HD; cbn [bind same_outcome] in C; try contradiction.
  injection C as -> ->.
  assert (L0 : (0 < length (normalised_timeseries d))%nat) by (change (0 < length nt)%nat; lia).
  destruct (sel_named_ok "fast" _ Hs0 p _ kk si Sv L0 HS) as [K1 [K2 K3]].
  change (length (normalised_timeseries d)) with (length nt) in K2, K3. rewrite L1 in K2, K3.
  destruct (mapM_Ok_inv _ _ _ HD) as [Hdl HdN]. rewrite combine_length, <- K1, Nat.min_id in Hdl.
  split; [exact Hdl|]. split; [exact K2|].
  intros q Hq. assert (Hq' : (q < length ts)%nat) by lia. assert (HsN : (nth q si 0 < length ts)%nat) by (apply K3, nth_In; exact Hq). split; [exact HsN|].
  assert (EO : nth q os (b64_ofZ 0) = Babs (Bminus mode_NE (x (nth q si 0%nat)) (s q))).
  { assert (exists sv, nth_error Sv q = Some sv) as [sv Es] by (destruct (nth_error Sv q) eqn:Z; [eauto|apply nth_error_None in Z; lia]).
    destruct (sel_shifted (A := BN) "fast" _ p _ kk si Sv Hs0 HS q sv Es) as [y [Hy ->]]. change (nth_error nt q = Some y) in Hy. rewrite (Hx' q Hq') in Hy. injection Hy as <-.
    destruct (HdN q (nth q si 0%nat, nadd (Num := BN) (x q) kk)) as [o [Ho Hd]].
    { apply nth_error_combine; [apply nth_error_nth'; exact Hq|exact Es]. }
    rewrite (nth_error_nth _ _ (b64_ofZ 0) Ho). unfold delta_of in Hd. cbn [fst snd] in Hd.
    rewrite (lat_ok (A := @num BN) nt _ (b64_ofZ 0)) in Hd by (change (nth q si 0 < length nt)%nat; rewrite L1; exact HsN). cbn [bind] in Hd.
    destruct (p_checked p); [discriminate|]. cbn [bind] in Hd. rewrite cabs_float in Hd by exact Hp. injection Hd as <-. reflexivity. }
  destruct (diff_near exp64 d kk Ha Hok Fk HT Hk q (nth q si 0%nat) Hq' HsN) as [Fd [_ D1]].
  change (is_finite (Bminus mode_NE (x (nth q si 0%nat)) (s q) : b64) = true) in Fd. change (Rabs (B2R (Bminus mode_NE (x (nth q si 0%nat)) (s q) : b64) - gap ts (B2R kk) q (nth q si 0%nat)) <= er) in D1.
  rewrite EO, is_finite_Babs, B2R_Babs. split; [exact Fd|]. split; [apply Rabs_pos|]. destruct (abs_near _ _ _ D1) as [E1 E2]. apply Rabs_le. lra.
Qed.
End Data.

Lemma any_value_fast (p : platform) (d : @dstruct BN) (e : @dstruct XR) mi ma re al mi' ma' re' al' wgt lags lags' corr corr' c c'
    (rows : list (list b64)) (rows' : list (list xr)) j j' i i' (row : list b64) (kk : b64) b om :
  accepted d -> times_ok (A := BN) d -> accepted e -> timeseries e = map exact_of (timeseries d) -> p_abs p = AbsFloat ->
  autocorrelation (A := BN) p d mi ma re al "fast" wgt = Ok (lags, corr, c) ->
  autocorrelation (A := XR) p e mi' ma' re' al' "fast" wgt = Ok (lags', corr', c') ->
  data_2d d = Ok rows -> data_2d e = Ok rows' -> nth_error rows j = Some row -> nth_error rows' j' = Some (map exact_of row) ->
  nth_error lags i = Some kk -> nth_error lags' i' = Some (exact_of kk) -> is_finite kk = true ->
  let ts := map B2R (timeseries d) in
  let T := nth (length ts - 1) ts 0 - nth 0 ts 0 in
  let er := bpow radix2 (-53) * (5 * T + 3 * Rabs (B2R kk)) in
  T <= bpow radix2 1021 -> Rabs (B2R kk) <= bpow radix2 1021 -> clear_fast ts (B2R kk) er -> 0 <= B2R kk \/ B2R kk < - er ->
  let a : b64 := opt_or (A := BN) al (median_time d) in
  is_finite a = true -> 0 < B2R a -> opt_or (A := XR) al' (median_time e) = exact_of a ->
  proper_alpha (A := BN) wgt a ->
  finite (A := BN) (if String.eqb wgt "gaussian" then nmul (Num := BN) (nmul (Num := BN) (b64_ofZ 2) a) a else a) ->
  weight_error exp64 wgt (B2R a) om ->
  (-149 <= b <= 100)%Z -> (forall x : b64, In x row -> is_finite x = true /\ Rabs (B2R x) <= bpow radix2 b) ->
  let n := INR (length row) in
  let N := sq_dev32 (map B2R row) in
  let K := n * (bpow radix2 b * bpow radix2 b) / N in
  bpow radix2 (-700) <= N -> (n + 1) * K <= bpow radix2 48 ->
  exists (s : list nat) (os : list b64) (os' : list R) (v : b64) (v' : R),
    pairs_by (A := BN) p d (fastSelectionFunctionIdx (A := BN) p d) kk (length rows) = Ok (s, os) /\
    pairs_by (A := XR) p e (fastSelectionFunctionIdx (A := XR) p e) (exact_of kk) (length rows') = Ok (s, map Fin os') /\
    (forall q, (q < length s)%nat -> is_finite (nth q os (b64_ofZ 0)) = true /\ Rabs (B2R (nth q os (b64_ofZ 0)) - nth q os' 0) <= er) /\
    corr_at corr j i = Some v /\ corr_at corr' j' i' = Some (Fin v') /\ is_finite v = true /\
    Rabs (B2R v - v') <= 50 * (n + 10) * bpow radix2 (-53) * (K * K + K) + 5 * (om + er / B2R a) * K + bpow radix2 (-110).
Proof.
  intros Ha Hok He Hte Hp E E' Hd Hd' Hj Hj' Hi Hi' Fk ts T er HT HK HC HS a Fa Pa Ea Hpa Hfa Hom Hb Hx n N K HN HKK.
  assert (Fx : forall x : b64, In x row -> is_finite x = true) by (intros x Hx0; apply Hx; exact Hx0).
  assert (Ek : exact_of kk = Fin (B2R kk)) by (rewrite exact_toE; apply toE_finite; exact Fk).
  assert (Eaa : exact_of a = Fin (B2R a)) by (rewrite exact_toE; apply toE_finite; exact Fa). rewrite Eaa in Ea.
  assert (FT : forall x : b64, In x (timeseries d) -> is_finite x = true).
  { intros x Hin. apply (finite_is exp64). destruct Hok as [_ [H _]]. apply H. exact Hin. }
  assert (Et : timeseries e = map Fin ts) by (rewrite Hte; apply exact_Fin; exact FT).
  rewrite exact_Fin in Hj' by exact Fx. rewrite Ek in Hi' |- *.
  pose proof (exact_times_ok exp64 d e Ha Hok He Et) as Hoe.
  destruct (call_pairs p e mi' ma' re' al' "fast" wgt lags' corr' c' rows' j' i' (map B2R row) ts (B2R kk) He E' Hd' Hj' Hi' Et) as [f [s' [os' [Hf [HP' HL']]]]].
  pose proof Hf as Hg. injection Hf as <-.
  destruct (value_exact_pairs p e mi' ma' re' al' "fast" wgt lags' corr' c' rows' j' i' (map B2R row) ts os' (B2R kk) (B2R a) _ _ s' He E' Hd' Hj' Hi' Et Ea Pa Hg HP')
    as [_ [Lr [_ [_ [_ [Po' HV']]]]]].
  destruct (@value_parts BN p d mi ma re al "fast" wgt lags corr c rows j i row kk Ha E Hd Hj Hi)
    as [sf [w [sidx [S [dts [Hs [Hw [HSS [HD [HL [Hdl [HlS [Hle [Hlt HV]]]]]]]]]]]]]]. cbv zeta in HV. fold a in Hw.
  destruct (pairs_by_closed (A := BN) p d "fast" _ kk (length rows) Ha eq_refl) as [sf0 [Hs0 C]]. rewrite Hs in Hs0. injection Hs0 as <-.
  rewrite HSS in C. cbn [bind fst snd] in C. rewrite HD in C. cbn [bind] in C.
  assert (HP : pairs_by (A := BN) p d (fastSelectionFunctionIdx (A := BN) p d) kk (length rows) = Ok (sidx, dts)).
  { destruct (pairs_by (A := BN) p d (fastSelectionFunctionIdx (A := BN) p d) kk (length rows)); cbn [same_outcome] in C; try contradiction. rewrite C. reflexivity. }
  clear C. change (@num BN) with b64 in *.
  destruct (fast_64 d kk Ha Hok Fk HT HK HC HS p _ sidx dts Hp HP) as [ES [_ [_ NR]]]. fold ts in ES.
  destruct (fast_exact p e (B2R kk) _ s' (map Fin os') ts He Hoe Et HP') as [ES' EO']. rewrite <- ES in ES'. subst s'.
  assert (SO : forall q, (q < length sidx)%nat -> nth q os' 0 = Rabs (gap ts (B2R kk) q (nth q sidx 0%nat))).
  { intros q Hq. rewrite ES in Hq |- *. rewrite map_length, seq_length in Hq.
    apply (f_equal (fun l => nth_error l q)) in EO'. rewrite !nth_error_map, nth_error_seq in EO'.
    destruct (Nat.ltb_spec q (kept ts (B2R kk))) as [_|C]; [|lia]. cbn [option_map Nat.add] in EO'.
    destruct (nth_error os' q) as [o|] eqn:Eq; [|discriminate EO']. cbn [option_map] in EO'. injection EO' as ->.
    rewrite (nth_error_nth _ _ _ Eq). unfold dist. rewrite Hp.
    rewrite (nth_indep _ 0%nat (fast_partner ts (B2R kk) 0)) by (rewrite map_length, seq_length; lia). rewrite map_nth, seq_nth by lia. reflexivity. }
  fold ts T in NR. change (u64 * (5 * T + 3 * Rabs (B2R kk))) with er in NR.
  assert (om0 : 0 <= om).
  { clear - Hom. destruct Hom as [[_ ->]|[_ [_ [eps [[_ [_ H]] ->]]]]]; [pose proof (bpow_ge_0 radix2 (-53)); lra|].
    pose proof (bpow_ge_0 radix2 (-53)). pose proof (Rabs_pos (B2R (exp64 (B754_infinity true)))). lra. }
  assert (er0 : 0 <= er).
  { pose proof (len_nt exp64 d Ha) as [_ [_ [L3 _]]]. pose proof (span exp64 d Ha Hok 0 0 L3 L3) as [_ S0]. pose proof (Rabs_pos (B2R kk)). pose proof (bpow_ge_0 radix2 (-53)).
    unfold er. apply Rmult_le_pos; [assumption|]. fold ts T in S0. lra. }
  assert (ea0 : 0 <= er / B2R a) by (apply Rmult_le_pos; [exact er0|left; apply Rinv_0_lt_compat; exact Pa]).
  set (W := fun q => w (nth q dts (nzero (A := BN))) : b64). set (wt := fun q => rweight wgt (B2R a) (nth q os' 0)).
  destruct (value_core exp64 row sidx W wt b (om + er / B2R a) Hb Hx HN HKK) as [v [Ev [Fv Hv]]].
  { rewrite <- (map_length B2R) in Hle. intros C. pose proof (len_nt exp64 d Ha) as [_ [_ [L3 _]]]. fold ts in L3. rewrite <- Lr, C in L3. cbn in L3. lia. }
  { exact Hle. } { exact Hlt. } { lra. }
  { intros q Hq. destruct (NR q Hq) as [_ [F1 [P1 D1]]]. unfold W, wt.
    destruct (weight_pair exp64 wgt w a (nth q dts (b64_ofZ 0)) om Hw Fa Pa F1 P1 Hpa Hfa Hom) as [W1 [W2 W3]].
    split; [exact W1|]. split; [exact W2|].
    match goal with |- Rabs (?x - ?z) <= _ => replace (x - z) with (x - rweight wgt (B2R a) (B2R (nth q dts (b64_ofZ 0))) + (rweight wgt (B2R a) (B2R (nth q dts (b64_ofZ 0))) - z)) by ring end.
    eapply Rle_trans; [apply Rabs_triang|]. apply Rplus_le_compat; [exact W3|]. eapply Rle_trans; [apply rweight_lip; [exact Pa|exact P1|apply Po']|].
    apply Rmult_le_compat_r; [left; apply Rinv_0_lt_compat; exact Pa|]. rewrite (SO q Hq). exact D1. }
  { intros q Hq. apply rweight_range; [exact Pa|apply Po']. }
  exists sidx, dts, os', v. eexists. split; [exact HP|]. split; [exact HP'|]. split.
  { intros q Hq. destruct (NR q Hq) as [_ [F1 [P1 D1]]]. split; [exact F1|]. rewrite (SO q Hq). exact D1. }
  split; [rewrite HV, (norm_of_sum_sq (A := BN)), Ev; reflexivity|]. split.
  { rewrite HV'. cbn. unfold Reqb. fold N. destruct (Req_EM_T N 0) as [C|_]; [exfalso; rewrite C in HN; exact (Rlt_irrefl _ (Rlt_le_trans _ _ _ (bpow_gt_0 radix2 (-700)) HN))|reflexivity]. }
  split; [exact Fv|]. eapply Rle_trans; [|exact Hv]. right. f_equal. f_equal. unfold Rdiv. f_equal. unfold rsum_n. f_equal. apply map_ext. intros q. unfold wt. ring.
Qed.
End Times.
