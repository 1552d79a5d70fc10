(** Any time stamps in binary64: the distance between the correlations in binary64 and in exact arithmetic. *)
From Coq Require Import String.
From Coq Require Import ZArith Reals List Bool Arith Lia Lra.
From Flocq Require Import Core BinarySingleNaN.
From Verif Require Import Num Mem MemFacts XR B64 Spec SpecR SpecTime DataStructure Correlator Sacf Api Laws B64Facts Laws2 DSFacts CorrFacts LoopFacts MainFacts
  RelFacts ConstrFacts TimeFacts SelFacts WeightFacts DefaultFacts WeightAcc ValFacts ExactFacts AccFacts OffFacts AccThms SimFacts FixedFacts GridVals FixedThms AccExact PairBounds
  TimeCloseFacts AnyTimes.
Import ListNotations.
Local Open Scope list_scope.
Local Open Scope R_scope.

Section Call.
Context (exp64 : b64 -> b64).
Notation BN := (B64 exp64).

(** the sum of the products with any weights, as it is computed, against the real one *)
Lemma value_core (row : list b64) (sidx : list nat) (W : nat -> b64) (wt : nat -> R) b om :
  (-149 <= b <= 100)%Z -> (forall x : b64, In x row -> is_finite x = true /\ Rabs (B2R x) <= bpow radix2 b) ->
  let rs := map B2R row in
  let n := INR (length row) in
  let N := sq_dev32 rs in
  let K := n * (bpow radix2 b * bpow radix2 b) / N in
  let m := length sidx in
  bpow radix2 (-700) <= N -> (n + 1) * K <= bpow radix2 48 -> rs <> [] -> (m <= length row)%nat -> (forall s, In s sidx -> (s < length row)%nat) -> 0 <= om ->
  (forall q, (q < m)%nat -> is_finite (W q) = true /\ 0 <= B2R (W q) <= 1 /\ Rabs (B2R (W q) - wt q) <= om) ->
  (forall q, (q < m)%nat -> 0 <= wt q <= 1) ->
  let x := fun q => Bminus mode_NE (nth q row (nzero (A := BN)) : b64) (mean (A := BN) row : b64) : b64 in
  exists v : b64, v = Bmult mode_NE (fold_left (fun acc q => Bplus mode_NE acc (Bmult mode_NE (Bmult mode_NE (W q) (x q)) (x (nth q sidx 0%nat)))) (seq 0 m) (nzero (A := BN) : b64))
      (Bdiv mode_NE (none_ (A := BN) : b64) (sum_sq32 (A := BN) row : b64)) /\
    is_finite v = true /\
    Rabs (B2R v - rsum_n m (fun q => wt q * dev rs q * dev rs (nth q sidx 0%nat)) / N) <= 50 * (n + 10) * u64 * (K * K + K) + 5 * om * K + bpow radix2 (-110).
Proof.
  intros Hb Hx rs n N K m HN HK Hrs Hle Hlt om0 Hwt Hop xx.
  assert (Fx : forall x : b64, In x row -> is_finite x = true) by (intros x Hx0; apply Hx; exact Hx0).
  assert (U := u64_pos). set (B := bpow radix2 b) in *. assert (B0 : 0 < B) by apply bpow_gt_0.
  assert (Hr : forall r, In r rs -> Rabs r <= B).
  { intros r Hr. apply in_map_iff in Hr. destruct Hr as [x [<- Hin]]. apply Hx. exact Hin. }
  assert (Ln : length rs = length row) by apply map_length.
  assert (N0 : 0 < N) by (pose proof (bpow_gt_0 radix2 (-700)); lra).
  assert (n1 : 1 <= n).
  { unfold n. rewrite <- Ln. change 1 with (INR 1). apply le_INR. destruct rs; [congruence|cbn; lia]. }
  pose proof (sq_dev32_bound rs b ltac:(lia) Hrs Hr) as NB. fold N B in NB. rewrite Ln in NB. fold n in NB.
  assert (K4 : / 4 <= K).
  { unfold K. apply Rmult_le_reg_r with N; [exact N0|]. unfold Rdiv. rewrite Rmult_assoc, Rinv_l by lra. lra. }
  assert (S48 : bpow radix2 48 = 281474976710656) by (change (bpow radix2 48) with (IZR (2 ^ 48)); reflexivity).
  assert (n50 : n + 1 <= 1125899906842624).
  { assert ((n + 1) * / 4 <= (n + 1) * K) by (apply Rmult_le_compat_l; lra). lra. }
  assert (Z50 : (Z.of_nat (length row) <= 2 ^ 50)%Z).
  { apply le_IZR. rewrite <- INR_IZR_INZ. fold n. change (IZR (2 ^ 50)) with 1125899906842624. lra. }
  pose proof u64_val as UV.
  assert (H8 : (n + 1) * u64 <= / 8).
  { apply Rle_trans with (1125899906842624 * u64); [apply Rmult_le_compat_r; lra|]. rewrite UV. lra. }
  assert (H32 : (n + 1) * u64 * K <= / 32).
  { replace ((n + 1) * u64 * K) with ((n + 1) * K * u64) by ring. apply Rle_trans with (bpow radix2 48 * u64); [apply Rmult_le_compat_r; lra|]. rewrite S48, UV. lra. }
  (* the mean *)
  pose proof (valid_all exp64 row Fx) as EV.
  set (mu := mean (A := BN) row : b64) in *. set (dl := (12 / 10) * ((n + 1) * u64 * B)).
  assert (B100 : B <= bpow radix2 100) by (apply bpow_le; lia).
  assert (Hrow : (0 < length row)%nat) by (rewrite <- Ln; destruct rs; [congruence|cbn; lia]).
  assert (Fmu : is_finite mu = true).
  { apply (mean_moderate exp64 row); rewrite EV; [exact Hrow|lia|]. apply Forall_forall. intros x Hin. destruct (Hx x Hin). split; [assumption|lra]. }
  destruct (mean_acc exp64 row ltac:(change (@num BN) with b64; rewrite EV; lia) Fmu) as [_ Hmu]. rewrite EV in Hmu. fold mu rs in Hmu. change (@num BN) with b64 in Hmu.
  assert (Hd : Rabs (B2R mu - rmean rs) <= dl).
  { eapply Rle_trans; [exact Hmu|].
    assert (A1 : asum row / INR (length row) <= B).
    { apply Rmult_le_reg_r with n; [lra|]. fold n. unfold Rdiv. rewrite Rmult_assoc, Rinv_l, Rmult_1_r by lra.
      rewrite Rmult_comm. unfold n. apply (sum_bound (fun x => Rabs (B2R x))). intros x Hin. apply Hx. exact Hin. }
    assert (A0 : 0 <= asum row / INR (length row)).
    { apply Rmult_le_pos; [apply asum_pos|]. apply Rlt_le, Rinv_0_lt_compat. fold n. lra. }
    destruct (PW_mid (length row + 1)) as [P1 _].
    { rewrite plus_INR. fold n. change (INR 1) with 1. lra. }
    rewrite plus_INR in P1. fold n in P1. change (INR 1) with 1 in P1.
    assert (E1 : eta <= (5 / 100) * ((n + 1) * u64 * B)).
    { apply Rle_trans with ((5 / 100) * (2 * u64 * bpow radix2 (-149))).
      - apply Rle_trans with (bpow radix2 (-4) * (u64 * bpow radix2 (-149))).
        + unfold eta, u64. rewrite <- !bpow_plus. apply bpow_le. lia.
        + change (bpow radix2 (-4)) with (/ 16). pose proof (bpow_gt_0 radix2 (-149)) as P149. assert (0 < u64 * bpow radix2 (-149)) by (apply Rmult_lt_0_compat; assumption). lra.
      - apply Rmult_le_compat_l; [lra|]. apply Rmult_le_compat; try (apply bpow_ge_0); try lra; [apply Rmult_le_compat_r; lra|]. apply bpow_le. lia. }
    assert ((PW (length row + 1) - 1) * (asum row / INR (length row)) <= (115 / 100) * ((n + 1) * u64) * B).
    { apply Rmult_le_compat; try lra. pose proof (PW_ge (length row + 1)). lra. }
    unfold dl. lra. }
  assert (dl0 : 0 <= dl) by (eapply Rle_trans; [apply Rabs_pos|exact Hd]).
  assert (MB : Rabs (rmean rs) <= B) by (apply mean_bound; assumption).
  (* deviations *)
  assert (DV : forall r, Rabs r <= B -> Rabs (r - rmean rs) <= 2 * B /\ Rabs ((r - B2R mu) - (r - rmean rs)) <= dl).
  { intros r Hrb. split.
    - eapply Rle_trans; [apply Rabs_triang|]. rewrite Rabs_Ropp. lra.
    - replace ((r - B2R mu) - (r - rmean rs)) with (- (B2R mu - rmean rs)) by ring. rewrite Rabs_Ropp. exact Hd. }
  set (N' := rsum (map (rsq exp64 row) row)).
  assert (HNN : Rabs (N' - N) <= n * (dl * (4 * B + dl))).
  { change N with (rsum (map (fun v => (f32R v - rmean rs) * (f32R v - rmean rs)) (map B2R row))). unfold N', n. rewrite map_map. apply (sum_diff (rsq exp64 row) (fun x => (f32R (B2R x) - rmean rs) * (f32R (B2R x) - rmean rs))).
    intros x Hin. destruct (Hx x Hin) as [_ Hxb]. pose proof (f32R_le (B2R x) b ltac:(lia) Hxb) as Hf. destruct (DV _ Hf) as [D1 D2].
    destruct (term_diff 1 1 (f32R (B2R x) - rmean rs) (f32R (B2R x) - B2R mu) (f32R (B2R x) - rmean rs) (f32R (B2R x) - B2R mu) B dl 0) as [T1 _]; try assumption; try lra;
      try (rewrite Rabs_R1; lra); [rewrite Rminus_diag_eq, Rabs_R0 by reflexivity; lra|].
    rewrite !Rmult_1_l, Rmult_0_l, Rplus_0_l in T1. exact T1. }
  assert (N2 : N / 2 <= N').
  { destruct (quot_diff 0 0 0 N N' 0 n B dl 0 0) as [Q _]; try assumption; try lra.
    - split; [exact dl0|apply Rle_refl].
    - rewrite Rminus_0_r, Rabs_R0. lra.
    - rewrite Rabs_R0. lra.
    - unfold Rdiv. rewrite !Rmult_0_l, Rminus_0_r, Rabs_R0, Rmult_0_r. pose proof (bpow_ge_0 radix2 (-110)). lra. }
  assert (N750 : bpow radix2 (-750) <= N').
  { apply Rle_trans with (N / 2); [|exact N2]. apply Rle_trans with (bpow radix2 (-701)); [apply bpow_le; lia|].
    change (bpow radix2 (-701)) with (bpow radix2 (-700 + -1)). rewrite bpow_plus. change (bpow radix2 (-1)) with (/ 2). lra. }
  (* the value in binary64 *)
  set (Y1 := fun q => nth q row (nzero (A := BN)) : b64).
  set (Y2 := fun q => nth (nth q sidx 0%nat) row (nzero (A := BN)) : b64).
  assert (I1 : forall q, (q < m)%nat -> In (Y1 q) row) by (intros q Hq; apply nth_In; lia).
  assert (I2 : forall q, (q < m)%nat -> In (Y2 q) row) by (intros q Hq; apply nth_In; apply Hlt; apply nth_In; exact Hq).
  pose proof (value_fin exp64 row W Y1 Y2 m) as KF. cbv zeta in KF. pose proof (value_acc exp64 row W Y1 Y2 m) as KA. cbv zeta in KA.
  change (@num BN) with b64 in KF, KA. rewrite EV in KF, KA. fold N' in KF, KA.
  match type of KF with _ -> _ -> _ -> _ -> _ -> is_finite ?z = true => set (v := z) in * end.
  assert (Fv : is_finite v = true).
  { apply KF; try assumption.
    - intros x Hin. destruct (Hx x Hin). split; [assumption|lra].
    - intros q Hq. destruct (Hwt q Hq) as [W1 [W2 W3]]. repeat split; auto. rewrite Rabs_pos_eq; apply W2. }
  set (V := rsum (map (fun q => wt q * dev rs q * dev rs (nth q sidx 0%nat)) (seq 0 m))) in *.
  exists v. split; [reflexivity|].
  split; [exact Fv|].
  assert (KA' := KA Z50 Hle ltac:(intros x Hin; right; destruct (Hx x Hin); split; [assumption|lra]) I2 ltac:(eapply Rle_trans; [|exact N750]; apply bpow_le; lia) Fv).
  clear KA KF. set (t := fun q => B2R (W q) * (B2R (Y1 q) - B2R mu) * (B2R (Y2 q) - B2R mu)) in *.
  set (V' := rsum (map t (seq 0 m))) in *. set (T := rsum (map (fun q => Rabs (t q)) (seq 0 m))) in *.
  rewrite plus_INR, plus_INR in KA'. fold n in KA'. change (INR 10) with 10 in KA' || (replace (INR 10) with 10 in KA' by (cbn; lra)).
  assert (Hm : 0 <= INR m <= n) by (split; [apply pos_INR|apply le_INR; exact Hle]).
  assert (TD : forall q, In q (seq 0 m) -> Rabs (t q - wt q * dev rs q * dev rs (nth q sidx 0%nat)) <= om * ((2 * B + dl) * (2 * B + dl)) + dl * (4 * B + dl) /\
      Rabs (t q) <= (2 * B + dl) * (2 * B + dl)).
  { intros q Hq. apply in_seq in Hq. assert (Hq' : (q < m)%nat) by lia. destruct (Hwt q Hq') as [W1 [W2 W3]].
    assert (G : forall k, (k < length row)%nat -> dev rs k = B2R (nth k row (nzero (A := BN)) : b64) - rmean rs /\ Rabs (B2R (nth k row (nzero (A := BN)) : b64)) <= B).
    { intros k Hk. split; [|apply Hx; apply nth_In; exact Hk]. unfold dev, rs. f_equal. apply nth_error_nth. rewrite nth_error_map, (nth_error_nth' row (nzero (A := BN)) Hk). reflexivity. }
    destruct (G q ltac:(lia)) as [G1 G2]. destruct (G (nth q sidx 0%nat) ltac:(apply Hlt, nth_In; exact Hq')) as [G3 G4].
    destruct (DV _ G2) as [D1 D2]. destruct (DV _ G4) as [D3 D4]. rewrite <- G1 in D1, D2. rewrite <- G3 in D3, D4.
    destruct (Hop q Hq') as [R0 R1].
    apply term_diff; try assumption; try lra; rewrite Rabs_pos_eq; try assumption; apply W2. }
  refine (proj2 (quot_diff (B2R v) V V' N N' T n B dl om (INR m) B0 ltac:(lra) Hm om0 N0 (conj dl0 (Rle_refl _)) H8 H32 _ _ _ HNN KA')).
  - rewrite <- (seq_length m 0) at 1. apply sum_diff. intros q Hq. apply TD. exact Hq.
  - pose proof (sum_bound (fun q => Rabs (t q)) (seq 0 m)) as _. unfold V', T. generalize (seq 0 m) as Q. clear. intros Q. induction Q as [|q Q IH]; [cbn; rewrite Rabs_R0; lra|].
    cbn [map]. rewrite !rsum_cons. eapply Rle_trans; [apply Rabs_triang|]. lra.
  - rewrite <- (seq_length m 0) at 1. apply sum_bound. intros q Hq. apply TD. exact Hq.
Qed.

(** the same times as real numbers are in order, too *)
Lemma exact_times_ok (d : @dstruct BN) (e : @dstruct XR) : accepted d -> times_ok (A := BN) d -> accepted e -> timeseries e = map Fin (map B2R (timeseries d)) -> times_ok (A := XR) e.
Proof.
  intros Ha Hok He Et. set (ts := map B2R (timeseries d)) in *. split; [|split].
  - intros i j x y Hij Hx Hy. rewrite Et in Hx, Hy. rewrite nth_error_map in Hx, Hy.
    destruct (nth_error ts i) as [r|] eqn:Ei; [|discriminate]. destruct (nth_error ts j) as [r'|] eqn:Ej; [|discriminate]. injection Hx as <-. injection Hy as <-.
    cbn. apply Rleb_true. rewrite <- (nth_error_nth _ _ 0 Ei), <- (nth_error_nth _ _ 0 Ej).
    apply (ts_order exp64 d Ha Hok i j Hij). apply nth_error_Some. fold ts. rewrite Ej. discriminate.
  - intros x Hx. rewrite Et in Hx. apply in_map_iff in Hx. destruct Hx as [r [<- _]]. cbn. discriminate.
  - intros x Hx. destruct (accepted_times e He) as [tx [data [er [N [Ed [Hnil [Ent _]]]]]]].
    assert (Etx : tx = map Fin ts) by (rewrite <- Et, Ed; reflexivity). rewrite Etx, rel_times_Fin in Ent.
    change (@num XR) with xr in *. rewrite Ent in Hx. apply in_map_iff in Hx. destruct Hx as [r [<- _]]. cbn. discriminate.
Qed.

Lemma any_value (p : platform) (d : @dstruct BN) (e : @dstruct XR) mi ma re al mi' ma' re' al' wgt lags lags' corr corr' c c'
    (rows : list (list b64)) (rows' : list (list xr)) j j' i i' (row : list b64) (kk : b64) b om :
  accepted d -> times_ok (A := BN) d -> accepted e -> timeseries e = map exact_of (timeseries d) -> p_abs p = AbsFloat ->
  autocorrelation (A := BN) p d mi ma re al "natural" wgt = Ok (lags, corr, c) ->
  autocorrelation (A := XR) p e mi' ma' re' al' "natural" wgt = Ok (lags', corr', c') ->
  data_2d d = Ok rows -> data_2d e = Ok rows' -> nth_error rows j = Some row -> nth_error rows' j' = Some (map exact_of row) ->
  nth_error lags i = Some kk -> nth_error lags' i' = Some (exact_of kk) -> is_finite kk = true ->
  let ts := map B2R (timeseries d) in
  let T := nth (length ts - 1) ts 0 - nth 0 ts 0 in
  let er := bpow radix2 (-53) * (5 * T + 3 * Rabs (B2R kk)) in
  T <= bpow radix2 1021 -> Rabs (B2R kk) <= bpow radix2 1021 -> clear_choice ts (B2R kk) er -> B2R kk <= 0 \/ er < B2R kk ->
  let a : b64 := opt_or (A := BN) al (median_time d) in
  is_finite a = true -> 0 < B2R a -> opt_or (A := XR) al' (median_time e) = exact_of a ->
  proper_alpha (A := BN) wgt a ->
  finite (A := BN) (if String.eqb wgt "gaussian" then nmul (Num := BN) (nmul (Num := BN) (b64_ofZ 2) a) a else a) ->
  weight_error exp64 wgt (B2R a) om ->
  (-149 <= b <= 100)%Z -> (forall x : b64, In x row -> is_finite x = true /\ Rabs (B2R x) <= bpow radix2 b) ->
  let n := INR (length row) in
  let N := sq_dev32 (map B2R row) in
  let K := n * (bpow radix2 b * bpow radix2 b) / N in
  bpow radix2 (-700) <= N -> (n + 1) * K <= bpow radix2 48 ->
  exists (s : list nat) (os : list b64) (os' : list R) (v : b64) (v' : R),
    pairs_by (A := BN) p d (naturalSelectionFunctionIdx (A := BN) p d) kk (length rows) = Ok (s, os) /\
    pairs_by (A := XR) p e (naturalSelectionFunctionIdx (A := XR) p e) (exact_of kk) (length rows') = Ok (s, map Fin os') /\
    (forall q, (q < length s)%nat -> is_finite (nth q os (b64_ofZ 0)) = true /\ Rabs (B2R (nth q os (b64_ofZ 0)) - nth q os' 0) <= er) /\
    corr_at corr j i = Some v /\ corr_at corr' j' i' = Some (Fin v') /\ is_finite v = true /\
    Rabs (B2R v - v') <= 50 * (n + 10) * bpow radix2 (-53) * (K * K + K) + 5 * (om + er / B2R a) * K + bpow radix2 (-110).
Proof.
  intros Ha Hok He Hte Hp E E' Hd Hd' Hj Hj' Hi Hi' Fk ts T er HT HK HC HS a Fa Pa Ea Hpa Hfa Hom Hb Hx n N K HN HKK.
  assert (Fx : forall x : b64, In x row -> is_finite x = true) by (intros x Hx0; apply Hx; exact Hx0).
  assert (Ek : exact_of kk = Fin (B2R kk)) by (rewrite exact_toE; apply toE_finite; exact Fk).
  assert (Eaa : exact_of a = Fin (B2R a)) by (rewrite exact_toE; apply toE_finite; exact Fa). rewrite Eaa in Ea.
  assert (FT : forall x : b64, In x (timeseries d) -> is_finite x = true).
  { intros x Hin. apply (finite_is exp64). destruct Hok as [_ [H _]]. apply H. exact Hin. }
  assert (Et : timeseries e = map Fin ts) by (rewrite Hte; apply exact_Fin; exact FT).
  rewrite exact_Fin in Hj' by exact Fx. rewrite Ek in Hi' |- *.
  pose proof (exact_times_ok d e Ha Hok He Et) as Hoe.
  destruct (call_pairs p e mi' ma' re' al' "natural" wgt lags' corr' c' rows' j' i' (map B2R row) ts (B2R kk) He E' Hd' Hj' Hi' Et) as [f [s' [os' [Hf [HP' HL']]]]].
  pose proof Hf as Hg. injection Hf as <-.
  destruct (value_exact_pairs p e mi' ma' re' al' "natural" wgt lags' corr' c' rows' j' i' (map B2R row) ts os' (B2R kk) (B2R a) _ _ s' He E' Hd' Hj' Hi' Et Ea Pa Hg HP')
    as [_ [Lr [_ [_ [_ [Po' HV']]]]]].
  destruct (@value_parts BN p d mi ma re al "natural" wgt lags corr c rows j i row kk Ha E Hd Hj Hi)
    as [sf [w [sidx [S [dts [Hs [Hw [HSS [HD [HL [Hdl [HlS [Hle [Hlt HV]]]]]]]]]]]]]]. cbv zeta in HV. fold a in Hw.
  destruct (pairs_by_closed (A := BN) p d "natural" _ kk (length rows) Ha eq_refl) as [sf0 [Hs0 C]]. rewrite Hs in Hs0. injection Hs0 as <-.
  rewrite HSS in C. cbn [bind fst snd] in C. rewrite HD in C. cbn [bind] in C.
  assert (HP : pairs_by (A := BN) p d (naturalSelectionFunctionIdx (A := BN) p d) kk (length rows) = Ok (sidx, dts)).
  { destruct (pairs_by (A := BN) p d (naturalSelectionFunctionIdx (A := BN) p d) kk (length rows)); cbn [same_outcome] in C; try contradiction. rewrite C. reflexivity. }
  clear C. change (@num BN) with b64 in *.
  destruct (natural_real exp64 d kk Ha Hok Fk HT HK p _ sidx dts Hp HP) as [_ [_ [_ NR]]].
  destruct (same_as_exact exp64 d kk Ha Hok Fk HT HK p _ sidx dts _ s' os' e Hp He Hoe Et HC HS HP HP') as [-> SO].
  fold ts T in NR. change (u64 * (5 * T + 3 * Rabs (B2R kk))) with er in NR.
  assert (om0 : 0 <= om).
  { clear - Hom. destruct Hom as [[_ ->]|[_ [_ [eps [[_ [_ H]] ->]]]]]; [pose proof (bpow_ge_0 radix2 (-53)); lra|].
    pose proof (bpow_ge_0 radix2 (-53)). pose proof (Rabs_pos (B2R (exp64 (B754_infinity true)))). lra. }
  assert (er0 : 0 <= er).
  { pose proof (len_nt exp64 d Ha) as [_ [_ [L3 _]]]. pose proof (span exp64 d Ha Hok 0 0 L3 L3) as [_ S0]. pose proof (Rabs_pos (B2R kk)). pose proof (bpow_ge_0 radix2 (-53)).
    unfold er. apply Rmult_le_pos; [assumption|]. fold ts T in S0. lra. }
  assert (ea0 : 0 <= er / B2R a) by (apply Rmult_le_pos; [exact er0|left; apply Rinv_0_lt_compat; exact Pa]).
  set (W := fun q => w (nth q dts (nzero (A := BN))) : b64). set (wt := fun q => rweight wgt (B2R a) (nth q os' 0)).
  destruct (value_core row sidx W wt b (om + er / B2R a) Hb Hx HN HKK) as [v [Ev [Fv Hv]]].
  { rewrite <- (map_length B2R) in Hle. intros C. pose proof (len_nt exp64 d Ha) as [_ [_ [L3 _]]]. fold ts in L3. rewrite <- Lr, C in L3. cbn in L3. lia. }
  { exact Hle. } { exact Hlt. } { lra. }
  { intros q Hq. destruct (NR q Hq) as [_ [F1 [P1 [D1 _]]]]. unfold W, wt.
    destruct (weight_pair exp64 wgt w a (nth q dts (b64_ofZ 0)) om Hw Fa Pa F1 P1 Hpa Hfa Hom) as [W1 [W2 W3]].
    split; [exact W1|]. split; [exact W2|].
    match goal with |- Rabs (?x - ?z) <= _ => replace (x - z) with (x - rweight wgt (B2R a) (B2R (nth q dts (b64_ofZ 0))) + (rweight wgt (B2R a) (B2R (nth q dts (b64_ofZ 0))) - z)) by ring end.
    eapply Rle_trans; [apply Rabs_triang|]. apply Rplus_le_compat; [exact W3|]. eapply Rle_trans; [apply rweight_lip; [exact Pa|exact P1|apply Po']|].
    apply Rmult_le_compat_r; [left; apply Rinv_0_lt_compat; exact Pa|]. rewrite (SO q Hq). exact D1. }
  { intros q Hq. apply rweight_range; [exact Pa|apply Po']. }
  exists sidx, dts, os', v. eexists. split; [exact HP|]. split; [exact HP'|]. split.
  { intros q Hq. destruct (NR q Hq) as [_ [F1 [P1 [D1 _]]]]. split; [exact F1|]. rewrite (SO q Hq). exact D1. }
  split; [rewrite HV, (norm_of_sum_sq (A := BN)), Ev; reflexivity|]. split.
  { rewrite HV'. cbn. unfold Reqb. fold N. destruct (Req_EM_T N 0) as [C|_]; [exfalso; rewrite C in HN; exact (Rlt_irrefl _ (Rlt_le_trans _ _ _ (bpow_gt_0 radix2 (-700)) HN))|reflexivity]. }
  split; [exact Fv|]. eapply Rle_trans; [|exact Hv]. right. f_equal. f_equal. unfold Rdiv. f_equal. unfold rsum_n. f_equal. apply map_ext. intros q. unfold wt. ring.
Qed.
End Call.
