(** The default lags in binary64 for times close to an even grid. *)
From Coq Require Import String.
From Coq Require Import ZArith Reals List Bool Arith Lia Lra Psatz.
From Flocq Require Import Core BinarySingleNaN.
From Verif Require Import Num Mem MemFacts XR B64 Spec SpecR SpecTime SpecEven DataStructure Correlator Sacf Api Laws B64Facts Laws2 DSFacts CorrFacts LoopFacts MainFacts
  RelFacts ConstrFacts TimeFacts SafeFacts SelFacts WeightFacts DefaultFacts WeightAcc ValFacts ExactFacts AccFacts OffFacts AccThms SimFacts FixedFacts GridVals FixedThms AccExact PairBounds
  GridFacts  TimeCloseFacts SelThms AnyTimes AnyTimesVal EvenFacts EvenFloat.
Import ListNotations.
Local Open Scope list_scope.
Local Open Scope R_scope.

Lemma with_zero_at {A : Num} (l : list num) k x : nth_error l k = Some x ->
  nth_error (with_zero l) k = Some x \/ nth_error (with_zero l) (S k) = Some x.
Proof.
  revert k. induction l as [|a l IH]; intros k H; [destruct k; discriminate|]. cbn [with_zero].
  destruct (neqb a nzero); [left; exact H|]. destruct (nlt nzero a); [right; exact H|].
  destruct k as [|k]; [left; exact H|]. cbn [nth_error] in *. apply IH. exact H.
Qed.

Lemma max_big : 2 * bpow radix2 1021 <= B2R (Bmax_float : b64).
Proof.
  unfold Bmax_float. rewrite B2R_SF2B. unfold SF2R, F2R. cbn [Fnum Fexp cond_Zopp].
  apply Rle_trans with (bpow radix2 52 * bpow radix2 971).
  - change 2 with (bpow radix2 1). rewrite <- !bpow_plus. apply bpow_le. lia.
  - apply Rmult_le_compat_r; [apply bpow_ge_0|]. change (bpow radix2 52) with (IZR 4503599627370496). apply IZR_le. vm_compute. discriminate.
Qed.

Section Grid.
Context (exp64 : b64 -> b64).
Notation BN := (B64 exp64).
Variables (d : @dstruct BN) (c0 : @correlator BN) (t0 dd h : R).
Let ts : list R := map B2R (timeseries d).
Let T : R := nth (length ts - 1) ts 0 - nth 0 ts 0.
Let M : nat := length ts.
Let u : R := bpow radix2 (-53).
Let G : R := 4 * INR M * (h + 3 * u * T).
Hypotheses (Ha : accepted d) (Hok : times_ok (A := BN) d) (Hn : new_Correlator d = Ok c0)
  (HT : T <= bpow radix2 1021) (HM : (2 <= M)%nat) (He : nearly_even ts t0 dd h) (HG : 2 * G < dd).

Lemma base : 0 <= h /\ 0 <= T /\ 0 <= u * T /\ 2 <= INR M /\ u <= / 1000000000 /\ 0 < u.
Proof.
  assert (H0 : 0 <= h) by (eapply Rle_trans; [apply Rabs_pos|apply (He 0%nat); fold M; lia]).
  assert (L : (0 < length ts)%nat) by (fold M; lia). destruct (span exp64 d Ha Hok 0 0 L L) as [_ S0].
  assert (T0 : 0 <= T) by exact S0.
  assert (U : 0 < u) by exact u64_pos. assert (U2 : u <= / 1000000000) by exact u64_small.
  split; [exact H0|]. split; [exact T0|]. split; [apply Rmult_le_pos; [left; exact U|exact T0]|]. split; [|split; assumption].
  change 2 with (INR 2). apply le_INR. exact HM.
Qed.

Lemma last_time : is_finite (max_lag c0 : b64) = true /\ Rabs (B2R (max_lag c0 : b64) - T) <= u * T /\ Rabs (T - INR (M - 1) * dd) <= 2 * h.
Proof.
  destruct (default_lags d c0 Ha Hn) as [_ [L _]]. destruct (len_nt exp64 d Ha) as [L1 [_ [L3 _]]]. fold ts in L1, L3. fold M in L1, L3.
  assert (E : max_lag c0 = nth (M - 1) (normalised_timeseries d : list b64) (b64_ofZ 0)).
  { rewrite (lback_nth _ (nth (M - 1) (normalised_timeseries d : list b64) (b64_ofZ 0))) in L; [injection L as <-; reflexivity|].
    change (@num BN) with b64. rewrite L1. apply nth_error_nth'. lia. }
  rewrite E. assert (Q : (M - 1 < length ts)%nat) by (fold M; lia).
  split; [apply (tl_fin exp64 d Ha Hok (M - 1)%nat Q)|]. split; [exact (x_near exp64 d Ha Hok (M - 1)%nat Q)|].
  pose proof (He (M - 1)%nat Q) as A. pose proof (He 0%nat ltac:(fold M; lia)) as B. cbn [INR] in B. apply Rabs_le_inv in A, B. unfold T. fold M. apply Rabs_le. lra.
Qed.

Lemma resolution_near : is_finite (lag_resolution c0 : b64) = true /\ Rabs (B2R (lag_resolution c0 : b64) - dd) <= 2 * h + 4 * (u * T).
Proof.
  destruct base as [H0 [T0 [UT [M2 [U2 U0]]]]].
  destruct (len_nt exp64 d Ha) as [L1 [L2 [L3 _]]]. fold ts in L1, L2, L3. fold M in L1, L2, L3.
  assert (X : forall q, (q < M)%nat -> is_finite (nth q (normalised_timeseries d : list b64) (b64_ofZ 0)) = true /\
                Rabs (B2R (nth q (normalised_timeseries d : list b64) (b64_ofZ 0)) - (nth q ts 0 - nth 0 ts 0)) <= u * T /\ Rabs (nth q ts 0 - nth 0 ts 0) <= T).
  { intros q Hq. split; [apply (tl_fin exp64 d Ha Hok q Hq)|]. split; [exact (x_near exp64 d Ha Hok q Hq)|]. apply (span exp64 d Ha Hok q 0 Hq). fold ts M. lia. }
  destruct Hok as [Ho [Hf Hf2]].
  destruct (lag_resolution_min BN (arith_binary64 exp64) d c0 Ha Hn Ho Hf) as [[i [a [b [E1 [E2 E3]]]]] _].
  { change (@num BN) with b64. rewrite L1. exact HM. }
  { intros x Hx. split; [apply Hf2; exact Hx|]. apply (In_nth _ _ (b64_ofZ 0)) in Hx. change (@num BN) with b64 in Hx. destruct Hx as [q [Hq Ex]]. rewrite L1 in Hq.
    destruct (X q Hq) as [F [A B]]. change (@num BN) with b64 in *. rewrite Ex in F, A. apply nle_R; [exact F|reflexivity|]. eapply Rle_trans; [|exact max_big].
    apply Rabs_le_inv in A, B. assert (u * T <= T) by nra. lra. }
  change (@num BN) with b64 in *.
  assert (Hi : (S i < M)%nat) by (rewrite <- L1; apply nth_error_Some; rewrite E2; discriminate).
  apply (nth_error_nth _ _ (b64_ofZ 0)) in E1, E2.
  destruct (X i ltac:(lia)) as [F1 [A1 B1]]. destruct (X (S i) Hi) as [F2 [A2 B2]]. rewrite E1 in F1, A1. rewrite E2 in F2, A2.
  pose proof (He i ltac:(fold M; lia)) as C1. pose proof (He (S i) Hi) as C2. rewrite S_INR in C2.
  pose proof (rnd_minus b a) as R. change u64 with u in R.
  assert (D : Rabs (B2R b - B2R a - dd) <= 2 * h + 2 * (u * T)) by (apply Rabs_le_inv in A1, A2, C1, C2; apply Rabs_le; lra).
  pose proof (span exp64 d Ha (conj Ho (conj Hf Hf2)) (S i) i Hi ltac:(fold ts M; lia)) as [Sp _].
  assert (S1 : Rabs (B2R b - B2R a) <= 101 / 100 * T).
  { change (Rabs (nth (S i) ts 0 - nth i ts 0) <= T) in Sp. assert (u * T <= T * / 1000000000) by nra. apply Rabs_le_inv in A1, A2, Sp. apply Rabs_le. lra. }
  assert (S2 : u * Rabs (B2R b - B2R a) <= 2 * (u * T)) by nra.
  assert (S3 : u * Rabs (B2R b - B2R a) <= T) by nra.
  destruct (minus_fin b a F2 F1) as [Fd Vd].
  { pose proof big_2 as Bg. pose proof (near _ _ _ R). pose proof (bpow_gt_0 radix2 1021). lra. }
  change (neqb (Num := BN) (lag_resolution c0) (nsub (Num := BN) b a)) with (Beqb (lag_resolution c0) (Bminus mode_NE b a)) in E3.
  rewrite Beqb_toE, (toE_finite _ Fd) in E3. apply xeqb_Fin in E3. apply E_fin in E3. destruct E3 as [Fr Vr]. split; [exact Fr|]. rewrite Vr, Vd.
  apply Rabs_le_inv in R, D. apply Rabs_le. lra.
Qed.

Lemma steps_near N n : stops_at (A := BN) (min_lag c0) (lag_resolution c0) (max_lag c0) N -> (n < N)%nat ->
  is_finite (steps (A := BN) (min_lag c0) (lag_resolution c0) n : b64) = true /\
  Rabs (B2R (steps (A := BN) (min_lag c0) (lag_resolution c0) n : b64) - (INR n - INR (M - 1)) * dd) <= (INR n + 1) * (2 * h + 6 * (u * T)).
Proof.
  intros HN Hlt. destruct base as [H0 [T0 [UT [M2 [U2 U0]]]]]. destruct last_time as [Fm [A B]]. destruct resolution_near as [Fr C].
  destruct (default_lags d c0 Ha Hn) as [_ [_ [Em _]]]. 
  assert (Fa : is_finite (min_lag c0 : b64) = true) by (rewrite Em; change (is_finite (Bopp (max_lag c0 : b64)) = true); rewrite is_finite_Bopp; exact Fm).
  assert (Va : B2R (min_lag c0 : b64) = - B2R (max_lag c0 : b64)) by (rewrite Em; change (B2R (Bopp (max_lag c0 : b64)) = - B2R (max_lag c0 : b64)); apply B2R_Bopp).
  destruct (steps_accurate exp64 (min_lag c0) (lag_resolution c0) (max_lag c0) N Fa Fm Fr HN n Hlt) as [F E]. split; [exact F|].
  rewrite Va, Rabs_Ropp, Rmax_left in E by lra. change (bpow radix2 (-53)) with u in E.
  set (x := B2R (steps (A := BN) (min_lag c0) (lag_resolution c0) n : b64)) in *. set (Tm := B2R (max_lag c0 : b64)) in *. set (r := B2R (lag_resolution c0 : b64)) in *.
  pose proof (pos_INR n) as N0. set (k := INR n) in *. set (m := INR (M - 1)) in *.
  assert (Tb : Rabs Tm <= 2 * T) by (apply Rabs_le_inv in A; apply Rabs_le; assert (u * T <= T) by nra; lra).
  assert (E1 : k * Rabs Tm * u <= k * (2 * (u * T))) by (rewrite Rmult_assoc; apply Rmult_le_compat_l; [exact N0|nra]).
  assert (E2 : Rabs (k * r - k * dd) <= k * (2 * h + 4 * (u * T))).
  { replace (k * r - k * dd) with (k * (r - dd)) by ring. rewrite Rabs_mult, (Rabs_pos_eq k N0). apply Rmult_le_compat_l; assumption. }
  apply Rabs_le_inv in A, B, E, E2. apply Rabs_le.
  assert (k * (2 * (u * T)) + k * (2 * h + 4 * (u * T)) = k * (2 * h + 6 * (u * T))) by ring. set (uT := u * T) in *. lra.
Qed.

Lemma grid_size N : stops_at (A := BN) (min_lag c0) (lag_resolution c0) (max_lag c0) N -> (2 * M - 2 <= N <= 2 * M - 1)%nat.
Proof.
  intros HN. destruct base as [H0 [T0 [UT [M2 [U2 U0]]]]]. destruct last_time as [Fm [A B]]. destruct resolution_near as [Fr C].
  destruct (default_lags d c0 Ha Hn) as [_ [_ [Em _]]].
  assert (Fa : is_finite (min_lag c0 : b64) = true) by (rewrite Em; change (is_finite (Bopp (max_lag c0 : b64)) = true); rewrite is_finite_Bopp; exact Fm).
  assert (Va : B2R (min_lag c0 : b64) = - B2R (max_lag c0 : b64)) by (rewrite Em; change (B2R (Bopp (max_lag c0 : b64)) = - B2R (max_lag c0 : b64)); apply B2R_Bopp).
  set (e := 2 * h + 6 * (u * T)) in *. assert (e0 : 0 <= e) by (unfold e; lra). assert (Ge : G = 2 * INR M * e) by (unfold G, e; ring).
  assert (B1 : Rabs (B2R (max_lag c0 : b64) - INR (M - 1) * dd) <= e) by (apply Rabs_le_inv in A, B; apply Rabs_le; unfold e; lra).
  assert (Em1 : INR (M - 1) = INR M - 1) by (rewrite minus_INR by lia; reflexivity).
  assert (eG : 4 * e <= G) by (rewrite Ge; nra).
  split.
  - destruct (Nat.lt_ge_cases N (2 * M - 2)) as [K|K]; [exfalso|exact K]. destruct HN as [H1 H2]. destruct N as [|n].
    + change (steps (A := BN) (min_lag c0) (lag_resolution c0) 0) with (min_lag c0) in H2. apply not_true_iff_false in H2. apply H2. apply nle_R; [exact Fa|exact Fm|]. rewrite Va.
      apply Rabs_le_inv in A. assert (u * T <= T) by nra. lra.
    + destruct (steps_near (S n) n (conj H1 H2) ltac:(lia)) as [Fs Hs]. fold e in Hs.
      rewrite steps_next in H2. set (s := steps (A := BN) (min_lag c0) (lag_resolution c0) n) in *. change (@num BN) with b64 in *.
      assert (Q : INR n + 1 <= 2 * INR M - 3) by (replace (2 * INR M - 3) with (INR (2 * M - 3)) by (rewrite minus_INR, mult_INR by lia; cbn [INR]; ring); rewrite <- S_INR; apply le_INR; lia).
      pose proof (pos_INR n) as N0.
      assert (P : B2R s + B2R (lag_resolution c0 : b64) <= B2R (max_lag c0 : b64)).
      { assert (C1 : Rabs (B2R (lag_resolution c0 : b64) - dd) <= e) by (unfold e; lra). apply Rabs_le_inv in Hs, C1, B1.
        assert (D1 : (INR n + 1) * e <= (2 * INR M - 3) * e) by (apply Rmult_le_compat_r; assumption).
        assert (D0 : 0 < dd) by lra.
        assert (D2 : (INR n - INR (M - 1)) * dd <= (INR (M - 1) - 2) * dd) by (apply Rmult_le_compat_r; lra). lra. }
      assert (P2 : - B2R (max_lag c0 : b64) <= B2R s).
      { pose proof (steps_ge (A := BN) (min_lag c0) (lag_resolution c0) (max_lag c0) (S n) n) as Sg. rewrite <- Va. apply (proj1 (nle_R exp64 (min_lag c0) s Fa Fs)). apply Sg; [split; [exact H1|rewrite steps_next; exact H2]|lia]. }
      assert (R0 : 0 <= B2R (lag_resolution c0 : b64)) by (apply Rabs_le_inv in C; unfold e in *; lra).
      assert (R1 : rnd (B2R s + B2R (lag_resolution c0 : b64)) <= B2R (max_lag c0 : b64)).
      { rewrite <- (round_generic radix2 (FLT_exp (-1074) 53) ZnearestE (B2R (max_lag c0 : b64))) by apply (generic_format_B2R 53 1024). apply round_le; [apply FLT_exp_valid; reflexivity|apply valid_rnd_N|exact P]. }
      assert (R2 : - B2R (max_lag c0 : b64) <= rnd (B2R s + B2R (lag_resolution c0 : b64))).
      { rewrite <- Va. rewrite <- (round_generic radix2 (FLT_exp (-1074) 53) ZnearestE (B2R (min_lag c0 : b64))) by apply (generic_format_B2R 53 1024). apply round_le; [apply FLT_exp_valid; reflexivity|apply valid_rnd_N|lra]. }
      destruct (plus_fin s (lag_resolution c0 : b64) Fs Fr) as [Fp Vp].
      { apply Rle_lt_trans with (B2R (max_lag c0 : b64)); [apply Rabs_le; lra|]. eapply Rle_lt_trans; [apply Rle_abs|]. apply (abs_B2R_lt_emax 53 1024). }
      apply not_true_iff_false in H2. apply H2. change (nle (Num := BN) (Bplus mode_NE s (lag_resolution c0 : b64)) (max_lag c0) = true). apply nle_R; [exact Fp|exact Fm|]. rewrite Vp. exact R1.
  - destruct (Nat.le_gt_cases N (2 * M - 1)) as [K|K]; [exact K|exfalso].
    destruct (steps_near N (2 * M - 1) HN K) as [Fs Hs]. fold e in Hs. pose proof (proj1 HN _ K) as L. apply nle_R in L; [|exact Fs|exact Fm].
    replace (INR (2 * M - 1)) with (2 * INR M - 1) in Hs by (rewrite minus_INR, mult_INR by lia; cbn [INR]; ring). rewrite Em1 in *. apply Rabs_le_inv in Hs, B1.
    assert (D0 : 0 < dd) by lra. assert (2 * INR M * e = G) by (symmetry; exact Ge). lra.
Qed.

Theorem even_lags p al sel wgt lags corr c : autocorrelation (A := BN) p d None None None al sel wgt = Ok (lags, corr, c) ->
  (2 * M - 2 <= length lags <= 2 * M)%nat /\
  (forall n, (n <= 2 * M - 3)%nat -> exists i (kk : b64), (i = n \/ i = S n) /\ nth_error lags i = Some kk /\ is_finite kk = true /\
     Rabs (B2R kk - (INR n - INR (M - 1)) * dd) <= G) /\
  (forall i (kk : b64), nth_error lags i = Some kk -> B2R kk = 0 \/ exists n, (n = i \/ S n = i) /\ (n <= 2 * M - 2)%nat /\ Rabs (B2R kk - (INR n - INR (M - 1)) * dd) <= G).
Proof.
  intros E. destruct (returned_grid p d c0 None None None al sel wgt _ Ha Hn E) as [[N [HN Hg]] _]. cbn [opt_or fst] in HN, Hg.
  pose proof (grid_size N HN) as Hs. destruct base as [H0 [T0 [UT [M2 [U2 U0]]]]].
  set (e := 2 * h + 6 * (u * T)) in *. assert (e0 : 0 <= e) by (unfold e; lra). assert (Ge : G = 2 * INR M * e) by (unfold G, e; ring).
  assert (Bd : forall n, (n < N)%nat -> (INR n + 1) * e <= G).
  { intros n K. rewrite Ge. apply Rmult_le_compat_r; [exact e0|]. rewrite <- S_INR. replace (2 * INR M) with (INR (2 * M)) by (rewrite mult_INR; cbn [INR]; ring). apply le_INR. lia. }
  split; [|split].
  - rewrite Hg. pose proof (with_zero_length (A := BN) (map (steps (A := BN) (min_lag c0) (lag_resolution c0)) (seq 0 N))) as W. rewrite map_length, seq_length in W. change (@num BN) with b64 in *. lia.
  - intros n K. destruct (steps_near N n HN ltac:(lia)) as [F S]. fold e in S. pose proof (Bd n ltac:(lia)).
    assert (Q : nth_error (map (steps (A := BN) (min_lag c0) (lag_resolution c0)) (seq 0 N)) n = Some (steps (A := BN) (min_lag c0) (lag_resolution c0) n)).
    { rewrite nth_steps. destruct (Nat.ltb_spec n N); [reflexivity|lia]. }
    destruct (with_zero_at _ _ _ Q) as [W|W]; rewrite <- Hg in W; eexists; eexists; (split; [|split; [exact W|split; [exact F|lra]]]); auto.
  - intros i kk K. rewrite Hg in K. destruct (with_zero_nth _ _ _ K) as [->|[W|[W0 W]]]; [left; reflexivity|right..]; rewrite nth_steps in W.
    + destruct (Nat.ltb_spec i N) as [L|]; [|discriminate]. injection W as <-. destruct (steps_near N i HN L) as [F S]. fold e in S. pose proof (Bd i L). exists i. split; [auto|]. split; [lia|lra].
    + destruct (Nat.ltb_spec (i - 1) N) as [L|]; [|discriminate]. injection W as <-. destruct (steps_near N (i - 1) HN L) as [F S]. fold e in S. pose proof (Bd (i - 1)%nat L). exists (i - 1)%nat.
      split; [right; lia|]. split; [lia|lra].
Qed.
End Grid.

Theorem even_default64 (exp64 : b64 -> b64) (p : platform) (d : @dstruct (B64 exp64)) al wgt lags corr c (rows : list (list b64)) j (row : list b64) b om (t0 dd h : R) :
  accepted d -> times_ok (A := B64 exp64) d -> p_abs p = AbsFloat ->
  autocorrelation (A := B64 exp64) p d None None None al "natural" wgt = Ok (lags, corr, c) ->
  data_2d d = Ok rows -> nth_error rows j = Some row ->
  let ts := map B2R (timeseries d) in
  let T := nth (length ts - 1) ts 0 - nth 0 ts 0 in
  let M := length ts in
  let G := 4 * INR M * (h + 3 * bpow radix2 (-53) * T) in
  T <= bpow radix2 1021 -> (2 <= M)%nat -> nearly_even ts t0 dd h -> 4 * G < dd ->
  let a : b64 := opt_or (A := B64 exp64) al (median_time d) in
  is_finite a = true -> 0 < B2R a -> proper_alpha (A := B64 exp64) wgt a ->
  finite (A := B64 exp64) (if String.eqb wgt "gaussian" then nmul (Num := B64 exp64) (nmul (Num := B64 exp64) (b64_ofZ 2) a) a else a) ->
  weight_error exp64 wgt (B2R a) om ->
  (-149 <= b <= 100)%Z -> (forall x : b64, In x row -> is_finite x = true /\ Rabs (B2R x) <= bpow radix2 b) ->
  let rs := map B2R row in
  length rs = M ->
  let N := sq_dev32 rs in
  let K := INR M * (bpow radix2 b * bpow radix2 b) / N in
  bpow radix2 (-700) <= N -> (INR M + 1) * K <= bpow radix2 48 ->
  forall m, (m <= M - 2)%nat -> exists i (kk v : b64), (i = M - 1 + m \/ i = M + m)%nat /\
    nth_error lags i = Some kk /\ Rabs (B2R kk - INR m * dd) <= G /\
    corr_at corr j i = Some v /\ is_finite v = true /\
    Rabs (B2R v - rsum_n (M - m) (fun q => dev rs q * dev rs (q + m)) / N) <=
      50 * (INR M + 10) * bpow radix2 (-53) * (K * K + K) + 5 * om * K + bpow radix2 (-110) +
      (2 * G / B2R a * sq_dev rs + Rabs (dev rs (M - 1 - m) * dev rs (M - 1))) / N.
Proof.
  intros Ha Hok Hp E Hd Hj ts T M G HT HM He HG a Fa Pa Hpa Hfa Hom Hb Hx rs Lr N K HN HKK m Hm.
  assert (exists c0, new_Correlator d = Ok c0) as [c0 Hn] by (pose proof E as E'; unfold autocorrelation in E'; apply bind_Ok in E'; destruct E' as [c0 [E' _]]; eauto).
  destruct (base exp64 d t0 dd h Ha Hok HM He) as [H0 [T0 [UT [M2 [U2 U0]]]]].
  fold ts T M in T0, UT, M2. set (u := bpow radix2 (-53)) in *.
  assert (GE : 4 * (2 * h + 6 * (u * T)) <= G) by (unfold G; nra).
  assert (G0 : 0 <= G) by lra.
  destruct (even_lags exp64 d c0 t0 dd h Ha Hok Hn HT HM He ltac:(fold ts T M u G; lra) p al "natural" wgt lags corr c E) as [_ [Hl _]].
  fold ts T M u G in Hl.
  destruct (Hl (M - 1 + m)%nat ltac:(lia)) as [i [kk [Hi [Ei [Fk Hk]]]]].
  replace ((INR (M - 1 + m) - INR (M - 1)) * dd) with (INR m * dd) in Hk by (rewrite plus_INR; ring).
  assert (KT : Rabs (B2R kk) <= T).
  { destruct (last_time exp64 d c0 t0 dd h Ha Hok Hn HM He) as [_ [_ L]]. fold ts T M in L.
    assert (D0 : 0 < dd) by lra.
    assert (Q : INR m * dd <= (INR (M - 1) - 1) * dd) by (apply Rmult_le_compat_r; [lra|]; replace (INR (M - 1) - 1) with (INR (M - 2)) by (rewrite !minus_INR by lia; cbn [INR]; ring); apply le_INR; exact Hm).
    assert (Q0 : 0 <= INR m * dd) by (apply Rmult_le_pos; [apply pos_INR|lra]).
    assert (Q1 : dd <= INR (M - 1) * dd) by (rewrite <- (Rmult_1_l dd) at 1; apply Rmult_le_compat_r; [lra|]; change 1 with (INR 1); apply le_INR; lia).
    apply Rabs_le_inv in L, Hk. apply Rabs_le. lra. }
  assert (ER : 2 * h + u * (5 * T + 3 * Rabs (B2R kk)) <= G) by nra.
  assert (ER2 : 2 * h + G + u * (5 * T + 3 * Rabs (B2R kk)) <= 2 * G) by lra.
  destruct (even_value64 exp64 p d None None None al wgt lags corr c rows j i row kk b om t0 dd h G m Ha Hok Hp E Hd Hj Ei Fk HT) as [v [V1 [V2 V3]]];
    try assumption.
  { fold ts T. lra. } { fold ts T. fold u. lra. } { fold ts M. lia. }
  exists i, kk, v. split; [destruct Hi; [left|right]; lia|]. split; [exact Ei|]. split; [exact Hk|]. split; [exact V1|]. split; [exact V2|].
  fold ts M T in V3. fold rs N K in V3. fold u in V3. fold a in V3. eapply Rle_trans; [exact V3|]. apply Rplus_le_compat_l. apply Rmult_le_compat_r.
  { left. apply Rinv_0_lt_compat. pose proof (bpow_gt_0 radix2 (-700)). lra. }
  apply Rplus_le_compat_r. apply Rmult_le_compat_r; [rewrite sq_dev_n; apply rsum_n_nonneg; intros; apply Rle_0_sqr|]. apply Rmult_le_compat_r; [left; apply Rinv_0_lt_compat; exact Pa|]. exact ER2.
Qed.

Theorem even_lags64 (exp64 : b64 -> b64) (p : platform) (d : @dstruct (B64 exp64)) al sel wgt lags corr c (t0 dd h : R) :
  accepted d -> times_ok (A := B64 exp64) d ->
  autocorrelation (A := B64 exp64) p d None None None al sel wgt = Ok (lags, corr, c) ->
  let ts := map B2R (timeseries d) in
  let T := nth (length ts - 1) ts 0 - nth 0 ts 0 in
  let M := length ts in
  let G := 4 * INR M * (h + 3 * bpow radix2 (-53) * T) in
  T <= bpow radix2 1021 -> (2 <= M)%nat -> nearly_even ts t0 dd h -> 2 * G < dd ->
  (2 * M - 2 <= length lags <= 2 * M)%nat /\
  (forall n, (n <= 2 * M - 3)%nat -> exists i (kk : b64), (i = n \/ i = S n) /\ nth_error lags i = Some kk /\ is_finite kk = true /\
     Rabs (B2R kk - (INR n - INR (M - 1)) * dd) <= G) /\
  (forall i (kk : b64), nth_error lags i = Some kk -> B2R kk = 0 \/ exists n, (n = i \/ S n = i) /\ (n <= 2 * M - 2)%nat /\ Rabs (B2R kk - (INR n - INR (M - 1)) * dd) <= G).
Proof.
  intros Ha Hok E ts T M G HT HM He HG.
  assert (exists c0, new_Correlator d = Ok c0) as [c0 Hn] by (pose proof E as E'; unfold autocorrelation in E'; apply bind_Ok in E'; destruct E' as [c0 [E' _]]; eauto).
  exact (even_lags exp64 d c0 t0 dd h Ha Hok Hn HT HM He HG p al sel wgt lags corr c E).
Qed.
