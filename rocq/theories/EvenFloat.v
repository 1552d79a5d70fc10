(** Time stamps in binary64 close to an even grid, such as multiples of a decimal fraction. *)
From Coq Require Import String.
From Coq Require Import ZArith Reals List Bool Arith Lia Lra Psatz.
From Flocq Require Import Core Relative BinarySingleNaN.
From Verif Require Import Num Mem MemFacts XR B64 Spec SpecR SpecTime SpecEven DataStructure Correlator Sacf Api Laws B64Facts Laws2 DSFacts CorrFacts LoopFacts MainFacts
  RelFacts ConstrFacts TimeFacts SelFacts WeightFacts DefaultFacts WeightAcc ValFacts ExactFacts AccFacts OffFacts AccThms SimFacts FixedFacts GridVals FixedThms AccExact PairBounds
  TimeCloseFacts AnyTimes AnyTimesVal EvenFacts.
Import ListNotations.
Local Open Scope list_scope.
Local Open Scope R_scope.

Section Call.
Context (exp64 : b64 -> b64).
Notation BN := (B64 exp64).

Lemma even_pairs64 (p : platform) (d : @dstruct BN) (kk : b64) n (s : list nat) (os : list b64) (t0 dd h g : R) (m : nat) :
  accepted d -> times_ok (A := BN) d -> is_finite kk = true -> p_abs p = AbsFloat ->
  let ts := map B2R (timeseries d) in
  let T := nth (length ts - 1) ts 0 - nth 0 ts 0 in
  let er := bpow radix2 (-53) * (5 * T + 3 * Rabs (B2R kk)) in
  T <= bpow radix2 1021 -> Rabs (B2R kk) <= bpow radix2 1021 ->
  nearly_even ts t0 dd h -> Rabs (B2R kk - INR m * dd) <= g -> 2 * (2 * h + g + er) < dd -> (m < length ts)%nat ->
  pairs_by (A := BN) p d (naturalSelectionFunctionIdx (A := BN) p d) kk n = Ok (s, os) ->
  (length s = length ts - m \/ S (length s) = length ts - m)%nat /\
  (forall q, (q < length s)%nat -> nth q s 0%nat = (q + m)%nat /\ is_finite (nth q os (b64_ofZ 0)) = true /\ 0 <= B2R (nth q os (b64_ofZ 0)) <= 2 * h + g + er).
Proof.
  intros Ha Hok Fk Hp ts T er HT HK He Hk Hu Hm HP.
  assert (G0 : 0 <= g) by (eapply Rle_trans; [apply Rabs_pos|exact Hk]). assert (H0 : 0 <= h) by (eapply Rle_trans; [apply Rabs_pos|apply (He m Hm)]).
  destruct (natural_real exp64 d kk Ha Hok Fk HT HK p n s os Hp HP) as [L [_ [HL HS]]].
  assert (er0 : 0 <= er).
  { pose proof (len_nt exp64 d Ha) as [_ [_ [L3 _]]]. pose proof (span exp64 d Ha Hok 0 0 L3 L3) as [_ S0]. pose proof (Rabs_pos (B2R kk)). pose proof (bpow_ge_0 radix2 (-53)).
    unfold er. apply Rmult_le_pos; [assumption|]. fold ts T in S0. lra. }
  fold ts T in HL, HS, L. change (u64 * (5 * T + 3 * Rabs (B2R kk))) with er in HL, HS.
  set (M := length ts) in *. set (u := 2 * h + g) in *. assert (U0 : 0 <= u) by (unfold u; lra).
  assert (Hg : forall q z, (q < M)%nat -> (z < M)%nat -> Rabs (gap ts (B2R kk) q z - (INR z - INR (q + m)) * dd) <= u) by (intros q z Hq Hz; apply (even_gap ts t0 dd h (B2R kk) g m q z); assumption).
  clearbody er u.
  assert (In_ : forall q, (q + m + 1 < M)%nat -> (q < length s)%nat).
  { intros q Hq. destruct (Nat.lt_ge_cases q (length s)) as [C|C]; [exact C|exfalso]. pose proof (proj2 (HL q ltac:(lia)) C) as B.
    pose proof (Hg q (M - 1)%nat ltac:(lia) ltac:(lia)) as A. apply Rabs_le_inv in A.
    assert (Q : INR (q + m) + 1 <= INR (M - 1)) by (rewrite <- S_INR; apply le_INR; lia). assert (dd <= (INR (M - 1) - INR (q + m)) * dd) by nra. lra. }
  assert (Out : forall q, (q < length s)%nat -> (q + m < M)%nat).
  { intros q Hq. assert (Hq' : (q < M)%nat) by lia. pose proof (proj1 (HL q Hq') Hq) as B. pose proof (Hg q (M - 1)%nat Hq' ltac:(lia)) as A. apply Rabs_le_inv in A.
    destruct (Nat.lt_ge_cases (q + m) M) as [C|C]; [exact C|exfalso].
    assert (Q : INR (M - 1) + 1 <= INR (q + m)) by (rewrite <- S_INR; apply le_INR; lia). assert ((INR (M - 1) - INR (q + m)) * dd <= - dd) by nra. lra. }
  split.
  - assert (U : (length s <= M - m)%nat) by (destruct (length s) as [|k] eqn:E; [lia|pose proof (Out k ltac:(lia)); lia]).
    assert (V : (M - m - 1 <= length s)%nat) by (destruct (M - m - 1)%nat as [|k] eqn:E; [lia|pose proof (In_ k ltac:(lia)); lia]). lia.
  - intros q Hq. destruct (HS q Hq) as [S1 [S2 [S3 [S4 S5]]]]. pose proof (Out q Hq) as Hqm. assert (Hq' : (q < M)%nat) by lia.
    pose proof (S5 (q + m)%nat Hqm) as B. pose proof (Hg q (q + m)%nat Hq' Hqm) as A1. replace ((INR (q + m) - INR (q + m)) * dd) with 0 in A1 by ring. rewrite Rminus_0_r in A1.
    assert (E : nth q s 0%nat = (q + m)%nat).
    { destruct (Nat.eq_dec (nth q s 0%nat) (q + m)) as [E|N]; [exact E|exfalso]. pose proof (Hg q (nth q s 0%nat) Hq' S1) as A2.
      set (z := nth q s 0%nat) in *. assert (Q : dd <= Rabs ((INR z - INR (q + m)) * dd)).
      { rewrite Rabs_mult, (Rabs_pos_eq dd) by lra. apply Rle_trans with (1 * dd); [lra|]. apply Rmult_le_compat_r; [lra|].
        destruct (Nat.lt_ge_cases z (q + m)) as [C|C].
        - assert (INR z + 1 <= INR (q + m)) by (rewrite <- S_INR; apply le_INR; lia). rewrite Rabs_left by lra. lra.
        - assert (INR (q + m) + 1 <= INR z) by (rewrite <- S_INR; apply le_INR; lia). rewrite Rabs_pos_eq by lra. lra. }
      pose proof (Rabs_triang_inv ((INR z - INR (q + m)) * dd) ((INR z - INR (q + m)) * dd - gap ts (B2R kk) q z)) as Tr.
      replace ((INR z - INR (q + m)) * dd - ((INR z - INR (q + m)) * dd - gap ts (B2R kk) q z)) with (gap ts (B2R kk) q z) in Tr by ring. rewrite (Rabs_minus_sym ((INR z - INR (q + m)) * dd)) in Tr. lra. }
    split; [exact E|]. split; [exact S2|]. split; [exact S3|]. rewrite E in S4. apply Rabs_le_inv in S4. lra.
Qed.

Lemma even_value64 (p : platform) (d : @dstruct BN) mi ma re al wgt lags corr c (rows : list (list b64)) j i (row : list b64) (kk : b64) b om (t0 dd h g : R) (m : nat) :
  accepted d -> times_ok (A := BN) d -> p_abs p = AbsFloat ->
  autocorrelation (A := BN) p d mi ma re al "natural" wgt = Ok (lags, corr, c) ->
  data_2d d = Ok rows -> nth_error rows j = Some row -> nth_error lags i = Some kk -> is_finite kk = true ->
  let ts := map B2R (timeseries d) in
  let T := nth (length ts - 1) ts 0 - nth 0 ts 0 in
  let er := bpow radix2 (-53) * (5 * T + 3 * Rabs (B2R kk)) in
  T <= bpow radix2 1021 -> Rabs (B2R kk) <= bpow radix2 1021 ->
  nearly_even ts t0 dd h -> Rabs (B2R kk - INR m * dd) <= g -> 2 * (2 * h + g + er) < dd -> (m < length ts)%nat ->
  let a : b64 := opt_or (A := BN) al (median_time d) in
  is_finite a = true -> 0 < B2R a -> proper_alpha (A := BN) wgt a ->
  finite (A := BN) (if String.eqb wgt "gaussian" then nmul (Num := BN) (nmul (Num := BN) (b64_ofZ 2) a) a else a) ->
  weight_error exp64 wgt (B2R a) om ->
  (-149 <= b <= 100)%Z -> (forall x : b64, In x row -> is_finite x = true /\ Rabs (B2R x) <= bpow radix2 b) ->
  let rs := map B2R row in
  let M := length ts in
  length rs = M ->
  let N := sq_dev32 rs in
  let K := INR M * (bpow radix2 b * bpow radix2 b) / N in
  bpow radix2 (-700) <= N -> (INR M + 1) * K <= bpow radix2 48 ->
  exists v : b64, corr_at corr j i = Some v /\ is_finite v = true /\
    Rabs (B2R v - rsum_n (M - m) (fun q => dev rs q * dev rs (q + m)) / N) <=
      50 * (INR M + 10) * bpow radix2 (-53) * (K * K + K) + 5 * om * K + bpow radix2 (-110) +
      ((2 * h + g + er) / B2R a * sq_dev rs + Rabs (dev rs (M - 1 - m) * dev rs (M - 1))) / N.
Proof.
  intros Ha Hok Hp E Hd Hj Hi Fk ts T er HT HK He Hk Hu Hm a Fa Pa Hpa Hfa Hom Hb Hx rs M Lr N K HN HKK.
  destruct (@value_parts BN p d mi ma re al "natural" wgt lags corr c rows j i row kk Ha E Hd Hj Hi)
    as [sf [w [sidx [S [dts [Hs [Hw [HSS [HD [HL [Hdl [HlS [Hle [Hlt HV]]]]]]]]]]]]]]. cbv zeta in HV. fold a in Hw.
  destruct (pairs_by_closed (A := BN) p d "natural" _ kk (length rows) Ha eq_refl) as [sf0 [Hs0 C]]. rewrite Hs in Hs0. injection Hs0 as <-.
  rewrite HSS in C. cbn [bind fst snd] in C. rewrite HD in C. cbn [bind] in C.
  assert (HP : pairs_by (A := BN) p d (naturalSelectionFunctionIdx (A := BN) p d) kk (length rows) = Ok (sidx, dts)).
  { destruct (pairs_by (A := BN) p d (naturalSelectionFunctionIdx (A := BN) p d) kk (length rows)); cbn [same_outcome] in C; try contradiction. rewrite C. reflexivity. }
  clear C. change (@num BN) with b64 in *.
  destruct (even_pairs64 p d kk _ sidx dts t0 dd h g m Ha Hok Fk Hp HT HK He Hk Hu Hm HP) as [Hl HS].
  fold ts T in Hl, HS. fold er in HS. fold M in Hl.
  assert (G0 : 0 <= g) by (eapply Rle_trans; [apply Rabs_pos|exact Hk]). assert (H0 : 0 <= h) by (eapply Rle_trans; [apply Rabs_pos|apply (He m Hm)]).
  assert (om0 : 0 <= om).
  { clear - Hom. destruct Hom as [[_ ->]|[_ [_ [eps [[_ [_ H]] ->]]]]]; [pose proof (bpow_ge_0 radix2 (-53)); lra|].
    pose proof (bpow_ge_0 radix2 (-53)). pose proof (Rabs_pos (B2R (exp64 (B754_infinity true)))). lra. }
  assert (er0 : 0 <= er).
  { pose proof (len_nt exp64 d Ha) as [_ [_ [L3 _]]]. pose proof (span exp64 d Ha Hok 0 0 L3 L3) as [_ S0]. pose proof (Rabs_pos (B2R kk)). pose proof (bpow_ge_0 radix2 (-53)).
    unfold er. apply Rmult_le_pos; [assumption|]. fold ts T in S0. lra. }
  set (u := 2 * h + g + er) in *. assert (U0 : 0 <= u) by (unfold u; lra).
  assert (Lrow : length row = M) by (rewrite <- Lr; unfold rs; rewrite map_length; reflexivity).
  assert (N0 : 0 < N) by (pose proof (bpow_gt_0 radix2 (-700)); lra).
  set (W := fun q => w (nth q dts (nzero (A := BN))) : b64). set (wt := fun q => rweight wgt (B2R a) (B2R (nth q dts (b64_ofZ 0)))).
  destruct (value_core exp64 row sidx W wt b om Hb Hx) as [v [Ev [Fv Hv]]].
  { exact HN. } { rewrite Lrow. exact HKK. }
  { fold rs. intros C. rewrite C in Lr. cbn in Lr. unfold M in Lr. lia. }
  { exact Hle. } { exact Hlt. } { exact om0. }
  { intros q Hq. destruct (HS q Hq) as [_ [F1 [P1 _]]]. unfold W, wt. exact (weight_pair exp64 wgt w a (nth q dts (b64_ofZ 0)) om Hw Fa Pa F1 P1 Hpa Hfa Hom). }
  { intros q Hq. apply rweight_range; [exact Pa|apply (HS q Hq)]. }
  exists v. split; [rewrite HV, (norm_of_sum_sq (A := BN)), Ev; reflexivity|]. split; [exact Fv|].
  rewrite Lrow in Hv. fold rs N K in Hv.
  assert (WB : forall q, (q < length sidx)%nat -> Rabs (wt q - 1) <= u / B2R a).
  { intros q Hq. destruct (HS q Hq) as [_ [_ Ho]]. unfold wt. rewrite <- (rweight_0 wgt (B2R a) Pa). eapply Rle_trans; [apply rweight_lip; [exact Pa|apply Ho|lra]|].
    rewrite Rminus_0_r, Rabs_pos_eq by apply Ho. apply Rmult_le_compat_r; [left; apply Rinv_0_lt_compat; exact Pa|apply Ho]. }
  assert (Ua : 0 <= u / B2R a) by (unfold Rdiv; apply Rmult_le_pos; [exact U0|left; apply Rinv_0_lt_compat; exact Pa]).
  pose proof (near_sum rs m _ wt sidx (u / B2R a) Ua ltac:(rewrite Lr; exact Hm) eq_refl ltac:(rewrite Lr; exact Hl) (fun q Hq => proj1 (HS q Hq)) WB) as B. rewrite Lr in B.
  assert (Es : rsum_n (length sidx) (fun q => wt q * dev rs q * dev rs (nth q sidx 0%nat)) = rsum_n (length sidx) (fun q => wt q * (dev rs q * dev rs (nth q sidx 0%nat)))) by (apply rsum_n_ext; intros q _; ring).
  rewrite Es in Hv. set (e1 := rsum_n (length sidx) (fun q => wt q * (dev rs q * dev rs (nth q sidx 0%nat)))) in *. set (e3 := rsum_n (M - m) (fun q => dev rs q * dev rs (q + m))) in *.
  replace (B2R v - e3 / N) with (B2R v - e1 / N + (e1 - e3) / N) by (unfold Rdiv; ring).
  eapply Rle_trans; [apply Rabs_triang|]. apply Rplus_le_compat; [exact Hv|].
  unfold Rdiv at 1 2. rewrite Rabs_mult, (Rabs_pos_eq (/ N)) by (left; apply Rinv_0_lt_compat; exact N0). apply Rmult_le_compat_r; [left; apply Rinv_0_lt_compat; exact N0|exact B].
Qed.

End Call.

(** doubles nearest to the points of an even grid *)
Lemma rounded_even (l : list b64) (t0 dd Tm : R) : (forall q, (q < length l)%nat -> Rabs (t0 + INR q * dd) <= Tm) ->
  (forall q, (q < length l)%nat -> B2R (nth q l (b64_ofZ 0)) = round radix2 (FLT_exp (-1074) 53) ZnearestE (t0 + INR q * dd)) ->
  nearly_even (map B2R l) t0 dd (bpow radix2 (-53) * Tm + bpow radix2 (-1075)).
Proof.
  intros HT H q Hq. rewrite map_length in Hq. change 0 with (B2R (b64_ofZ 0)) at 1. rewrite map_nth, (H q Hq). set (x := t0 + INR q * dd) in *. specialize (HT q Hq). fold x in HT.
  destruct (error_N_FLT radix2 (-1074) 53 ltac:(lia) (fun z => negb (Z.even z)) x) as [eps [eta [He [Ht [_ E]]]]]. rewrite E.
  replace (x * (1 + eps) + eta - x) with (x * eps + eta) by ring. eapply Rle_trans; [apply Rabs_triang|]. rewrite Rabs_mult. apply Rplus_le_compat.
  - rewrite Rmult_comm. apply Rmult_le_compat; try apply Rabs_pos; [|exact HT]. eapply Rle_trans; [exact He|]. right. change (/ 2) with (bpow radix2 (-1)). rewrite <- bpow_plus. reflexivity.
  - eapply Rle_trans; [exact Ht|]. right. change (/ 2) with (bpow radix2 (-1)). rewrite <- bpow_plus. reflexivity.
Qed.
