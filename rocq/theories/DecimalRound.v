(** Time stamps that are the doubles nearest to an even grid: the hypotheses of C119 hold. *)
From Coq Require Import String.
From Coq Require Import ZArith Reals List Bool Arith Lia Lra Psatz.
From Flocq Require Import Core BinarySingleNaN.
From Verif Require Import ValFacts ExactFacts AccThms AccExact GridVals SelFacts WeightFacts.
From Verif Require Import Num Mem MemFacts XR B64 Spec SpecR SpecTime SpecEven DataStructure Correlator Sacf Api Laws B64Facts Laws2 DSFacts CorrFacts
  ConstrFacts TimeFacts DefaultFacts WeightAcc AccFacts FixedThms TimeCloseFacts AnyTimes EvenFacts EvenFloat DecimalFacts.
Import ListNotations.
Local Open Scope list_scope.
Local Open Scope R_scope.

Section Round.
Context (exp64 : b64 -> b64).
Notation BN := (B64 exp64).
Variables (d : @dstruct BN) (t0 dd Tm : R).
Let tl : list b64 := timeseries d.
Let ts : list R := map B2R tl.
Let T : R := nth (length ts - 1) ts 0 - nth 0 ts 0.
Let M : nat := length ts.
Let u : R := bpow radix2 (-53).
Let h : R := u * Tm + bpow radix2 (-1075).
Hypotheses (Ha : accepted d) (Hf : forall x : b64, In x tl -> is_finite x = true) (HM : (2 <= M)%nat)
  (Hr : forall q, (q < length tl)%nat -> B2R (nth q tl (b64_ofZ 0)) = round radix2 (FLT_exp (-1074) 53) ZnearestE (t0 + INR q * dd))
  (Hb : forall q, (q < length tl)%nat -> Rabs (t0 + INR q * dd) <= Tm)
  (Hd : bpow radix2 (-1000) <= dd) (HT : Tm <= bpow radix2 1019) (HG : 128 * INR M * Tm * u <= dd).

Lemma len_tl : length tl = M.
Proof. unfold M, ts. rewrite map_length. reflexivity. Qed.

Lemma sizes : 0 < dd /\ dd <= 2 * Tm /\ 0 < u /\ u <= / 1000000000 /\ 0 < Tm /\ 0 <= bpow radix2 (-1075) /\ 1000 * bpow radix2 (-1075) <= u * Tm.
Proof.
  assert (D : 0 < dd) by (pose proof (bpow_gt_0 radix2 (-1000)); lra). pose proof len_tl as L.
  pose proof (Hb 0%nat ltac:(lia)) as B0. pose proof (Hb 1%nat ltac:(lia)) as B1. cbn [INR] in B0, B1. apply Rabs_le_inv in B0, B1.
  assert (U : 0 < u) by exact u64_pos. assert (U2 : u <= / 1000000000) by exact u64_small.
  assert (E : bpow radix2 (-1001) <= Tm).
  { replace (bpow radix2 (-1001)) with (bpow radix2 (-1000) / 2) by (change (-1000)%Z with (-1001 + 1)%Z at 1; rewrite bpow_plus; change (bpow radix2 1) with 2; field). lra. }
  repeat (split; [first [assumption|lra|apply bpow_ge_0]|]).
  apply Rle_trans with (u * bpow radix2 (-1001)); [|apply Rmult_le_compat_l; lra]. unfold u. rewrite <- bpow_plus.
  apply Rle_trans with (bpow radix2 10 * bpow radix2 (-1075)); [apply Rmult_le_compat_r; [apply bpow_ge_0|change (bpow radix2 10) with 1024; lra]|].
  rewrite <- bpow_plus. apply bpow_le. lia.
Qed.

Lemma rounded_near : nearly_even ts t0 dd h.
Proof. exact (rounded_even tl t0 dd Tm Hb Hr). Qed.

Lemma small_h : 0 <= h <= 1001 / 1000 * (u * Tm).
Proof. destruct sizes as [D [D2 [U [U2 [P [E0 E]]]]]]. unfold h. assert (0 <= u * Tm) by nra. lra. Qed.

Lemma tl_bound q : (q < M)%nat -> Rabs (nth q ts 0) <= 11 / 10 * Tm.
Proof.
  intros Hq. destruct sizes as [D [D2 [U [U2 [P _]]]]]. pose proof small_h as S. pose proof (rounded_near q Hq) as A. pose proof (Hb q ltac:(rewrite len_tl; exact Hq)) as B.
  apply Rabs_le_inv in A, B. apply Rabs_le. assert (u * Tm <= Tm * / 1000000000) by nra. lra.
Qed.

Lemma rounded_ok : times_ok (A := BN) d.
Proof.
  destruct sizes as [D [D2 [U [U2 [P _]]]]]. pose proof len_tl as L.
  assert (F : forall x : b64, is_finite x = true -> finite (A := BN) x) by (intros x Fx; unfold finite; intros C; destruct x; first [discriminate Fx|vm_compute in C; congruence|idtac]).
  split; [|split].
  - intros i j a b Hij Ei Ej. assert (Hj : (j < length tl)%nat) by (apply nth_error_Some; intros C; unfold tl in C; change (@num BN) with b64 in *; rewrite C in Ej; discriminate).
    pose proof (nth_error_In _ _ Ei) as I1. pose proof (nth_error_In _ _ Ej) as I2.
    apply (nth_error_nth _ _ (b64_ofZ 0)) in Ei, Ej. apply nle_R; [apply Hf; exact I1|apply Hf; exact I2|].
    pose proof (Hr i ltac:(lia)) as R1. pose proof (Hr j Hj) as R2. unfold tl in R1, R2. change (@num BN) with b64 in *. rewrite Ei in R1. rewrite Ej in R2. rewrite R1, R2.
    apply round_le; [apply FLT_exp_valid; reflexivity|apply valid_rnd_N|]. apply Rplus_le_compat_l, Rmult_le_compat_r; [lra|]. apply le_INR. exact Hij.
  - intros x Hx. apply F. apply Hf. exact Hx.
  - intros x Hx. apply F. apply (In_nth _ _ (b64_ofZ 0)) in Hx. destruct Hx as [q [Hq Ex]]. destruct (len_nt exp64 d Ha) as [L1 [_ [L3 Hn]]]. change (@num BN) with b64 in *.
    fold tl ts M in L1, L3, Hn. assert (Hq' : (q < M)%nat) by lia. change (nth q (normalised_timeseries d : list b64) (b64_ofZ 0) = x) in Ex. rewrite <- Ex, (Hn q Hq').
    apply minus_fin; [apply Hf, nth_In; lia|apply Hf, nth_In; lia|].
    assert (B : forall k, (k < M)%nat -> Rabs (B2R (nth k tl (b64_ofZ 0))) <= 11 / 10 * Tm).
    { intros k Hk. pose proof (tl_bound k Hk) as B. unfold ts in B. rewrite nth_R in B by lia. exact B. }
    pose proof (B q Hq') as B1. pose proof (B 0%nat L3) as B2. pose proof (rnd_minus (nth q tl (b64_ofZ 0)) (nth 0 tl (b64_ofZ 0))) as R. apply near in R.
    assert (B3 : Rabs (B2R (nth q tl (b64_ofZ 0)) - B2R (nth 0 tl (b64_ofZ 0))) <= 3 * Tm) by (apply Rabs_le_inv in B1, B2; apply Rabs_le; lra).
    assert (B4 : u64 * Rabs (B2R (nth q tl (b64_ofZ 0)) - B2R (nth 0 tl (b64_ofZ 0))) <= Tm) by (change u64 with u; nra).
    pose proof big_2 as Bg. assert (bpow radix2 1019 <= bpow radix2 1021) by (apply bpow_le; lia). lra.
Qed.

Lemma rounded_span : 0 <= T <= 22 / 10 * Tm /\ T <= bpow radix2 1021.
Proof.
  assert (A : 0 <= T).
  { assert (L : (0 < length ts)%nat) by (fold M; lia). apply (span exp64 d Ha rounded_ok 0 0 L L). }
  assert (B : T <= 22 / 10 * Tm).
  { pose proof (tl_bound (M - 1) ltac:(lia)) as B1. pose proof (tl_bound 0 ltac:(lia)) as B2. apply Rabs_le_inv in B1, B2. unfold T. fold M. lra. }
  split; [lra|]. replace (bpow radix2 1021) with (4 * bpow radix2 1019) by (change 4 with (bpow radix2 2); rewrite <- bpow_plus; reflexivity).
  destruct sizes as [_ [_ [_ [_ [P _]]]]]. lra.
Qed.

Lemma rounded_G : let G := 4 * INR M * (h + 3 * u * T) in 0 <= G <= 32 * INR M * Tm * u /\ 4 * G < dd.
Proof.
  intros G. destruct sizes as [D [D2 [U [U2 [P _]]]]]. pose proof small_h as S. destruct rounded_span as [[T0 T1] _].
  assert (M0 : 2 <= INR M) by (change 2 with (INR 2); apply le_INR; exact HM).
  assert (K : h + 3 * u * T <= 77 / 10 * (u * Tm)) by (assert (u * T <= 22 / 10 * (u * Tm)) by nra; nra).
  assert (K0 : 0 <= h + 3 * u * T) by (assert (0 <= u * T) by nra; nra).
  assert (G0 : 0 <= G) by (unfold G; apply Rmult_le_pos; [lra|exact K0]).
  assert (G1 : G <= 4 * INR M * (77 / 10 * (u * Tm))) by (unfold G; apply Rmult_le_compat_l; [lra|exact K]).
  assert (UP : 0 < INR M * (u * Tm)) by (apply Rmult_lt_0_compat; [lra|apply Rmult_lt_0_compat; assumption]).
  replace (4 * INR M * (77 / 10 * (u * Tm))) with (308 / 10 * (INR M * (u * Tm))) in G1 by field.
  replace (128 * INR M * Tm * u) with (128 * (INR M * (u * Tm))) in HG by ring. replace (32 * INR M * Tm * u) with (32 * (INR M * (u * Tm))) by ring. lra.
Qed.

End Round.

Theorem rounded_lags (exp64 : b64 -> b64) (p : platform) (d : @dstruct (B64 exp64)) al sel wgt lags corr c (t0 dd Tm : R) :
  accepted d -> (forall x : b64, In x (timeseries d) -> is_finite x = true) ->
  let M := length (timeseries d) in
  (2 <= M)%nat ->
  (forall q, (q < M)%nat -> B2R (nth q (timeseries d : list b64) (b64_ofZ 0)) = round radix2 (FLT_exp (-1074) 53) ZnearestE (t0 + INR q * dd)) ->
  (forall q, (q < M)%nat -> Rabs (t0 + INR q * dd) <= Tm) ->
  bpow radix2 (-1000) <= dd -> Tm <= bpow radix2 1019 ->
  let G := 32 * INR M * Tm * bpow radix2 (-53) in
  4 * G <= dd ->
  autocorrelation (A := B64 exp64) p d None None None al sel wgt = Ok (lags, corr, c) ->
  (2 * M - 2 <= length lags <= 2 * M)%nat /\
  (forall n, (n <= 2 * M - 3)%nat -> exists i (kk : b64), (i = n \/ i = S n) /\ nth_error lags i = Some kk /\ is_finite kk = true /\
     Rabs (B2R kk - (INR n - INR (M - 1)) * dd) <= G) /\
  (forall i (kk : b64), nth_error lags i = Some kk -> B2R kk = 0 \/ exists n, (n = i \/ S n = i) /\ (n <= 2 * M - 2)%nat /\ Rabs (B2R kk - (INR n - INR (M - 1)) * dd) <= G).
Proof.
  intros Ha Hf M HM Hr Hb Hd HT G HG E.
  assert (EM : length (map B2R (timeseries d : list b64)) = M) by apply map_length.
  assert (HM' : (2 <= length (map B2R (timeseries d : list b64)))%nat) by (rewrite EM; exact HM).
  assert (HG' : 128 * INR (length (map B2R (timeseries d : list b64))) * Tm * bpow radix2 (-53) <= dd) by (rewrite EM; unfold G in HG; lra).
  pose proof (rounded_ok exp64 d t0 dd Tm Ha Hf HM' Hr Hb Hd HT) as Hok.
  pose proof (rounded_near exp64 d t0 dd Tm Hr Hb) as He.
  destruct (rounded_span exp64 d t0 dd Tm Ha Hf HM' Hr Hb Hd HT) as [_ Hs].
  destruct (rounded_G exp64 d t0 dd Tm Ha Hf HM' Hr Hb Hd HT HG') as [[G0 G1] G2].
  destruct (even_lags64 exp64 p d al sel wgt lags corr c t0 dd _ Ha Hok E Hs HM' He) as [A [B C]].
  { set (g := 4 * _ * _) in *. lra. }
  change (@num (B64 exp64)) with b64 in *. rewrite EM in *. change (32 * INR M * Tm * bpow radix2 (-53)) with G in G1. set (g := 4 * _ * _) in *. split; [exact A|]. split.
  - intros n Hn. destruct (B n Hn) as [i [kk [H1 [H2 [H3 H4]]]]]. exists i, kk. repeat (split; [assumption|]). lra.
  - intros i kk Hk. destruct (C i kk Hk) as [H1|[n [H1 [H2 H3]]]]; [left; exact H1|right]. exists n. repeat (split; [assumption|]). lra.
Qed.

Theorem rounded_default (exp64 : b64 -> b64) (p : platform) (d : @dstruct (B64 exp64)) al wgt lags corr c (rows : list (list b64)) j (row : list b64) b om (t0 dd Tm : R) :
  accepted d -> (forall x : b64, In x (timeseries d) -> is_finite x = true) ->
  let M := length (timeseries d) in
  (2 <= M)%nat ->
  (forall q, (q < M)%nat -> B2R (nth q (timeseries d : list b64) (b64_ofZ 0)) = round radix2 (FLT_exp (-1074) 53) ZnearestE (t0 + INR q * dd)) ->
  (forall q, (q < M)%nat -> Rabs (t0 + INR q * dd) <= Tm) ->
  bpow radix2 (-1000) <= dd -> Tm <= bpow radix2 1019 ->
  let G := 32 * INR M * Tm * bpow radix2 (-53) in
  4 * G <= dd ->
  p_abs p = AbsFloat ->
  autocorrelation (A := B64 exp64) p d None None None al "natural" wgt = Ok (lags, corr, c) ->
  data_2d d = Ok rows -> nth_error rows j = Some row ->
  let a : b64 := opt_or (A := B64 exp64) al (median_time d) in
  is_finite a = true -> 0 < B2R a -> proper_alpha (A := B64 exp64) wgt a ->
  finite (A := B64 exp64) (if String.eqb wgt "gaussian" then nmul (Num := B64 exp64) (nmul (Num := B64 exp64) (b64_ofZ 2) a) a else a) ->
  weight_error exp64 wgt (B2R a) om ->
  (-149 <= b <= 100)%Z -> (forall x : b64, In x row -> is_finite x = true /\ Rabs (B2R x) <= bpow radix2 b) ->
  let rs := map B2R row in
  length rs = M ->
  let N := sq_dev32 rs in
  let K := INR M * (bpow radix2 b * bpow radix2 b) / N in
  bpow radix2 (-700) <= N -> (INR M + 1) * K <= bpow radix2 48 ->
  forall m, (m <= M - 2)%nat -> exists i (kk v : b64), (i = M - 1 + m \/ i = M + m)%nat /\
    nth_error lags i = Some kk /\ Rabs (B2R kk - INR m * dd) <= G /\
    corr_at corr j i = Some v /\ is_finite v = true /\
    Rabs (B2R v - rsum_n (M - m) (fun q => dev rs q * dev rs (q + m)) / N) <=
      50 * (INR M + 10) * bpow radix2 (-53) * (K * K + K) + 5 * om * K + bpow radix2 (-110) +
      (2 * G / B2R a * sq_dev rs + Rabs (dev rs (M - 1 - m) * dev rs (M - 1))) / N.
Proof.
  intros Ha Hf M HM Hr Hb Hd HT G HG Hp E Hd2 Hj a Fa Pa Hpa Hfa Hom Hbb Hx rs Lr N K HN HKK m Hm.
  assert (EM : length (map B2R (timeseries d : list b64)) = M) by apply map_length.
  assert (HM' : (2 <= length (map B2R (timeseries d : list b64)))%nat) by (rewrite EM; exact HM).
  assert (HG' : 128 * INR (length (map B2R (timeseries d : list b64))) * Tm * bpow radix2 (-53) <= dd) by (rewrite EM; unfold G in HG; lra).
  pose proof (rounded_ok exp64 d t0 dd Tm Ha Hf HM' Hr Hb Hd HT) as Hok.
  pose proof (rounded_near exp64 d t0 dd Tm Hr Hb) as He.
  destruct (rounded_span exp64 d t0 dd Tm Ha Hf HM' Hr Hb Hd HT) as [_ Hs].
  destruct (rounded_G exp64 d t0 dd Tm Ha Hf HM' Hr Hb Hd HT HG') as [[G0 G1] G2].
  pose proof (even_default64 exp64 p d al wgt lags corr c rows j row b om t0 dd _ Ha Hok Hp E Hd2 Hj Hs HM' He G2 Fa Pa Hpa Hfa Hom Hbb Hx) as V. cbv zeta in V.
  change (@num (B64 exp64)) with b64 in *. rewrite EM in *.
  destruct (V Lr HN HKK m Hm) as [i [kk [v [H1 [H2 [H3 [H4 [H5 H6]]]]]]]]. clear V. change (32 * INR M * Tm * bpow radix2 (-53)) with G in G1.
  exists i, kk, v. split; [exact H1|]. split; [exact H2|]. split; [eapply Rle_trans; [exact H3|exact G1]|]. split; [exact H4|]. split; [exact H5|].
  eapply Rle_trans; [exact H6|]. apply Rplus_le_compat_l. apply Rmult_le_compat_r.
  { left. apply Rinv_0_lt_compat. pose proof (bpow_gt_0 radix2 (-700)). lra. }
  apply Rplus_le_compat_r. apply Rmult_le_compat_r; [rewrite sq_dev_n; apply rsum_n_nonneg; intros; apply Rle_0_sqr|]. apply Rmult_le_compat_r; [left; apply Rinv_0_lt_compat; exact Pa|].
  apply Rmult_le_compat_l; [lra|exact G1].
Qed.
