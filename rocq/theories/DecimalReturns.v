(** A call without options on decimal time stamps returns. *)
From Coq Require Import String.
From Coq Require Import ZArith Reals List Bool Arith Lia Lra Psatz.
From Flocq Require Import Core BinarySingleNaN.
From Verif Require Import Num Mem MemFacts XR B64 Spec SpecR SpecTime SpecEven DataStructure Correlator Sacf Api Laws B64Facts Laws2 DSFacts CorrFacts LoopFacts MainFacts
  RelFacts ConstrFacts TimeFacts SafeFacts SelFacts WeightFacts DefaultFacts WeightAcc ValFacts ExactFacts AccFacts FixedFacts GridVals FixedThms PairBounds
  GridFacts TimeCloseFacts SelThms AnyTimes EvenFacts EvenFloat UnsortedFacts DecimalFacts DecimalRound.
Import ListNotations.
Local Open Scope list_scope.
Local Open Scope R_scope.

Section Returns.
Context (exp64 : b64 -> b64).
Notation BN := (B64 exp64).
Variables (d : @dstruct BN) (t0 dd h : R).
Let ts : list R := map B2R (timeseries d).
Let T : R := nth (length ts - 1) ts 0 - nth 0 ts 0.
Let M : nat := length ts.
Let u : R := bpow radix2 (-53).
Let G : R := 4 * INR M * (h + 3 * u * T).
Hypotheses (Ha : accepted d) (Hok : times_ok (A := BN) d)
  (HT : T <= bpow radix2 1021) (HM : (2 <= M)%nat) (He : nearly_even ts t0 dd h) (HG : 4 * G < dd).

Lemma min_diff_near : is_finite (findMinDiff (A := BN) (normalised_timeseries d) : b64) = true /\
  Rabs (B2R (findMinDiff (A := BN) (normalised_timeseries d) : b64) - dd) <= 2 * h + 4 * (u * T).
Proof.
  destruct (base exp64 d t0 dd h Ha Hok HM He) as [H0 [T0 [UT [M2 [U2 U0]]]]]. fold ts T M u in T0, UT, M2, U2, U0.
  destruct (len_nt exp64 d Ha) as [L1 [L2 [L3 _]]]. fold ts in L1, L2, L3. fold M in L1, L2, L3.
  assert (X : forall q, (q < M)%nat -> is_finite (nth q (normalised_timeseries d : list b64) (b64_ofZ 0)) = true /\
                Rabs (B2R (nth q (normalised_timeseries d : list b64) (b64_ofZ 0)) - (nth q ts 0 - nth 0 ts 0)) <= u * T /\ Rabs (nth q ts 0 - nth 0 ts 0) <= T).
  { intros q Hq. split; [apply (tl_fin exp64 d Ha Hok q Hq)|]. split; [exact (x_near exp64 d Ha Hok q Hq)|]. apply (span exp64 d Ha Hok q 0 Hq). fold ts M. lia. }
  destruct Hok as [Ho [Hf Hf2]].
  destruct (normalised_times (L := arith_laws BN (arith_binary64 exp64)) d Ha Ho Hf) as [_ [Z0 [_ [Hor _]]]].
  assert (Hnt : forall x, In x (normalised_timeseries d) -> finite (A := BN) x /\ nle (Num := BN) x (ndblmax (Num := BN)) = true).
  { intros x Hx. split; [apply Hf2; exact Hx|]. apply (In_nth _ _ (b64_ofZ 0)) in Hx. change (@num BN) with b64 in Hx. destruct Hx as [q [Hq Ex]]. rewrite L1 in Hq.
    destruct (X q Hq) as [F [A B]]. change (@num BN) with b64 in *. rewrite Ex in F, A. apply nle_R; [exact F|reflexivity|]. eapply Rle_trans; [|exact max_big].
    apply Rabs_le_inv in A, B. assert (u * T <= T) by nra. lra. }
  destruct (findMinDiff_ordered (L := arith_laws BN (arith_binary64 exp64)) (dblmax_nan BN (arith_binary64 exp64)) (normalised_timeseries d) Hor Hf2 ltac:(change (@num BN) with b64; rewrite L1; exact HM) Z0 (fun x Hx => proj2 (Hnt x Hx))) as [[i [a [b [E1 [E2 E3]]]]] _].
  change (@num BN) with b64 in *.
  assert (Hi : (S i < M)%nat) by (rewrite <- L1; apply nth_error_Some; rewrite E2; discriminate).
  apply (nth_error_nth _ _ (b64_ofZ 0)) in E1, E2.
  destruct (X i ltac:(lia)) as [F1 [A1 B1]]. destruct (X (S i) Hi) as [F2 [A2 B2]]. rewrite E1 in F1, A1. rewrite E2 in F2, A2.
  pose proof (He i ltac:(fold M; lia)) as C1. pose proof (He (S i) Hi) as C2. rewrite S_INR in C2.
  pose proof (rnd_minus b a) as R. change u64 with u in R.
  assert (D : Rabs (B2R b - B2R a - dd) <= 2 * h + 2 * (u * T)) by (apply Rabs_le_inv in A1, A2, C1, C2; apply Rabs_le; lra).
  pose proof (span exp64 d Ha (conj Ho (conj Hf Hf2)) (S i) i Hi ltac:(fold ts M; lia)) as [Sp _].
  assert (S1 : Rabs (B2R b - B2R a) <= 101 / 100 * T).
  { change (Rabs (nth (S i) ts 0 - nth i ts 0) <= T) in Sp. assert (u * T <= T * / 1000000000) by nra. apply Rabs_le_inv in A1, A2, Sp. apply Rabs_le. lra. }
  assert (S2 : u * Rabs (B2R b - B2R a) <= 2 * (u * T)) by nra.
  assert (S3 : u * Rabs (B2R b - B2R a) <= T) by nra.
  destruct (minus_fin b a F2 F1) as [Fd Vd].
  { pose proof big_2 as Bg. pose proof (near _ _ _ R). pose proof (bpow_gt_0 radix2 1021). lra. }
  change (neqb (Num := BN) (findMinDiff (A := BN) (normalised_timeseries d)) (nsub (Num := BN) b a)) with (Beqb (findMinDiff (A := BN) (normalised_timeseries d)) (Bminus mode_NE b a)) in E3.
  rewrite Beqb_toE, (toE_finite _ Fd) in E3. apply xeqb_Fin in E3. apply E_fin in E3. destruct E3 as [Fr Vr]. split; [exact Fr|]. rewrite Vr, Vd.
  apply Rabs_le_inv in R, D. apply Rabs_le. lra.
Qed.


Lemma constructs64 : exists c0, new_Correlator d = Ok c0 /\ (Z.of_nat (length (lag_timeseries c0)) <= 100000000)%Z.
Proof.
  destruct (base exp64 d t0 dd h Ha Hok HM He) as [H0 [T0 [UT [M2 [U2 U0]]]]]. fold ts T M u in T0, UT, M2, U2, U0.
  destruct min_diff_near as [Fr Hr]. destruct (len_nt exp64 d Ha) as [L1 [_ [L3 _]]]. fold ts in L1, L3. fold M in L1, L3.
  set (r := findMinDiff (A := BN) (normalised_timeseries d) : b64) in *. set (x := nth (M - 1) (normalised_timeseries d : list b64) (b64_ofZ 0)).
  assert (Q1 : (M - 1 < length ts)%nat) by (fold M; lia).
  assert (Fx : is_finite x = true) by apply (tl_fin exp64 d Ha Hok (M - 1)%nat Q1).
  assert (Ax : Rabs (B2R x - T) <= u * T) by exact (x_near exp64 d Ha Hok (M - 1)%nat Q1).
  assert (Bx : Rabs (T - INR (M - 1) * dd) <= 2 * h).
  { pose proof (He (M - 1)%nat Q1) as A. pose proof (He 0%nat L3) as B. cbn [INR] in B. apply Rabs_le_inv in A, B. unfold T. fold M. apply Rabs_le. lra. }
  assert (Q : 16 * (2 * h + 6 * (u * T)) <= dd) by (unfold G in HG; nra).
  assert (D0 : 0 < dd) by (unfold G in HG; assert (0 <= 4 * INR M * (h + 3 * u * T)) by (apply Rmult_le_pos; nra); lra).
  assert (Em1 : INR (M - 1) = INR M - 1) by (rewrite minus_INR by lia; reflexivity). rewrite Em1 in Bx.
  apply Rabs_le_inv in Ax, Bx, Hr.
  assert (MB : INR M <= 20000000).
  { destruct (Rle_or_lt (INR M) 20000000) as [K|K]; [exact K|exfalso].
    assert (T1 : 9 / 10 * (INR M * dd) <= T) by (assert (20000000 * dd <= INR M * dd) by (apply Rmult_le_compat_r; lra); lra).
    assert (K1 : 48 * (INR M * (u * T)) < dd) by (assert (0 <= INR M * h) by (apply Rmult_le_pos; lra); assert (0 <= INR M * (u * T)) by (apply Rmult_le_pos; lra); unfold G in HG; lra).
    assert (K2 : 9 / 10 * (INR M * INR M * (u * dd)) <= INR M * (u * T)).
    { replace (9 / 10 * (INR M * INR M * (u * dd))) with (INR M * (u * (9 / 10 * (INR M * dd)))) by ring. apply Rmult_le_compat_l; [lra|]. apply Rmult_le_compat_l; lra. }
    assert (K3 : 400000000000000 * (u * dd) <= INR M * INR M * (u * dd)) by (apply Rmult_le_compat_r; [apply Rmult_le_pos; lra|nra]).
    assert (Eu : u = / 9007199254740992) by reflexivity. rewrite Eu in K2, K3, K1. lra. }
  assert (X2 : 0 <= B2R x) by (assert (u * T <= T) by nra; lra).
  assert (XT : B2R x <= 101 / 100 * T) by (assert (u * T <= T * / 1000000000) by nra; lra).
  pose proof (rnd_plus x x) as R1. change u64 with u in R1. rewrite (Rabs_pos_eq (B2R x + B2R x)) in R1 by lra.
  assert (ux : u * (B2R x + B2R x) <= (B2R x + B2R x) * / 1000000000) by (rewrite (Rmult_comm u); apply Rmult_le_compat_l; lra).
  assert (ux0 : 0 <= u * (B2R x + B2R x)) by (apply Rmult_le_pos; lra).
  assert (Vo : B2R (Bopp x) = - B2R x) by apply B2R_Bopp. assert (Fo : is_finite (Bopp x) = true) by (rewrite is_finite_Bopp; exact Fx).
  destruct (minus_fin x (Bopp x) Fx Fo) as [F2 V2].
  { rewrite Vo. replace (B2R x - - B2R x) with (B2R x + B2R x) by ring. apply near in R1. rewrite (Rabs_pos_eq (B2R x + B2R x)) in R1 by lra. pose proof big_2. pose proof (bpow_gt_0 radix2 1021). lra. }
  rewrite Vo in V2. replace (B2R x - - B2R x) with (B2R x + B2R x) in V2 by ring. rewrite <- V2 in R1. apply Rabs_le_inv in R1.
  set (y := Bminus mode_NE x (Bopp x)) in *.
  assert (R0 : 15 / 16 * dd <= B2R r) by lra. assert (Rp : 0 < B2R r) by lra.
  assert (Y0 : 0 <= B2R y) by lra. assert (YU : B2R y <= 202 / 100 * (INR M * dd)) by (assert (dd <= INR M * dd) by nra; lra).
  assert (Z0 : 0 <= B2R y / B2R r) by (apply Rmult_le_pos; [exact Y0|left; apply Rinv_0_lt_compat; exact Rp]).
  assert (ZU : B2R y / B2R r <= 22 / 10 * INR M).
  { apply Rmult_le_reg_r with (B2R r); [exact Rp|]. replace (B2R y / B2R r * B2R r) with (B2R y) by (field; lra).
    apply Rle_trans with (22 / 10 * INR M * (15 / 16 * dd)); [nra|]. apply Rmult_le_compat_l; lra. }
  pose proof (rnd_le 0 (B2R y / B2R r) Z0) as N0. rewrite rnd_0 in N0.
  assert (NU : rnd (B2R y / B2R r) <= bpow radix2 26).
  { eapply Rle_trans; [apply Rle_abs|]. apply rnd_bpow_le; [lia|]. rewrite Rabs_pos_eq by exact Z0. change (bpow radix2 26) with 67108864. lra. }
  destruct (div_fin y r F2 Fr ltac:(lra)) as [Fq Vq].
  { rewrite Rabs_pos_eq by exact N0. eapply Rle_lt_trans; [exact NU|]. apply big_gt. lia. }
  pose proof (new_Correlator_allot (A := BN) d x Ha) as C. 
  specialize (C ltac:(change (@num BN) with b64; rewrite L1; apply nth_error_nth'; lia)). cbv zeta in C.
  change (nfloor (Num := BN) (ndiv (Num := BN) (nsub (Num := BN) x (nneg (Num := BN) x)) (findMinDiff (A := BN) (normalised_timeseries d)))) with (b64_floor (Bdiv mode_NE y r)) in C.
  rewrite b64_floor_E, (toE_finite _ Fq), Vq in C. set (q := Zfloor (rnd (B2R y / B2R r))) in *.
  assert (q0 : (0 <= q)%Z) by (apply Zfloor_lub; exact N0).
  assert (q1 : (q <= 67108864)%Z) by (apply le_IZR; eapply Rle_trans; [apply Zfloor_lb|exact NU]).
  replace (in_int q && (0 <=? q + 3)%Z && (q + 3 <=? INT_MAX)%Z) with true in C.
  - destruct C as [c0 [E1 [_ [_ [_ E2]]]]]. exists c0. split; [exact E1|]. lia.
  - symmetry. unfold in_int, INT_MIN, INT_MAX. rewrite !andb_true_iff, !Z.leb_le. lia.
Qed.

Theorem even_returns p wgt : p_abs p = AbsFloat -> p_checked p = false -> known_weight wgt ->
  exists r, autocorrelation (A := BN) p d None None None None "natural" wgt = Ok r.
Proof.
  intros Hp Hc Hw. destruct constructs64 as [c0 [Hn Hl]].
  apply (@default_returns BN (arith_binary64 exp64) _ _ p d c0 wgt Ha Hok Hn (default_fits_b64 exp64 d c0 Ha Hok Hn Hl) Hc Hw). intros C. rewrite Hp in C. discriminate C.
Qed.
End Returns.

Theorem rounded_returns (exp64 : b64 -> b64) (p : platform) (d : @dstruct (B64 exp64)) (wgt : string) (t0 dd Tm : R) :
  accepted d -> (forall x : b64, In x (timeseries d) -> is_finite x = true) ->
  let M := length (timeseries d) in
  (2 <= M)%nat ->
  (forall q, (q < M)%nat -> B2R (nth q (timeseries d : list b64) (b64_ofZ 0)) = round radix2 (FLT_exp (-1074) 53) ZnearestE (t0 + INR q * dd)) ->
  (forall q, (q < M)%nat -> Rabs (t0 + INR q * dd) <= Tm) ->
  bpow radix2 (-1000) <= dd -> Tm <= bpow radix2 1019 ->
  128 * INR M * Tm * bpow radix2 (-53) <= dd ->
  p_abs p = AbsFloat -> p_checked p = false -> known_weight wgt ->
  exists r, autocorrelation (A := B64 exp64) p d None None None None "natural" wgt = Ok r.
Proof.
  intros Ha Hf M HM Hr Hb Hd HT HG Hp Hc Hw.
  assert (EM : length (map B2R (timeseries d : list b64)) = M) by apply map_length.
  assert (HM' : (2 <= length (map B2R (timeseries d : list b64)))%nat) by (rewrite EM; exact HM).
  assert (HG' : 128 * INR (length (map B2R (timeseries d : list b64))) * Tm * bpow radix2 (-53) <= dd) by (rewrite EM; exact HG).
  pose proof (rounded_ok exp64 d t0 dd Tm Ha Hf HM' Hr Hb Hd HT) as Hok.
  pose proof (rounded_near exp64 d t0 dd Tm Hr Hb) as He.
  destruct (rounded_span exp64 d t0 dd Tm Ha Hf HM' Hr Hb Hd HT) as [_ Hs].
  destruct (rounded_G exp64 d t0 dd Tm Ha Hf HM' Hr Hb Hd HT HG') as [_ G2].
  exact (even_returns exp64 d t0 dd _ Ha Hok Hs HM' He G2 p wgt Hp Hc Hw).
Qed.
