(** Accuracy of the weight functions in binary64. *)
From Coq Require Import String.
From Coq Require Import ZArith Reals List Bool Lia Lra Psatz.
From Coq Require Import Floats.SpecFloat.
From Flocq Require Import Core Relative BinarySingleNaN.
From Verif Require Import Num Mem XR B64 Spec SpecR DataStructure Correlator Api Laws B64Facts Laws2 DefaultFacts WeightFacts.
Local Open Scope R_scope.

(** [u] is 2^-53; [eta] is 2^-1075, half of the smallest positive double *)
Definition eta : R := bpow radix2 (-1075).

Lemma u64_pos : 0 < u64.
Proof. apply bpow_gt_0. Qed.
Lemma eta_pos : 0 < eta.
Proof. apply bpow_gt_0. Qed.
Lemma u64_small : u64 <= / 1000000000.
Proof. rewrite u64_val. lra. Qed.
Lemma eta_u k : (k <= 1022)%Z -> eta * bpow radix2 k <= u64.
Proof. intros H. unfold eta, u64. rewrite <- bpow_plus. apply bpow_le. lia. Qed.
Lemma eta_small : 1000000 * eta <= u64.
Proof.
  apply Rle_trans with (eta * bpow radix2 20); [|apply eta_u; lia]. rewrite Rmult_comm. pose proof eta_pos.
  apply Rmult_le_compat_l; [lra|]. change (bpow radix2 20) with 1048576. lra.
Qed.

(** error of one rounding *)
Lemma rnd_err (r : R) : Rabs (rnd r - r) <= u64 * Rabs r + eta.
Proof.
  destruct (error_N_FLT radix2 (-1074) 53 eq_refl (fun z => negb (Z.even z)) r) as (e & h & He & Hh & _ & E).
  change (rnd r = r * (1 + e) + h) in E. rewrite E.
  replace (r * (1 + e) + h - r) with (e * r + h) by ring.
  eapply Rle_trans; [apply Rabs_triang|]. rewrite Rabs_mult. apply Rplus_le_compat.
  - apply Rmult_le_compat_r; [apply Rabs_pos|]. eapply Rle_trans; [exact He|]. apply Req_le.
    change (u_ro radix2 53 = u64). apply u_ro_64.
  - eapply Rle_trans; [exact Hh|]. unfold eta. change (-1075)%Z with (-1 + -1074)%Z. rewrite bpow_plus. apply Req_le. cbn [bpow].
    reflexivity.
Qed.

Lemma rnd_nonneg r : 0 <= r -> 0 <= rnd r.
Proof. intros H. rewrite <- rnd_0. apply rnd_le. exact H. Qed.
Lemma rnd_1 : rnd 1 = 1.
Proof. apply (rnd_IZR 1). cbn. lia. Qed.

Lemma big_huge : IZR (2 ^ 400) <= big.
Proof. unfold big. change (2 ^ 400)%Z with (radix2 ^ 400)%Z. rewrite (IZR_Zpower radix2 400) by lia. apply bpow_le. lia. Qed.

(** a result that is rounded beyond the range is large *)
Lemma not_in_range r : 0 <= r -> ~ Rabs (rnd r) < big -> IZR (2 ^ 399) <= r.
Proof.
  intros H Hb. apply Rnot_lt_le in Hb. rewrite Rabs_pos_eq in Hb by (apply rnd_nonneg; exact H).
  pose proof (rnd_err r) as E. apply Rabs_le_inv in E. rewrite (Rabs_pos_eq r H) in E.
  pose proof big_huge as Hg. pose proof u64_small as Hu. pose proof eta_small as He. pose proof u64_pos as Hp.
  assert (Hz : IZR (2 ^ 400) = 2 * IZR (2 ^ 399)) by (rewrite <- mult_IZR; f_equal).
  assert (H1 : 1 <= IZR (2 ^ 399)) by (apply IZR_le; discriminate || (cbn; lia)).
  nra.
Qed.

(** one over one plus *)
Section OneOver.
(** [y] is a computed value of [Y]: beyond the range only if [Y] is large *)
Variables (y : b64) (Y k : R).
Hypothesis HY : 0 <= Y.
Hypothesis Hk : 0 <= k <= 1000.
Hypothesis Hy : (toE y = PInf /\ 10000000000000000000000 <= Y) \/
  (exists v, toE y = Fin v /\ 0 <= v /\ Rabs (v - Y) <= k * u64 * (1 + Y)).

Let w := Bdiv mode_NE (b64_ofZ 1) (Bplus mode_NE (b64_ofZ 1) y).

Lemma one_E : toE (b64_ofZ 1) = Fin 1.
Proof. apply (toE_ofZ_small 1). cbn. lia. Qed.

Lemma over_inf : toE (Bplus mode_NE (b64_ofZ 1) y) = PInf -> 1000000000000000000000 <= Y ->
  is_finite w = true /\ Rabs (B2R w - / (1 + Y)) <= (k + 3) * u64.
Proof.
  intros E Hb. assert (W : toE w = Fin 0).
  { unfold w. rewrite toE_div by (rewrite E; discriminate). rewrite E, one_E. cbn [xdiv rndE].
    rewrite rnd_0, Rabs_R0. destruct (Rltb_spec 0 big) as [|n]; [reflexivity|]. exfalso. apply n. apply bpow_gt_0. }
  apply toE_Fin in W. destruct W as [F W]. split; [exact F|]. rewrite W.
  pose proof u64_pos as Hp.
  assert (/ (1 + Y) <= u64).
  { rewrite u64_val. apply Rinv_le_contravar; lra. }
  assert (0 < / (1 + Y)) by (apply Rinv_0_lt_compat; lra).
  rewrite Rabs_left by lra. nra.
Qed.

Lemma over_acc : is_finite w = true /\ Rabs (B2R w - / (1 + Y)) <= (k + 3) * u64.
Proof.
  pose proof u64_pos as Hp. pose proof u64_small as Hu. pose proof eta_pos as He0. pose proof eta_small as He.
  destruct Hy as [[E Hb]|(v & E & Hv & Hd)].
  { apply over_inf; [|lra]. rewrite toE_plus, E, one_E. reflexivity. }
  assert (S : toE (Bplus mode_NE (b64_ofZ 1) y) = rndE (Fin (1 + v))) by (rewrite toE_plus, E, one_E; reflexivity).
  assert (Hd2 : v <= Y + k * u64 * (1 + Y)) by (apply Rabs_le_inv in Hd; lra).
  assert (Hku : 0 <= k * u64 <= / 1000000) by nra.
  cbn [rndE] in S. destruct (Rltb_spec (Rabs (rnd (1 + v))) big) as [Hs|Hs].
  2:{ assert (Hbig : IZR (2 ^ 399) <= 1 + v) by (apply not_in_range; [lra|exact Hs]).
      assert (Hz : IZR (2 ^ 399) >= 100000000000000000000000) by (apply Rle_ge, IZR_le; discriminate || (cbn; lia)).
      destruct (Rltb_spec (1 + v) 0) as [C|C]; [lra|]. apply over_inf; [exact S|]. nra. }
  set (s := rnd (1 + v)) in *.
  assert (Hs1 : 1 <= s). { unfold s. rewrite <- rnd_1 at 1. apply rnd_le. lra. }
  assert (Es : Rabs (s - (1 + v)) <= u64 * (1 + v) + eta).
  { unfold s. pose proof (rnd_err (1 + v)) as K. rewrite (Rabs_pos_eq (1 + v)) in K by lra. exact K. }
  assert (Hi : 0 < / s <= 1). { split; [apply Rinv_0_lt_compat; lra|]. rewrite <- Rinv_1. apply Rinv_le_contravar; lra. }
  assert (W : toE w = rndE (Fin (1 / s))).
  { unfold w. rewrite toE_div by (rewrite S; intros C; injection C; lra). rewrite S, one_E. cbn [xdiv].
    destruct (Reqb_spec s 0); [lra|reflexivity]. }
  cbn [rndE] in W. replace (1 / s) with (/ s) in W by lra.
  assert (Hr1 : 0 <= rnd (/ s) <= 1). { split; [apply rnd_nonneg; lra|]. rewrite <- rnd_1. apply rnd_le. lra. }
  destruct (Rltb_spec (Rabs (rnd (/ s))) big) as [_|C].
  2:{ exfalso. apply C. rewrite Rabs_pos_eq by apply Hr1. apply Rle_lt_trans with 1; [apply Hr1|]. unfold big.
      change 1 with (bpow radix2 0). apply bpow_lt. lia. }
  apply toE_Fin in W. destruct W as [F W]. split; [exact F|]. rewrite W.
  assert (Ew : Rabs (rnd (/ s) - / s) <= u64 + eta).
  { eapply Rle_trans; [apply rnd_err|]. rewrite Rabs_pos_eq by lra. nra. }
  assert (Ei : Rabs (/ s - / (1 + Y)) <= (k * u64 + u64 * (1 + k * u64) + eta)).
  { replace (/ s - / (1 + Y)) with ((1 + Y - s) * / s * / (1 + Y)) by (field; lra).
    assert (Hi2 : 0 < / (1 + Y) <= 1). { split; [apply Rinv_0_lt_compat; lra|]. rewrite <- Rinv_1. apply Rinv_le_contravar; lra. }
    rewrite !Rabs_mult, (Rabs_pos_eq (/ s)), (Rabs_pos_eq (/ (1 + Y))) by lra.
    assert (K : Rabs (1 + Y - s) <= (k * u64 + u64 * (1 + k * u64) + eta) * (1 + Y)).
    { replace (1 + Y - s) with (- (s - (1 + v)) - (v - Y)) by ring.
      eapply Rle_trans; [apply Rabs_triang|]. rewrite !Rabs_Ropp.
      assert (u64 * (1 + v) <= u64 * ((1 + k * u64) * (1 + Y))) by (apply Rmult_le_compat_l; lra).
      nra. }
    set (T := k * u64 + u64 * (1 + k * u64) + eta) in *.
    assert (HT : 0 <= T) by (unfold T; nra).
    apply Rle_trans with (T * (1 + Y) * / s * / (1 + Y)).
    - apply Rmult_le_compat_r; [lra|]. apply Rmult_le_compat_r; [lra|]. exact K.
    - replace (T * (1 + Y) * / s * / (1 + Y)) with (T * / s) by (field; lra). nra. }
  replace (rnd (/ s) - / (1 + Y)) with ((rnd (/ s) - / s) + (/ s - / (1 + Y))) by ring.
  eapply Rle_trans; [apply Rabs_triang|]. nra.
Qed.
End OneOver.

Section Weights.
Variable exp64 : b64 -> b64.
Notation BN := (B64 exp64).
Variables al d : b64.
Hypothesis Fa : is_finite al = true.
Hypothesis Fd : is_finite d = true.
Hypothesis Pa : 0 < B2R al.
Hypothesis Pd : 0 <= B2R d.

Let X := B2R d / B2R al.
Lemma X_pos : 0 <= X.
Proof. unfold X. apply Rmult_le_pos; [exact Pd|]. apply Rlt_le, Rinv_0_lt_compat, Pa. Qed.

(** the quotient *)
Lemma quot_E : toE (Bdiv mode_NE d al) = rndE (Fin X).
Proof.
  rewrite toE_div.
  - rewrite (toE_finite al Fa), (toE_finite d Fd). cbn [xdiv]. destruct (Reqb_spec (B2R al) 0); [lra|]. reflexivity.
  - rewrite (toE_finite al Fa). intros C. injection C. lra.
Qed.

Lemma huge : 100000000000000000000000 <= IZR (2 ^ 399).
Proof. apply IZR_le. discriminate || (cbn; lia). Qed.

Lemma frac_acc : is_finite (fractionWeightFunction (A := BN) al d : b64) = true /\
  Rabs (B2R (fractionWeightFunction (A := BN) al d : b64) - / (1 + X)) <= 4 * u64.
Proof.
  pose proof X_pos as HX. pose proof u64_pos. pose proof eta_pos. pose proof eta_small.
  replace (4 * u64) with ((1 + 3) * u64) by lra.
  apply (over_acc (Bdiv mode_NE d al) X 1 HX); [lra|]. rewrite quot_E. cbn [rndE].
  destruct (Rltb_spec (Rabs (rnd X)) big) as [Hb|Hb].
  - right. exists (rnd X). split; [reflexivity|]. split; [apply rnd_nonneg; exact HX|].
    eapply Rle_trans; [apply rnd_err|]. rewrite Rabs_pos_eq by exact HX. nra.
  - left. pose proof (not_in_range X HX Hb). pose proof huge. destruct (Rltb_spec X 0); [lra|]. split; [reflexivity|lra].
Qed.

Lemma sq_acc : is_finite (fractionSquaredWeightFunction (A := BN) al d : b64) = true /\
  Rabs (B2R (fractionSquaredWeightFunction (A := BN) al d : b64) - / (1 + X * X)) <= 7 * u64.
Proof.
  pose proof X_pos as HX. pose proof u64_pos as U0. pose proof u64_small as U1. pose proof eta_pos as E0. pose proof eta_small as E1.
  replace (7 * u64) with ((4 + 3) * u64) by lra.
  set (q := Bdiv mode_NE d al).
  apply (over_acc (Bmult mode_NE q q) (X * X) 4); [nra|lra|]. rewrite toE_mult. unfold q. rewrite quot_E. cbn [rndE].
  pose proof huge as Hh.
  destruct (Rltb_spec (Rabs (rnd X)) big) as [Hb|Hb].
  2:{ left. pose proof (not_in_range X HX Hb). destruct (Rltb_spec X 0); [lra|]. split; [reflexivity|nra]. }
  set (r := rnd X). assert (Hr : 0 <= r) by (apply rnd_nonneg; exact HX).
  assert (Er : Rabs (r - X) <= u64 * X + eta).
  { unfold r. eapply Rle_trans; [apply rnd_err|]. rewrite Rabs_pos_eq by exact HX. lra. }
  apply Rabs_le_inv in Er. cbn [xmul rndE].
  (* the square before its rounding *)
  assert (Eq : Rabs (r * r - X * X) <= (2 * u64 + 3 * u64 * u64 + 2 * eta) * (1 + X * X)).
  { assert (Hx2 : 2 * X <= 1 + X * X). { pose proof (Rle_0_sqr (X - 1)) as K. unfold Rsqr in K. lra. }
    set (D := r - X) in *. assert (HD : Rabs D <= u64 * X + eta) by (apply Rabs_le; lra).
    replace (r * r - X * X) with (D * (2 * X + D)) by (unfold D; ring).
    rewrite Rabs_mult.
    assert (H2 : Rabs (2 * X + D) <= 2 * X + (u64 * X + eta)) by (apply Rabs_le; lra).
    apply Rle_trans with ((u64 * X + eta) * (2 * X + (u64 * X + eta))).
    { apply Rmult_le_compat; [apply Rabs_pos..|exact HD|exact H2]. }
    assert (Q1 : u64 * eta * (2 * X) <= u64 * eta * (1 + X * X)) by (apply Rmult_le_compat_l; nra).
    assert (Q2 : eta * (2 * X) <= eta * (1 + X * X)) by (apply Rmult_le_compat_l; lra).
    assert (Q3 : u64 * eta <= u64 * u64) by (apply Rmult_le_compat_l; lra).
    assert (Q4 : eta * eta <= u64 * u64) by (apply Rmult_le_compat; lra).
    assert (Q5 : u64 * eta * (1 + X * X) <= u64 * u64 * (1 + X * X)) by (apply Rmult_le_compat_r; [nra|lra]).
    assert (Q6 : 0 <= X * X) by nra. 
    replace ((u64 * X + eta) * (2 * X + (u64 * X + eta))) with
      (2 * u64 * (X * X) + eta * (2 * X) + u64 * u64 * (X * X) + u64 * eta * (2 * X) + eta * eta) by ring.
    assert (Q7 : 0 <= u64 * u64) by nra.
    nra. }
  assert (Hbig : r * r <= 2 * (1 + X * X)).
  { apply Rabs_le_inv in Eq. assert (0 <= X * X) by nra.
    assert ((2 * u64 + 3 * u64 * u64 + 2 * eta) * (1 + X * X) <= 1 * (1 + X * X)) by (apply Rmult_le_compat_r; nra). lra. }
  destruct (Rltb_spec (Rabs (rnd (r * r))) big) as [Hb2|Hb2].
  2:{ left. assert (Hrr : 0 <= r * r) by nra. pose proof (not_in_range (r * r) Hrr Hb2). destruct (Rltb_spec (r * r) 0); [lra|].
      split; [reflexivity|]. lra. }
  right. exists (rnd (r * r)). split; [reflexivity|]. split; [apply rnd_nonneg; nra|].
  pose proof (rnd_err (r * r)) as Ey. rewrite (Rabs_pos_eq (r * r)) in Ey by nra.
  replace (rnd (r * r) - X * X) with ((rnd (r * r) - r * r) + (r * r - X * X)) by ring.
  eapply Rle_trans; [apply Rabs_triang|].
  set (P := 1 + X * X) in *. assert (HP : 1 <= P) by (unfold P; nra).
  assert (Hrr : r * r <= P + (2 * u64 + 3 * u64 * u64 + 2 * eta) * P).
  { apply Rabs_le_inv in Eq. unfold P in *. lra. }
  assert (Z1 : 2 * u64 + 3 * u64 * u64 + 2 * eta <= / 1000000) by nra.
  assert (Z2 : u64 * (r * r) <= u64 * (P + / 1000000 * P)).
  { apply Rmult_le_compat_l; [lra|]. eapply Rle_trans; [exact Hrr|]. apply Rplus_le_compat_l. apply Rmult_le_compat_r; lra. }
  assert (Z3 : (2 * u64 + 3 * u64 * u64 + 2 * eta) * P <= (2 * u64 + / 1000 * u64) * P) by (apply Rmult_le_compat_r; nra).
  assert (Z4 : eta <= / 1000 * u64 * P) by nra.
  nra.
Qed.

(** the exponential function is good to [eps] on the left half line *)
Variable eps : R.
Hypothesis Hexp : exp_within exp64 eps.
Hypothesis Ra : bpow radix2 (-150) <= B2R al <= bpow radix2 150.

Let N := B2R d * B2R d.
Let M := 2 * B2R al * B2R al.

Lemma M_range : bpow radix2 (-300) <= M <= bpow radix2 301.
Proof.
  destruct Ra as [R1 R2]. unfold M. pose proof (bpow_gt_0 radix2 (-150)) as P. split.
  - change (-300)%Z with (-150 + -150)%Z. rewrite bpow_plus.
    assert (bpow radix2 (-150) * bpow radix2 (-150) <= B2R al * B2R al) by (apply Rmult_le_compat; lra). nra.
  - change 301%Z with (1 + (150 + 150))%Z. rewrite !bpow_plus. change (bpow radix2 1) with 2.
    assert (B2R al * B2R al <= bpow radix2 150 * bpow radix2 150) by (apply Rmult_le_compat; lra). lra.
Qed.

Lemma eta_rel v : bpow radix2 (-300) <= v -> 1000000 * eta <= u64 * v.
Proof.
  intros H. apply Rle_trans with (u64 * bpow radix2 (-300)).
  - unfold u64, eta. rewrite <- bpow_plus. apply Rle_trans with (bpow radix2 20 * bpow radix2 (-1075)).
    + apply Rmult_le_compat_r; [apply bpow_ge_0|]. change (bpow radix2 20) with 1048576. lra.
    + rewrite <- bpow_plus. apply bpow_le. lia.
  - apply Rmult_le_compat_l; [apply Rlt_le, u64_pos|exact H].
Qed.

Lemma in_range v : Rabs v <= bpow radix2 302 -> Rabs (rnd v) < big.
Proof.
  intros H. pose proof (rnd_err v) as E. pose proof u64_small as U. pose proof u64_pos. pose proof eta_pos. pose proof eta_small.
  assert (K : Rabs (rnd v) <= 2 * bpow radix2 302).
  { replace (rnd v) with ((rnd v - v) + v) by ring. eapply Rle_trans; [apply Rabs_triang|].
    assert (1 <= bpow radix2 302) by (change 1 with (bpow radix2 0); apply bpow_le; lia).
    pose proof (Rabs_pos v). nra. }
  eapply Rle_lt_trans; [exact K|]. change 2 with (bpow radix2 1). rewrite <- bpow_plus. apply bpow_lt. lia.
Qed.

(** the denominator *)
Lemma den_E : exists m, toE (Bmult mode_NE (Bmult mode_NE (b64_ofZ 2) al) al) = Fin m /\ Rabs (m - M) <= 201 / 100 * u64 * M /\ 0 < m.
Proof.
  destruct Ra as [R1 R2]. pose proof M_range as [M1 M2]. pose proof u64_small as U. pose proof u64_pos as U0. pose proof eta_pos as E0.
  assert (Hl : bpow radix2 (-300) <= B2R al) by (eapply Rle_trans; [|exact R1]; apply bpow_le; lia).
  set (a := B2R al) in *.
  assert (T : toE (b64_ofZ 2) = Fin 2) by (apply (toE_ofZ_small 2); cbn; lia).
  assert (Hb : Rabs (rnd (2 * a)) < big).
  { apply in_range. rewrite Rabs_pos_eq by lra. apply Rle_trans with (2 * bpow radix2 150); [lra|].
    change 2 with (bpow radix2 1). rewrite <- bpow_plus. apply bpow_le. lia. }
  set (b := rnd (2 * a)).
  assert (Eb : Rabs (b - 2 * a) <= 100001 / 100000 * u64 * (2 * a)).
  { unfold b. eapply Rle_trans; [apply rnd_err|]. rewrite Rabs_pos_eq by lra. pose proof (eta_rel a Hl). nra. }
  apply Rabs_le_inv in Eb.
  assert (Hb2 : Rabs (b * a - M) <= 100001 / 100000 * u64 * M).
  { unfold M. fold a. apply Rabs_le. nra. }
  apply Rabs_le_inv in Hb2.
  assert (HbM : 0 <= b * a <= 2 * M) by nra.
  assert (Hm : Rabs (rnd (b * a)) < big).
  { apply in_range. rewrite Rabs_pos_eq by apply HbM. apply Rle_trans with (2 * bpow radix2 301); [lra|].
    change 2 with (bpow radix2 1). rewrite <- bpow_plus. apply bpow_le. lia. }
  exists (rnd (b * a)). split; [|].
  - rewrite !toE_mult, T, (toE_finite al Fa). cbn [xmul]. fold a. unfold rndE at 2.
    destruct (Rltb_spec (Rabs (rnd (2 * a))) big) as [_|C]; [|contradiction]. cbn [xmul]. fold b. unfold rndE.
    destruct (Rltb_spec (Rabs (rnd (b * a))) big) as [_|C]; [reflexivity|contradiction].
  - assert (Er : Rabs (rnd (b * a) - b * a) <= 100002 / 100000 * u64 * M).
    { eapply Rle_trans; [apply rnd_err|]. rewrite Rabs_pos_eq by apply HbM. pose proof (eta_rel M M1). nra. }
    apply Rabs_le_inv in Er. pose proof (bpow_gt_0 radix2 (-300)). split; [apply Rabs_le; nra|nra].
Qed.

Lemma exp_diff A B : A <= B -> 0 <= exp (- A) - exp (- B) <= (B - A) * exp (- A).
Proof.
  intros H. split.
  - assert (exp (- B) <= exp (- A)); [|lra]. destruct (Req_dec A B) as [->|Hn]; [lra|]. apply Rlt_le, exp_increasing. lra.
  - replace (- B) with (- A + - (B - A)) by ring. rewrite exp_plus. pose proof (exp_ineq1_le (- (B - A))). pose proof (exp_pos (- A)). nra.
Qed.

Lemma exp_le_inv t : 0 <= t < 1 -> exp t <= / (1 - t).
Proof.
  intros H. pose proof (exp_ineq1_le (- t)). replace t with (- - t) at 1 by ring. rewrite exp_Ropp.
  apply Rinv_le_contravar; lra.
Qed.

(** moving the argument of exp(-X) by a few units relative to 1 + X *)
Lemma exp_move Xg Z t : 0 <= Xg -> 0 <= t <= / 1000 -> Rabs (Z - Xg) <= t * (1 + Xg) ->
  Rabs (exp (- Z) - exp (- Xg)) <= 3 * t.
Proof.
  intros HX Ht HZ. apply Rabs_le_inv in HZ.
  assert (K : (1 + Xg) * exp (- (Xg - t * (1 + Xg))) <= 3).
  { assert (E : exp (- (Xg - t * (1 + Xg))) = exp (- (Xg / 2)) * exp (- (Xg / 2 - t * Xg)) * exp t).
    { rewrite <- !exp_plus. f_equal. field. }
    rewrite E. pose proof (exp_ineq1_le (Xg / 2)) as K1.
    assert (K2 : exp (- (Xg / 2 - t * Xg)) <= 1).
    { rewrite <- exp_0. destruct (Req_dec (Xg / 2 - t * Xg) 0) as [->|Hn]; [rewrite Ropp_0; lra|].
      apply Rlt_le, exp_increasing. nra. }
    assert (K3 : exp t <= 3 / 2). { eapply Rle_trans; [apply exp_le_inv; lra|]. replace (3 / 2) with (/ (2 / 3)) by lra. apply Rinv_le_contravar; lra. }
    assert (K4 : exp (Xg / 2) * exp (- (Xg / 2)) = 1) by (rewrite <- exp_plus, Rplus_opp_r; apply exp_0).
    pose proof (exp_pos (Xg / 2)). pose proof (exp_pos (- (Xg / 2))). pose proof (exp_pos (- (Xg / 2 - t * Xg))). pose proof (exp_pos t).
    set (e1 := exp (- (Xg / 2))) in *. set (e2 := exp (- (Xg / 2 - t * Xg))) in *. set (e3 := exp t) in *.
    assert (L1 : (1 + Xg) * e1 <= 2). { assert ((1 + Xg / 2) * e1 <= exp (Xg / 2) * e1) by (apply Rmult_le_compat_r; lra). nra. }
    assert (L2 : e2 * e3 <= 3 / 2) by nra.
    replace ((1 + Xg) * (e1 * e2 * e3)) with (((1 + Xg) * e1) * (e2 * e3)) by ring.
    assert (0 <= (1 + Xg) * e1) by (apply Rmult_le_pos; lra). assert (0 <= e2 * e3) by (apply Rmult_le_pos; lra). nra. }
  pose proof (exp_pos (- (Xg - t * (1 + Xg)))) as P0.
  destruct (Rle_or_lt Z Xg) as [H|H].
  - pose proof (exp_diff Z Xg H) as [D1 D2]. rewrite Rabs_pos_eq by exact D1.
    pose proof (exp_diff (Xg - t * (1 + Xg)) Z) as [D3 _]; [lra|]. pose proof (exp_pos (- Z)).
    apply Rle_trans with (t * (1 + Xg) * exp (- (Xg - t * (1 + Xg)))); [|nra].
    eapply Rle_trans; [exact D2|]. apply Rmult_le_compat; lra.
  - pose proof (exp_diff Xg Z) as [D1 D2]; [lra|]. rewrite Rabs_minus_sym, Rabs_pos_eq by exact D1.
    pose proof (exp_diff (Xg - t * (1 + Xg)) Xg) as [D3 _]; [nra|]. pose proof (exp_pos (- Xg)).
    apply Rle_trans with (t * (1 + Xg) * exp (- (Xg - t * (1 + Xg)))); [|nra].
    eapply Rle_trans; [exact D2|]. apply Rmult_le_compat; lra.
Qed.

Lemma toE_NInf (x : b64) : toE x = NInf -> x = B754_infinity true.
Proof. destruct x as [s|[|]| |s m e H]; cbn; try discriminate; reflexivity. Qed.

Lemma gauss_far (x : b64) : toE x = NInf -> 1000000000000000000000 <= N / M ->
  is_finite (exp64 x) = true /\ Rabs (B2R (exp64 x) - exp (- (N / M))) <= eps + 16 * u64.
Proof.
  intros E Hf. apply toE_NInf in E. subst x. destruct Hexp as [_ [F H]]. split; [exact F|].
  assert (K : 0 < exp (- (N / M)) <= u64).
  { split; [apply exp_pos|]. rewrite exp_Ropp, u64_val. apply Rinv_le_contravar; [lra|]. pose proof (exp_ineq1_le (N / M)). lra. }
  unfold Rminus. eapply Rle_trans; [apply Rabs_triang|]. rewrite Rabs_Ropp, (Rabs_pos_eq (exp (- (N / M)))) by lra. pose proof u64_pos. lra.
Qed.

Lemma gauss_acc : is_finite (gaussianWeightFunction (A := BN) al d : b64) = true /\
  Rabs (B2R (gaussianWeightFunction (A := BN) al d : b64) - exp (- (N / M))) <= eps + 16 * u64.
Proof.
  pose proof u64_small as U. pose proof u64_pos as U0. pose proof eta_pos as E0. pose proof eta_small as E1.
  destruct den_E as (m & Em & Hm & Pm). pose proof M_range as [M1 M2]. pose proof (bpow_gt_0 radix2 (-300)) as P300.
  apply Rabs_le_inv in Hm. assert (HN : 0 <= N) by (unfold N; nra).
  assert (HX : 0 <= N / M) by (apply Rmult_le_pos; [exact HN|apply Rlt_le, Rinv_0_lt_compat; lra]).
  change (gaussianWeightFunction (A := BN) al d : b64) with
    (exp64 (Bdiv mode_NE (Bopp (Bmult mode_NE d d)) (Bmult mode_NE (Bmult mode_NE (b64_ofZ 2) al) al))).
  set (den := Bmult mode_NE (Bmult mode_NE (b64_ofZ 2) al) al) in *.
  set (x := Bdiv mode_NE (Bopp (Bmult mode_NE d d)) den).
  assert (Ex : toE x = rndE (xdiv (xneg (rndE (Fin N))) (Fin m))).
  { unfold x. rewrite toE_div by (rewrite Em; intros C; injection C; lra).
    rewrite toE_opp, toE_mult, Em, (toE_finite d Fd). reflexivity. }
  cbn [rndE] in Ex.
  assert (Hh : IZR (2 ^ 399) = bpow radix2 399) by (change (2 ^ 399)%Z with (radix2 ^ 399)%Z; apply IZR_Zpower; lia).
  assert (Hq : forall T, bpow radix2 399 <= T -> 1000000000000000000000 <= T / (2 * M)).
  { intros T HT. apply Rmult_le_reg_r with (2 * M); [lra|]. unfold Rdiv. rewrite Rmult_assoc, Rinv_l, Rmult_1_r by lra.
    eapply Rle_trans; [|exact HT]. change 399%Z with (97 + (1 + 301))%Z. rewrite bpow_plus, (bpow_plus radix2 1 301). change (bpow radix2 1) with 2.
    apply Rmult_le_compat; [lra|lra| |lra]. change (bpow radix2 97) with (IZR (2 ^ 97)). apply IZR_le. vm_compute. discriminate. }
  destruct (Rltb_spec (Rabs (rnd N)) big) as [Hb|Hb].
  2:{ pose proof (not_in_range N HN Hb) as Hl. destruct (Rltb_spec N 0); [lra|]. cbn [xneg xdiv] in Ex.
      destruct (Rltb_spec m 0) as [|_]; [lra|]. cbn [rndE] in Ex. apply gauss_far; [exact Ex|]. rewrite Hh in Hl.
      specialize (Hq N Hl). replace (N / (2 * M)) with (N / M / 2) in Hq by (field; lra). lra. }
  set (n := rnd N) in *. assert (Hn : 0 <= n) by (apply rnd_nonneg; exact HN).
  assert (En : Rabs (n - N) <= u64 * N + eta). { unfold n. eapply Rle_trans; [apply rnd_err|]. rewrite Rabs_pos_eq by exact HN. lra. }
  apply Rabs_le_inv in En. cbn [xneg xdiv] in Ex. destruct (Reqb_spec m 0) as [|_]; [lra|].
  set (v := n / m). replace (- n / m) with (- v) in Ex by (unfold v; field; lra).
  assert (Hv : 0 <= v) by (apply Rmult_le_pos; [exact Hn|apply Rlt_le, Rinv_0_lt_compat; exact Pm]).
  assert (Ev : Rabs (v - N / M) <= 32 / 10 * u64 * (1 + N / M)).
  { assert (Q : v * m = n) by (unfold v; field; lra). set (Xg := N / M) in *.
    assert (QX : Xg * M = N) by (unfold Xg; field; lra).
    assert (S : Rabs (n - Xg * m) <= (302 / 100 * u64 * (1 + Xg)) * M).
    { replace (n - Xg * m) with ((n - N) - Xg * (m - M)) by (rewrite <- QX; ring).
      assert (S1 : Rabs (Xg * (m - M)) <= Xg * (201 / 100 * u64 * M)).
      { rewrite Rabs_mult, (Rabs_pos_eq Xg HX). apply Rmult_le_compat_l; [exact HX|]. apply Rabs_le. lra. }
      assert (S2 : Rabs (n - N) <= u64 * (Xg * M) + eta) by (rewrite QX; apply Rabs_le; lra).
      assert (S3 : eta <= / 1000000 * u64 * M) by (pose proof (eta_rel M M1); lra).
      eapply Rle_trans; [apply Rabs_triang|]. rewrite Rabs_Ropp. nra. }
    assert (S4 : M <= 101 / 100 * m) by nra.
    replace (v - Xg) with ((n - Xg * m) * / m) by (rewrite <- Q; field; lra).
    rewrite Rabs_mult, (Rabs_pos_eq (/ m)) by (apply Rlt_le, Rinv_0_lt_compat; exact Pm).
    apply Rmult_le_reg_r with m; [exact Pm|]. rewrite Rmult_assoc, Rinv_l, Rmult_1_r by lra.
    eapply Rle_trans; [exact S|]. assert (0 <= u64 * (1 + Xg)) by nra.
    replace (302 / 100 * u64 * (1 + Xg) * M) with (302 / 100 * (u64 * (1 + Xg)) * M) by ring.
    replace (32 / 10 * u64 * (1 + Xg) * m) with (32 / 10 * (u64 * (1 + Xg)) * m) by ring. nra. }
  cbn [rndE] in Ex. rewrite rnd_opp, Rabs_Ropp in Ex.
  destruct (Rltb_spec (Rabs (rnd v)) big) as [Hbv|Hbv].
  2:{ pose proof (not_in_range v Hv Hbv) as Hl. pose proof huge as Hg. destruct (Rltb_spec (- v) 0) as [_|C]; [|lra].
      apply gauss_far; [exact Ex|]. apply Rabs_le_inv in Ev.
      assert (32 / 10 * u64 * (1 + N / M) <= / 100 * (1 + N / M)) by (apply Rmult_le_compat_r; lra). lra. }
  apply toE_Fin in Ex. destruct Ex as [Fx Ex].
  assert (Hrv : 0 <= rnd v) by (apply rnd_nonneg; exact Hv).
  destruct (proj1 Hexp x Fx) as [Fe He]; [rewrite Ex; lra|]. split; [exact Fe|]. rewrite Ex in He.
  assert (Hz : Rabs (rnd v - N / M) <= 5 * u64 * (1 + N / M)).
  { replace (rnd v - N / M) with ((rnd v - v) + (v - N / M)) by ring. eapply Rle_trans; [apply Rabs_triang|].
    pose proof (rnd_err v) as Er. rewrite (Rabs_pos_eq v Hv) in Er. apply Rabs_le_inv in Ev as Ev'.
    assert (v <= 101 / 100 * (1 + N / M)) by nra. nra. }
  pose proof (exp_move (N / M) (rnd v) (5 * u64) HX) as Hmv. specialize (Hmv ltac:(lra) Hz).
  replace (B2R (exp64 x) - exp (- (N / M))) with ((B2R (exp64 x) - exp (- rnd v)) + (exp (- rnd v) - exp (- (N / M)))) by ring.
  eapply Rle_trans; [apply Rabs_triang|]. lra.
Qed.

End Weights.

Lemma gauss_acc_r (exp64 : b64 -> b64) (eps : R) (al d : b64) : exp_within exp64 eps ->
  is_finite al = true -> is_finite d = true -> 0 <= B2R d -> bpow radix2 (-150) <= B2R al <= bpow radix2 150 ->
  is_finite (@gaussianWeightFunction (B64 exp64) al d : b64) = true /\
  Rabs (B2R (@gaussianWeightFunction (B64 exp64) al d : b64) - exp (- (B2R d * B2R d) / (2 * B2R al * B2R al))) <= eps + 16 * u64.
Proof.
  intros He Fa Fd Pd Ra. pose proof (bpow_gt_0 radix2 (-150)).
  replace (- (B2R d * B2R d) / (2 * B2R al * B2R al)) with (- (B2R d * B2R d / (2 * B2R al * B2R al))) by (field; lra).
  apply gauss_acc; try assumption; lra.
Qed.

(** ** The correctly rounded exponential function *)
Definition b64_of_R (r : R) : b64 :=
  binary_normalize 53 1024 eq_refl eq_refl mode_NE (ZnearestE (scaled_mantissa radix2 fexp64 r)) (cexp radix2 fexp64 r) false.
Definition exp_rn (x : b64) : b64 :=
  match x with
  | B754_nan => B754_nan
  | B754_infinity true => B754_zero false
  | B754_infinity false => B754_infinity false
  | _ => b64_of_R (exp (B2R x))
  end.

Lemma toE_of_R r : toE (b64_of_R r) = rndE (Fin r).
Proof.
  unfold b64_of_R.
  pose proof (binary_normalize_correct 53 1024 eq_refl eq_refl mode_NE (ZnearestE (scaled_mantissa radix2 fexp64 r)) (cexp radix2 fexp64 r) false) as H.
  cbv zeta in H.
  change (round radix2 (SpecFloat.fexp 53 1024) (round_mode mode_NE)) with rnd in H.
  change (bpow radix2 1024) with big in H. rewrite Rlt_bool_Rltb in H.
  change (F2R (Float radix2 (ZnearestE (scaled_mantissa radix2 fexp64 r)) (cexp radix2 fexp64 r))) with (rnd r) in H.
  assert (I : rnd (rnd r) = rnd r).
  { apply round_generic; auto with typeclass_instances. apply generic_format_round; auto with typeclass_instances. }
  rewrite I in H. cbn [rndE].
  destruct (Rltb_spec (Rabs (rnd r)) big) as [Hr|Hr].
  - destruct H as [H1 [H2 _]]. rewrite toE_finite by exact H2. f_equal. exact H1.
  - eapply toE_overflow; [exact Hr|exact H| |]; rewrite Rlt_bool_Rltb; intros E1.
    + apply Rltb_true in E1. destruct (Rle_or_lt 0 r) as [C|C]; [|lra]. pose proof (rnd_nonneg r C). lra.
    + apply Rltb_false in E1. destruct (Rle_or_lt r 0) as [C|C]; [|lra].
      assert (rnd r <= 0) by (rewrite <- rnd_0; apply rnd_le; exact C).
      exfalso. apply Hr. replace (rnd r) with 0 by lra. rewrite Rabs_R0. apply bpow_gt_0.
Qed.

Lemma toE_exp_rn x : toE (exp_rn x) = rndE (xexp (toE x)).
Proof.
  destruct x as [s|[|]| |s m e H]; try reflexivity.
  - unfold exp_rn. rewrite toE_of_R. reflexivity.
  - cbn [exp_rn toE xexp rndE]. rewrite rnd_0, Rabs_R0. destruct (Rltb_spec 0 big) as [|n]; [reflexivity|]. exfalso. apply n. apply bpow_gt_0.
  - unfold exp_rn. rewrite toE_of_R. reflexivity.
Qed.

Lemma good_exp_rn : @good_exp (B64 exp_rn).
Proof.
  assert (Z : toE (b64_ofZ 0) = Fin 0) by (apply (toE_ofZ_small 0); cbn; lia).
  assert (O : toE (b64_ofZ 1) = Fin 1) by (apply (toE_ofZ_small 1); cbn; lia).
  assert (R0 : rndE (Fin 0) = Fin 0) by (rewrite <- Z; apply rndE_toE).
  assert (R1 : rndE (Fin 1) = Fin 1) by (rewrite <- O; apply rndE_toE).
  destruct good_exp_exact as [G1 [G2 G3]].
  split; [|split].
  - intros x H. change (Bleb x (b64_ofZ 0) = true) in H. rewrite Bleb_toE, Z in H.
    change (Bleb (b64_ofZ 0) (exp_rn x) = true /\ Bleb (exp_rn x) (b64_ofZ 1) = true).
    rewrite !Bleb_toE, Z, O, toE_exp_rn. destruct (G1 _ H) as [K1 K2]. apply xle_rndE in K1, K2.
    change (@nzero XR) with (Fin 0) in K1. change (@none_ XR) with (Fin 1) in K2. rewrite R0 in K1. rewrite R1 in K2. split; assumption.
  - intros x H. change (Beqb x (b64_ofZ 0) = true) in H. rewrite Beqb_toE, Z in H.
    change (Beqb (exp_rn x) (b64_ofZ 1) = true). rewrite Beqb_toE, O, toE_exp_rn.
    apply xeqb_Fin in H. rewrite H. cbn [xexp]. rewrite exp_0, R1. cbn. apply Reqb_true. reflexivity.
  - intros x y H. change (Bleb x y = true) in H. rewrite Bleb_toE in H.
    change (Bleb (exp_rn x) (exp_rn y) = true). rewrite Bleb_toE, !toE_exp_rn. apply xle_rndE. apply (G3 _ _ H).
Qed.

Lemma exp_rn_within : exp_within exp_rn (bpow radix2 (-53)).
Proof.
  pose proof eta_pos. pose proof eta_small. pose proof u64_pos.
  split; [|split; [reflexivity|change (Rabs 0 <= bpow radix2 (-53)); rewrite Rabs_R0; apply bpow_ge_0]].
  intros x F Hx. pose proof (toE_exp_rn x) as E. rewrite (toE_finite x F) in E. cbn [xexp rndE] in E.
  assert (Ex : 0 < exp (B2R x) <= 1).
  { split; [apply exp_pos|]. rewrite <- exp_0. destruct Hx as [Hx|Hx]; [apply Rlt_le, exp_increasing; exact Hx|rewrite Hx; lra]. }
  assert (Hr : 0 <= rnd (exp (B2R x)) <= 1).
  { split; [apply rnd_nonneg; lra|]. rewrite <- rnd_1. apply rnd_le. lra. }
  destruct (Rltb_spec (Rabs (rnd (exp (B2R x)))) big) as [_|C].
  2:{ exfalso. apply C. rewrite Rabs_pos_eq by apply Hr. apply Rle_lt_trans with 1; [apply Hr|]. unfold big.
      change 1 with (bpow radix2 0). apply bpow_lt. lia. }
  apply toE_Fin in E. destruct E as [F' E]. split; [exact F'|]. rewrite E.
  (* half an ulp at most 2^-54 below 1 *)
  destruct (Req_dec (exp (B2R x)) 1) as [E1|E1].
  { rewrite E1, rnd_1. unfold Rminus. rewrite Rplus_opp_r, Rabs_R0. apply bpow_ge_0. }
  pose proof (error_le_half_ulp radix2 fexp64 (fun z => negb (Z.even z)) (exp (B2R x))) as K.
  change (round radix2 fexp64 (Znearest (fun z => negb (Z.even z))) (exp (B2R x))) with (rnd (exp (B2R x))) in K.
  eapply Rle_trans; [exact K|].
  assert (Hu : ulp radix2 fexp64 (exp (B2R x)) <= bpow radix2 (-53)).
  { rewrite ulp_neq_0 by lra. apply bpow_le. unfold cexp.
    assert (mag radix2 (exp (B2R x)) <= 0)%Z. { apply mag_le_bpow; [lra|]. rewrite Rabs_pos_eq by lra. change (bpow radix2 0) with 1. lra. }
    unfold FLT_exp. lia. }
  pose proof (bpow_gt_0 radix2 (-53)). lra.
Qed.
