(** The correlations of a sinusoid are largest near its period. *)
From Coq Require Import String.
From Coq Require Import ZArith Reals List Bool Arith Lia Lra Psatz.
From Flocq Require Import Core BinarySingleNaN.
From Verif Require Import Num Mem MemFacts XR B64 Spec SpecR SpecTime SpecEven DataStructure Correlator Sacf Api ValFacts ExactFacts GridVals GridSums SineFacts EvenFacts EvenSine
  DecimalFacts DecimalRound DecimalPlain DecimalReturns DecimalSine.
Import ListNotations.
Local Open Scope list_scope.
Local Open Scope R_scope.

Lemma PI_upper : PI <= 16 / 5.
Proof.
  pose proof (proj2 (PI_ineq 9)) as H. unfold tg_alt, PI_tg in H. cbn [sum_f_R0 pow Nat.mul Nat.add] in H. rewrite !INR_IZR_INZ in H.
  repeat match type of H with context [IZR (Z.of_nat ?n)] => let z := eval compute in (Z.of_nat n) in change (Z.of_nat n) with z in H end.
  lra.
Qed.

Lemma sin_third x : 0 <= x <= 8 / 5 -> 57 / 100 * x <= sin x.
Proof.
  intros Hx. pose proof (proj1 (pre_sin_bound x 0 ltac:(lra) ltac:(lra))) as H. unfold sin_approx, sin_term in H. cbn [sum_f_R0 Nat.mul Nat.add pow fact] in H.
  rewrite !INR_IZR_INZ in H. cbn [Z.of_nat Pos.of_succ_nat Pos.succ] in H.
  assert (x * x <= 64 / 25) by nra. assert (x * (x * x) <= x * (64 / 25)) by (apply Rmult_le_compat_l; lra). lra.
Qed.

Lemma cos_upper y : Rabs y <= PI -> cos y <= 1 - 16 / 100 * (y * y).
Proof.
  intros Hy. pose proof PI_upper. pose proof (Rabs_pos y).
  assert (C : cos y = 1 - 2 * (sin (Rabs y / 2) * sin (Rabs y / 2))).
  { replace (cos y) with (cos (2 * (Rabs y / 2))); [rewrite cos_2a_sin; ring|]. replace (2 * (Rabs y / 2)) with (Rabs y) by field.
    unfold Rabs. destruct (Rcase_abs y); [apply cos_neg|reflexivity]. }
  pose proof (sin_third (Rabs y / 2) ltac:(lra)) as Sy. set (s := sin (Rabs y / 2)) in *.
  assert (57 / 100 * (Rabs y / 2) * (57 / 100 * (Rabs y / 2)) <= s * s) by (apply Rmult_le_compat; lra).
  assert (Rabs y * Rabs y = y * y) by (rewrite <- Rabs_mult; apply Rabs_pos_eq; apply Rle_0_sqr). rewrite C. nra.
Qed.

Lemma cos_lower y : 1 - y * y / 2 <= cos y.
Proof.
  assert (C : cos y = 1 - 2 * (sin (y / 2) * sin (y / 2))) by (replace y with (2 * (y / 2)) at 1 by field; rewrite cos_2a_sin; ring).
  assert (Sy : Rabs (sin (y / 2)) <= Rabs (y / 2)).
  { destruct (Rtotal_order 0 (y / 2)) as [P|[P|P]].
    - pose proof (sin_lt_x _ P). rewrite (Rabs_pos_eq (y / 2)) by lra. apply Rabs_le. split; [|lra].
      destruct (Rle_or_lt 1 (y / 2)); [pose proof (SIN_bound (y / 2)); lra|]. pose proof PI2_3_2. pose proof (sin_ge_0 (y / 2)). lra.
    - rewrite <- P, sin_0. lra.
    - pose proof (sin_lt_x (- (y / 2)) ltac:(lra)) as Q. rewrite sin_neg in Q. rewrite (Rabs_left (y / 2)) by lra. apply Rabs_le. split; [lra|].
      destruct (Rle_or_lt 1 (- (y / 2))); [pose proof (SIN_bound (y / 2)); lra|]. pose proof PI2_3_2. pose proof (sin_ge_0 (- (y / 2))) as Q2. rewrite sin_neg in Q2. lra. }
  assert (sin (y / 2) * sin (y / 2) <= y / 2 * (y / 2)) by (apply Rsqr_le_abs_1; exact Sy). rewrite C. nra.
Qed.

Lemma cos_turn P x : 0 < P -> cos (2 * PI / P * x) = cos (2 * PI / P * (x - P)).
Proof.
  intros HP. replace (2 * PI / P * x) with (2 * PI / P * (x - P) + 2 * INR 1 * PI) by (cbn [INR]; field; lra). apply cos_period.
Qed.

(** the triangle times the cosine: at n steps compared with at m steps *)
Lemma period_gap (P E m n M v v' : R) :
  0 < P -> 0 <= n <= M -> 0 <= m <= M -> 0 < M -> Rabs (m - P) <= P / 2 -> 0 <= E ->
  Rabs (v' - (1 - n / M) * cos (2 * PI / P * n)) <= E -> Rabs (v - (1 - m / M) * cos (2 * PI / P * m)) <= E ->
  P * P * (n / M + 2 * E) + 21 * ((n - P) * (n - P)) < 4 * ((m - P) * (m - P)) -> v < v'.
Proof.
  intros HP Hn Hm HM Hd HE Hv' Hv H. pose proof PI_upper as PU. pose proof PI2_3_2 as PL.
  rewrite (cos_turn P n HP) in Hv'. rewrite (cos_turn P m HP) in Hv.
  set (y := 2 * PI / P * (m - P)) in *. set (z := 2 * PI / P * (n - P)) in *.
  assert (Y : Rabs y <= PI).
  { unfold y. rewrite Rabs_mult, Rabs_pos_eq by (apply Rmult_le_pos; [lra|apply Rlt_le, Rinv_0_lt_compat; exact HP]).
    replace PI with (2 * PI / P * (P / 2)) at 2 by (field; lra). apply Rmult_le_compat_l; [|exact Hd]. apply Rmult_le_pos; [lra|apply Rlt_le, Rinv_0_lt_compat; exact HP]. }
  pose proof (cos_upper y Y) as U. pose proof (cos_lower z) as L. pose proof (proj2 (COS_bound z)) as L1. pose proof (proj1 (COS_bound z)) as L0.
  assert (NM : 0 <= n / M <= 1) by (split; [apply Rmult_le_pos; [lra|apply Rlt_le, Rinv_0_lt_compat; lra]|apply Rmult_le_reg_r with M; [lra|]; unfold Rdiv; rewrite Rmult_assoc, Rinv_l by lra; lra]).
  assert (MM : 0 <= m / M <= 1) by (split; [apply Rmult_le_pos; [lra|apply Rlt_le, Rinv_0_lt_compat; lra]|apply Rmult_le_reg_r with M; [lra|]; unfold Rdiv; rewrite Rmult_assoc, Rinv_l by lra; lra]).
  set (dm := (m - P) * (m - P)) in *. set (dn := (n - P) * (n - P)) in *.
  assert (Ip : 0 < / (P * P)) by (apply Rinv_0_lt_compat; nra).
  assert (Ey : y * y = 4 * (PI * PI) * (dm * / (P * P))) by (unfold y, dm; field; lra).
  assert (Ez : z * z = 4 * (PI * PI) * (dn * / (P * P))) by (unfold z, dn; field; lra).
  assert (Dm : 0 <= dm) by apply Rle_0_sqr. assert (Dn : 0 <= dn) by apply Rle_0_sqr.
  set (a := dm * / (P * P)) in *. set (b := dn * / (P * P)) in *.
  assert (A0 : 0 <= a) by (apply Rmult_le_pos; lra). assert (B0 : 0 <= b) by (apply Rmult_le_pos; lra).
  assert (PP : 9 <= PI * PI <= 256 / 25) by (split; nra).
  assert (H' : n / M + 2 * E + 21 * b < 4 * a).
  { apply Rmult_lt_reg_l with (P * P); [nra|]. replace (P * P * (4 * a)) with (4 * dm) by (unfold a; field; lra).
    replace (P * P * (n / M + 2 * E + 21 * b)) with (P * P * (n / M + 2 * E) + 21 * dn) by (unfold b; field; lra). exact H. }
  assert (A4 : 4 * a <= 1).
  { assert (4 * dm <= P * P). { assert (Rabs (m - P) * Rabs (m - P) <= P / 2 * (P / 2)) by (apply Rmult_le_compat; try apply Rabs_pos; exact Hd). 
      replace (Rabs (m - P) * Rabs (m - P)) with dm in H0 by (unfold dm; rewrite <- Rabs_mult; symmetry; apply Rabs_pos_eq; apply Rle_0_sqr). lra. }
    apply Rmult_le_reg_l with (P * P); [nra|]. replace (P * P * (4 * a)) with (4 * dm) by (unfold a; field; lra). lra. }
  assert (Vm : v <= 1 - 4 * a + E).
  { apply Rabs_le_inv in Hv. assert ((1 - m / M) * cos y <= 1 - 4 * a); [|lra]. assert (cos y <= 1 - 4 * a) by nra.
    destruct (Rle_or_lt (cos y) 0) as [N0|P0]; [nra|]. nra. }
  assert (Vn : 1 - n / M - 21 * b - E <= v').
  { apply Rabs_le_inv in Hv'. assert (1 - n / M - 21 * b <= (1 - n / M) * cos z); [|lra]. assert (1 - 21 * b <= cos z) by nra. nra. }
  lra.
Qed.

Theorem period_exact (p : platform) (d : @dstruct XR) mi ma re al wgt lags corr c rows j i i' (rs : list R) (t0 dd a b A P ph e : R) (M m n : nat) :
  accepted d -> autocorrelation (A := XR) p d mi ma re al "natural" wgt = Ok (lags, corr, c) -> data_2d d = Ok rows ->
  nth_error rows j = Some (map Fin rs) -> timeseries d = map Fin (grid t0 dd M) -> 0 < dd ->
  opt_or (A := XR) al (median_time d) = Fin a -> 0 < a -> Forall single rs ->
  nth_error lags i = Some (Fin (INR m * dd)) -> (m <= M)%nat -> nth_error lags i' = Some (Fin (INR n * dd)) -> (n <= M)%nat ->
  0 < P -> (forall q, (q < M)%nat -> Rabs (nth q rs 0 - (b + A * cos (2 * PI / P * INR q + ph))) <= e) -> 0 < A -> 0 <= e -> 128 * e <= A -> 32 <= INR M * Rabs (sin (2 * PI / P)) ->
  Rabs (INR m - P) <= P / 2 ->
  let E := 6 / (INR M * Rabs (sin (2 * PI / P))) + 96 * (e / A) in
  P * P * (INR n / INR M + 2 * E) + 21 * ((INR n - P) * (INR n - P)) < 4 * ((INR m - P) * (INR m - P)) ->
  exists r r', corr_at corr j i = Some (Fin r) /\ corr_at corr j i' = Some (Fin r') /\ r < r'.
Proof.
  intros Ha Ec Hd Hj Ht Hdd Hal Hpos Hs Hi Hm Hi' Hn HP H HA He HeA HM Hdm E HE.
  destruct (sine_call p d mi ma re al wgt lags corr c rows j i rs t0 dd a b A _ ph e M m Ha Ec Hd Hj Ht Hdd Hal Hpos Hs Hi Hm H HA He HeA HM) as [r [V B]].
  destruct (sine_call p d mi ma re al wgt lags corr c rows j i' rs t0 dd a b A _ ph e M n Ha Ec Hd Hj Ht Hdd Hal Hpos Hs Hi' Hn H HA He HeA HM) as [r' [V' B']].
  fold E in B, B'. exists r, r'. split; [exact V|]. split; [exact V'|].
  assert (M0 : 0 < INR M) by (pose proof (pos_INR M) as [Q|Q]; [exact Q|rewrite <- Q in HM; lra]).
  apply (period_gap P E (INR m) (INR n) (INR M)); try assumption; [split; [apply pos_INR|apply le_INR; assumption]|split; [apply pos_INR|apply le_INR; assumption]|].
  pose proof (Rabs_pos (r - (1 - INR m / INR M) * cos (2 * PI / P * INR m))). lra.
Qed.

Theorem period_decimal (exp64 : b64 -> b64) (p : platform) (d : @dstruct (B64 exp64)) (wgt : string) (rows : list (list b64)) (t0 dd Tm : R) :
  accepted d -> (forall x : b64, In x (timeseries d) -> is_finite x = true) ->
  let M := length (timeseries d) in
  (2 <= M)%nat ->
  (forall q, (q < M)%nat -> B2R (nth q (timeseries d : list b64) (b64_ofZ 0)) = round radix2 (FLT_exp (-1074) 53) ZnearestE (t0 + INR q * dd)) ->
  (forall q, (q < M)%nat -> (Rabs (t0 + INR q * dd) <= Tm)%R) ->
  (bpow radix2 (-1000) <= dd)%R -> (Tm <= bpow radix2 1019)%R ->
  let G := (32 * INR M * Tm * bpow radix2 (-53))%R in
  (4 * G <= dd)%R ->
  p_abs p = AbsFloat -> p_checked p = false -> wgt = "fractional"%string \/ wgt = "fractional_squared"%string -> data_2d d = Ok rows ->
  exists (lags : list b64) corr c, autocorrelation (A := B64 exp64) p d None None None None "natural" wgt = Ok (lags, corr, c) /\
  forall (j : nat) (row : list b64) (k : Z) (b A P ph e : R), nth_error rows j = Some row ->
    (-149 <= k <= 100)%Z -> (forall x : b64, In x row -> is_finite x = true /\ (Rabs (B2R x) <= bpow radix2 k)%R) ->
    let rs := map B2R row in
    length rs = M -> Forall single rs -> 0 < P ->
    (forall q, (q < M)%nat -> (Rabs (nth q rs 0 - (b + A * cos (2 * PI / P * INR q + ph))) <= e)%R) -> (0 < A)%R -> (0 <= e)%R -> (128 * e <= A)%R -> (32 <= INR M * Rabs (sin (2 * PI / P)))%R ->
    let N := sq_dev rs in
    let K := (INR M * (bpow radix2 k * bpow radix2 k) / N)%R in
    (bpow radix2 (-700) <= N)%R -> ((INR M + 1) * K <= bpow radix2 48)%R ->
    let E := (6 / (INR M * Rabs (sin (2 * PI / P))) + 96 * (e / A) + 13 / INR M + 512 * Tm * bpow radix2 (-53) / dd +
        (50 * (INR M + 10) * bpow radix2 (-53) * (K * K + K) + 35 * bpow radix2 (-53) * K + bpow radix2 (-110)))%R in
    forall n, (n <= M - 2)%nat -> exists i' (kn vn : b64), (i' = M - 1 + n \/ i' = M + n)%nat /\
      nth_error lags i' = Some kn /\ (Rabs (B2R kn - INR n * dd) <= G)%R /\ corr_at corr j i' = Some vn /\ is_finite vn = true /\
      forall m, (m <= M - 2)%nat -> Rabs (INR m - P) <= P / 2 -> exists i (km vm : b64), (i = M - 1 + m \/ i = M + m)%nat /\
        nth_error lags i = Some km /\ (Rabs (B2R km - INR m * dd) <= G)%R /\ corr_at corr j i = Some vm /\ is_finite vm = true /\
        (P * P * (INR n / INR M + 2 * E) + 21 * ((INR n - P) * (INR n - P)) < 4 * ((INR m - P) * (INR m - P)) -> B2R vm < B2R vn).
Proof.
  intros Ha Hf M HM Hr Hb Hd HT G HG Hp Hc Hw Hd2.
  destruct (rounded_sine exp64 p d wgt rows t0 dd Tm Ha Hf HM Hr Hb Hd HT HG Hp Hc Hw Hd2) as [lags [corr [c [Ec S1]]]].
  exists lags, corr, c. split; [exact Ec|]. intros j row k b A P ph e Hj Hk Hx rs Lr Hs HP H HA He HeA HMs N K HN HKK E.
  specialize (S1 j row k b A (2 * PI / P) ph e Hj Hk Hx Lr Hs H HA He HeA HMs HN HKK). fold M rs in S1. fold N in S1. fold K G in S1. fold E in S1.
  assert (M0 : 0 < INR M) by (apply lt_0_INR; lia).
  intros n Hn. destruct (S1 n Hn) as [i' [kn [vn [A1 [A2 [A3 [A4 [A5 A6]]]]]]]]. exists i', kn, vn. repeat (split; [assumption|]).
  intros m Hm Hdm. destruct (S1 m Hm) as [i [km [vm [B1 [B2 [B3 [B4 [B5 B6]]]]]]]]. exists i, km, vm. repeat (split; [assumption|]). intros HE.
  apply (period_gap P E (INR m) (INR n) (INR M)); try assumption; [split; [apply pos_INR|apply le_INR; lia]|split; [apply pos_INR|apply le_INR; lia]|].
  eapply Rle_trans; [apply Rabs_pos|exact B6].
Qed.
