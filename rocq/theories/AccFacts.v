(** Accuracy of sums, means and correlations in binary64. *)
From Coq Require Import String.
From Coq Require Import ZArith Reals List Bool Lia Lra Psatz.
From Flocq Require Import Core Relative Plus_error BinarySingleNaN.
From Verif Require Import Num Mem MemFacts XR B64 Spec SpecR DataStructure Correlator Sacf Api Laws B64Facts Laws2 DSFacts MainFacts
  DefaultFacts WeightAcc ValFacts.
Import ListNotations.
Local Open Scope list_scope.
Local Open Scope R_scope.

Notation fin := is_finite.
Definition PW (n : nat) : R := (1 + u64) ^ n.

Lemma PW_S n : PW (S n) = (1 + u64) * PW n.
Proof. reflexivity. Qed.
Lemma PW_ge n : 1 <= PW n.
Proof. unfold PW. apply pow_R1_Rle. pose proof u64_pos. lra. Qed.
Lemma PW_add n k : PW (n + k) = PW n * PW k.
Proof. apply pow_add. Qed.

(** ** finite results come from finite arguments *)
Lemma rndE_inv z r : rndE z = Fin r -> exists s, z = Fin s /\ r = rnd s.
Proof. destruct z as [s| | |]; try discriminate. intros H. exists s. split; [reflexivity|]. apply rndE_Fin. exact H. Qed.

Lemma fin_E (x : b64) : fin x = true -> toE x = Fin (B2R x).
Proof. apply toE_finite. Qed.
Lemma E_fin (x : b64) r : toE x = Fin r -> fin x = true /\ B2R x = r.
Proof. apply toE_Fin. Qed.

Lemma plus_inv (x y : b64) : fin (Bplus mode_NE x y) = true ->
  fin x = true /\ fin y = true /\ B2R (Bplus mode_NE x y) = rnd (B2R x + B2R y).
Proof.
  intros H. apply fin_E in H. pose proof H as H'. rewrite toE_plus in H. apply rndE_inv in H. destruct H as [s [H1 H2]].
  destruct (toE x) as [a| | |] eqn:Ex, (toE y) as [b| | |] eqn:Ey; try discriminate. cbn in H1. injection H1 as <-.
  apply E_fin in Ex, Ey. destruct Ex as [Fx ->], Ey as [Fy ->]. auto.
Qed.

Lemma mult_inv (x y : b64) : fin (Bmult mode_NE x y) = true ->
  fin x = true /\ fin y = true /\ B2R (Bmult mode_NE x y) = rnd (B2R x * B2R y).
Proof.
  intros H. apply fin_E in H. pose proof H as H'. rewrite toE_mult in H. apply rndE_inv in H. destruct H as [s [H1 H2]].
  destruct (toE x) as [a| | |] eqn:Ex, (toE y) as [b| | |] eqn:Ey; cbn in H1; unfold xinf_sign in H1; try discriminate;
    try (destruct (Reqb _ _); [discriminate|destruct (xorb _ _); discriminate]). injection H1 as <-.
  apply E_fin in Ex, Ey. destruct Ex as [Fx ->], Ey as [Fy ->]. auto.
Qed.

Lemma minus_inv (x y : b64) : fin (Bminus mode_NE x y) = true ->
  fin x = true /\ fin y = true /\ B2R (Bminus mode_NE x y) = rnd (B2R x - B2R y).
Proof.
  intros H. apply fin_E in H. pose proof H as H'. rewrite toE_minus in H. apply rndE_inv in H. destruct H as [s [H1 H2]].
  destruct (toE x) as [a| | |] eqn:Ex, (toE y) as [b| | |] eqn:Ey; try discriminate. cbn in H1. injection H1 as <-.
  apply E_fin in Ex, Ey. destruct Ex as [Fx ->], Ey as [Fy ->]. auto.
Qed.

(** ** and results below the range are finite *)
Lemma plus_fin (x y : b64) : fin x = true -> fin y = true -> Rabs (rnd (B2R x + B2R y)) < big ->
  fin (Bplus mode_NE x y) = true /\ B2R (Bplus mode_NE x y) = rnd (B2R x + B2R y).
Proof.
  intros Fx Fy H. apply E_fin. rewrite toE_plus, (fin_E x Fx), (fin_E y Fy). cbn [xadd rndE].
  destruct (Rltb_spec (Rabs (rnd (B2R x + B2R y))) big); [reflexivity|contradiction].
Qed.
Lemma minus_fin (x y : b64) : fin x = true -> fin y = true -> Rabs (rnd (B2R x - B2R y)) < big ->
  fin (Bminus mode_NE x y) = true /\ B2R (Bminus mode_NE x y) = rnd (B2R x - B2R y).
Proof.
  intros Fx Fy H. apply E_fin. rewrite toE_minus, (fin_E x Fx), (fin_E y Fy). cbn [xsub xneg xadd rndE]. fold (B2R x - B2R y).
  destruct (Rltb_spec (Rabs (rnd (B2R x - B2R y))) big); [reflexivity|contradiction].
Qed.
Lemma mult_fin (x y : b64) : fin x = true -> fin y = true -> Rabs (rnd (B2R x * B2R y)) < big ->
  fin (Bmult mode_NE x y) = true /\ B2R (Bmult mode_NE x y) = rnd (B2R x * B2R y).
Proof.
  intros Fx Fy H. apply E_fin. rewrite toE_mult, (fin_E x Fx), (fin_E y Fy). cbn [xmul rndE].
  destruct (Rltb_spec (Rabs (rnd (B2R x * B2R y))) big); [reflexivity|contradiction].
Qed.
Lemma div_fin (x y : b64) : fin x = true -> fin y = true -> B2R y <> 0 -> Rabs (rnd (B2R x / B2R y)) < big ->
  fin (Bdiv mode_NE x y) = true /\ B2R (Bdiv mode_NE x y) = rnd (B2R x / B2R y).
Proof.
  intros Fx Fy Hy H. apply E_fin. rewrite toE_div, (fin_E x Fx), (fin_E y Fy); [|rewrite (fin_E y Fy); intros C; injection C; exact Hy].
  cbn [xdiv]. destruct (Reqb_spec (B2R y) 0); [contradiction|]. cbn [rndE].
  destruct (Rltb_spec (Rabs (rnd (B2R x / B2R y))) big); [reflexivity|contradiction].
Qed.

(** ** relative error of sums and differences *)
Lemma u_div : u_ro radix2 53 / (1 + u_ro radix2 53) <= u64.
Proof.
  rewrite u_ro_64. pose proof u64_pos as U. apply (Rmult_le_reg_r (1 + u64)); [lra|].
  unfold Rdiv. rewrite Rmult_assoc, Rinv_l by lra. nra.
Qed.
Lemma rnd_plus (x y : b64) : Rabs (rnd (B2R x + B2R y) - (B2R x + B2R y)) <= u64 * Rabs (B2R x + B2R y).
Proof.
  destruct (FLT_plus_error_N_ex radix2 (-1074) 53 (fun z => negb (Z.even z)) (B2R x) (B2R y)) as [e [He E]];
    [apply (generic_format_B2R 53 1024)..|].
  change (rnd (B2R x + B2R y) = (B2R x + B2R y) * (1 + e)) in E. rewrite E.
  replace ((B2R x + B2R y) * (1 + e) - (B2R x + B2R y)) with (e * (B2R x + B2R y)) by ring. rewrite Rabs_mult.
  apply Rmult_le_compat_r; [apply Rabs_pos|]. eapply Rle_trans; [exact He|]. apply u_div.
Qed.
Lemma rnd_minus (x y : b64) : Rabs (rnd (B2R x - B2R y) - (B2R x - B2R y)) <= u64 * Rabs (B2R x - B2R y).
Proof. pose proof (rnd_plus x (Bopp y)) as H. rewrite B2R_Bopp in H. exact H. Qed.

Lemma near a b e : Rabs (a - b) <= e -> Rabs a <= Rabs b + e.
Proof.
  intros H. pose proof (Rabs_triang b (a - b)) as K. replace (b + (a - b)) with a in K by ring. lra.
Qed.

(** ** sums *)
Definition asum (l : list b64) : R := rsum (map (fun x => Rabs (B2R x)) l).
Lemma asum_pos l : 0 <= asum l.
Proof.
  induction l as [|x l IH]; [apply Rle_refl|]. change (asum (x :: l)) with (Rabs (B2R x) + asum l). pose proof (Rabs_pos (B2R x)). lra.
Qed.

Lemma fold_fin (l : list b64) acc : fin (fold_left (Bplus mode_NE) l acc) = true -> fin acc = true /\ Forall (fun x => fin x = true) l.
Proof.
  revert acc. induction l as [|x l IH]; intros acc H; cbn in H; [auto|]. destruct (IH _ H) as [H1 H2].
  apply plus_inv in H1. destruct H1 as [H1 [H3 _]]. auto.
Qed.

Lemma fold_acc (l : list b64) acc : fin (fold_left (Bplus mode_NE) l acc) = true ->
  Rabs (B2R (fold_left (Bplus mode_NE) l acc) - (B2R acc + rsum (map B2R l))) <= (PW (length l) - 1) * (Rabs (B2R acc) + asum l).
Proof.
  revert acc. induction l as [|x l IH]; intros acc H; cbn [fold_left map rsum fold_right length] in *.
  - unfold PW. cbn. rewrite Rplus_0_r, Rminus_eq_0, Rabs_R0. lra.
  - specialize (IH _ H). destruct (fold_fin _ _ H) as [F _]. apply plus_inv in F. destruct F as [_ [_ E]].
    pose proof (rnd_plus acc x) as R1. rewrite <- E in R1. set (s := Bplus mode_NE acc x) in *. set (r := fold_left _ _ _) in *.
    change (fold_right Rplus 0 (map B2R l)) with (rsum (map B2R l)). change (asum (x :: l)) with (Rabs (B2R x) + asum l).
    set (S := rsum _) in *. set (T := asum l) in *. pose proof (asum_pos l) as T0. fold T in T0.
    pose proof (near _ _ _ R1) as R2. pose proof (Rabs_triang (B2R acc) (B2R x)) as R3.
    pose proof (PW_ge (length l)) as P. rewrite PW_S. set (p := PW (length l)) in *. pose proof u64_pos as U.
    replace (B2R r - (B2R acc + (B2R x + S))) with ((B2R r - (B2R s + S)) + (B2R s - (B2R acc + B2R x))) by ring.
    eapply Rle_trans; [apply Rabs_triang|].
    pose proof (Rabs_pos (B2R acc + B2R x)) as Q0. pose proof (Rabs_pos (B2R acc)). pose proof (Rabs_pos (B2R x)).
    assert (K1 : (p - 1) * (Rabs (B2R s) + T) <= (p - 1) * ((1 + u64) * (Rabs (B2R acc) + Rabs (B2R x)) + T)).
    { apply Rmult_le_compat_l; [lra|]. nra. }
    assert (K2 : u64 * Rabs (B2R acc + B2R x) <= u64 * (Rabs (B2R acc) + Rabs (B2R x))) by (apply Rmult_le_compat_l; lra).
    assert (K3 : 0 <= u64 * p * T) by (apply Rmult_le_pos; [apply Rmult_le_pos|]; lra).
    nra.
Qed.

Lemma fold_in_range (l : list b64) acc : fin acc = true -> Forall (fun x => fin x = true) l ->
  PW (length l) * (Rabs (B2R acc) + asum l) < big -> fin (fold_left (Bplus mode_NE) l acc) = true.
Proof.
  revert acc. induction l as [|x l IH]; intros acc Fa Fl H; cbn [fold_left length] in *; [exact Fa|]. inversion Fl as [|? ? Fx Fl']; subst.
  change (asum (x :: l)) with (Rabs (B2R x) + asum l) in H. rewrite PW_S in H. pose proof (asum_pos l) as T0. pose proof u64_pos as U.
  pose proof (rnd_plus acc x) as R1. pose proof (near _ _ _ R1) as R2. pose proof (Rabs_triang (B2R acc) (B2R x)) as R3.
  pose proof (PW_ge (length l)) as P. set (p := PW (length l)) in *. set (T := asum l) in *.
  pose proof (Rabs_pos (B2R acc)). pose proof (Rabs_pos (B2R x)). pose proof (Rabs_pos (B2R acc + B2R x)).
  assert (K : Rabs (rnd (B2R acc + B2R x)) + T <= (1 + u64) * (Rabs (B2R acc) + (Rabs (B2R x) + T))).
  { assert (u64 * Rabs (B2R acc + B2R x) <= u64 * (Rabs (B2R acc) + Rabs (B2R x))) by (apply Rmult_le_compat_l; lra). nra. }
  assert (K' : p * (Rabs (rnd (B2R acc + B2R x)) + T) < big).
  { apply Rle_lt_trans with (2 := H). replace ((1 + u64) * p * (Rabs (B2R acc) + (Rabs (B2R x) + T))) with
      (p * ((1 + u64) * (Rabs (B2R acc) + (Rabs (B2R x) + T)))) by ring. apply Rmult_le_compat_l; lra. }
  destruct (plus_fin acc x Fa Fx) as [F1 F2].
  { apply Rle_lt_trans with (2 := K'). pose proof (Rabs_pos (rnd (B2R acc + B2R x))). nra. }
  apply IH; [exact F1|exact Fl'|]. rewrite F2. exact K'.
Qed.

Lemma fold_left_map {X} (T : X -> b64) (Q : list X) acc :
  fold_left (fun a q => Bplus mode_NE a (T q)) Q acc = fold_left (Bplus mode_NE) (map T Q) acc.
Proof. revert acc. induction Q as [|q Q IH]; intros acc; cbn; [reflexivity|]. apply IH. Qed.

Lemma rsum_cons x l : rsum (x :: l) = x + rsum l.
Proof. reflexivity. Qed.

Section Sum.
Context {X : Type} (T : X -> b64) (t e : X -> R) (a : R).

Lemma terms_near (Q : list X) : 0 <= a -> Forall (fun q => Rabs (B2R (T q) - t q) <= a * Rabs (t q) + e q) Q ->
  Rabs (rsum (map B2R (map T Q)) - rsum (map t Q)) <= a * rsum (map (fun q => Rabs (t q)) Q) + rsum (map e Q) /\
  asum (map T Q) <= (1 + a) * rsum (map (fun q => Rabs (t q)) Q) + rsum (map e Q).
Proof.
  intros Ha H. induction H as [|q Q H _ IH]; cbn [map].
  - unfold asum. cbn. rewrite Rminus_eq_0, Rabs_R0. lra.
  - rewrite !rsum_cons. change (asum (T q :: map T Q)) with (Rabs (B2R (T q)) + asum (map T Q)). destruct IH as [I1 I2].
    pose proof (near _ _ _ H) as N. split; [|lra].
    match goal with |- Rabs (?x + ?y - (?z + ?w)) <= _ => replace (x + y - (z + w)) with ((x - z) + (y - w)) by ring end.
    eapply Rle_trans; [apply Rabs_triang|]. lra.
Qed.

Lemma rsum_abs_pos (Q : list X) : 0 <= rsum (map (fun q => Rabs (t q)) Q).
Proof. induction Q as [|q Q IH]; cbn [map]; [apply Rle_refl|]. rewrite rsum_cons. pose proof (Rabs_pos (t q)). lra. Qed.

Lemma sum_near (Q : list X) : 0 <= a -> let s := fold_left (fun acc q => Bplus mode_NE acc (T q)) Q (b64_ofZ 0) in
  fin s = true -> Forall (fun q => fin (T q) = true -> Rabs (B2R (T q) - t q) <= a * Rabs (t q) + e q) Q ->
  Rabs (B2R s - rsum (map t Q)) <=
    ((1 + a) * PW (length Q) - 1) * rsum (map (fun q => Rabs (t q)) Q) + PW (length Q) * rsum (map e Q).
Proof.
  intros Ha s Fs H. unfold s in *. clear s. rewrite fold_left_map in *. destruct (fold_fin _ _ Fs) as [_ Fl].
  assert (H' : Forall (fun q => Rabs (B2R (T q) - t q) <= a * Rabs (t q) + e q) Q).
  { clear Fs. induction H as [|q Q H _ IH]; constructor; cbn in Fl; inversion Fl; auto. }
  destruct (terms_near Q Ha H') as [K1 K2]. pose proof (fold_acc _ _ Fs) as K3. set (r := fold_left _ _ _) in *.
  change (B2R (b64_ofZ 0)) with 0 in K3. rewrite Rabs_R0, !Rplus_0_l, map_length in K3.
  pose proof (PW_ge (length Q)) as P. set (p := PW (length Q)) in *. pose proof (asum_pos (map T Q)) as A0.
  pose proof (rsum_abs_pos Q) as T0. set (V := rsum (map t Q)) in *. set (AT := rsum (map (fun q => Rabs (t q)) Q)) in *. set (EE := rsum (map e Q)) in *.
  replace (B2R r - V) with ((B2R r - rsum (map B2R (map T Q))) + (rsum (map B2R (map T Q)) - V)) by ring.
  eapply Rle_trans; [apply Rabs_triang|].
  assert (K4 : (p - 1) * asum (map T Q) <= (p - 1) * ((1 + a) * AT + EE)) by (apply Rmult_le_compat_l; lra). nra.
Qed.
End Sum.

(** ** products *)
Lemma term_near (w x y : b64) : fin (Bmult mode_NE (Bmult mode_NE w x) y) = true ->
  fin w = true /\ fin x = true /\ fin y = true /\
  Rabs (B2R (Bmult mode_NE (Bmult mode_NE w x) y) - B2R w * B2R x * B2R y) <=
    (PW 2 - 1) * Rabs (B2R w * B2R x * B2R y) + eta * (1 + (1 + u64) * Rabs (B2R y)).
Proof.
  intros H. destruct (mult_inv _ _ H) as [F1 [Fy E1]]. destruct (mult_inv _ _ F1) as [Fw [Fx E2]]. split; [exact Fw|]. split; [exact Fx|]. split; [exact Fy|].
  rewrite E1. pose proof (rnd_err (B2R (Bmult mode_NE w x) * B2R y)) as R1. rewrite E2 in *. pose proof (rnd_err (B2R w * B2R x)) as R2.
  set (P := B2R w * B2R x) in *. set (Y := B2R y) in *. set (A := rnd P) in *. pose proof (near _ _ _ R2) as R3.
  rewrite !Rabs_mult in *. replace (rnd (A * Y) - P * Y) with ((rnd (A * Y) - A * Y) + (A - P) * Y) by ring.
  eapply Rle_trans; [apply Rabs_triang|]. rewrite Rabs_mult.
  pose proof (Rabs_pos Y) as Y0. pose proof (Rabs_pos P) as P0. pose proof u64_pos as U. pose proof eta_pos as E0. unfold PW. cbn [pow].
  assert (K1 : Rabs A * Rabs Y <= ((1 + u64) * Rabs P + eta) * Rabs Y) by (apply Rmult_le_compat_r; lra).
  assert (K2 : Rabs (A - P) * Rabs Y <= (u64 * Rabs P + eta) * Rabs Y) by (apply Rmult_le_compat_r; lra). nra.
Qed.

(** the same with differences in place of [x] and [y] *)
Lemma dev_term_near (w x y mu : b64) :
  let t := Bmult mode_NE (Bmult mode_NE w (Bminus mode_NE x mu)) (Bminus mode_NE y mu) in
  let r := B2R w * (B2R x - B2R mu) * (B2R y - B2R mu) in
  fin t = true ->
  Rabs (B2R t - r) <= (PW 4 - 1) * Rabs r + eta * (1 + PW 2 * Rabs (B2R y - B2R mu)).
Proof.
  intros t r H. destruct (term_near _ _ _ H) as [Fw [F1 [F2 K]]]. fold t in K. destruct (minus_inv _ _ F1) as [Fx [Fm E1]], (minus_inv _ _ F2) as [Fy [_ E2]].
  rewrite E1, E2 in K. pose proof (rnd_minus x mu) as R1. pose proof (rnd_minus y mu) as R2. unfold r.
  set (X := B2R x - B2R mu) in *. set (Y := B2R y - B2R mu) in *. set (X' := rnd X) in *. set (Y' := rnd Y) in *. set (W := B2R w) in *.
  pose proof (near _ _ _ R1) as N1. pose proof (near _ _ _ R2) as N2. pose proof u64_pos as U. pose proof eta_pos as E0.
  assert (D : Rabs (W * X' * Y' - W * X * Y) <= (PW 2 - 1) * Rabs (W * X * Y)).
  { replace (W * X' * Y' - W * X * Y) with (W * ((X' - X) * Y' + X * (Y' - Y))) by ring. rewrite !Rabs_mult.
    pose proof (Rabs_pos W) as W0. pose proof (Rabs_pos X) as X0. pose proof (Rabs_pos Y) as Y0.
    replace ((PW 2 - 1) * (Rabs W * Rabs X * Rabs Y)) with (Rabs W * ((PW 2 - 1) * (Rabs X * Rabs Y))) by ring.
    apply Rmult_le_compat_l; [exact W0|]. eapply Rle_trans; [apply Rabs_triang|]. rewrite !Rabs_mult. unfold PW. cbn [pow].
    assert (K1 : Rabs (X' - X) * Rabs Y' <= (u64 * Rabs X) * ((1 + u64) * Rabs Y)) by (apply Rmult_le_compat; try apply Rabs_pos; lra).
    assert (K2 : Rabs X * Rabs (Y' - Y) <= Rabs X * (u64 * Rabs Y)) by (apply Rmult_le_compat_l; lra). nra. }
  pose proof (near _ _ _ D) as ND.
  assert (K' : Rabs (B2R t - W * X' * Y') <= (PW 2 - 1) * (PW 2 * Rabs (W * X * Y)) + eta * (1 + PW 2 * Rabs Y)).
  { eapply Rle_trans; [exact K|]. apply Rplus_le_compat.
    - apply Rmult_le_compat_l; [pose proof (PW_ge 2); lra|]. lra.
    - apply Rmult_le_compat_l; [lra|]. apply Rplus_le_compat_l. replace (PW 2 * Rabs Y) with ((1 + u64) * ((1 + u64) * Rabs Y)) by (unfold PW; ring).
      apply Rmult_le_compat_l; lra. }
  replace (B2R t - W * X * Y) with ((B2R t - W * X' * Y') + (W * X' * Y' - W * X * Y)) by ring.
  eapply Rle_trans; [apply Rabs_triang|]. replace (PW 4) with (PW 2 * PW 2) by (unfold PW; ring). nra.
Qed.

(** ** the powers *)
Lemma PW_bound n : INR n * u64 < 1 -> PW n * (1 - INR n * u64) <= 1.
Proof.
  pose proof u64_pos as U. induction n as [|n IH]; intros H; [cbn; unfold PW; cbn; lra|]. rewrite S_INR in *. pose proof (pos_INR n) as N0.
  assert (H1 : INR n * u64 < 1) by lra. specialize (IH H1). rewrite PW_S. pose proof (PW_ge n) as P.
  assert (PW n * ((1 + u64) * (1 - (INR n + 1) * u64)) <= PW n * (1 - INR n * u64)).
  { apply Rmult_le_compat_l; [lra|]. assert (0 <= INR n * u64) by (apply Rmult_le_pos; lra). nra. }
  nra.
Qed.

Lemma PW_small n : (Z.of_nat n <= 2 ^ 51)%Z -> PW n <= 2.
Proof.
  intros H. assert (K : INR n * u64 <= / 4).
  { rewrite INR_IZR_INZ. apply IZR_le in H. rewrite u64_val. change (IZR (2 ^ 51)) with 2251799813685248 in H. lra. }
  pose proof (PW_bound n ltac:(lra)) as B. pose proof (PW_ge n). nra.
Qed.

(** ** the mean *)
Section Mean.
Context (exp64 : b64 -> b64).
Notation BN := (B64 exp64).

Lemma ofZ_nat n : (Z.of_nat n <= 2 ^ 53)%Z -> toE (b64_ofZ (Z.of_nat n)) = Fin (INR n).
Proof. intros H. rewrite toE_ofZ_small by lia. rewrite INR_IZR_INZ. reflexivity. Qed.

Lemma sum_le_asum (l : list b64) : Rabs (rsum (map B2R l)) <= asum l.
Proof.
  induction l as [|x l IH]; cbn [map]; [unfold rsum; cbn; rewrite Rabs_R0; apply Rle_refl|]. rewrite rsum_cons.
  change (asum (x :: l)) with (Rabs (B2R x) + asum l). eapply Rle_trans; [apply Rabs_triang|]. lra.
Qed.

Lemma rsum_map_id (l : list b64) : rsum (map (fun x => Rabs (B2R x)) l) = asum l.
Proof. reflexivity. Qed.

Lemma mean_acc (row : list b64) : let vs := valid (A := BN) row in let n := length vs in
  (Z.of_nat n <= 2 ^ 53)%Z -> fin (mean (A := BN) row : b64) = true ->
  (0 < n)%nat /\
  Rabs (B2R (mean (A := BN) row : b64) - rmean (map B2R vs)) <= (PW (n + 1) - 1) * (asum vs / INR n) + eta.
Proof.
  intros vs n Hn Fm. unfold mean, sum in *. fold vs n in Fm |- *. cbn [ndiv nadd nofZ B64] in *. change (nzero (A := BN)) with (b64_ofZ 0) in *.
  change (@num BN) with b64 in *. change (@nadd BN) with (Bplus mode_NE : b64 -> b64 -> b64) in *.
  set (s := fold_left (Bplus mode_NE) vs (b64_ofZ 0)) in *.
  assert (N0 : (0 < n)%nat).
  { unfold n, s, vs in *. destruct (valid (A := BN) row); [|cbn; lia]. exfalso. revert Fm. vm_compute. discriminate. }
  split; [exact N0|]. pose proof (ofZ_nat n Hn) as En. assert (NR : 0 < INR n) by (apply lt_0_INR; exact N0).
  pose proof (fin_E _ Fm) as Em. rewrite toE_div in Em by (rewrite En; intros C; injection C; lra). rewrite En in Em.
  apply rndE_inv in Em. destruct Em as [q [Q1 Q2]]. destruct (toE s) as [a| | |] eqn:Es; cbn in Q1; try discriminate;
    try (destruct (Rltb _ _); discriminate). destruct (Reqb_spec (INR n) 0); [lra|]. injection Q1 as <-.
  destruct (E_fin _ _ Es) as [Fs Ea]. pose proof (fold_acc vs (b64_ofZ 0) Fs) as K. fold s in K. fold n in K. rewrite Ea in K.
  change (B2R (b64_ofZ 0)) with 0 in K. rewrite Rabs_R0, !Rplus_0_l in K.
  pose proof (rnd_err (a / INR n)) as R1. rewrite <- Q2 in R1. set (m := B2R _) in *.
  unfold rmean. rewrite map_length. fold n. set (V := rsum (map B2R vs)) in *. set (T := asum vs) in *. pose proof (asum_pos vs) as T0. fold T in T0.
  pose proof (PW_ge n) as P. replace (PW (n + 1)) with (PW n * (1 + u64)) by (rewrite PW_add; unfold PW; ring). set (p := PW n) in *.
  assert (VT : Rabs V <= T).
  { apply sum_le_asum. }
  pose proof (near _ _ _ K) as N. pose proof u64_pos as U. pose proof eta_pos as E0.
  assert (I0 : 0 < / INR n) by (apply Rinv_0_lt_compat; exact NR).
  unfold Rdiv in *. rewrite Rabs_mult, (Rabs_pos_eq (/ INR n)) in R1 by lra.
  replace (m - V * / INR n) with ((m - a * / INR n) + (a - V) * / INR n) by ring. eapply Rle_trans; [apply Rabs_triang|].
  rewrite Rabs_mult, (Rabs_pos_eq (/ INR n)) by lra.
  assert (K1 : Rabs (a - V) * / INR n <= (p - 1) * T * / INR n) by (apply Rmult_le_compat_r; lra).
  assert (K2 : u64 * (Rabs a * / INR n) <= u64 * (p * T * / INR n)).
  { apply Rmult_le_compat_l; [lra|]. apply Rmult_le_compat_r; lra. }
  replace ((p * (1 + u64) - 1) * (T * / INR n)) with ((p - 1) * T * / INR n + u64 * (p * T * / INR n)) by ring. lra.
Qed.
End Mean.

(** ** rounding to single precision *)
Lemma f32_value (x : b64) : fin x = true -> Rabs (f32R (B2R x)) < bpow radix2 128 ->
  fin (b32_to_b64 (b64_to_b32 x)) = true /\ B2R (b32_to_b64 (b64_to_b32 x)) = f32R (B2R x).
Proof.
  intros Fx H. destruct x as [s|s| |s m e Hb]; try discriminate.
  { cbn. split; [reflexivity|]. unfold f32R. rewrite round_0 by apply valid_rnd_N. reflexivity. }
  set (x := B754_finite s m e Hb) in *.
  assert (K : fin (b64_to_b32 x) = true /\ B2R (b64_to_b32 x) = f32R (B2R x)).
  { change (b64_to_b32 x) with (binary_normalize 24 128 _ _ mode_NE (cond_Zopp s (Zpos m)) e s).
    pose proof (binary_normalize_correct 24 128 _ _ mode_NE (cond_Zopp s (Zpos m)) e s) as HC. cbv zeta in HC.
    change (F2R (Float radix2 (cond_Zopp s (Zpos m)) e)) with (B2R x) in HC.
    change (round radix2 (SpecFloat.fexp 24 128) (round_mode mode_NE) (B2R x)) with (f32R (B2R x)) in HC.
    rewrite Rlt_bool_true in HC by exact H. destruct HC as [H1 [H2 _]]. auto. }
  destruct K as [K1 K2]. set (y := b64_to_b32 x) in *. rewrite <- K2 in *. clearbody y. clear K2.
  destruct y as [s'|s'| |s' m' e' Hb']; try discriminate; [cbn; auto|]. set (y := B754_finite s' m' e' Hb') in *.
  change (b32_to_b64 y) with (binary_normalize 53 1024 _ _ mode_NE (cond_Zopp s' (Zpos m')) e' s').
  pose proof (binary_normalize_correct 53 1024 _ _ mode_NE (cond_Zopp s' (Zpos m')) e' s') as HC. cbv zeta in HC.
  change (F2R (Float radix2 (cond_Zopp s' (Zpos m')) e')) with (B2R y) in HC.
  assert (R : round radix2 (SpecFloat.fexp 53 1024) (round_mode mode_NE) (B2R y) = B2R y).
  { apply round_generic; [apply valid_rnd_N|]. pose proof (generic_format_B2R 24 128 y) as G.
    change (SpecFloat.fexp 24 128) with (FLT_exp (-149) 24) in G. change (SpecFloat.fexp 53 1024) with (FLT_exp (-1074) 53).
    apply FLT_format_generic in G; [|reflexivity]. destruct G as [f G1 G2 G3]. apply generic_format_FLT. exists f; [exact G1| |].
    - apply Z.lt_le_trans with (1 := G2). apply Zpower_le. lia.
    - lia. }
  rewrite R in HC. rewrite Rlt_bool_true in HC.
  2: { apply Rlt_trans with (bpow radix2 128); [exact H|]. apply bpow_lt. lia. }
  destruct HC as [H1 [H2 _]]. auto.
Qed.

Lemma f32R_le r n : (-149 <= n)%Z -> Rabs r <= bpow radix2 n -> Rabs (f32R r) <= bpow radix2 n.
Proof.
  intros Hn H. unfold f32R. apply abs_round_le_generic; [apply FLT_exp_valid; reflexivity|apply valid_rnd_N| |exact H].
  apply generic_format_bpow. unfold FLT_exp. lia.
Qed.

Lemma rnd_bpow_le r n : (-1074 <= n)%Z -> Rabs r <= bpow radix2 n -> Rabs (rnd r) <= bpow radix2 n.
Proof.
  intros Hn H. unfold rnd. apply abs_round_le_generic; [apply FLT_exp_valid; reflexivity|apply valid_rnd_N| |exact H].
  apply generic_format_bpow. change (FLT_exp (-1074) 53 (n + 1) <= n)%Z. unfold FLT_exp. lia.
Qed.

Lemma big_gt n : (n < 1024)%Z -> bpow radix2 n < big.
Proof. intros H. apply bpow_lt. exact H. Qed.

Lemma bpow_double n : bpow radix2 n + bpow radix2 n = bpow radix2 (n + 1).
Proof. rewrite bpow_plus. change (bpow radix2 1) with 2. lra. Qed.

(** ** data of moderate size *)
Section Moderate.
Context (exp64 : b64 -> b64).
Notation BN := (B64 exp64).
Context (row : list b64).
Let vs : list b64 := valid (A := BN) row.
Let n := length vs.
Let mu : b64 := mean (A := BN) row.
Hypothesis Hn0 : (0 < n)%nat.
Hypothesis Hn : (Z.of_nat n <= 2 ^ 50)%Z.
Hypothesis Hv : Forall (fun x : b64 => fin x = true /\ Rabs (B2R x) <= bpow radix2 100) vs.

Lemma asum_bound (l : list b64) B : 0 <= B -> Forall (fun x : b64 => Rabs (B2R x) <= B) l -> asum l <= INR (length l) * B.
Proof.
  intros HB H. induction H as [|x l H _ IH]; [cbn; unfold asum; cbn; lra|]. cbn [length]. rewrite S_INR.
  change (asum (x :: l)) with (Rabs (B2R x) + asum l). lra.
Qed.

Lemma n_le : INR n <= bpow radix2 50.
Proof. rewrite INR_IZR_INZ. change (bpow radix2 50) with (IZR (2 ^ 50)). apply IZR_le. exact Hn. Qed.

Lemma mean_moderate : fin mu = true /\ Rabs (B2R mu) <= bpow radix2 103.
Proof.
  set (B := bpow radix2 100). assert (B0 : 0 < B) by apply bpow_gt_0.
  assert (NR : 0 < INR n) by (apply lt_0_INR; exact Hn0). pose proof n_le as NL.
  assert (AS : asum vs <= INR n * B).
  { apply asum_bound; [lra|]. eapply Forall_impl; [|exact Hv]. cbn. tauto. }
  assert (P2 : PW n <= 2) by (apply PW_small; lia). pose proof (asum_pos vs) as A0. pose proof (PW_ge n) as P1.
  assert (NB : INR n * B <= bpow radix2 150).
  { change 150%Z with (50 + 100)%Z. rewrite bpow_plus. apply Rmult_le_compat_r; [apply bpow_ge_0|exact NL]. }
  unfold mu, mean, sum. fold vs. try change (length vs) with n. cbn [ndiv nadd nofZ B64]. change (nzero (A := BN)) with (b64_ofZ 0).
  change (@nadd BN) with (Bplus mode_NE : b64 -> b64 -> b64). change (@num BN) with b64.
  set (s := fold_left (Bplus mode_NE) vs (b64_ofZ 0)).
  assert (Fs : fin s = true).
  { apply fold_in_range; [reflexivity| |].
    - eapply Forall_impl; [|exact Hv]. cbn. tauto.
    - change (B2R (b64_ofZ 0)) with 0. rewrite Rabs_R0, Rplus_0_l. try change (length vs) with n.
      apply Rle_lt_trans with (bpow radix2 151); [|apply big_gt; lia]. change 151%Z with (150 + 1)%Z. rewrite <- bpow_double.
      apply Rle_trans with (2 * asum vs); [apply Rmult_le_compat_r; assumption|lra]. }
  pose proof (fold_acc vs (b64_ofZ 0) Fs) as K. fold s in K. change (length vs) with n in K. change (B2R (b64_ofZ 0)) with 0 in K. rewrite Rabs_R0, !Rplus_0_l in K.
  pose proof (near _ _ _ K) as N. pose proof (sum_le_asum vs) as VT.
  assert (SB : Rabs (B2R s) <= INR n * (2 * B)).
  { assert ((PW n - 1) * asum vs <= 1 * asum vs) by (apply Rmult_le_compat_r; lra). lra. }
  assert (QB : Rabs (B2R s / INR n) <= bpow radix2 101).
  { unfold Rdiv. rewrite Rabs_mult, (Rabs_pos_eq (/ INR n)) by (apply Rlt_le, Rinv_0_lt_compat; exact NR).
    apply (Rmult_le_reg_r (INR n)); [exact NR|]. rewrite Rmult_assoc, Rinv_l, Rmult_1_r by lra.
    change 101%Z with (100 + 1)%Z. rewrite <- bpow_double. fold B. lra. }
  destruct (E_fin _ _ (ofZ_nat n ltac:(lia))) as [F1 F2].
  pose proof (rnd_bpow_le _ 101 ltac:(lia) QB) as RB.
  destruct (div_fin s (b64_ofZ (Z.of_nat n)) Fs F1) as [F3 F4].
  - rewrite F2. lra.
  - rewrite F2. apply Rle_lt_trans with (1 := RB). apply big_gt. lia.
  - split; [exact F3|]. rewrite F4, F2. apply Rle_trans with (1 := RB). apply bpow_le. lia.
Qed.

(** entry of the normalisation *)
Definition sq (x : b64) : b64 :=
  Bmult mode_NE (Bminus mode_NE (b32_to_b64 (b64_to_b32 x)) mu) (Bminus mode_NE (b32_to_b64 (b64_to_b32 x)) mu).
Definition rsq (x : b64) : R := (f32R (B2R x) - B2R mu) * (f32R (B2R x) - B2R mu).

Lemma sq_moderate (x : b64) : fin x = true -> Rabs (B2R x) <= bpow radix2 100 ->
  fin (sq x) = true /\ Rabs (B2R (sq x)) <= bpow radix2 208 /\ Rabs (B2R (sq x) - rsq x) <= (PW 3 - 1) * Rabs (rsq x) + eta /\ 0 <= B2R (sq x).
Proof.
  intros Fx Bx. pose proof (f32R_le (B2R x) 100 ltac:(lia) Bx) as B1. destruct (f32_value x Fx) as [F1 E1].
  { apply Rle_lt_trans with (1 := B1). apply bpow_lt. lia. }
  destruct mean_moderate as [Fm Bm]. unfold sq, rsq. set (X := b32_to_b64 (b64_to_b32 x)) in *. rewrite <- E1 in *. clear E1.
  assert (D1 : Rabs (B2R X - B2R mu) <= bpow radix2 104).
  { unfold Rminus. eapply Rle_trans; [apply Rabs_triang|]. rewrite Rabs_Ropp. change 104%Z with (103 + 1)%Z. rewrite <- bpow_double.
    assert (bpow radix2 100 <= bpow radix2 103) by (apply bpow_le; lia). lra. }
  pose proof (rnd_bpow_le _ 104 ltac:(lia) D1) as D2.
  destruct (minus_fin X mu F1 Fm) as [F2 E2]; [apply Rle_lt_trans with (1 := D2); apply big_gt; lia|].
  set (D := Bminus mode_NE X mu) in *. rewrite <- E2 in D2.
  assert (S1 : Rabs (B2R D * B2R D) <= bpow radix2 208).
  { rewrite Rabs_mult. change 208%Z with (104 + 104)%Z. rewrite bpow_plus. apply Rmult_le_compat; try apply Rabs_pos; exact D2. }
  pose proof (rnd_bpow_le _ 208 ltac:(lia) S1) as S2.
  destruct (mult_fin D D F2 F2) as [F3 E3]; [apply Rle_lt_trans with (1 := S2); apply big_gt; lia|].
  split; [exact F3|]. rewrite E3. split; [exact S2|]. split.
  2: { apply rnd_nonneg. nra. }
  pose proof (rnd_err (B2R D * B2R D)) as R1. pose proof (rnd_minus X mu) as R2. rewrite <- E2 in R2.
  set (d := B2R D) in *. set (t := B2R X - B2R mu) in *. pose proof (near _ _ _ R2) as N2. rewrite !Rabs_mult in *.
  replace (rnd (d * d) - t * t) with ((rnd (d * d) - d * d) + (d - t) * (d + t)) by ring. eapply Rle_trans; [apply Rabs_triang|]. rewrite Rabs_mult.
  pose proof (Rabs_triang d t) as T1. pose proof (Rabs_pos t) as T0. pose proof (Rabs_pos d) as Dp. pose proof u64_pos as U. pose proof (Rabs_pos (d - t)) as Q0.
  assert (K1 : Rabs (d - t) * Rabs (d + t) <= (u64 * Rabs t) * ((2 + u64) * Rabs t)) by (apply Rmult_le_compat; try apply Rabs_pos; lra).
  assert (K2 : Rabs d * Rabs d <= ((1 + u64) * Rabs t) * ((1 + u64) * Rabs t)) by (apply Rmult_le_compat; lra).
  unfold PW. cbn [pow]. nra.
Qed.

Lemma norm_moderate : let N := sum_sq32 (A := BN) row : b64 in
  fin N = true /\ 0 <= B2R N <= bpow radix2 260 /\
  Rabs (B2R N - rsum (map rsq vs)) <= (PW (n + 3) - 1) * rsum (map rsq vs) + PW n * (INR n * eta).
Proof.
  set (N := sum_sq32 (A := BN) row : b64). cbv zeta.
  assert (E : N = fold_left (fun acc x => Bplus mode_NE acc (sq x)) vs (b64_ofZ 0)).
  { unfold N, sum_sq32, sum. fold vs. rewrite fold_left_map. reflexivity. }
  assert (FS : Forall (fun x => fin x = true) (map sq vs) /\ Forall (fun x : b64 => Rabs (B2R x) <= bpow radix2 208) (map sq vs)).
  { clear - Hv Hn Hn0. assert (G : forall l : list b64, Forall (fun x : b64 => fin x = true /\ Rabs (B2R x) <= bpow radix2 100) l ->
      Forall (fun x => fin x = true) (map sq l) /\ Forall (fun x : b64 => Rabs (B2R x) <= bpow radix2 208) (map sq l)).
    { induction 1 as [|x l [H1 H2] _ [I1 I2]]; cbn; [auto|]. destruct (sq_moderate x H1 H2) as [K1 [K2 _]]. auto. }
    exact (G vs Hv). }
  destruct FS as [FS1 FS2]. pose proof (bpow_gt_0 radix2 208) as B0.
  pose proof (asum_bound (map sq vs) (bpow radix2 208) ltac:(lra) FS2) as AS. rewrite map_length in AS. fold n in AS.
  pose proof n_le as NL. assert (P2 : PW n <= 2) by (apply PW_small; lia). pose proof (asum_pos (map sq vs)) as A0. pose proof (PW_ge n) as P1.
  assert (AB : asum (map sq vs) <= bpow radix2 258).
  { apply Rle_trans with (1 := AS). change 258%Z with (50 + 208)%Z. rewrite bpow_plus. apply Rmult_le_compat_r; [apply bpow_ge_0|exact NL]. }
  assert (PB : PW n * asum (map sq vs) <= bpow radix2 259).
  { change 259%Z with (258 + 1)%Z. rewrite <- bpow_double.
    apply Rle_trans with (2 * asum (map sq vs)); [apply Rmult_le_compat_r; assumption|lra]. }
  assert (FN : fin N = true).
  { rewrite E, fold_left_map. apply fold_in_range; [reflexivity|exact FS1|]. rewrite map_length. try change (length vs) with n.
    change (B2R (b64_ofZ 0)) with 0. rewrite Rabs_R0, Rplus_0_l. apply Rle_lt_trans with (1 := PB). apply big_gt. lia. }
  split; [exact FN|]. split.
  - split.
    + rewrite E. assert (G : forall (l : list b64) (acc : b64), 0 <= B2R acc -> Forall (fun x : b64 => 0 <= B2R x) l ->
        fin (fold_left (Bplus mode_NE) l acc) = true -> 0 <= B2R (fold_left (Bplus mode_NE) l acc)).
      { clear. induction l as [|x l IH]; intros acc Ha H F; cbn in *; [exact Ha|]. inversion H as [|? ? H1 H2]; subst. apply IH; [|exact H2|exact F].
        destruct (fold_fin _ _ F) as [F1 _]. destruct (plus_inv _ _ F1) as [_ [_ ->]]. apply rnd_nonneg. lra. }
      rewrite fold_left_map. apply G; [cbn; lra| |rewrite <- fold_left_map, <- E; exact FN].
      assert (G2 : forall l : list b64, Forall (fun x : b64 => fin x = true /\ Rabs (B2R x) <= bpow radix2 100) l -> Forall (fun x : b64 => 0 <= B2R x) (map sq l)).
      { induction 1 as [|x l [H1 H2] _ IH]; cbn; constructor; [apply (sq_moderate x H1 H2)|exact IH]. }
      exact (G2 vs Hv).
    + rewrite E, fold_left_map in FN |- *. pose proof (fold_acc _ _ FN) as K. pose proof (near _ _ _ K) as K'. rewrite map_length in K'. change (length vs) with n in K'.
      change (B2R (b64_ofZ 0)) with 0 in K'. rewrite Rabs_R0, !Rplus_0_l in K'. pose proof (sum_le_asum (map sq vs)) as K2.
      pose proof (Rle_abs (B2R (fold_left (Bplus mode_NE) (map sq vs) (b64_ofZ 0)))) as K3. pose proof (bpow_gt_0 radix2 259).
      change 260%Z with (259 + 1)%Z. rewrite <- bpow_double. lra.
  - assert (RP : rsum (map (fun x => Rabs (rsq x)) vs) = rsum (map rsq vs)).
    { f_equal. apply map_ext. intros x. apply Rabs_pos_eq. apply Rle_0_sqr. }
    assert (EP : rsum (map (fun _ : b64 => eta) vs) = INR n * eta).
    { change n with (length vs). clear. induction vs as [|x l IH]; [cbn; rewrite Rmult_0_l; reflexivity|]. cbn [map length]. rewrite rsum_cons, IH, S_INR. ring. }
    pose proof (PW_ge 3) as P3. pose proof (sum_near sq rsq (fun _ => eta) (PW 3 - 1) vs ltac:(lra)) as K. cbv zeta in K. rewrite <- E in K.
    change (length vs) with n in K. rewrite RP, EP in K. replace (PW (n + 3)) with ((1 + (PW 3 - 1)) * PW n) by (rewrite PW_add; ring). apply K; [exact FN|].
    eapply Forall_impl; [|exact Hv]. intros x [H1 H2] _. apply (sq_moderate x H1 H2).
Qed.
End Moderate.

(** ** the correlation *)
Lemma rnd_inv_normal r : bpow radix2 (-1000) <= Rabs r -> Rabs (rnd r - r) <= u64 * Rabs r.
Proof.
  intros H. pose proof (relative_error_N_FLT radix2 (-1074) 53 ltac:(reflexivity) (fun z => negb (Z.even z)) r) as K.
  rewrite <- u_ro_64. apply K. apply Rle_trans with (2 := H). apply bpow_le. lia.
Qed.

Lemma quotient_acc (s Nc v : b64) V T E (m : nat) :
  v = Bmult mode_NE s (Bdiv mode_NE (b64_ofZ 1) Nc) -> fin v = true -> fin Nc = true -> 0 <= B2R Nc <= bpow radix2 900 ->
  (fin s = true -> Rabs (B2R s - V) <= (PW (m + 4) - 1) * T + PW m * E) -> Rabs V <= T -> 0 <= E ->
  0 < B2R Nc /\ Rabs (B2R v - V / B2R Nc) <= ((PW (m + 6) - 1) * T + PW (m + 2) * E) / B2R Nc + eta.
Proof.
  intros -> Fv FN [N0 N1] HS HV HE. destruct (mult_inv _ _ Fv) as [Fs [Fr Ev]]. specialize (HS Fs).
  assert (NZ : B2R Nc <> 0).
  { intros Z. destruct Nc as [b|b| |b mm ee bb]; try discriminate FN; [cbn in Fr; discriminate|].
    apply eq_0_F2R in Z. destruct b; discriminate Z. }
  assert (NP : 0 < B2R Nc) by lra. split; [exact NP|]. set (N := B2R Nc) in *. set (r := Bdiv mode_NE (b64_ofZ 1) Nc) in *.
  pose proof (fin_E _ Fr) as Er. unfold r in Er. rewrite toE_div, (fin_E Nc FN) in Er by (rewrite (fin_E Nc FN); intros C; injection C; exact NZ).
  apply rndE_inv in Er. destruct Er as [q [Q1 Q2]]. change 1%Z with (Z.of_nat 1) in Q1. rewrite (ofZ_nat 1) in Q1 by (cbn; lia). cbn in Q1. destruct (Reqb_spec (B2R Nc) 0); [contradiction|].
  injection Q1 as <-. fold r in Q2. fold N in Q2. assert (I0 : 0 < / N) by (apply Rinv_0_lt_compat; exact NP).
  assert (RE : Rabs (B2R r - / N) <= u64 * / N).
  { rewrite Q2. unfold Rdiv. rewrite Rmult_1_l. rewrite <- (Rabs_pos_eq (/ N)) at 3 by lra. apply rnd_inv_normal. rewrite Rabs_pos_eq by lra.
    apply Rle_trans with (bpow radix2 (-900)); [apply bpow_le; lia|]. change (-900)%Z with (- (900))%Z. rewrite bpow_opp. apply Rinv_le; assumption. }
  rewrite Ev. pose proof (rnd_err (B2R s * B2R r)) as R1. set (S := B2R s) in *. set (ri := B2R r) in *.
  pose proof (near _ _ _ HS) as NS. pose proof (near _ _ _ RE) as NR. rewrite (Rabs_pos_eq (/ N)) in NR by lra.
  replace (rnd (S * ri) - V / N) with ((rnd (S * ri) - S * ri) + (S * (ri - / N) + (S - V) * / N)) by (unfold Rdiv; ring).
  eapply Rle_trans; [apply Rabs_triang|]. rewrite Rabs_mult in R1.
  assert (K1 : Rabs (S * (ri - / N) + (S - V) * / N) <= Rabs S * (u64 * / N) + ((PW (m + 4) - 1) * T + PW m * E) * / N).
  { eapply Rle_trans; [apply Rabs_triang|]. rewrite !Rabs_mult, (Rabs_pos_eq (/ N)) by lra. apply Rplus_le_compat.
    - apply Rmult_le_compat_l; [apply Rabs_pos|exact RE].
    - apply Rmult_le_compat_r; [lra|exact HS]. }
  pose proof u64_pos as U. pose proof (Rabs_pos S) as S0.
  assert (K2 : Rabs S * Rabs ri <= Rabs S * ((1 + u64) * / N)) by (apply Rmult_le_compat_l; lra).
  assert (K3 : Rabs S <= PW (m + 4) * T + PW m * E) by lra.
  replace (PW (m + 6)) with (PW (m + 4) * ((1 + u64) * (1 + u64))) by (rewrite !PW_add; unfold PW; ring).
  replace (PW (m + 2)) with (PW m * ((1 + u64) * (1 + u64))) by (rewrite !PW_add; unfold PW; ring).
  set (p4 := PW (m + 4)) in *. set (p := PW m) in *.
  assert (K4 : (u64 * (1 + u64) + u64) * / N * Rabs S <= (u64 * (1 + u64) + u64) * / N * (p4 * T + p * E)).
  { apply Rmult_le_compat_l; [|exact K3]. apply Rmult_le_pos; [nra|lra]. }
  assert (K5 : u64 * (Rabs S * Rabs ri) <= u64 * (Rabs S * ((1 + u64) * / N))) by (apply Rmult_le_compat_l; lra).
  unfold Rdiv. 
  replace (((p4 * ((1 + u64) * (1 + u64)) - 1) * T + p * ((1 + u64) * (1 + u64)) * E) * / N + eta)
    with ((u64 * (1 + u64) + u64) * / N * (p4 * T + p * E) + ((p4 - 1) * T + p * E) * / N + eta) by ring.
  lra.
Qed.

Lemma PW_mid k : INR k * u64 <= / 8 + 16 * u64 -> PW k - 1 <= 1.15 * (INR k * u64) /\ PW k <= 1.15.
Proof.
  intros H. pose proof u64_pos as U. pose proof u64_val as UV. assert (S : u64 <= 1 / 1000000) by (rewrite UV; lra).
  assert (H8 : INR k * u64 <= 0.13) by lra. clear H. pose proof (PW_bound k ltac:(lra)) as B. pose proof (PW_ge k) as P.
  assert (P2 : PW k <= 1.15).
  { destruct (Rle_dec (PW k) 1.15) as [|C]; [assumption|exfalso]. assert (1.15 * (1 - 0.13) <= PW k * (1 - INR k * u64)) by (apply Rmult_le_compat; lra). lra. }
  split; [|exact P2]. pose proof (pos_INR k) as K0. assert (0 <= INR k * u64) by (apply Rmult_le_pos; lra).
  assert (PW k * (INR k * u64) <= 1.15 * (INR k * u64)) by (apply Rmult_le_compat_r; lra). lra.
Qed.

Lemma filter_le {X} (f : X -> bool) l : (length (filter f l) <= length l)%nat.
Proof. induction l as [|x l IH]; cbn; [lia|]. destruct (f x); cbn; lia. Qed.

Section Value.
Context (exp64 : b64 -> b64).
Notation BN := (B64 exp64).
Context (row : list b64).
Let mu : b64 := mean (A := BN) row.
Let vs : list b64 := valid (A := BN) row.
Context (W Y1 Y2 : nat -> b64) (m : nat).
(** the exact sum over the pairs, the sum of the magnitudes, the exact normalisation *)
Let t (q : nat) : R := B2R (W q) * (B2R (Y1 q) - B2R mu) * (B2R (Y2 q) - B2R mu).
Let V : R := rsum (map t (seq 0 m)).
Let T : R := rsum (map (fun q => Rabs (t q)) (seq 0 m)).
Let N : R := rsum (map (rsq exp64 row) vs).
Let term (q : nat) : b64 := Bmult mode_NE (Bmult mode_NE (W q) (Bminus mode_NE (Y1 q) mu)) (Bminus mode_NE (Y2 q) mu).
Let s : b64 := fold_left (fun acc q => Bplus mode_NE acc (term q)) (seq 0 m) (b64_ofZ 0).
Let v : b64 := Bmult mode_NE s (Bdiv mode_NE (b64_ofZ 1) (sum_sq32 (A := BN) row : b64)).

Lemma value_acc :
  (Z.of_nat (length row) <= 2 ^ 50)%Z -> (m <= length row)%nat ->
  (forall x : b64, In x row -> is_nan x = true \/ fin x = true /\ Rabs (B2R x) <= bpow radix2 100) ->
  (forall q, (q < m)%nat -> In (Y2 q) row) ->
  bpow radix2 (-800) <= N -> fin v = true ->
  Rabs (B2R v - V / N) <= 2 * INR (m + length vs + 10) * u64 * (T / N) + bpow radix2 (-110).
Proof.
  intros Hl Hm Hv HY HN Fv. pose proof (bpow_gt_0 radix2 (-800)) as B8. assert (N0 : 0 < N) by lra.
  assert (HV : Forall (fun x : b64 => fin x = true /\ Rabs (B2R x) <= bpow radix2 100) vs).
  { apply Forall_forall. intros x Hx. apply filter_In in Hx. destruct Hx as [Hx Hn]. destruct (Hv x Hx) as [C|C]; [|exact C].
    exfalso. cbn in Hn. rewrite C in Hn. discriminate. }
  assert (Lv : (length vs <= length row)%nat) by apply filter_le.
  assert (Hn0 : (0 < length vs)%nat).
  { destruct (Nat.eq_0_gt_0_cases (length vs)) as [C|C]; [|exact C]. exfalso. apply length_zero_iff_nil in C. unfold N in N0. rewrite C in N0. exact (Rlt_irrefl _ N0). }
  destruct (mean_moderate exp64 row Hn0 ltac:(fold vs; lia) HV) as [Fm Bm].
  destruct (norm_moderate exp64 row Hn0 ltac:(fold vs; lia) HV) as [FN [[N1 N2] N3]]. fold vs in N3. fold N in N3. fold mu in Fm, Bm.
  set (Nc := sum_sq32 (A := BN) row : b64) in *. set (n := length vs) in *.
  pose proof u64_pos as U. pose proof u64_val as UV. pose proof eta_pos as E0.
  assert (Ln : INR n <= bpow radix2 50) by (rewrite INR_IZR_INZ; change (bpow radix2 50) with (IZR (2 ^ 50)); apply IZR_le; lia).
  assert (Lm : INR m <= bpow radix2 50) by (rewrite INR_IZR_INZ; change (bpow radix2 50) with (IZR (2 ^ 50)); apply IZR_le; lia).
  assert (U8 : bpow radix2 50 * u64 = / 8).
  { unfold u64. rewrite <- bpow_plus. reflexivity. }
  assert (Gn : forall k a, INR k <= bpow radix2 50 -> (a <= 16)%nat -> INR (k + a) * u64 <= / 8 + 16 * u64).
  { intros k a Hk Ha. rewrite plus_INR. apply le_INR in Ha. change (INR 16) with (IZR (Z.of_nat 16)) in Ha || (rewrite (INR_IZR_INZ 16) in Ha). cbn [Z.of_nat Pos.of_succ_nat Pos.succ] in Ha.
    rewrite Rmult_plus_distr_r. apply Rplus_le_compat; [rewrite <- U8|]; apply Rmult_le_compat_r; lra. }
  destruct (PW_mid (n + 3) (Gn n 3%nat Ln ltac:(lia))) as [Pn1 Pn2]. destruct (PW_mid (m + 6) (Gn m 6%nat Lm ltac:(lia))) as [Pm1 Pm2].
  destruct (PW_mid (m + 2) (Gn m 2%nat Lm ltac:(lia))) as [_ Pm3].
  destruct (PW_mid n ltac:(rewrite <- (Nat.add_0_r n); apply Gn; [exact Ln|lia])) as [_ Pn4].
  (* the sum over the pairs *)
  set (e := fun q => if (q <? m)%nat then eta * (1 + PW 2 * Rabs (B2R (Y2 q) - B2R mu)) else 0).
  set (E := rsum (map (fun q => eta * (1 + PW 2 * Rabs (B2R (Y2 q) - B2R mu))) (seq 0 m))).
  assert (HS : fin s = true -> Rabs (B2R s - V) <= (PW (m + 4) - 1) * T + PW m * E).
  { intros Fs. pose proof (PW_ge 4) as P4.
    pose proof (sum_near term t (fun q => eta * (1 + PW 2 * Rabs (B2R (Y2 q) - B2R mu))) (PW 4 - 1) (seq 0 m) ltac:(lra)) as K. cbv zeta in K.
    rewrite seq_length in K. replace (PW (m + 4)) with ((1 + (PW 4 - 1)) * PW m) by (rewrite PW_add; ring). apply K; [exact Fs|].
    apply Forall_forall. intros q _ Ft. exact (dev_term_near (W q) (Y1 q) (Y2 q) mu Ft). }
  assert (HVT : Rabs V <= T).
  { unfold V, T. generalize (seq 0 m). induction l as [|q l IH]; cbn [map]; [unfold rsum; cbn; rewrite Rabs_R0; apply Rle_refl|]. rewrite !rsum_cons.
    eapply Rle_trans; [apply Rabs_triang|]. lra. }
  destruct (mult_inv _ _ Fv) as [Fs _].
  assert (HE : 0 <= E <= bpow radix2 50 * (eta * bpow radix2 106)).
  { assert (G : forall l, (forall q, In q l -> (q < m)%nat /\ fin (term q) = true) ->
      0 <= rsum (map (fun q => eta * (1 + PW 2 * Rabs (B2R (Y2 q) - B2R mu))) l) <= INR (length l) * (eta * bpow radix2 106)).
    { induction l as [|q l IH]; intros H; [cbn; unfold rsum; cbn; lra|]. cbn [map length]. rewrite rsum_cons, S_INR.
      specialize (IH (fun q Hq => H q (or_intror Hq))). destruct (H q (or_introl eq_refl)) as [Hq Ft].
      destruct (term_near _ _ _ Ft) as [_ [_ [F2 _]]]. destruct (minus_inv _ _ F2) as [Fy _].
      assert (By : Rabs (B2R (Y2 q)) <= bpow radix2 100).
      { destruct (Hv _ (HY q Hq)) as [C|C]; [|apply C]. exfalso. destruct (Y2 q); discriminate. }
      assert (D : Rabs (B2R (Y2 q) - B2R mu) <= bpow radix2 104).
      { unfold Rminus. eapply Rle_trans; [apply Rabs_triang|]. rewrite Rabs_Ropp. change 104%Z with (103 + 1)%Z. rewrite <- bpow_double.
        assert (bpow radix2 100 <= bpow radix2 103) by (apply bpow_le; lia). lra. }
      pose proof (Rabs_pos (B2R (Y2 q) - B2R mu)) as D0. set (D' := Rabs (B2R (Y2 q) - B2R mu)) in *.
      assert (P2 : 1 <= PW 2 <= 2) by (split; [apply PW_ge|apply PW_small; cbn; lia]).
      assert (Q : 0 <= 1 + PW 2 * D' <= bpow radix2 106).
      { assert (0 <= PW 2 * D') by (apply Rmult_le_pos; lra). assert (PW 2 * D' <= 2 * bpow radix2 104) by (apply Rmult_le_compat; lra).
        change 106%Z with (105 + 1)%Z. rewrite <- bpow_double. assert (1 <= bpow radix2 105) by (change 1 with (bpow radix2 0); apply bpow_le; lia).
        pose proof (bpow_double 104) as BD. change (104 + 1)%Z with 105%Z in BD. lra. }
      assert (0 <= eta * (1 + PW 2 * D') <= eta * bpow radix2 106) by (split; [apply Rmult_le_pos|apply Rmult_le_compat_l]; lra). lra. }
    destruct (G (seq 0 m)) as [G1 G2].
    { intros q Hq. split; [apply in_seq in Hq; lia|]. unfold s in Fs. rewrite fold_left_map in Fs. destruct (fold_fin _ _ Fs) as [_ Fl].
      rewrite Forall_forall in Fl. apply Fl. apply in_map. exact Hq. }
    split; [exact G1|]. fold E in G2. rewrite seq_length in G2. eapply Rle_trans; [exact G2|]. apply Rmult_le_compat_r; [|exact Lm].
    apply Rmult_le_pos; [lra|apply bpow_ge_0]. }
  destruct HE as [HE1 HE2].
  assert (N2' : B2R Nc <= bpow radix2 900) by (eapply Rle_trans; [exact N2|apply bpow_le; lia]).
  destruct (quotient_acc s Nc v V T E m eq_refl Fv FN (conj N1 N2') HS HVT HE1) as [NP K].
  (* the normalisation *)
  assert (Tiny : PW n * (INR n * eta) <= u64 * N).
  { apply Rle_trans with (2 * (bpow radix2 50 * eta)).
    - apply Rmult_le_compat; [pose proof (PW_ge n); lra|apply Rmult_le_pos; [apply pos_INR|lra]|lra|apply Rmult_le_compat_r; lra].
    - apply Rle_trans with (u64 * bpow radix2 (-800)); [|apply Rmult_le_compat_l; lra]. unfold eta, u64. rewrite <- !bpow_plus.
      change 2 with (bpow radix2 1). rewrite <- bpow_plus. apply bpow_le. lia. }
  assert (N3' : Rabs (B2R Nc - N) <= 1.15 * (INR (n + 4) * u64) * N).
  { eapply Rle_trans; [exact N3|]. apply Rle_trans with (1.15 * (INR (n + 3) * u64) * N + u64 * N).
    - apply Rplus_le_compat; [apply Rmult_le_compat_r; lra|exact Tiny].
    - replace (INR (n + 4)) with (INR (n + 3) + 1) by (rewrite !plus_INR; cbn; lra).
      assert (0 <= u64 * N) by (apply Rmult_le_pos; lra). lra. }
  set (h := 1.15 * (INR (n + 4) * u64)) in *. set (nc := B2R Nc) in *.
  assert (Hh : h <= 0.15).
  { unfold h. pose proof (Gn n 4%nat Ln ltac:(lia)) as G. assert (16 * u64 <= 1 / 1000000) by (rewrite UV; lra). lra. }
  assert (Hnc : 0.85 * N <= nc).
  { assert (h * N <= 0.15 * N) by (apply Rmult_le_compat_r; lra). unfold Rabs in N3'. destruct (Rcase_abs (nc - N)); lra. }
  assert (I0 : 0 < / N) by (apply Rinv_0_lt_compat; exact N0). assert (I1 : 0 < / nc) by (apply Rinv_0_lt_compat; exact NP).
  assert (I2 : / nc <= / N * (20 / 17)).
  { apply (Rmult_le_reg_r nc); [exact NP|]. rewrite Rinv_l by lra. apply (Rmult_le_reg_l N); [exact N0|].
    replace (N * (/ N * (20 / 17) * nc)) with (20 / 17 * nc) by (field; lra). lra. }
  assert (I3 : Rabs (/ nc - / N) <= h * / nc).
  { replace (/ nc - / N) with ((N - nc) * (/ N * / nc)) by (field; lra). rewrite Rabs_mult, (Rabs_pos_eq (/ N * / nc)) by (apply Rmult_le_pos; lra).
    rewrite Rabs_minus_sym. apply Rle_trans with (h * N * (/ N * / nc)); [apply Rmult_le_compat_r; [apply Rmult_le_pos; lra|exact N3']|].
    apply Req_le. field. lra. }
  assert (T0 : 0 <= T) by (pose proof (Rabs_pos V); lra).
  replace (B2R v - V / N) with ((B2R v - V / nc) + V * (/ nc - / N)) by (unfold Rdiv; ring).
  eapply Rle_trans; [apply Rabs_triang|]. rewrite (Rabs_mult V).
  assert (J1 : Rabs V * Rabs (/ nc - / N) <= T * (h * / nc)) by (apply Rmult_le_compat; try apply Rabs_pos; assumption).
  set (g := 1.15 * (INR (m + 6) * u64)) in *.
  assert (J2 : ((PW (m + 6) - 1) * T + PW (m + 2) * E) / nc <= (g * T) * / nc + 1.15 * E * / nc).
  { unfold Rdiv. rewrite Rmult_plus_distr_r. apply Rplus_le_compat; apply Rmult_le_compat_r; try lra; apply Rmult_le_compat_r; lra. }
  assert (J3 : (g + h) * T * / nc <= (g + h) * T * (/ N * (20 / 17))).
  { apply Rmult_le_compat_l; [|exact I2]. apply Rmult_le_pos; [|exact T0]. unfold g, h.
    pose proof (pos_INR (m + 6)). pose proof (pos_INR (n + 4)). assert (0 <= INR (m + 6) * u64) by (apply Rmult_le_pos; lra).
    assert (0 <= INR (n + 4) * u64) by (apply Rmult_le_pos; lra). lra. }
  assert (J4 : 1.15 * E * / nc <= bpow radix2 (-111)).
  { apply Rle_trans with (2 * (bpow radix2 50 * (eta * bpow radix2 106)) * (bpow radix2 800 * 2)).
    - apply Rmult_le_compat; [lra|lra|lra|]. eapply Rle_trans; [exact I2|]. assert (/ N <= bpow radix2 800); [|lra].
      replace (bpow radix2 800) with (/ bpow radix2 (-800)) by (rewrite <- bpow_opp; reflexivity). apply Rinv_le; assumption.
    - unfold eta. change 2 with (bpow radix2 1). rewrite <- !bpow_plus. apply bpow_le. lia. }
  assert (J5 : eta <= bpow radix2 (-111)) by (apply bpow_le; lia). pose proof (bpow_double (-111)) as J6. change (-111 + 1)%Z with (-110)%Z in J6.
  assert (J7 : (g + h) * T * (/ N * (20 / 17)) <= 2 * INR (m + n + 10) * u64 * (T / N)).
  { replace (2 * INR (m + n + 10) * u64 * (T / N)) with (2 * (INR (m + n + 10) * u64) * (T * / N)) by (unfold Rdiv; ring).
    replace ((g + h) * T * (/ N * (20 / 17))) with ((g + h) * (20 / 17) * (T * / N)) by ring.
    apply Rmult_le_compat_r; [apply Rmult_le_pos; lra|]. unfold g, h.
    replace (INR (m + n + 10)) with (INR (m + 6) + INR (n + 4)) by (rewrite <- plus_INR; f_equal; lia).
    pose proof (pos_INR (m + 6)). pose proof (pos_INR (n + 4)). assert (0 <= INR (m + 6) * u64) by (apply Rmult_le_pos; lra).
    assert (0 <= INR (n + 4) * u64) by (apply Rmult_le_pos; lra). lra. }
  lra.
Qed.

(** data of moderate size, no value missing: the result is finite *)
Lemma value_fin :
  (Z.of_nat (length row) <= 2 ^ 50)%Z -> (m <= length row)%nat ->
  (forall x : b64, In x row -> fin x = true /\ Rabs (B2R x) <= bpow radix2 100) ->
  (forall q, (q < m)%nat -> In (Y1 q) row /\ In (Y2 q) row /\ fin (W q) = true /\ Rabs (B2R (W q)) <= 1) ->
  bpow radix2 (-750) <= N -> fin v = true.
Proof.
  intros Hl Hm Hv HY HN. pose proof (bpow_gt_0 radix2 (-750)) as B8. assert (N0 : 0 < N) by lra.
  assert (HV : Forall (fun x : b64 => fin x = true /\ Rabs (B2R x) <= bpow radix2 100) vs).
  { apply Forall_forall. intros x Hx. apply filter_In in Hx. apply Hv. apply Hx. }
  assert (Lv : (length vs <= length row)%nat) by apply filter_le.
  assert (Hn0 : (0 < length vs)%nat).
  { destruct (Nat.eq_0_gt_0_cases (length vs)) as [C|C]; [|exact C]. exfalso. apply length_zero_iff_nil in C. unfold N in N0. rewrite C in N0. exact (Rlt_irrefl _ N0). }
  destruct (mean_moderate exp64 row Hn0 ltac:(fold vs; lia) HV) as [Fm Bm].
  destruct (norm_moderate exp64 row Hn0 ltac:(fold vs; lia) HV) as [FN [[N1 N2] N3]]. fold vs in N3. fold N in N3. fold mu in Fm, Bm.
  set (Nc := sum_sq32 (A := BN) row : b64) in *. set (n := length vs) in *.
  pose proof u64_pos as U. pose proof u64_val as UV. pose proof eta_pos as E0.
  assert (Ln : INR n <= bpow radix2 50) by (rewrite INR_IZR_INZ; change (bpow radix2 50) with (IZR (2 ^ 50)); apply IZR_le; lia).
  assert (Lm : INR m <= bpow radix2 50) by (rewrite INR_IZR_INZ; change (bpow radix2 50) with (IZR (2 ^ 50)); apply IZR_le; lia).
  assert (U8 : bpow radix2 50 * u64 = / 8).
  { unfold u64. rewrite <- bpow_plus. reflexivity. }
  assert (G3 : INR (n + 3) * u64 <= / 8 + 16 * u64).
  { rewrite plus_INR. change (INR 3) with (IZR (Z.of_nat 3)) || rewrite (INR_IZR_INZ 3). cbn [Z.of_nat Pos.of_succ_nat Pos.succ].
    rewrite Rmult_plus_distr_r. apply Rplus_le_compat; [rewrite <- U8|]; apply Rmult_le_compat_r; lra. }
  destruct (PW_mid (n + 3) G3) as [Pn1 Pn2].
  assert (Hnc : 0.8 * N <= B2R Nc).
  { assert (P2 : PW n <= 2) by (apply PW_small; lia).
    assert (Tiny : PW n * (INR n * eta) <= 0.05 * N).
    { apply Rle_trans with (2 * (bpow radix2 50 * eta)).
      - apply Rmult_le_compat; [pose proof (PW_ge n); lra|apply Rmult_le_pos; [apply pos_INR|lra]|lra|apply Rmult_le_compat_r; lra].
      - apply Rle_trans with (u64 * bpow radix2 (-750)); [|apply Rmult_le_compat; try lra; apply bpow_ge_0]. unfold eta, u64. rewrite <- !bpow_plus.
        change 2 with (bpow radix2 1). rewrite <- bpow_plus. apply bpow_le. lia. }
    assert ((PW (n + 3) - 1) * N <= 0.15 * N) by (apply Rmult_le_compat_r; lra).
    unfold Rabs in N3. destruct (Rcase_abs (B2R Nc - N)); lra. }
  (* the sum *)
  assert (TB : forall q, (q < m)%nat -> fin (term q) = true /\ Rabs (B2R (term q)) <= bpow radix2 208).
  { intros q Hq. destruct (HY q Hq) as [H1 [H2 [Fw Bw]]]. destruct (Hv _ H1) as [F1 B1], (Hv _ H2) as [F2 B2].
    assert (D : forall y : b64, fin y = true -> Rabs (B2R y) <= bpow radix2 100 ->
      fin (Bminus mode_NE y mu) = true /\ Rabs (B2R (Bminus mode_NE y mu)) <= bpow radix2 104).
    { intros y Fy By. assert (D1 : Rabs (B2R y - B2R mu) <= bpow radix2 104).
      { unfold Rminus. eapply Rle_trans; [apply Rabs_triang|]. rewrite Rabs_Ropp. change 104%Z with (103 + 1)%Z. rewrite <- bpow_double.
        assert (bpow radix2 100 <= bpow radix2 103) by (apply bpow_le; lia). lra. }
      pose proof (rnd_bpow_le _ 104 ltac:(lia) D1) as D2.
      destruct (minus_fin y mu Fy Fm) as [F E]; [apply Rle_lt_trans with (1 := D2); apply big_gt; lia|]. rewrite E. auto. }
    destruct (D _ F1 B1) as [FD1 BD1], (D _ F2 B2) as [FD2 BD2]. unfold term.
    assert (M1 : Rabs (B2R (W q) * B2R (Bminus mode_NE (Y1 q) mu)) <= bpow radix2 104).
    { rewrite Rabs_mult, <- (Rmult_1_l (bpow radix2 104)). apply Rmult_le_compat; try apply Rabs_pos; assumption. }
    pose proof (rnd_bpow_le _ 104 ltac:(lia) M1) as M2.
    destruct (mult_fin _ _ Fw FD1) as [FM EM]; [apply Rle_lt_trans with (1 := M2); apply big_gt; lia|]. rewrite <- EM in M2.
    match type of FM with fin ?z = true => set (P := z) in * end.
    assert (M3 : Rabs (B2R P * B2R (Bminus mode_NE (Y2 q) mu)) <= bpow radix2 208).
    { rewrite Rabs_mult. change 208%Z with (104 + 104)%Z. rewrite bpow_plus. apply Rmult_le_compat; try apply Rabs_pos; assumption. }
    pose proof (rnd_bpow_le _ 208 ltac:(lia) M3) as M4.
    destruct (mult_fin _ _ FM FD2) as [FT ET]; [apply Rle_lt_trans with (1 := M4); apply big_gt; lia|]. split; [exact FT|]. rewrite ET. exact M4. }
  assert (FT : Forall (fun x => fin x = true) (map term (seq 0 m))).
  { apply Forall_forall. intros x Hx. apply in_map_iff in Hx. destruct Hx as [q [<- Hq]]. apply in_seq in Hq. apply TB. lia. }
  assert (BT : Forall (fun x : b64 => Rabs (B2R x) <= bpow radix2 208) (map term (seq 0 m))).
  { apply Forall_forall. intros x Hx. apply in_map_iff in Hx. destruct Hx as [q [<- Hq]]. apply in_seq in Hq. apply TB. lia. }
  pose proof (asum_bound _ _ (bpow_ge_0 radix2 208) BT) as AS. rewrite map_length, seq_length in AS.
  assert (AB : asum (map term (seq 0 m)) <= bpow radix2 258).
  { apply Rle_trans with (1 := AS). change 258%Z with (50 + 208)%Z. rewrite bpow_plus. apply Rmult_le_compat_r; [apply bpow_ge_0|exact Lm]. }
  assert (P2 : PW m <= 2) by (apply PW_small; lia). pose proof (PW_ge m) as P1. pose proof (asum_pos (map term (seq 0 m))) as A0.
  assert (PB : PW m * asum (map term (seq 0 m)) <= bpow radix2 259).
  { change 259%Z with (258 + 1)%Z. rewrite <- bpow_double.
    apply Rle_trans with (2 * asum (map term (seq 0 m))); [apply Rmult_le_compat_r; assumption|lra]. }
  assert (Fs : fin s = true).
  { unfold s. rewrite fold_left_map. apply fold_in_range; [reflexivity|exact FT|]. rewrite map_length, seq_length.
    change (B2R (b64_ofZ 0)) with 0. rewrite Rabs_R0, Rplus_0_l. apply Rle_lt_trans with (1 := PB). apply big_gt. lia. }
  assert (Bs : Rabs (B2R s) <= bpow radix2 260).
  { unfold s in Fs |- *. rewrite fold_left_map in Fs |- *. pose proof (near _ _ _ (fold_acc _ _ Fs)) as K. rewrite map_length, seq_length in K.
    change (B2R (b64_ofZ 0)) with 0 in K. rewrite Rabs_R0, !Rplus_0_l in K. pose proof (sum_le_asum (map term (seq 0 m))) as K2.
    pose proof (bpow_gt_0 radix2 259). change 260%Z with (259 + 1)%Z. rewrite <- bpow_double. lra. }
  (* the quotient *)
  assert (NP : 0 < B2R Nc) by lra.
  assert (I1 : Rabs (1 / B2R Nc) <= bpow radix2 751).
  { unfold Rdiv. rewrite Rmult_1_l, Rabs_pos_eq by (apply Rlt_le, Rinv_0_lt_compat; exact NP).
    replace (bpow radix2 751) with (/ bpow radix2 (-751)) by (rewrite <- bpow_opp; reflexivity). apply Rinv_le; [apply bpow_gt_0|].
    pose proof (bpow_double (-751)) as BD. change (-751 + 1)%Z with (-750)%Z in BD. lra. }
  pose proof (rnd_bpow_le _ 751 ltac:(lia) I1) as I2.
  destruct (E_fin _ _ one_E) as [F1 E1].
  destruct (div_fin (b64_ofZ 1) Nc F1 FN ltac:(lra)) as [Fr Er].
  { rewrite E1. apply Rle_lt_trans with (1 := I2). apply big_gt. lia. }
  rewrite E1 in Er. rewrite <- Er in I2.
  unfold v. fold Nc. apply mult_fin; [exact Fs|exact Fr|].
  assert (M : Rabs (B2R s * B2R (Bdiv mode_NE (b64_ofZ 1) Nc)) <= bpow radix2 1011).
  { rewrite Rabs_mult. change 1011%Z with (260 + 751)%Z. rewrite bpow_plus. apply Rmult_le_compat; try apply Rabs_pos; assumption. }
  apply Rle_lt_trans with (1 := rnd_bpow_le _ 1011 ltac:(lia) M). apply big_gt. lia.
Qed.
End Value.
