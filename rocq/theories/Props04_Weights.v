(** Theorems: the weight functions (C21, C22, C53). *)
From Coq Require Import String.
From Coq Require Import ZArith Reals List Bool Arith Lia Lra.
From Flocq Require Import Core BinarySingleNaN.
From Verif Require Import Num Mem MemFacts XR B64 Spec SpecR DataStructure Correlator Sacf Api Examples
  Laws B64Facts Laws2 WeightFacts WeightAcc Props01_Construction Props02_Lags.
Import ListNotations.
Local Open Scope list_scope.

(** ** C21: weights lie in the unit interval *)
Theorem C21_fractional {A : Num} (HA : arith A) (al d : num) :
  nlt nzero al = true -> nle nzero d = true -> finite al \/ finite d ->
  nle nzero (fractionWeightFunction al d) = true /\ nle (fractionWeightFunction al d) none_ = true /\
  (neqb d nzero = true -> neqb (fractionWeightFunction al d) none_ = true).
Proof.
  intros H1 H2 H3. pose proof (arith_laws A HA) as L1. pose proof (arith_laws2 A HA) as L2. pose proof (arith_laws3 A HA) as L3.
  destruct (frac_range al d H1 H2 H3) as [R1 R2]. split; [exact R1|]. split; [exact R2|]. intros H4. exact (frac_zero al d H1 H4).
Qed.
Print Assumptions C21_fractional.

Theorem C21_fractional_squared {A : Num} (HA : arith A) (al d : num) :
  nlt nzero al = true -> nle nzero d = true -> finite al \/ finite d ->
  nle nzero (fractionSquaredWeightFunction al d) = true /\ nle (fractionSquaredWeightFunction al d) none_ = true /\
  (neqb d nzero = true -> neqb (fractionSquaredWeightFunction al d) none_ = true).
Proof.
  intros H1 H2 H3. pose proof (arith_laws A HA) as L1. pose proof (arith_laws2 A HA) as L2. pose proof (arith_laws3 A HA) as L3.
  destruct (sq_range al d H1 H2 H3) as [R1 R2]. split; [exact R1|]. split; [exact R2|]. intros H4. exact (sq_zero al d H1 H4).
Qed.
Print Assumptions C21_fractional_squared.

(** the gaussian weight needs 2*alpha*alpha, as computed, to be positive *)
Theorem C21_gaussian {A : Num} (HA : arith A) (al d : num) : good_exp ->
  nlt nzero (nmul (nmul (nofZ 2) al) al) = true -> nle nzero d = true ->
  finite (nmul (nmul (nofZ 2) al) al) \/ finite (nmul d d) ->
  nle nzero (gaussianWeightFunction al d) = true /\ nle (gaussianWeightFunction al d) none_ = true /\
  (neqb d nzero = true -> neqb (gaussianWeightFunction al d) none_ = true).
Proof.
  intros G H1 H2 H3. pose proof (arith_laws A HA) as L1. pose proof (arith_laws2 A HA) as L2. pose proof (arith_laws3 A HA) as L3.
  destruct (gauss_range al d G H1 H2 H3) as [R1 R2]. split; [exact R1|]. split; [exact R2|]. intros H4. exact (gauss_zero al d G H1 H4).
Qed.
Print Assumptions C21_gaussian.

(** the exact exponential meets the assumption *)
Theorem C21_exact_exp : @good_exp XR.
Proof. exact good_exp_exact. Qed.
Print Assumptions C21_exact_exp.

(** and so does the correctly rounded one *)
Theorem C21_rounded_exp : @good_exp (B64 exp_rn).
Proof. exact good_exp_rn. Qed.
Print Assumptions C21_rounded_exp.

(** in binary64 the square of a positive alpha can be zero: the weight of offset 0 is then exp(NaN) *)
Theorem C21_gaussian_tiny_alpha_refuted (exp64 : b64 -> b64) : is_nan (exp64 B754_nan) = true ->
  exists al : b64, @nlt (B64 exp64) (@nzero (B64 exp64)) al = true /\ @finite (B64 exp64) al /\
  @nisnan (B64 exp64) (@gaussianWeightFunction (B64 exp64) al (@nzero (B64 exp64))) = true.
Proof.
  intros H. pose (al := Bldexp mode_NE (b64_ofZ 1) (-1000) : b64). exists al.
  split; [vm_compute; reflexivity|]. split.
  { apply (@finite_nfin (B64 exp64)). vm_compute. reflexivity. }
  change (is_nan (exp64 (@ndiv (B64 exp64) (nneg (nmul nzero nzero)) (nmul (nmul ntwo al) al))) = true).
  assert (E : @ndiv (B64 exp64) (nneg (nmul nzero nzero)) (nmul (nmul ntwo al) al) = B754_nan).
  { apply B2SF_inj. vm_compute. reflexivity. }
  rewrite E. exact H.
Qed.
Print Assumptions C21_gaussian_tiny_alpha_refuted.

(** the weights of an iterator are these functions of its offsets, in order; the offsets are consumed *)
Theorem C21_applied {A : Num} (c : correlator) (it : cor_it) : weights it = vempty ->
  (vlive (weights (getFractionWeights c it)) = map (fractionWeightFunction (alpha c)) (offsets it) /\
   offsets (getFractionWeights c it) = []) /\
  (vlive (weights (getFractionSquaredWeights c it)) = map (fractionSquaredWeightFunction (alpha c)) (offsets it) /\
   offsets (getFractionSquaredWeights c it) = []) /\
  (vlive (weights (getGaussianWeights c it)) = map (gaussianWeightFunction (alpha c)) (offsets it) /\
   offsets (getGaussianWeights c it) = []).
Proof. intros H. split; [|split]; apply weights_applied; exact H. Qed.
Print Assumptions C21_applied.

(** a step function is an admissible exp *)
Definition step_exp (x : b64) : b64 := if Bltb x (b64_ofZ 0) then b64_ofZ 0 else b64_ofZ 1.

Example C21_step_exp : @good_exp (B64 step_exp).
Proof.
  assert (Z : @nle (B64 step_exp) nzero nzero = true) by (vm_compute; reflexivity).
  assert (O : @nle (B64 step_exp) none_ none_ = true) by (vm_compute; reflexivity).
  assert (ZO : @nle (B64 step_exp) nzero none_ = true) by (vm_compute; reflexivity).
  assert (E : forall x, @nexp (B64 step_exp) x = if @nlt (B64 step_exp) x nzero then nzero else none_) by reflexivity.
  split; [|split]; [intros x _|intros x H|intros x y H]; rewrite !E.
  - destruct (nlt x nzero); split; assumption.
  - rewrite le_nlt by (apply eq_le2; exact H). vm_compute. reflexivity.
  - destruct (nlt x nzero) eqn:Hx; [destruct (nlt y nzero); assumption|].
    destruct (nlt y nzero) eqn:Hy; [|assumption].
    rewrite (le_lt_trans x y nzero H Hy) in Hx. discriminate.
Qed.

Example C21_case :
  nlt nzero (half 3) = true /\ nle nzero (half 1) = true /\ finite (half 3) /\
  nlt nzero (nmul (nmul (nofZ 2) (half 3)) (half 3)) = true /\
  same (fractionWeightFunction (fl 3) (fl 3)) (half 1) = true /\
  same (fractionSquaredWeightFunction (fl 4) (fl 4)) (half 1) = true /\
  same (fractionWeightFunction (fl 3) (fl 0)) (fl 1) = true.
Proof.
  split; [vm_compute; reflexivity|]. split; [vm_compute; reflexivity|]. split.
  { apply (all_finite_ok [half 3]); [vm_compute; reflexivity|left; reflexivity]. }
  repeat split; vm_compute; reflexivity.
Qed.

(** ** C22: weights decrease with distance *)
Theorem C22_decreasing {A : Num} (HA : arith A) (al d d' : num) :
  nlt nzero al = true -> nle nzero d = true -> nle d d' = true -> finite al \/ finite d' ->
  nle (fractionWeightFunction al d') (fractionWeightFunction al d) = true /\
  nle (fractionSquaredWeightFunction al d') (fractionSquaredWeightFunction al d) = true.
Proof.
  intros H1 H2 H3 H4. pose proof (arith_laws A HA) as L1. pose proof (arith_laws2 A HA) as L2. pose proof (arith_laws3 A HA) as L3.
  split; [apply frac_mono|apply sq_mono]; assumption.
Qed.
Print Assumptions C22_decreasing.

Theorem C22_decreasing_gaussian {A : Num} (HA : arith A) (al d d' : num) : good_exp ->
  nlt nzero (nmul (nmul (nofZ 2) al) al) = true -> nle nzero d = true -> nle d d' = true ->
  finite (nmul (nmul (nofZ 2) al) al) \/ finite (nmul d' d') ->
  nle (gaussianWeightFunction al d') (gaussianWeightFunction al d) = true.
Proof.
  intros G H1 H2 H3 H4. pose proof (arith_laws A HA) as L1. pose proof (arith_laws2 A HA) as L2. pose proof (arith_laws3 A HA) as L3.
  apply gauss_mono; assumption.
Qed.
Print Assumptions C22_decreasing_gaussian.

Theorem C22_strict_exact (a d d' : R) : (0 < a)%R -> (0 <= d)%R -> (d < d')%R ->
  nlt (@fractionWeightFunction XR (Fin a) (Fin d')) (@fractionWeightFunction XR (Fin a) (Fin d)) = true /\
  nlt (@fractionSquaredWeightFunction XR (Fin a) (Fin d')) (@fractionSquaredWeightFunction XR (Fin a) (Fin d)) = true /\
  nlt (@gaussianWeightFunction XR (Fin a) (Fin d')) (@gaussianWeightFunction XR (Fin a) (Fin d)) = true.
Proof. intros. split; [|split]; [apply frac_strict|apply sq_strict|apply gauss_strict]; assumption. Qed.
Print Assumptions C22_strict_exact.

(** in binary64 the decrease need not be strict *)
Example C22_case : nle (fl 1) (fl 2) = true /\
  nlt (fractionWeightFunction (fl 3) (fl 2)) (fractionWeightFunction (fl 3) (fl 1)) = true /\
  nlt (tiny) (nmul tiny (fl 2)) = true /\
  same (fractionWeightFunction (fl 3) tiny) (fractionWeightFunction (fl 3) (nmul tiny (fl 2))) = true.
Proof. repeat split; vm_compute; reflexivity. Qed.

(** ** C53: precision of the weights in binary64; 2^-53 is half the distance from 1 to the next double *)
Theorem C53_fractional (exp64 : b64 -> b64) (al d : b64) :
  is_finite al = true -> is_finite d = true -> (0 < B2R al)%R -> (0 <= B2R d)%R ->
  let w : b64 := @fractionWeightFunction (B64 exp64) al d in
  is_finite w = true /\ (Rabs (B2R w - rweight "fractional" (B2R al) (B2R d)) <= 4 * bpow radix2 (-53))%R.
Proof. intros H1 H2 H3 H4. exact (frac_acc exp64 al d H1 H2 H3 H4). Qed.
Print Assumptions C53_fractional.

Theorem C53_fractional_squared (exp64 : b64 -> b64) (al d : b64) :
  is_finite al = true -> is_finite d = true -> (0 < B2R al)%R -> (0 <= B2R d)%R ->
  let w : b64 := @fractionSquaredWeightFunction (B64 exp64) al d in
  is_finite w = true /\ (Rabs (B2R w - rweight "fractional_squared" (B2R al) (B2R d)) <= 7 * bpow radix2 (-53))%R.
Proof. intros H1 H2 H3 H4. exact (sq_acc exp64 al d H1 H2 H3 H4). Qed.
Print Assumptions C53_fractional_squared.

(** the gaussian weight: as good as the exponential function used *)
Theorem C53_gaussian (exp64 : b64 -> b64) (eps : R) (al d : b64) : exp_within exp64 eps ->
  is_finite al = true -> is_finite d = true -> (0 <= B2R d)%R -> (bpow radix2 (-150) <= B2R al <= bpow radix2 150)%R ->
  let w : b64 := @gaussianWeightFunction (B64 exp64) al d in
  is_finite w = true /\ (Rabs (B2R w - rweight "gaussian" (B2R al) (B2R d)) <= eps + 16 * bpow radix2 (-53))%R.
Proof. exact (gauss_acc_r exp64 eps al d). Qed.
Print Assumptions C53_gaussian.

(** the correctly rounded exponential function is good to 2^-53 *)
Theorem C53_rounded_exp : exp_within exp_rn (bpow radix2 (-53)).
Proof. exact exp_rn_within. Qed.
Print Assumptions C53_rounded_exp.

(** alpha = 3, offset 1/2: the weight 6/7 is not a double *)
Example C53_case : is_finite (fl 3 : b64) = true /\ is_finite (half 1 : b64) = true /\ B2R (fl 3 : b64) = 3%R /\ B2R (half 1 : b64) = (1 / 2)%R /\
  rweight "fractional" 3 (1 / 2) = (6 / 7)%R /\ (bpow radix2 (-150) <= 3 <= bpow radix2 150)%R.
Proof.
  split; [vm_compute; reflexivity|]. split; [vm_compute; reflexivity|].
  split. { apply (f_equal (fun x : xr => match x with Fin r => r | _ => 0%R end) (toE_ofZ_small 3 ltac:(cbn; lia))). }
  split. { replace (half 1) with (@B754_finite 53 1024 false 4503599627370496 (-53) eq_refl) by (apply B2SF_inj; vm_compute; reflexivity).
    unfold B2R, F2R. cbn [Fnum Fexp cond_Zopp]. change (bpow radix2 (-53)) with (/ 9007199254740992)%R. lra. }
  split; [cbn; field|]. split.
  - apply Rle_trans with (bpow radix2 0); [apply bpow_le; lia|cbn; lra].
  - apply Rle_trans with (bpow radix2 2); [cbn; lra|apply bpow_le; lia].
Qed.
