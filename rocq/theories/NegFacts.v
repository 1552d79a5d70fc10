(** Changing the sign of all values. *)
From Coq Require Import String.
From Coq Require Import ZArith Reals List Bool Arith Lia Lra.
From Flocq Require Import Core BinarySingleNaN.
From Verif Require Import Num Mem MemFacts XR B64 Spec SpecR DataStructure Correlator Sacf Api
  Laws B64Facts Laws2 DSFacts CorrFacts LoopFacts MainFacts RelFacts AffineFacts.
Import ListNotations.
Local Open Scope list_scope.

(** [y] is the negative of [x], up to the sign of zero *)
Definition neg_of {A : Num} (x y : num) : Prop := same_value y (nneg x).

Lemma sv_XR (x y : xr) : same_value (A := XR) x y <-> x = y.
Proof.
  unfold same_value. cbn [neqb nisnan XR]. destruct x as [x| | |], y as [y| | |]; cbn; split; intros H;
    try (destruct H as [H|[H1 H2]]; try discriminate; auto; fail); try discriminate H; auto.
  - destruct H as [H|[H _]]; [|discriminate]. apply Reqb_true in H. subst. reflexivity.
  - left. injection H as ->. apply Reqb_true. reflexivity.
Qed.

Lemma sv_B64 e (x y : b64) : same_value (A := B64 e) x y <-> toE x = toE y.
Proof.
  rewrite <- sv_XR. unfold same_value. cbn [num neqb nisnan B64 XR]. rewrite Beqb_toE, !is_nan_toE. reflexivity.
Qed.

Lemma nx_XR (x y : xr) : neg_of (A := XR) x y <-> y = xneg x.
Proof. exact (sv_XR y (xneg x)). Qed.

Lemma nx_B64 e (x y : b64) : neg_of (A := B64 e) x y <-> toE y = xneg (toE x).
Proof. unfold neg_of. rewrite sv_B64. cbn [nneg B64]. rewrite toE_opp. reflexivity. Qed.

Lemma xneg_invol a : xneg (xneg a) = a.
Proof. destruct a; cbn; try reflexivity. f_equal. lra. Qed.

Lemma xadd_neg a b : xadd (xneg a) (xneg b) = xneg (xadd a b).
Proof. destruct a, b; cbn; try reflexivity. f_equal. lra. Qed.
Lemma xsub_neg a b : xsub (xneg a) (xneg b) = xneg (xsub a b).
Proof. unfold xsub. apply xadd_neg. Qed.

Lemma xmul_neg_r a b : xmul a (xneg b) = xneg (xmul a b).
Proof.
  destruct a as [a| | |], b as [b| | |]; cbn [xmul xneg]; try reflexivity; unfold xinf_sign.
  - f_equal. lra.
  - destruct (Reqb_spec a 0); [reflexivity|]. cbn. destruct (Rltb_spec a 0); reflexivity.
  - destruct (Reqb_spec a 0); [reflexivity|]. cbn. destruct (Rltb_spec a 0); reflexivity.
  - destruct (Reqb_spec b 0), (Reqb_spec (- b) 0); try lra; try reflexivity. cbn. destruct (Rltb_spec b 0), (Rltb_spec (- b) 0); try lra; reflexivity.
  - destruct (Reqb_spec b 0), (Reqb_spec (- b) 0); try lra; try reflexivity. cbn. destruct (Rltb_spec b 0), (Rltb_spec (- b) 0); try lra; reflexivity.
Qed.
Lemma xmul_comm a b : xmul a b = xmul b a.
Proof. destruct a, b; cbn; try reflexivity. f_equal. lra. Qed.
Lemma xmul_neg_l a b : xmul (xneg a) b = xneg (xmul a b).
Proof. rewrite xmul_comm, xmul_neg_r, xmul_comm. reflexivity. Qed.

Lemma xdiv_neg a b : xdiv (xneg a) b = xneg (xdiv a b).
Proof.
  destruct a as [a| | |], b as [b| | |]; cbn [xdiv xneg]; try reflexivity; unfold xinf_sign.
  - destruct (Reqb_spec b 0); [|cbn; f_equal; field; assumption].
    destruct (Reqb_spec a 0), (Reqb_spec (- a) 0); try lra; try reflexivity. cbn. destruct (Rltb_spec a 0), (Rltb_spec (- a) 0); try lra; reflexivity.
  - cbn. f_equal. lra.
  - cbn. f_equal. lra.
  - destruct (Rltb b 0); reflexivity.
  - destruct (Rltb b 0); reflexivity.
Qed.

(** bitwise: a number whose value is the negative of a non-zero one is its negation *)
Lemma toE_neg_bits (x y : b64) : toE y = xneg (toE x) -> toE x <> Fin 0 -> y = Bopp x.
Proof.
  intros H H0. apply toE_inj; [rewrite toE_opp; exact H|]. intros C. exfalso. apply H0.
  rewrite H in C. destruct (toE x); try discriminate. cbn in C. injection C as C. f_equal. lra.
Qed.

Lemma Bmult_sq_neg (x y : b64) : toE y = xneg (toE x) -> Bmult mode_NE y y = Bmult mode_NE x x.
Proof.
  intros H. destruct (is_finite x) eqn:Fx.
  - destruct (Req_dec (B2R x) 0) as [Z|Z].
    + assert (Zx : exists s, x = B754_zero s).
      { destruct x as [s|s| |s m e Hb]; try discriminate; [eauto|]. exfalso. cbn in Z. apply eq_0_F2R in Z. destruct s; discriminate. }
      destruct Zx as [s ->]. cbn in H. rewrite Ropp_0 in H. destruct (toE_Fin y 0 H) as [Fy Zy].
      destruct y as [s'|s'| |s' m e Hb]; try discriminate Fy; [destruct s, s'; reflexivity|].
      exfalso. cbn in Zy. apply eq_0_F2R in Zy. destruct s'; discriminate.
    + rewrite (toE_neg_bits x y H).
      2: { rewrite toE_finite by exact Fx. intros C. injection C as C. contradiction. }
      apply B2SF_inj. destruct x as [s|s| |s m e Hb]; try discriminate Fx; [destruct s; reflexivity|].
      cbn [Bopp]. unfold Bmult. rewrite !B2SF_SF2B. destruct s; reflexivity.
  - rewrite (toE_neg_bits x y H) by (destruct x as [s|[|]| |s m e Hb]; try discriminate).
    destruct x as [s|[|]| |s m e Hb]; try discriminate; reflexivity.
Qed.

Lemma Bdiv_neg_zero (x n : b64) (y : b64) : toE x = Fin 0 -> toE y = Fin 0 -> toE (Bdiv mode_NE y n) = xneg (toE (Bdiv mode_NE x n)).
Proof.
  intros Hx Hy. destruct (toE_Fin x 0 Hx) as [Fx Zx], (toE_Fin y 0 Hy) as [Fy Zy].
  destruct x as [s|s| |s m e Hb]; try discriminate Fx; [|exfalso; cbn in Zx; apply eq_0_F2R in Zx; destruct s; discriminate].
  destruct y as [s'|s'| |s' m e Hb]; try discriminate Fy; [|exfalso; cbn in Zy; apply eq_0_F2R in Zy; destruct s'; discriminate].
  destruct n as [s1|s1| |s1 m1 e1 H1]; cbn; rewrite ?Ropp_0; reflexivity.
Qed.

Lemma Bdiv_neg (x n y : b64) : toE y = xneg (toE x) -> toE (Bdiv mode_NE y n) = xneg (toE (Bdiv mode_NE x n)).
Proof.
  intros H. assert (D : toE n = Fin 0 \/ toE n <> Fin 0).
  { destruct (toE n) as [r| | |]; try (right; discriminate). destruct (Req_dec r 0) as [->|N]; [auto|right; congruence]. }
  assert (D' : toE x = Fin 0 \/ toE x <> Fin 0).
  { destruct (toE x) as [r| | |]; try (right; discriminate). destruct (Req_dec r 0) as [->|N]; [auto|right; congruence]. }
  destruct D' as [D'|D'].
  { apply Bdiv_neg_zero; [exact D'|]. rewrite H, D'. cbn. rewrite Ropp_0. reflexivity. }
  destruct D as [D|D].
  - rewrite (toE_neg_bits x y H D'). destruct (toE_Fin n 0 D) as [Fn Zn].
    destruct n as [s|s| |s m e Hb]; try discriminate Fn; [|exfalso; cbn in Zn; apply eq_0_F2R in Zn; destruct s; discriminate].
    destruct x as [s'|s'| |s' m e Hb]; [exfalso; apply D'; reflexivity|..]; try reflexivity; destruct s, s'; reflexivity.
  - rewrite !toE_div by exact D. rewrite H, xdiv_neg, rndE_opp. reflexivity.
Qed.

Lemma normalize_opp prec emax (Hp : FLX.Prec_gt_0 prec) (He : Prec_lt_emax prec emax) (m : positive) (e : Z) (s : bool) :
  binary_normalize prec emax Hp He mode_NE (cond_Zopp (negb s) (Zpos m)) e (negb s) =
  Bopp (binary_normalize prec emax Hp He mode_NE (cond_Zopp s (Zpos m)) e s).
Proof.
  pose proof (binary_normalize_correct prec emax Hp He mode_NE (cond_Zopp s (Zpos m)) e s) as H1.
  pose proof (binary_normalize_correct prec emax Hp He mode_NE (cond_Zopp (negb s) (Zpos m)) e (negb s)) as H2.
  cbv zeta in H1, H2. set (x := binary_normalize _ _ _ _ _ (cond_Zopp s _) _ _) in *. set (y := binary_normalize _ _ _ _ _ _ _ _) in *.
  assert (E : F2R (Float radix2 (cond_Zopp (negb s) (Zpos m)) e) = (- F2R (Float radix2 (cond_Zopp s (Zpos m)) e))%R).
  { rewrite <- F2R_Zopp. f_equal. f_equal. destruct s; reflexivity. }
  assert (N0 : F2R (Float radix2 (cond_Zopp s (Zpos m)) e) <> 0%R).
  { intros C. apply eq_0_F2R in C. destruct s; discriminate. }
  rewrite E in H2. set (r := F2R _) in *. cbn [round_mode] in H1, H2. rewrite round_NE_opp, Rabs_Ropp in H2.
  set (q := round _ _ _ _) in *.
  assert (Sg : forall a : R, a <> 0%R -> Rcompare (- a) 0 = CompOpp (Rcompare a 0)).
  { intros a Ha. destruct (Rcompare_spec a 0), (Rcompare_spec (- a) 0); try lra; reflexivity. }
  assert (Sr : Rlt_bool (- r) 0 = negb (Rlt_bool r 0)).
  { destruct (Rlt_bool_spec r 0), (Rlt_bool_spec (- r) 0); try lra; reflexivity. }
  destruct (Rlt_bool (Rabs q) (bpow radix2 emax)).
  - destruct H1 as [A1 [A2 A3]], H2 as [B1 [B2 B3]]. apply B2R_Bsign_inj; [exact B2|rewrite is_finite_Bopp; exact A2|rewrite B2R_Bopp, A1; exact B1|].
    rewrite Bsign_Bopp by (destruct x; try discriminate; reflexivity). rewrite A3, B3, (Sg r N0).
    destruct (Rcompare_spec r 0); try reflexivity; contradiction.
  - apply B2SF_inj. rewrite H2. rewrite Sr.
    destruct x as [sx|sx| |sx mx ex Hx]; cbn in H1; try discriminate H1. injection H1 as ->. destruct (Rlt_bool r 0); reflexivity.
Qed.

Lemma f32_opp (x : b64) : b32_to_b64 (b64_to_b32 (Bopp x)) = Bopp (b32_to_b64 (b64_to_b32 x)).
Proof.
  assert (E1 : forall x : b64, b64_to_b32 (Bopp x) = Bopp (b64_to_b32 x)).
  { intros [s|s| |s m e Hb]; try reflexivity. apply normalize_opp. }
  assert (E2 : forall x : b32, b32_to_b64 (Bopp x) = Bopp (b32_to_b64 x)).
  { intros [s|s| |s m e Hb]; try reflexivity. apply normalize_opp. }
  rewrite E1, E2. reflexivity.
Qed.

Lemma f32_neg (x y : b64) : toE y = xneg (toE x) -> toE (b32_to_b64 (b64_to_b32 y)) = xneg (toE (b32_to_b64 (b64_to_b32 x))).
Proof.
  intros H. assert (D' : toE x = Fin 0 \/ toE x <> Fin 0).
  { destruct (toE x) as [r| | |]; try (right; discriminate). destruct (Req_dec r 0) as [->|N]; [auto|right; congruence]. }
  destruct D' as [D|D].
  - assert (Hy : toE y = Fin 0). { rewrite H, D. cbn. rewrite Ropp_0. reflexivity. }
    destruct (toE_Fin x 0 D) as [Fx Zx], (toE_Fin y 0 Hy) as [Fy Zy].
    destruct x as [s|s| |s m e Hb]; try discriminate Fx; [|exfalso; cbn in Zx; apply eq_0_F2R in Zx; destruct s; discriminate].
    destruct y as [s'|s'| |s' m e Hb]; try discriminate Fy; [|exfalso; cbn in Zy; apply eq_0_F2R in Zy; destruct s'; discriminate].
    cbn. rewrite Ropp_0. reflexivity.
  - rewrite (toE_neg_bits x y H D), f32_opp, toE_opp. reflexivity.
Qed.

Lemma f32R_opp r : f32R (- r) = (- f32R r)%R.
Proof. apply round_NE_opp. Qed.

(** ** the operations *)
Section Ops.
Context (A : Num) (HA : arith A).
Implicit Types x y z : @num A.

Lemma neg_add x x' y y' : neg_of x x' -> neg_of y y' -> neg_of (nadd x y) (nadd x' y').
Proof.
  destruct HA as [e|]; cbn [num] in *; [rewrite !nx_B64|rewrite !nx_XR]; cbn [nadd B64 XR]; intros H1 H2.
  - rewrite !toE_plus, H1, H2, xadd_neg, rndE_opp. reflexivity.
  - rewrite H1, H2. apply xadd_neg.
Qed.

Lemma neg_sub x x' y y' : neg_of x x' -> neg_of y y' -> neg_of (nsub x y) (nsub x' y').
Proof.
  destruct HA as [e|]; cbn [num] in *; [rewrite !nx_B64|rewrite !nx_XR]; cbn [nsub B64 XR]; intros H1 H2.
  - rewrite !toE_minus, H1, H2, xsub_neg, rndE_opp. reflexivity.
  - rewrite H1, H2. apply xsub_neg.
Qed.

Lemma neg_mul_r w x x' : neg_of x x' -> neg_of (nmul w x) (nmul w x').
Proof.
  destruct HA as [e|]; cbn [num] in *; [rewrite !nx_B64|rewrite !nx_XR]; cbn [nmul B64 XR]; intros H1.
  - rewrite !toE_mult, H1, xmul_neg_r, rndE_opp. reflexivity.
  - rewrite H1. apply xmul_neg_r.
Qed.

Lemma neg_mul x x' y y' : neg_of x x' -> neg_of y y' -> same_value (nmul x y) (nmul x' y').
Proof.
  destruct HA as [e|]; cbn [num] in *; [rewrite !nx_B64, sv_B64|rewrite !nx_XR, sv_XR]; cbn [nmul B64 XR]; intros H1 H2.
  - rewrite !toE_mult, H1, H2, xmul_neg_r, xmul_neg_l, xneg_invol. reflexivity.
  - rewrite H1, H2, xmul_neg_r, xmul_neg_l, xneg_invol. reflexivity.
Qed.

Lemma neg_sq x x' : neg_of x x' -> nmul x' x' = nmul x x.
Proof.
  destruct HA as [e|]; cbn [num] in *; [rewrite !nx_B64|rewrite !nx_XR]; cbn [nmul B64 XR]; intros H1.
  - apply Bmult_sq_neg. exact H1.
  - rewrite H1, xmul_neg_r, xmul_neg_l, xneg_invol. reflexivity.
Qed.

Lemma neg_div x x' n : neg_of x x' -> neg_of (ndiv x n) (ndiv x' n).
Proof.
  destruct HA as [e|]; cbn [num] in *; [rewrite !nx_B64|rewrite !nx_XR]; cbn [ndiv B64 XR]; intros H1.
  - apply Bdiv_neg. exact H1.
  - rewrite H1. apply xdiv_neg.
Qed.

Lemma neg_f32 x x' : neg_of x x' -> neg_of (nf32 x) (nf32 x').
Proof.
  destruct HA as [e|]; cbn [num] in *; [rewrite !nx_B64|rewrite !nx_XR]; cbn [nf32 B64 XR]; intros H1.
  - apply f32_neg. exact H1.
  - rewrite H1. destruct x; cbn; try reflexivity. rewrite f32R_opp. reflexivity.
Qed.

Lemma neg_nan x x' : neg_of x x' -> nisnan x' = nisnan x.
Proof.
  destruct HA as [e|]; cbn [num] in *; [rewrite !nx_B64|rewrite !nx_XR]; cbn [nisnan B64 XR]; intros H1.
  - rewrite !is_nan_toE, H1. destruct (toE x); reflexivity.
  - rewrite H1. destruct x; reflexivity.
Qed.

Lemma neg_zero : neg_of nzero nzero.
Proof.
  destruct HA as [e|]; cbn [num] in *; [rewrite !nx_B64|rewrite !nx_XR]; cbn; rewrite Ropp_0; reflexivity.
Qed.

Lemma sv_refl x : same_value x x.
Proof. destruct HA as [e|]; cbn [num] in *; [rewrite sv_B64|rewrite sv_XR]; reflexivity. Qed.

Lemma sv_add x x' y y' : same_value x x' -> same_value y y' -> same_value (nadd x y) (nadd x' y').
Proof.
  destruct HA as [e|]; cbn [num] in *; [rewrite !sv_B64|rewrite !sv_XR]; cbn [nadd B64 XR]; intros H1 H2.
  - rewrite !toE_plus, H1, H2. reflexivity.
  - congruence.
Qed.

Lemma sv_mul x x' y y' : same_value x x' -> same_value y y' -> same_value (nmul x y) (nmul x' y').
Proof.
  destruct HA as [e|]; cbn [num] in *; [rewrite !sv_B64|rewrite !sv_XR]; cbn [nmul B64 XR]; intros H1 H2.
  - rewrite !toE_mult, H1, H2. reflexivity.
  - congruence.
Qed.

(** ** rows *)
Notation neg_row := (Forall2 neg_of).

Lemma neg_valid r r' : neg_row r r' -> neg_row (valid r) (valid r').
Proof.
  induction 1 as [|x x' r r' H _ IH]; cbn; [constructor|]. rewrite (neg_nan x x' H). destruct (nisnan x); cbn; [exact IH|constructor; assumption].
Qed.

Lemma neg_fold r r' a a' : neg_row r r' -> neg_of a a' -> neg_of (fold_left nadd r a) (fold_left nadd r' a').
Proof.
  intros H. revert a a'. induction H as [|x x' r r' H _ IH]; intros a a' Ha; cbn; [exact Ha|]. apply IH. apply neg_add; assumption.
Qed.

Lemma Forall2_len {X Y} (R : X -> Y -> Prop) l l' : Forall2 R l l' -> length l' = length l.
Proof. induction 1; cbn; congruence. Qed.

Lemma neg_mean r r' : neg_row r r' -> neg_of (mean r) (mean r').
Proof.
  intros H. pose proof (neg_valid r r' H) as Hv. unfold mean, sum. rewrite (Forall2_len _ _ _ Hv). apply neg_div.
  apply neg_fold; [exact Hv|apply neg_zero].
Qed.

Lemma neg_centred r r' : neg_row r r' -> neg_row (centred r) (centred r').
Proof.
  intros H. pose proof (neg_mean r r' H) as Hm. unfold centred. revert Hm. generalize (mean r) (mean r'). intros m m' Hm.
  induction H as [|x x' r r' H _ IH]; cbn; constructor; [apply neg_sub; assumption|exact IH].
Qed.

Lemma neg_norm r r' : neg_row r r' -> norm_of r' = norm_of r.
Proof.
  intros H. pose proof (neg_mean r r' H) as Hm. unfold norm_of. revert Hm. generalize (mean r) (mean r'). intros m m' Hm. generalize nzero.
  induction H as [|x x' r r' H _ IH]; intros a; cbn; [reflexivity|].
  pose proof (neg_f32 x x' H) as Hf. rewrite (neg_nan _ _ Hf). rewrite (neg_sq _ _ (neg_sub _ _ _ _ Hf Hm)). apply IH.
Qed.

Lemma neg_nth r r' i : neg_row r r' -> neg_of (nth i r nzero) (nth i r' nzero).
Proof.
  intros H. revert i. induction H as [|x x' r r' H _ IH]; intros [|i]; cbn; try apply neg_zero; [exact H|apply IH].
Qed.

Lemma neg_pair_sum r r' i sel ws a a' : neg_row r r' -> same_value a a' ->
  same_value (pair_sum r i sel ws a) (pair_sum r' i sel ws a').
Proof.
  intros H. revert i ws a a'. induction sel as [|s sel IH]; intros i [|w ws] a a' Ha; cbn; try exact Ha.
  apply IH. apply sv_add; [exact Ha|]. apply neg_mul; [apply neg_mul_r|]; apply neg_nth; exact H.
Qed.

Lemma neg_corr r r' sel ws : neg_row r r' ->
  same_value (corr_value (centred r) sel ws (norm_of r)) (corr_value (centred r') sel ws (norm_of r')).
Proof.
  intros H. unfold corr_value. rewrite (neg_norm r r' H). apply sv_mul; [|apply sv_refl].
  apply neg_pair_sum; [apply neg_centred; exact H|apply sv_refl].
Qed.

Lemma neg_call p (d d' : dstruct) rows rows' mi ma re al sel wgt j row row' :
  accepted d -> accepted d' -> timeseries d = timeseries d' -> data_2d d = Ok rows -> data_2d d' = Ok rows' ->
  nth_error rows j = Some row -> nth_error rows' j = Some row' -> Forall2 neg_of row row' ->
  same_outcome (fun u v => fst u = fst v /\
      exists out out', nth_error (rows_of (snd u)) j = Some out /\ nth_error (rows_of (snd v)) j = Some out' /\ Forall2 same_value out out')
    (visible (autocorrelation p d mi ma re al sel wgt)) (visible (autocorrelation p d' mi ma re al sel wgt)).
Proof.
  intros Ha Ha' Ht Hr Hr' Hj Hj' HN.
  destruct (accepted_values d Ha) as [ts [data [er [N [-> [G1 [G2 [G3 G4]]]]]]]].
  destruct (accepted_values d' Ha') as [ts' [data' [er' [N' [-> [G1' [G2' [G3' G4']]]]]]]].
  cbn in Ht. subst ts'. rewrite Hr in G4. injection G4 as ->. rewrite Hr' in G4'. injection G4' as ->.
  rewrite !visible_core by assumption.
  destruct (acf_core p ts mi ma re al sel wgt) as [[g Fs]|e|u|] eqn:E; cbn [bind same_outcome fst snd]; auto.
  split; [reflexivity|]. exists (map (fun F => F row) Fs), (map (fun F => F row') Fs).
  rewrite !rows_of_pack by (intros E'; apply map_eq_nil in E'; revert E'; apply recut_nil; assumption).
  rewrite !nth_error_map. rewrite Hj, Hj'. split; [reflexivity|]. split; [reflexivity|].
  pose proof (acf_core_forms p ts mi ma re al sel wgt g Fs E) as K. clear E.
  induction K as [|F Fs [sidx [ws Q]] _ IH]; cbn; constructor; [|exact IH]. rewrite !Q. apply neg_corr. exact HN.
Qed.

End Ops.
