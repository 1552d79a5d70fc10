(** Calls on data values scaled by a power of two in binary64. *)
From Coq Require Import String.
From Coq Require Import ZArith Reals List Bool Arith Lia Lra.
From Flocq Require Import Core BinarySingleNaN.
From Verif Require Import Num Mem MemFacts XR B64 Spec SpecR DataStructure Correlator Sacf Api Laws B64Facts Laws2 DSFacts CorrFacts LoopFacts MainFacts
  RelFacts ConstrFacts TimeFacts SelFacts DefaultFacts ValFacts AccFacts SimFacts FixedFacts Pow2Facts Pow2Core Pow2Thms ShiftFacts ValPow2.
Import ListNotations.
Local Open Scope list_scope.
Local Open Scope R_scope.

Lemma value_sc e x y : value_pow2 e x y -> orsame (sc e (-122) 70) x y.
Proof. intros [[H1 [H2 H3]]|H]; [left|right; exact H]. exact (moderate_sc e 70 x y ltac:(lia) H1 H2 H3). Qed.

(** ** Rounding to single precision *)
Lemma f32R_pow2 e x : grain (-126) x -> grain (-126) (bpow radix2 e * x) -> f32R (bpow radix2 e * x) = bpow radix2 e * f32R x.
Proof.
  intros G G'. destruct (Req_dec x 0) as [->|Hx]; [rewrite Rmult_0_r; unfold f32R; rewrite round_0 by apply valid_rnd_N; ring|].
  assert (Hx' : bpow radix2 e * x <> 0) by (apply Rmult_integral_contrapositive; split; [apply Rgt_not_eq, bpow_gt_0|exact Hx]).
  unfold f32R. rewrite !(round_FLT_FLX radix2 (-149) 24) by (apply grain_small; assumption).
  unfold round, scaled_mantissa, cexp, FLX_exp. rewrite (Rmult_comm (bpow radix2 e) x), mag_mult_bpow by exact Hx.
  replace (mag radix2 x + e - 24)%Z with (mag radix2 x - 24 + e)%Z by lia.
  rewrite Rmult_assoc, <- bpow_plus. replace (e + - (mag radix2 x - 24 + e))%Z with (- (mag radix2 x - 24))%Z by lia.
  unfold F2R. cbn [Fnum Fexp]. rewrite (bpow_plus radix2 _ e). ring.
Qed.

Lemma sign_nz (x y : b64) e : is_finite x = true -> is_finite y = true -> B2R x <> 0 -> B2R y = bpow radix2 e * B2R x -> Bsign x = Bsign y.
Proof.
  intros F F' N E. pose proof (sign_R x F) as K. pose proof (sign_R y F') as K'. pose proof (bpow_gt_0 radix2 e) as P. rewrite E in K'.
  assert (H : B2R x < 0 \/ 0 < B2R x) by (destruct (Rdichotomy _ _ N); auto).
  destruct (Bsign x), (Bsign y); try reflexivity; destruct H as [H|H]; try lra; exfalso.
  - assert (bpow radix2 e * B2R x < 0) by (rewrite <- (Rmult_0_r (bpow radix2 e)); apply Rmult_lt_compat_l; assumption). lra.
  - assert (0 < bpow radix2 e * B2R x) by (apply Rmult_lt_0_compat; assumption). lra.
Qed.

Definition f32 (x : b64) : b64 := b32_to_b64 (b64_to_b32 x).

Lemma sc_f32 e lo n x y : (-126 <= lo)%Z -> (-149 <= n <= 127)%Z -> sc e lo n x y -> sc e lo n (f32 x) (f32 y).
Proof.
  intros Hl Hn [F [F' [S [E [G [G' [B B']]]]]]].
  assert (D : forall a : b64, is_finite a = true -> grain lo (B2R a) -> Rabs (B2R a) <= bpow radix2 n ->
     is_finite (f32 a) = true /\ B2R (f32 a) = f32R (B2R a) /\ grain lo (f32R (B2R a)) /\ Rabs (f32R (B2R a)) <= bpow radix2 n).
  { intros a Fa Ga Ba. assert (Bf : Rabs (f32R (B2R a)) <= bpow radix2 n) by (apply f32R_le; [lia|exact Ba]).
    destruct (f32_value a Fa) as [H1 H2]; [eapply Rle_lt_trans; [exact Bf|apply bpow_lt; lia]|]. split; [exact H1|]. split; [exact H2|]. split; [|exact Bf].
    unfold f32R. apply generic_round_generic; try exact Ga; try apply valid_rnd_N; [apply FIX_exp_valid|apply FLT_exp_valid; reflexivity]. }
  destruct (D x F G B) as [D1 [D2 [D3 D4]]]. destruct (D y F' G' B') as [D1' [D2' [D3' D4']]].
  assert (Ef : B2R (f32 y) = bpow radix2 e * B2R (f32 x)).
  { rewrite D2, D2', E. apply f32R_pow2; [|rewrite <- E]; apply (grain_le lo); assumption. }
  split; [exact D1|]. split; [exact D1'|]. split; [|split; [exact Ef|]; rewrite D2, D2'; auto].
  destruct (Req_dec (B2R (f32 x)) 0) as [Z|Z]; [|exact (sign_nz _ _ e D1 D1' Z Ef)].
  assert (Zx : B2R x = 0).
  { destruct (Req_dec (B2R x) 0) as [Q|Q]; [exact Q|exfalso]. rewrite D2 in Z. pose proof (grain_small _ _ G Q) as L.
    assert (K : bpow radix2 lo <= Rabs (f32R (B2R x))).
    { unfold f32R. apply abs_round_ge_generic; [apply FLT_exp_valid; reflexivity|apply valid_rnd_N| |exact L]. apply generic_format_bpow. unfold FLT_exp. lia. }
    rewrite Z, Rabs_R0 in K. pose proof (bpow_gt_0 radix2 lo). lra. }
  assert (Zy : B2R y = 0) by (rewrite E, Zx; ring).
  destruct x as [s|s| |s m ex H]; try discriminate; [|exfalso; exact (finite_nz _ _ _ _ Zx)].
  destruct y as [s'|s'| |s' m' ex' H']; try discriminate; [|exfalso; exact (finite_nz _ _ _ _ Zy)]. exact S.
Qed.

Lemma orsame_f32 e lo n x y : (-126 <= lo)%Z -> (-149 <= n <= 127)%Z -> orsame (sc e lo n) x y -> orsame (sc e lo n) (f32 x) (f32 y).
Proof.
  intros Hl Hn [H|[<- H]]; [left; apply sc_f32; assumption|right]. split; [reflexivity|]. destruct x; try discriminate; reflexivity.
Qed.

Lemma orsame_mono e lo lo' n n' x y : (lo' <= lo)%Z -> (n <= n')%Z -> orsame (sc e lo n) x y -> orsame (sc e lo' n') x y.
Proof. intros H1 H2. apply orsame_weaken. apply sc_mono; assumption. Qed.

Lemma orsame_nan e lo n x y : orsame (sc e lo n) x y -> is_nan x = is_nan y.
Proof. intros [[F [F' _]]|[<- _]]; [|reflexivity]. destruct x, y; try discriminate; reflexivity. Qed.

Section Vals.
Context (exp64 : b64 -> b64) (e : Z).
Notation BN := (B64 exp64).
Notation V := (orsame (sc e (-122) 70)).

Lemma V_valid (row row' : list b64) : Forall2 V row row' -> Forall2 V (valid (A := BN) row) (valid (A := BN) row').
Proof.
  intros H. induction H as [|x x' l l' Hx H IH]; [constructor|]. unfold valid in *. cbn [filter].
  change (@nisnan BN x) with (is_nan x). change (@nisnan BN x') with (is_nan x'). rewrite (orsame_nan _ _ _ _ _ Hx).
  destruct (is_nan x'); [exact IH|constructor; assumption].
Qed.

Lemma valid_len (row : list b64) : (@length b64 (valid (A := BN) row) <= length row)%nat.
Proof. unfold valid. induction row as [|x l IH]; [apply le_n|]. cbn [filter]. destruct (negb _); cbn [length]; lia. Qed.

Lemma many_sc ee lo n k x y : (0 <= k <= 2 ^ 50)%Z -> orsame (scr ee lo (IZR k * bpow radix2 n)) x y -> orsame (sc ee lo (n + 50)) x y.
Proof.
  intros Hk. apply orsame_weaken. intros H. apply scr_sc. apply (scr_le _ _ (IZR k * bpow radix2 n)); [|exact H].
  rewrite Z.add_comm, bpow_plus. apply Rmult_le_compat_r; [apply bpow_ge_0|]. change (bpow radix2 50) with (IZR (2 ^ 50)). apply IZR_le. lia.
Qed.

Lemma V_mean (row row' : list b64) : (Z.of_nat (length row) <= 2 ^ 50)%Z -> Forall2 V row row' ->
  orsame (sc e (-224) 120) (mean (A := BN) row) (mean (A := BN) row').
Proof.
  intros Hl H. pose proof (V_valid row row' H) as HV. pose proof (valid_len row) as L. unfold mean.
  change (@length (@num BN) (valid (A := BN) row)) with (@length b64 (valid (A := BN) row)).
  change (@length (@num BN) (valid (A := BN) row')) with (@length b64 (valid (A := BN) row')).
  rewrite <- (Forall2_len _ _ _ HV). unfold sum.
  set (v := valid (A := BN) row : list b64) in *. set (v' := valid (A := BN) row' : list b64) in *.
  destruct (Nat.eq_dec (length v) 0) as [Z0|NZ].
  - destruct HV; [|cbn in Z0; lia]. right. split; reflexivity.
  - assert (HS : orsame (sc e (-122) (70 + 50)) (fold_left (Bplus mode_NE) v (b64_ofZ 0)) (fold_left (Bplus mode_NE) v' (b64_ofZ 0))).
    { apply (many_sc e _ _ (0 + Z.of_nat (length v))); [lia|]. apply acc_list; try lia; [exact HV|]. left. apply scr_zero. rewrite Rmult_0_l. apply Rle_refl. }
    destruct (E_fin _ _ (toE_ofZ_small (Z.of_nat (length v)) ltac:(lia))) as [Fc Ec].
    exact (orsame_div_count e (-122) (70 + 50) (b64_ofZ (Z.of_nat (length v))) _ _ (Z.of_nat (length v)) ltac:(lia) ltac:(lia) Fc Ec ltac:(lia) HS).
Qed.

Lemma V_centred (row row' : list b64) : (Z.of_nat (length row) <= 2 ^ 50)%Z -> Forall2 V row row' ->
  Forall2 (orsame (sc e (-224) 121)) (centred (A := BN) row) (centred (A := BN) row').
Proof.
  intros Hl H. pose proof (V_mean row row' Hl H) as HM. unfold centred.
  set (m := mean (A := BN) row) in *. set (m' := mean (A := BN) row') in *. clearbody m m'. clear Hl.
  induction H as [|x x' l l' Hx H IH]; cbn [map]; constructor; [|exact IH].
  apply (orsame_sub e (-224) 120); try lia; [|exact HM]. apply (orsame_mono e (-122) _ 70); try lia. exact Hx.
Qed.

Lemma V_norm (row row' : list b64) : (Z.of_nat (length row) <= 2 ^ 50)%Z -> Forall2 V row row' ->
  orsame (sc (e + e) (-448) 292) (norm_of (A := BN) row) (norm_of (A := BN) row').
Proof.
  intros Hl H. pose proof (V_mean row row' Hl H) as HM. pose proof (V_valid row row' H) as HV. pose proof (valid_len row) as L.
  rewrite !(@norm_of_sum_sq BN (arith_laws _ (arith_binary64 exp64))). unfold sum_sq32, sum.
  set (m := mean (A := BN) row : b64) in *. set (m' := mean (A := BN) row' : b64) in *. clearbody m m'.
  set (v := valid (A := BN) row : list b64) in *. set (v' := valid (A := BN) row' : list b64) in *.
  set (g := fun x : b64 => Bmult mode_NE (Bminus mode_NE (f32 x) m) (Bminus mode_NE (f32 x) m)).
  set (g' := fun x : b64 => Bmult mode_NE (Bminus mode_NE (f32 x) m') (Bminus mode_NE (f32 x) m')).
  change (orsame (sc (e + e) (-448) (242 + 50)) (fold_left (Bplus mode_NE) (map g v) (b64_ofZ 0)) (fold_left (Bplus mode_NE) (map g' v') (b64_ofZ 0))).
  assert (HT : Forall2 (orsame (sc (e + e) (-448) 242)) (map g v) (map g' v')).
  { clear - HV HM. induction HV as [|x x' l l' Hx HV IH]; cbn [map]; constructor; [|exact IH].
    assert (D : orsame (sc e (-224) 121) (Bminus mode_NE (f32 x) m) (Bminus mode_NE (f32 x') m')).
    { apply (orsame_sub e (-224) 120); try lia; [|exact HM]. apply (orsame_mono e (-122) _ 70); try lia. apply orsame_f32; try lia. exact Hx. }
    exact (orsame_mult e e (-224) (-224) 121 121 _ _ _ _ ltac:(lia) ltac:(lia) D D). }
  pose proof (Forall2_len _ _ _ HT) as L2. rewrite map_length in L2.
  apply (many_sc (e + e) _ _ (0 + Z.of_nat (length (map g v)))); [rewrite map_length; lia|].
  apply acc_list; try lia; [exact HT|rewrite map_length; lia|]. left. apply scr_zero. rewrite Rmult_0_l. apply Rle_refl.
Qed.

(** ** The sum over the pairs *)
(** weights that are neither tiny nor huge *)
Definition tame_weight (w : b64) : Prop := orsame (sc 0 (-567) 60) w w.

Lemma acc_zero lo B x x' y y' ee : (-1022 <= lo)%Z -> B <= bpow radix2 1000 -> scr ee lo B x x' -> scr ee lo 0 y y' ->
  scr ee lo B (Bplus mode_NE x y) (Bplus mode_NE x' y').
Proof.
  intros Hl HB [Fx [Fx' [Sx [Ex [Gx [Gx' [Bx Bx']]]]]]] [Fy [Fy' [Sy [Ey [Gy [Gy' [By By']]]]]]].
  assert (Z : B2R y = 0 /\ B2R y' = 0).
  { split; [revert By; generalize (B2R y)|revert By'; generalize (B2R y')]; intros r Hr; unfold Rabs in Hr; destruct (Rcase_abs r); lra. }
  destruct Z as [Z Z'].
  assert (R0 : forall (a b : b64), B2R b = 0 -> rnd (B2R a + B2R b) = B2R a) by (intros a b ->; rewrite Rplus_0_r; apply rnd_fix).
  assert (Bg : forall r, r <= B -> r < big) by (intros r Hr; apply Rle_lt_trans with (bpow radix2 1000); [lra|apply big_gt; lia]).
  destruct (plus_sign x y Fx Fy) as [F1 [V1 S1]]; [rewrite R0 by exact Z; apply Bg; exact Bx|].
  destruct (plus_sign x' y' Fx' Fy') as [F2 [V2 S2]]; [rewrite R0 by exact Z'; apply Bg; exact Bx'|].
  rewrite R0 in V1 by exact Z. rewrite R0 in V2 by exact Z'.
  split; [exact F1|]. split; [exact F2|]. rewrite V1, V2. split; [|auto].
  rewrite S1, S2, Z, Z', !Rplus_0_r, Ex, Rcompare_pow2, Sx, Sy. reflexivity.
Qed.

Lemma V_pair_sum (xs xs' : list b64) : (Z.of_nat (length xs) <= 2 ^ 50)%Z -> Forall2 (orsame (sc e (-224) 121)) xs xs' ->
  forall sel ws i acc acc', Forall tame_weight ws ->
  orsame (scr (e + e) (-1015) (IZR (Z.of_nat (Nat.min i (length xs))) * bpow radix2 302)) acc acc' ->
  orsame (scr (e + e) (-1015) (IZR (Z.of_nat (length xs)) * bpow radix2 302)) (pair_sum (A := BN) xs i sel ws acc) (pair_sum (A := BN) xs' i sel ws acc').
Proof.
  intros Hl H.
  assert (Hn : forall j, orsame (sc e (-224) 121) (nth j xs (b64_ofZ 0)) (nth j xs' (b64_ofZ 0))).
  { intros j. clear Hl. revert j. induction H as [|x x' l l' Hx H IH]; intros [|j]; cbn [nth]; auto; left; apply sc_zero. }
  assert (fin_le : forall i acc acc', orsame (scr (e + e) (-1015) (IZR (Z.of_nat (Nat.min i (length xs))) * bpow radix2 302)) acc acc' ->
     orsame (scr (e + e) (-1015) (IZR (Z.of_nat (length xs)) * bpow radix2 302)) acc acc').
  { intros i acc acc'. apply orsame_weaken. apply scr_le. apply Rmult_le_compat_r; [apply bpow_ge_0|]. apply IZR_le. lia. }
  induction sel as [|s sel IH]; intros ws i acc acc' Hw Ha; cbn [pair_sum]; [apply (fin_le i); exact Ha|].
  destruct ws as [|w ws]; [apply (fin_le i); exact Ha|]. inversion Hw as [|? ? Hw1 Hw2]; subst. apply IH; [exact Hw2|].
  change (@nzero BN) with (b64_ofZ 0).
  change (orsame (scr (e + e) (-1015) (IZR (Z.of_nat (Nat.min (Datatypes.S i) (length xs))) * bpow radix2 302))
    (Bplus mode_NE acc (Bmult mode_NE (Bmult mode_NE w (nth i xs (b64_ofZ 0))) (nth s xs (b64_ofZ 0))))
    (Bplus mode_NE acc' (Bmult mode_NE (Bmult mode_NE w (nth i xs' (b64_ofZ 0))) (nth s xs' (b64_ofZ 0))))).
  pose proof (orsame_mult 0 e (-567) (-224) 60 121 _ _ _ _ ltac:(lia) ltac:(lia) Hw1 (Hn i)) as T1.
  pose proof (orsame_mult (0 + e) e (-567 + -224) (-224) (60 + 121) 121 _ _ _ _ ltac:(lia) ltac:(lia) T1 (Hn s)) as T2.
  rewrite Z.add_0_l in T2. change (-567 + -224 + -224)%Z with (-1015)%Z in T2. change (60 + 121 + 121)%Z with 302%Z in T2.
  destruct (Nat.lt_ge_cases i (length xs)) as [Hi|Hi].
  - replace (Z.of_nat (Nat.min (Datatypes.S i) (length xs))) with (Z.of_nat (Nat.min i (length xs)) + 1)%Z by lia.
    apply orsame_acc; try lia; assumption.
  - replace (Nat.min (Datatypes.S i) (length xs)) with (Nat.min i (length xs)) by lia.
    assert (Z0 : nth i xs (b64_ofZ 0) = b64_ofZ 0) by (apply nth_overflow; exact Hi).
    assert (Z0' : nth i xs' (b64_ofZ 0) = b64_ofZ 0) by (apply nth_overflow; rewrite <- (Forall2_len _ _ _ H); exact Hi).
    rewrite Z0, Z0' in T2 |- *.
    apply (orsame_plus (scr (e + e) (-1015) (IZR (Z.of_nat (Nat.min i (length xs))) * bpow radix2 302)) (scr (e + e) (-1015) 0)); [apply scr_fin|apply scr_fin| |exact Ha|].
    + apply acc_zero; [lia|]. apply Rle_trans with (bpow radix2 (50 + 302)); [|apply bpow_le; lia]. rewrite bpow_plus. apply Rmult_le_compat_r; [apply bpow_ge_0|].
      change (bpow radix2 50) with (IZR (2 ^ 50)). apply IZR_le. lia.
    + revert T2. apply orsame_weaken. intros [F [F' [S [E [G [G' _]]]]]].
      assert (Q : forall b : b64, is_finite (Bmult mode_NE (Bmult mode_NE w (b64_ofZ 0)) b) = true -> B2R (Bmult mode_NE (Bmult mode_NE w (b64_ofZ 0)) b) = 0).
      { intros b Fb. apply mult_inv in Fb. destruct Fb as [F1 [F2 ->]]. apply mult_inv in F1. destruct F1 as [_ [_ ->]].
        change (B2R (b64_ofZ 0)) with 0. rewrite Rmult_0_r, rnd_0, Rmult_0_l. apply rnd_0. }
      repeat (split; [assumption|]). rewrite (Q _ F), (Q _ F'), Rabs_R0. split; apply Rle_refl.
Qed.

Lemma V_corr (row row' : list b64) sel ws : (Z.of_nat (length row) <= 2 ^ 50)%Z -> Forall2 V row row' -> Forall tame_weight ws ->
  corr_value (A := BN) (centred (A := BN) row) sel ws (norm_of (A := BN) row) = corr_value (A := BN) (centred (A := BN) row') sel ws (norm_of (A := BN) row').
Proof.
  intros Hl H Hw. pose proof (V_centred row row' Hl H) as HC. pose proof (V_norm row row' Hl H) as HN. unfold corr_value.
  assert (Lc : @length b64 (centred (A := BN) row) = length row) by (unfold centred; apply map_length).
  refine (quotient_same (e + e) (-1015) _ (-448) 292 _ _ _ _ ltac:(lia) ltac:(lia) (V_pair_sum _ _ _ HC sel ws 0%nat _ _ Hw _) HN).
  - rewrite Lc. exact Hl.
  - left. apply scr_zero. cbn [Nat.min]. change (IZR (Z.of_nat 0)) with 0. rewrite Rmult_0_l. apply Rle_refl.
Qed.
End Vals.

(** ** The weights of a call on moderate times *)
Section Weights.
Context (exp64 : b64 -> b64).
Notation BN := (B64 exp64).

Lemma tame_fin (w : b64) : is_finite w = true -> grain (-567) (B2R w) -> Rabs (B2R w) <= bpow radix2 60 -> tame_weight w.
Proof. intros F G B. left. repeat (split; [first [assumption|reflexivity|change (bpow radix2 0) with 1; ring]|]). assumption. Qed.

Lemma tame_nonfin (w : b64) : is_finite w = false -> tame_weight w.
Proof. intros F. right. auto. Qed.

Lemma one_fin : is_finite (b64_ofZ 1) = true /\ B2R (b64_ofZ 1) = 1.
Proof. apply E_fin, (toE_ofZ_small 1). lia. Qed.

(** the reciprocal of a number that is zero or not too small *)
Lemma tame_recip (d : b64) : (is_finite d = true -> (B2R d = 0 \/ bpow radix2 (-60) <= Rabs (B2R d)) /\ Rabs (B2R d) <= bpow radix2 515) ->
  tame_weight (Bdiv mode_NE (b64_ofZ 1) d).
Proof.
  intros H. destruct one_fin as [F1 E1]. destruct (is_finite d) eqn:Fd.
  - destruct (H eq_refl) as [[Z|L] U].
    + destruct d as [s|s| |s m ex Hb]; try discriminate; [|exfalso; exact (finite_nz _ _ _ _ Z)]. apply tame_nonfin. reflexivity.
    + assert (Nz : B2R d <> 0) by (intros Z; rewrite Z, Rabs_R0 in L; pose proof (bpow_gt_0 radix2 (-60)); lra).
      assert (Q : B2R (b64_ofZ 1) / B2R d = / B2R d) by (rewrite E1; unfold Rdiv; ring).
      assert (up : Rabs (/ B2R d) <= bpow radix2 60).
      { rewrite Rabs_inv. change 60%Z with (- (-60))%Z. rewrite bpow_opp. apply Rinv_le; [apply bpow_gt_0|exact L]. }
      assert (low : bpow radix2 (-515) <= Rabs (/ B2R d)).
      { rewrite Rabs_inv. change (-515)%Z with (- (515))%Z. rewrite bpow_opp. apply Rinv_le; [apply Rabs_pos_lt; exact Nz|exact U]. }
      destruct (div_sign (b64_ofZ 1) d F1 Fd Nz) as [D1 [D2 _]].
      { rewrite Q. eapply Rle_lt_trans; [apply (rnd_bound 60); [lia|exact up]|apply big_gt; lia]. }
      rewrite Q in D2. apply tame_fin; [exact D1| |rewrite D2; apply rnd_bound; [lia|exact up]].
      apply (grain_of_lower (-515)). rewrite D2. apply rnd_lower; [lia|exact low].
  - destruct d as [s|s| |s m ex Hb]; try discriminate.
    + left. assert (Et : exists t, Bdiv mode_NE (b64_ofZ 1) (B754_infinity s) = B754_zero t) by (destruct s; eexists; reflexivity). destruct Et as [t ->].
      assert (Z0 : B2R (B754_zero t : b64) = 0) by reflexivity. unfold sc. rewrite Z0, Rabs_R0.
      repeat (split; [first [reflexivity|apply generic_format_0|apply bpow_ge_0|ring]|]). apply bpow_ge_0.
    + apply tame_nonfin. reflexivity.
Qed.

Lemma one_plus (q : b64) : (is_finite q = true -> Rabs (B2R q) <= bpow radix2 514) ->
  let d := Bplus mode_NE (b64_ofZ 1) q in
  is_finite d = true -> (B2R d = 0 \/ bpow radix2 (-60) <= Rabs (B2R d)) /\ Rabs (B2R d) <= bpow radix2 515.
Proof.
  intros Hq d Fd. subst d. destruct one_fin as [F1 E1]. apply plus_inv in Fd. destruct Fd as [_ [Fq ->]]. specialize (Hq Fq). rewrite E1.
  split.
  - destruct (Rlt_le_dec (Rabs (B2R q)) (bpow radix2 (-1))) as [L|L].
    + right. apply Rle_trans with (bpow radix2 (-1)); [apply bpow_le; lia|]. apply rnd_lower; [lia|]. change (bpow radix2 (-1)) with (/ 2) in *.
      unfold Rabs in L |- *. destruct (Rcase_abs (B2R q)), (Rcase_abs (1 + B2R q)); lra.
    + assert (G : grain (-53) (1 + B2R q)).
      { apply grain_plus; [|exact (grain_of_lower (-1) q L)]. apply generic_format_FIX. exists (Float radix2 (2 ^ 53) (-53)); [|reflexivity].
        unfold F2R. cbn [Fnum Fexp]. change (IZR (2 ^ 53)) with (bpow radix2 53). rewrite <- bpow_plus. reflexivity. }
      apply grain_rnd in G. destruct (Req_dec (rnd (1 + B2R q)) 0) as [Z|Z]; [left; exact Z|right].
      apply Rle_trans with (bpow radix2 (-53)); [apply bpow_le; lia|]. apply grain_small; assumption.
  - apply rnd_bound; [lia|]. change 515%Z with (514 + 1)%Z. rewrite <- bpow_double.
    assert (1 <= bpow radix2 514) by (change 1 with (bpow radix2 0); apply bpow_le; lia).
    eapply Rle_trans; [apply Rabs_triang|]. rewrite Rabs_R1. lra.
Qed.

Lemma quotient_bound (dt al : b64) : is_finite dt = true -> Rabs (B2R dt) <= bpow radix2 104 -> is_finite al = true -> grain (-153) (B2R al) ->
  is_finite (Bdiv mode_NE dt al) = true -> Rabs (B2R (Bdiv mode_NE dt al)) <= bpow radix2 257.
Proof.
  intros Fd Bd Fa Ga Fq. destruct (Req_dec (B2R al) 0) as [Z|Z].
  - destruct al as [s|s| |s m ex Hb]; try discriminate; [|exfalso; exact (finite_nz _ _ _ _ Z)].
    destruct dt as [t|t| |t m' e' H']; discriminate.
  - assert (up : Rabs (B2R dt / B2R al) <= bpow radix2 257).
    { unfold Rdiv. rewrite Rabs_mult, Rabs_inv. change 257%Z with (104 + - (-153))%Z. rewrite bpow_plus, bpow_opp.
      apply Rmult_le_compat; [apply Rabs_pos|apply Rlt_le, Rinv_0_lt_compat, Rabs_pos_lt; exact Z|exact Bd|].
      apply Rinv_le; [apply bpow_gt_0|apply grain_small; assumption]. }
    destruct (div_sign dt al Fd Fa Z) as [_ [-> _]]; [eapply Rle_lt_trans; [apply (rnd_bound 257); [lia|exact up]|apply big_gt; lia]|].
    apply rnd_bound; [lia|exact up].
Qed.

Lemma weight_tame wgt al w dt : wgt = "fractional"%string \/ wgt = "fractional_squared"%string ->
  is_finite dt = true -> Rabs (B2R dt) <= bpow radix2 104 -> is_finite al = true -> grain (-153) (B2R al) ->
  weight_named (A := BN) wgt al = Some w -> tame_weight (w dt).
Proof.
  intros Hw Fd Bd Fa Ga E. pose proof (quotient_bound dt al Fd Bd Fa Ga) as Q.
  destruct Hw as [->| ->]; cbn in E; injection E as <-.
  - apply (tame_recip (Bplus mode_NE (b64_ofZ 1) (Bdiv mode_NE dt al))). apply one_plus. intros F. eapply Rle_trans; [exact (Q F)|apply bpow_le; lia].
  - apply (tame_recip (Bplus mode_NE (b64_ofZ 1) (Bmult mode_NE (Bdiv mode_NE dt al) (Bdiv mode_NE dt al)))). apply one_plus.
    intros F. apply mult_inv in F. destruct F as [F [_ ->]]. apply rnd_bound; [lia|]. rewrite Rabs_mult. change 514%Z with (257 + 257)%Z. rewrite bpow_plus.
    apply Rmult_le_compat; try apply Rabs_pos; exact (Q F).
Qed.

Lemma moderate_self n (x : b64) : (0 <= n <= 1021)%Z -> moderate n x -> sc 0 (- n - 52) n x x.
Proof.
  intros Hn H. apply moderate_sc; try assumption. destruct H as [F _]. repeat (split; [first [assumption|reflexivity]|]). change (bpow radix2 0) with 1. ring.
Qed.

Lemma pow2_values_lemma (e : Z) (p : platform) (d d' : @dstruct BN) (mi ma re al : option b64) (sel wgt : string) (rows rows' : list (list b64)) :
  wgt = "fractional"%string \/ wgt = "fractional_squared"%string ->
  accepted d -> accepted d' -> timeseries d' = timeseries d -> (forall t : b64, In t (timeseries d) -> moderate 100 t) ->
  (2 <= length (timeseries d))%nat -> (Z.of_nat (length (timeseries d)) <= 2 ^ 50)%Z -> ordered (timeseries d) ->
  data_2d d = Ok rows -> data_2d d' = Ok rows' -> Forall2 (Forall2 (value_pow2 e)) rows rows' ->
  (forall x, In (Some x) [mi; ma; re; al] -> moderate 100 x) -> (forall r, re = Some r -> 0 <= B2R r) ->
  visible (autocorrelation (A := BN) p d' mi ma re al sel wgt) = visible (autocorrelation (A := BN) p d mi ma re al sel wgt).
Proof.
  intros Hw Ha Ha' Et Hm Hl2 Hl Ho Hr Hr' HV Hopt Hrp.
  destruct (accepted_values d Ha) as [ts [data [er [N [-> [G1 [G2 [G3 G4]]]]]]]].
  destruct (accepted_values d' Ha') as [ts' [data' [er' [N' [-> [G1' [G2' [G3' G4']]]]]]]].
  change (timeseries (the_ds ts data er N)) with ts in *. change (timeseries (the_ds ts' data' er' N')) with ts' in *. subst ts'.
  rewrite !visible_core by assumption.
  rewrite Hr in G4. injection G4 as G4. rewrite Hr' in G4'. injection G4' as G4'. change (@num BN) with b64 in *. rewrite <- G4, <- G4'.
  assert (Hlen : forall row, In row rows -> (length row <= length ts)%nat).
  { intros row Hrow. rewrite G4 in Hrow. unfold recut in Hrow. apply in_map_iff in Hrow. destruct Hrow as [j [<- _]]. unfold piece. apply firstn_le_length. }
  assert (HT : Forall2 (sc 0 (- 100 - 52) (100 + 0)) ts ts).
  { clear - Hm. induction ts as [|t ts IH]; constructor; [apply (moderate_self 100); [lia|]; apply Hm; left; reflexivity|]. apply IH. intros x Hx. apply Hm. right. exact Hx. }
  assert (HO : forall o, In o [mi; ma; re; al] -> opt_rel (sc 0 (- 100 - 52) (100 + 0)) o o).
  { intros [x|] Hin; [|exact I]. cbn. apply (moderate_self 100); [lia|]. apply Hopt. exact Hin. }
  assert (HR : opt_rel (fun x y => sc 0 (- 100 - 52) (100 + 0) x y /\ 0 <= B2R x) re re).
  { pose proof (HO re ltac:(cbn; auto)) as K. destruct re as [r|]; [|exact I]. cbn in K |- *. split; [exact K|]. apply Hrp. reflexivity. }
  destruct (sc_core_rel exp64 0 100 ltac:(lia) p ts ts mi mi ma ma re re al al sel wgt (or_intror eq_refl) HT Hl2 Ho (HO mi ltac:(cbn; auto)) (HO ma ltac:(cbn; auto)) HR (HO al ltac:(cbn; auto)))
    as [a [a' [HA K]]].
  destruct (acf_core (A := BN) p ts mi ma re al sel wgt) as [[g Fs]|x|u|]; cbn [bind same_outcome fst snd] in *; try reflexivity.
  destruct K as [_ K]. f_equal. f_equal. f_equal.
  assert (HF : forall F, In F Fs -> forall row row', (length row <= length ts)%nat -> Forall2 (value_pow2 e) row row' -> F row' = F row).
  { intros F Hin row row' HL Hrow. destruct (Forall2_In_l _ _ _ _ K Hin) as [F' [_ [w [w' [s [dts [dts' [E1 [_ [HD [-> _]]]]]]]]]]].
    symmetry. apply V_corr with (e := e); [lia| |].
    - eapply Forall2_weaken; [|exact Hrow]. intros x y. apply value_sc.
    - apply Forall_forall. intros v Hv. apply in_map_iff in Hv. destruct Hv as [dt [<- Hdt]].
      destruct (Forall2_In_l _ _ _ _ HD Hdt) as [dt' [_ [Fd [_ [_ [_ [_ [_ [Bd _]]]]]]]]]. destruct HA as [FA [_ [_ [_ [GA _]]]]].
      exact (weight_tame wgt a w dt Hw Fd Bd FA GA E1). }
  clear - HV HF Hlen. induction HV as [|row row' rows rows' Hrow HV IH]; [reflexivity|]. cbn [map]. f_equal.
  - apply map_ext_in. intros F HIn. apply HF; [exact HIn|apply Hlen; left; reflexivity|exact Hrow].
  - apply IH. intros r Hr. apply Hlen. right. exact Hr.
Qed.
End Weights.
