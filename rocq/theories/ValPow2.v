(** Two runs in binary64 whose data values differ by a power of two. *)
From Coq Require Import String.
From Coq Require Import ZArith Reals List Bool Arith Lia Lra.
From Flocq Require Import Core BinarySingleNaN.
From Verif Require Import Num Mem MemFacts XR B64 Spec SpecR DataStructure Correlator Sacf Api Laws B64Facts Laws2 DSFacts CorrFacts LoopFacts MainFacts
  RelFacts ConstrFacts TimeFacts SelFacts DefaultFacts AccFacts SimFacts FixedFacts Pow2Facts Pow2Core Pow2Thms ShiftFacts.
Import ListNotations.
Local Open Scope list_scope.
Local Open Scope R_scope.

(** as [sc], with a real bound *)
Definition scr (e lo : Z) (B : R) (x y : b64) : Prop :=
  is_finite x = true /\ is_finite y = true /\ Bsign x = Bsign y /\ B2R y = bpow radix2 e * B2R x /\
  grain lo (B2R x) /\ grain lo (B2R y) /\ Rabs (B2R x) <= B /\ Rabs (B2R y) <= B.

Lemma scr_sc e lo n x y : scr e lo (bpow radix2 n) x y -> sc e lo n x y.
Proof. exact (fun H => H). Qed.

Lemma scr_le e lo B B' x y : B <= B' -> scr e lo B x y -> scr e lo B' x y.
Proof.
  intros H [F [F' [S [E [G [G' [K K']]]]]]]. repeat (split; [first [assumption|lra]|]). lra.
Qed.

(** related by [P], or the same infinity or NaN *)
Definition orsame (P : b64 -> b64 -> Prop) (x y : b64) : Prop := P x y \/ (x = y /\ is_finite x = false).

Lemma orsame_weaken (P Q : b64 -> b64 -> Prop) x y : (P x y -> Q x y) -> orsame P x y -> orsame Q x y.
Proof. intros H [K|K]; [left; auto|right; exact K]. Qed.

(** ** Sums of many terms *)
Lemma format_k k n : (0 <= k <= 2 ^ 53)%Z -> (-1074 <= n <= 900)%Z -> generic_format radix2 fexp64 (IZR k * bpow radix2 n).
Proof.
  intros Hk Hn. destruct (Z.eq_dec k (2 ^ 53)) as [->|N].
  - change (IZR (2 ^ 53)) with (bpow radix2 53). rewrite <- bpow_plus. apply generic_format_bpow. unfold fexp64, FLT_exp. lia.
  - apply generic_format_FLT. exists (Float radix2 k n); [reflexivity|cbn [Fnum]; change (radix2 ^ 53)%Z with (2 ^ 53)%Z; lia|cbn [Fexp]; lia].
Qed.

Lemma k_big k n : (0 <= k <= 2 ^ 53)%Z -> (n <= 900)%Z -> IZR k * bpow radix2 n < big.
Proof.
  intros Hk Hn. apply Rle_lt_trans with (bpow radix2 (53 + n)); [|apply big_gt; lia]. rewrite bpow_plus. apply Rmult_le_compat_r; [apply bpow_ge_0|].
  change (bpow radix2 53) with (IZR (2 ^ 53)). apply IZR_le. lia.
Qed.

Lemma acc_add e lo n k x x' y y' : (-1022 <= lo)%Z -> (-1000 <= n <= 900)%Z -> (0 <= k < 2 ^ 53)%Z ->
  scr e lo (IZR k * bpow radix2 n) x x' -> sc e lo n y y' ->
  scr e lo (IZR (k + 1) * bpow radix2 n) (Bplus mode_NE x y) (Bplus mode_NE x' y').
Proof.
  intros Hl Hn Hk [Fx [Fx' [Sx [Ex [Gx [Gx' [Bx Bx']]]]]]] [Fy [Fy' [Sy [Ey [Gy [Gy' [By By']]]]]]].
  assert (Bd : forall u v, Rabs u <= IZR k * bpow radix2 n -> Rabs v <= bpow radix2 n -> Rabs (rnd (u + v)) <= IZR (k + 1) * bpow radix2 n).
  { intros u v Hu Hv. unfold rnd. apply abs_round_le_generic; [apply FLT_exp_valid; reflexivity|apply valid_rnd_N|apply format_k; lia|].
    rewrite plus_IZR, Rmult_plus_distr_r. pose proof (Rabs_triang u v). lra. }
  assert (Bg : forall r, r <= IZR (k + 1) * bpow radix2 n -> r < big) by (intros r Hr; eapply Rle_lt_trans; [exact Hr|apply k_big; lia]).
  destruct (plus_sign x y Fx Fy) as [F1 [V1 S1]]; [apply Bg, Bd; assumption|].
  destruct (plus_sign x' y' Fx' Fy') as [F2 [V2 S2]]; [apply Bg, Bd; assumption|].
  pose proof (grain_plus lo _ _ Gx Gy) as G1. pose proof (grain_plus lo _ _ Gx' Gy') as G2.
  assert (E : B2R x' + B2R y' = bpow radix2 e * (B2R x + B2R y)) by (rewrite Ex, Ey; ring).
  split; [exact F1|]. split; [exact F2|]. split; [rewrite S1, S2, E, Rcompare_pow2, Sx, Sy; reflexivity|].
  split; [rewrite V1, V2, E; apply rnd_pow2; [|rewrite <- E]; apply (grain_le lo); assumption|].
  rewrite V1, V2. split; [apply grain_rnd; exact G1|]. split; [apply grain_rnd; exact G2|]. split; apply Bd; assumption.
Qed.

(** sums with an infinity or NaN *)
Lemma plus_nonfin_l (x y y' : b64) : is_finite x = false -> (is_finite y = true /\ is_finite y' = true) \/ y = y' ->
  Bplus mode_NE x y = Bplus mode_NE x y' /\ is_finite (Bplus mode_NE x y) = false.
Proof.
  intros Fx [[Fy Fy']|<-].
  - destruct x as [s|s| |s m e H]; try discriminate; destruct y as [t|t| |t m' e' H']; try discriminate; destruct y' as [u|u| |u m'' e'' H'']; try discriminate; split; reflexivity.
  - split; [reflexivity|]. destruct x as [s|s| |s m e H]; try discriminate; destruct y as [t|t| |t m' e' H']; cbn; try reflexivity. destruct (Bool.eqb s t); reflexivity.
Qed.
Lemma plus_nonfin_r (x x' y : b64) : is_finite y = false -> is_finite x = true /\ is_finite x' = true ->
  Bplus mode_NE x y = Bplus mode_NE x' y /\ is_finite (Bplus mode_NE x y) = false.
Proof.
  intros Fy [Fx Fx']. destruct y as [s|s| |s m e H]; try discriminate; destruct x as [t|t| |t m' e' H']; try discriminate; destruct x' as [u|u| |u m'' e'' H'']; try discriminate; split; reflexivity.
Qed.

Lemma scr_fin e lo B x y : scr e lo B x y -> is_finite x = true /\ is_finite y = true.
Proof. intros [H1 [H2 _]]. auto. Qed.
Lemma sc_fin e lo n x y : sc e lo n x y -> is_finite x = true /\ is_finite y = true.
Proof. intros [H1 [H2 _]]. auto. Qed.

Lemma orsame_plus (P Q W : b64 -> b64 -> Prop) x x' y y' :
  (forall a b, P a b -> is_finite a = true /\ is_finite b = true) -> (forall a b, Q a b -> is_finite a = true /\ is_finite b = true) ->
  (P x x' -> Q y y' -> W (Bplus mode_NE x y) (Bplus mode_NE x' y')) -> orsame P x x' -> orsame Q y y' -> orsame W (Bplus mode_NE x y) (Bplus mode_NE x' y').
Proof.
  intros FP FQ H [K|[<- K]] [J|[<- J]]; [left; auto|right|right|right].
  - exact (plus_nonfin_r x x' y J (FP _ _ K)).
  - apply plus_nonfin_l; [exact K|]. left. exact (FQ _ _ J).
  - apply plus_nonfin_l; [exact K|]. right. reflexivity.
Qed.

Lemma minus_plus (x y : b64) : Bminus mode_NE x y = Bplus mode_NE x (Bopp y).
Proof. destruct x, y; reflexivity. Qed.

Lemma orsame_opp e lo n x y : orsame (sc e lo n) x y -> orsame (sc e lo n) (Bopp x) (Bopp y).
Proof. intros [H|[<- H]]; [left; apply sc_neg; exact H|right]. split; [reflexivity|]. rewrite is_finite_Bopp. exact H. Qed.

Lemma orsame_sub e lo n x x' y y' : (-1022 <= lo)%Z -> (-1000 <= n <= 1020)%Z -> orsame (sc e lo n) x x' -> orsame (sc e lo n) y y' ->
  orsame (sc e lo (n + 1)) (Bminus mode_NE x y) (Bminus mode_NE x' y').
Proof.
  intros Hl Hn Hx Hy. rewrite !minus_plus. apply (orsame_plus (sc e lo n) (sc e lo n)); [apply sc_fin|apply sc_fin| |exact Hx|apply orsame_opp; exact Hy].
  apply sc_add; assumption.
Qed.

Lemma orsame_acc e lo n k x x' y y' : (-1022 <= lo)%Z -> (-1000 <= n <= 900)%Z -> (0 <= k < 2 ^ 53)%Z ->
  orsame (scr e lo (IZR k * bpow radix2 n)) x x' -> orsame (sc e lo n) y y' ->
  orsame (scr e lo (IZR (k + 1) * bpow radix2 n)) (Bplus mode_NE x y) (Bplus mode_NE x' y').
Proof.
  intros Hl Hn Hk Hx Hy. apply (orsame_plus (scr e lo (IZR k * bpow radix2 n)) (sc e lo n)); [apply scr_fin|apply sc_fin| |exact Hx|exact Hy].
  apply acc_add; assumption.
Qed.

Lemma acc_list e lo n (l l' : list b64) : (-1022 <= lo)%Z -> (-1000 <= n <= 900)%Z -> Forall2 (orsame (sc e lo n)) l l' ->
  forall k acc acc', (0 <= k)%Z -> (k + Z.of_nat (length l) <= 2 ^ 53)%Z -> orsame (scr e lo (IZR k * bpow radix2 n)) acc acc' ->
  orsame (scr e lo (IZR (k + Z.of_nat (length l)) * bpow radix2 n)) (fold_left (Bplus mode_NE) l acc) (fold_left (Bplus mode_NE) l' acc').
Proof.
  intros Hl Hn H. induction H as [|x x' l l' Hx H IH]; intros k acc acc' Hk Hb Ha; cbn [fold_left length] in *.
  - rewrite Z.add_0_r. exact Ha.
  - replace (k + Z.of_nat (Datatypes.S (length l)))%Z with (k + 1 + Z.of_nat (length l))%Z by lia.
    apply IH; [lia|lia|]. apply orsame_acc; try assumption; lia.
Qed.

Lemma scr_zero e lo B : 0 <= B -> scr e lo B (b64_ofZ 0) (b64_ofZ 0).
Proof.
  intros HB. destruct (sc_zero e lo 0) as [H1 [H2 [H3 [H4 [H5 [H6 _]]]]]].
  assert (Z0 : B2R (b64_ofZ 0) = 0) by reflexivity. unfold scr. rewrite Z0 in *. rewrite Rabs_R0.
  repeat (split; [assumption|]). assumption.
Qed.

(** ** Products *)
Definition shape (x y : b64) : Prop := Bsign x = Bsign y /\ (B2R x = 0 <-> B2R y = 0) /\ is_finite x = true /\ is_finite y = true.

Lemma sc_shape e lo B x y : scr e lo B x y -> shape x y.
Proof.
  intros [F [F' [S [E _]]]]. split; [exact S|]. split; [|auto]. rewrite E. pose proof (bpow_gt_0 radix2 e).
  split; [intros ->; ring|]. intros C. apply Rmult_integral in C. destruct C; [lra|assumption].
Qed.

Lemma finite_nz s m ex H : B2R (B754_finite s m ex H : b64) <> 0.
Proof. intros C. cbn in C. apply eq_0_F2R in C. destruct s; discriminate. Qed.

Lemma mult_nonfin_l (x y y' : b64) : is_finite x = false -> shape y y' \/ y = y' ->
  Bmult mode_NE x y = Bmult mode_NE x y' /\ is_finite (Bmult mode_NE x y) = false.
Proof.
  intros Fx [[Sy [Zy [Fy Fy']]]|<-].
  - destruct x as [s|s| |s m e H]; try discriminate; destruct y as [t|t| |t m' e' H']; try discriminate; destruct y' as [u|u| |u m'' e'' H'']; try discriminate;
      cbn in Sy; subst u; split; try reflexivity; exfalso; first [exact (finite_nz _ _ _ _ (proj1 Zy eq_refl))|exact (finite_nz _ _ _ _ (proj2 Zy eq_refl))].
  - split; [reflexivity|]. destruct x as [s|s| |s m e H]; try discriminate; destruct y as [t|t| |t m' e' H']; reflexivity.
Qed.

Lemma mult_comm (x y : b64) : Bmult mode_NE x y = Bmult mode_NE y x.
Proof.
  assert (G : forall a b : b64, is_finite a = true -> is_finite b = true -> Bmult mode_NE a b = Bmult mode_NE b a).
  { intros a b Fa Fb. pose proof (Bmult_correct 53 1024 _ _ mode_NE a b) as K. pose proof (Bmult_correct 53 1024 _ _ mode_NE b a) as K'.
    rewrite (Rmult_comm (B2R b)) in K'. rewrite Fa, Fb in *. destruct (Rlt_bool _ _).
    - destruct K as [K1 [K2 K3]], K' as [K1' [K2' K3']]. apply B2R_Bsign_inj; try assumption; [congruence|].
      rewrite K3, K3' by (match goal with |- is_nan ?b = false => destruct b; try discriminate; reflexivity end). apply xorb_comm.
    - apply B2SF_inj. rewrite K, K', xorb_comm. reflexivity. }
  destruct (is_finite x) eqn:Fx, (is_finite y) eqn:Fy; [apply G; assumption| | |];
    destruct x as [s|s| |s m e H]; try discriminate; destruct y as [t|t| |t m' e' H']; try discriminate; cbn; rewrite ?(xorb_comm s t); reflexivity.
Qed.

Lemma orsame_mult e e' lo lo' n n' x x' y y' : (-1022 <= lo + lo')%Z -> (-1000 <= n + n' <= 1020)%Z -> orsame (sc e lo n) x x' -> orsame (sc e' lo' n') y y' ->
  orsame (sc (e + e') (lo + lo') (n + n')) (Bmult mode_NE x y) (Bmult mode_NE x' y').
Proof.
  intros Hl Hn [Hx|[<- Hx]] [Hy|[<- Hy]]; [left; apply sc_mult; assumption|right|right|right].
  - rewrite !(mult_comm _ y). apply mult_nonfin_l; [exact Hy|]. left. exact (sc_shape _ _ _ _ _ Hx).
  - apply mult_nonfin_l; [exact Hx|]. left. exact (sc_shape _ _ _ _ _ Hy).
  - apply mult_nonfin_l; [exact Hx|]. right. reflexivity.
Qed.

(** same exact product, same double *)
Lemma mult_same (x y x' y' : b64) : is_finite x = true -> is_finite y = true -> is_finite x' = true -> is_finite y' = true ->
  Bsign x = Bsign x' -> Bsign y = Bsign y' -> B2R x * B2R y = B2R x' * B2R y' -> Bmult mode_NE x y = Bmult mode_NE x' y'.
Proof.
  intros Fx Fy Fx' Fy' Sx Sy E. pose proof (Bmult_correct 53 1024 _ _ mode_NE x y) as K. pose proof (Bmult_correct 53 1024 _ _ mode_NE x' y') as K'.
  rewrite <- E in K'. rewrite Fx, Fy in K. rewrite Fx', Fy' in K'. destruct (Rlt_bool _ _).
  - destruct K as [K1 [K2 K3]], K' as [K1' [K2' K3']]. apply B2R_Bsign_inj; try assumption; [congruence|].
    rewrite K3, K3' by (match goal with |- is_nan ?b = false => destruct b; try discriminate; reflexivity end). congruence.
  - apply B2SF_inj. rewrite K, K', Sx, Sy. reflexivity.
Qed.

(** ** Quotients *)
Lemma rnd_pow2_big e x : bpow radix2 (-1022) <= Rabs x -> bpow radix2 (-1022) <= Rabs (bpow radix2 e * x) -> rnd (bpow radix2 e * x) = bpow radix2 e * rnd x.
Proof.
  intros G G'. assert (Hx : x <> 0) by (intros ->; rewrite Rabs_R0 in G; pose proof (bpow_gt_0 radix2 (-1022)); lra).
  unfold rnd. rewrite !(round_FLT_FLX radix2 (-1074) 53) by assumption.
  unfold round, scaled_mantissa, cexp, FLX_exp. rewrite (Rmult_comm (bpow radix2 e) x), mag_mult_bpow by exact Hx.
  replace (mag radix2 x + e - 53)%Z with (mag radix2 x - 53 + e)%Z by lia.
  rewrite Rmult_assoc, <- bpow_plus. replace (e + - (mag radix2 x - 53 + e))%Z with (- (mag radix2 x - 53))%Z by lia.
  unfold F2R. cbn [Fnum Fexp]. rewrite (bpow_plus radix2 _ e). ring.
Qed.

Lemma rnd_lower n x : (-1074 <= n)%Z -> bpow radix2 n <= Rabs x -> bpow radix2 n <= Rabs (rnd x).
Proof.
  intros Hn H. unfold rnd. apply abs_round_ge_generic; [apply FLT_exp_valid; reflexivity|apply valid_rnd_N| |exact H].
  apply generic_format_bpow. unfold fexp64, FLT_exp. lia.
Qed.

(** a double of at least [2^n] in size is a multiple of [2^(n-52)] *)
Lemma grain_of_lower n (x : b64) : bpow radix2 n <= Rabs (B2R x) -> grain (n - 52) (B2R x).
Proof.
  intros H. apply (generic_inclusion_mag radix2 fexp64); [|apply (generic_format_B2R 53 1024)].
  intros Hx. unfold FIX_exp, fexp64, FLT_exp. pose proof (mag_ge_bpow radix2 (B2R x) (n + 1) ltac:(replace (n + 1 - 1)%Z with n by lia; exact H)). lia.
Qed.

Lemma div_sign (x y : b64) : is_finite x = true -> is_finite y = true -> B2R y <> 0 -> Rabs (rnd (B2R x / B2R y)) < big ->
  is_finite (Bdiv mode_NE x y) = true /\ B2R (Bdiv mode_NE x y) = rnd (B2R x / B2R y) /\ Bsign (Bdiv mode_NE x y) = xorb (Bsign x) (Bsign y).
Proof.
  intros Fx Fy N H. pose proof (Bdiv_correct 53 1024 _ _ mode_NE x y N) as K. rewrite Rlt_bool_true in K by exact H. rewrite Fx in K.
  destruct K as [K1 [K2 K3]]. split; [exact K2|]. split; [exact K1|]. apply K3. destruct (Bdiv mode_NE x y); try discriminate; reflexivity.
Qed.

(** division of scaled numbers by a count *)
Lemma sc_div_count e lo n c x y k : (-900 <= lo)%Z -> (-1000 <= n <= 1000)%Z -> is_finite c = true -> B2R c = IZR k -> (1 <= k <= 2 ^ 50)%Z -> sc e lo n x y ->
  sc e (lo - 102) n (Bdiv mode_NE x c) (Bdiv mode_NE y c).
Proof.
  intros Hl Hn Fc Ec Hk [F [F' [S [E [G [G' [B B']]]]]]].
  assert (K1 : 1 <= IZR k) by (apply IZR_le; lia). assert (K2 : IZR k <= bpow radix2 50) by (change (bpow radix2 50) with (IZR (2 ^ 50)); apply IZR_le; lia).
  assert (Nz : B2R c <> 0) by lra.
  assert (up : forall r, Rabs r <= bpow radix2 n -> Rabs (r / B2R c) <= bpow radix2 n).
  { intros r Hr. rewrite Ec. unfold Rdiv. rewrite Rabs_mult, (Rabs_pos_eq (/ IZR k)) by (apply Rlt_le, Rinv_0_lt_compat; lra).
    apply Rle_trans with (Rabs r * 1); [|lra]. apply Rmult_le_compat_l; [apply Rabs_pos|]. rewrite <- Rinv_1. apply Rinv_le; lra. }
  assert (low : forall r, grain lo r -> r <> 0 -> bpow radix2 (lo - 50) <= Rabs (r / B2R c)).
  { intros r Gr Hr. rewrite Ec. unfold Rdiv. rewrite Rabs_mult, (Rabs_pos_eq (/ IZR k)) by (apply Rlt_le, Rinv_0_lt_compat; lra).
    replace (lo - 50)%Z with (lo + - (50))%Z by lia. rewrite bpow_plus. apply Rmult_le_compat; try apply bpow_ge_0; [apply grain_small; assumption|].
    rewrite bpow_opp. apply Rinv_le; lra. }
  assert (D : forall a : b64, is_finite a = true -> grain lo (B2R a) -> Rabs (B2R a) <= bpow radix2 n ->
     is_finite (Bdiv mode_NE a c) = true /\ B2R (Bdiv mode_NE a c) = rnd (B2R a / B2R c) /\ Bsign (Bdiv mode_NE a c) = xorb (Bsign a) (Bsign c) /\
     grain (lo - 102) (B2R (Bdiv mode_NE a c)) /\ Rabs (B2R (Bdiv mode_NE a c)) <= bpow radix2 n).
  { intros a Fa Ga Ba. assert (Bq : Rabs (rnd (B2R a / B2R c)) <= bpow radix2 n) by (apply rnd_bound; [lia|apply up; exact Ba]).
    destruct (div_sign a c Fa Fc Nz) as [D1 [D2 D3]]; [eapply Rle_lt_trans; [exact Bq|apply big_gt; lia]|].
    split; [exact D1|]. split; [exact D2|]. split; [exact D3|]. split; [|rewrite D2; exact Bq].
    destruct (Req_dec (B2R a) 0) as [Z|Z].
    - rewrite D2, Z. unfold Rdiv. rewrite Rmult_0_l, rnd_0. apply generic_format_0.
    - replace (lo - 102)%Z with (lo - 50 - 52)%Z by lia. apply grain_of_lower. rewrite D2. apply rnd_lower; [lia|]. apply low; assumption. }
  destruct (D x F G B) as [D1 [D2 [D3 [D4 D5]]]]. destruct (D y F' G' B') as [D1' [D2' [D3' [D4' D5']]]].
  split; [exact D1|]. split; [exact D1'|]. split; [rewrite D3, D3', S; reflexivity|]. split; [|auto].
  rewrite D2, D2', E. replace (bpow radix2 e * B2R x / B2R c) with (bpow radix2 e * (B2R x / B2R c)) by (field; exact Nz).
  destruct (Req_dec (B2R x) 0) as [Z|Z]; [rewrite Z; unfold Rdiv; rewrite !Rmult_0_l, !Rmult_0_r, rnd_0; ring|].
  assert (Z' : B2R y <> 0) by (rewrite E; apply Rmult_integral_contrapositive; split; [apply Rgt_not_eq, bpow_gt_0|exact Z]).
  assert (P : bpow radix2 (-1022) <= bpow radix2 (lo - 50)) by (apply bpow_le; lia).
  apply rnd_pow2_big; [pose proof (low _ G Z); lra|].
  replace (bpow radix2 e * (B2R x / B2R c)) with (B2R y / B2R c) by (rewrite E; field; exact Nz). pose proof (low _ G' Z'). lra.
Qed.

Lemma div_nonfin (x c : b64) : is_finite x = false -> is_finite c = true -> is_finite (Bdiv mode_NE x c) = false.
Proof. destruct x as [s|s| |s m e H]; try discriminate; destruct c as [t|t| |t m' e' H']; try discriminate; reflexivity. Qed.

Lemma orsame_div_count e lo n c x y k : (-900 <= lo)%Z -> (-1000 <= n <= 1000)%Z -> is_finite c = true -> B2R c = IZR k -> (1 <= k <= 2 ^ 50)%Z -> orsame (sc e lo n) x y ->
  orsame (sc e (lo - 102) n) (Bdiv mode_NE x c) (Bdiv mode_NE y c).
Proof.
  intros Hl Hn Fc Ec Hk [H|[<- H]]; [left; apply (sc_div_count e lo n c x y k); assumption|right]. split; [reflexivity|apply div_nonfin; assumption].
Qed.

(** the sum divided by the norm *)
Lemma quotient_same e lo B lo' n P P' N N' : (-1000 <= lo')%Z -> (n <= 1000)%Z -> orsame (scr e lo B) P P' -> orsame (sc e lo' n) N N' ->
  Bmult mode_NE P (Bdiv mode_NE (b64_ofZ 1) N) = Bmult mode_NE P' (Bdiv mode_NE (b64_ofZ 1) N').
Proof.
  intros Hl Hn HP HN.
  assert (O1 : is_finite (b64_ofZ 1) = true /\ B2R (b64_ofZ 1) = 1) by (apply E_fin, (toE_ofZ_small 1); lia). destruct O1 as [F1 E1].
  assert (Hs : (Bdiv mode_NE (b64_ofZ 1) N = Bdiv mode_NE (b64_ofZ 1) N' /\ (is_finite (Bdiv mode_NE (b64_ofZ 1) N) = false \/ B2R (Bdiv mode_NE (b64_ofZ 1) N) = 0)) \/
     (shape (Bdiv mode_NE (b64_ofZ 1) N) (Bdiv mode_NE (b64_ofZ 1) N') /\ B2R (Bdiv mode_NE (b64_ofZ 1) N) = bpow radix2 e * B2R (Bdiv mode_NE (b64_ofZ 1) N'))).
  { destruct HN as [HN|[<- HN]]; [|left; split; [reflexivity|]; destruct N as [s|s| |s m ex H]; try discriminate; [right|left]; reflexivity]. pose proof HN as [F [F' [S [E [G [G' [B1 B2]]]]]]].
    destruct (Req_dec (B2R N) 0) as [Z|Z].
    - left. assert (Z' : B2R N' = 0) by (rewrite E, Z; ring).
      destruct N as [s|s| |s m ex H]; try discriminate; [|exfalso; exact (finite_nz _ _ _ _ Z)].
      destruct N' as [s'|s'| |s' m' ex' H']; try discriminate; [|exfalso; exact (finite_nz _ _ _ _ Z')]. cbn in S. subst s'. split; [reflexivity|left; reflexivity].
    - right. assert (Z' : B2R N' <> 0) by (rewrite E; apply Rmult_integral_contrapositive; split; [apply Rgt_not_eq, bpow_gt_0|exact Z]).
      assert (D : forall a : b64, is_finite a = true -> B2R a <> 0 -> grain lo' (B2R a) -> Rabs (B2R a) <= bpow radix2 n ->
        is_finite (Bdiv mode_NE (b64_ofZ 1) a) = true /\ B2R (Bdiv mode_NE (b64_ofZ 1) a) = rnd (/ B2R a) /\ Bsign (Bdiv mode_NE (b64_ofZ 1) a) = Bsign a /\
        bpow radix2 (- n) <= Rabs (/ B2R a)).
      { intros a Fa Za Ga Ba.
        assert (up : Rabs (/ B2R a) <= bpow radix2 (- lo')).
        { rewrite Rabs_inv, bpow_opp. apply Rinv_le; [apply bpow_gt_0|apply grain_small; assumption]. }
        assert (Q : B2R (b64_ofZ 1) / B2R a = / B2R a) by (rewrite E1; unfold Rdiv; ring).
        destruct (div_sign (b64_ofZ 1) a F1 Fa Za) as [D1 [D2 D3]].
        { rewrite Q. eapply Rle_lt_trans; [apply (rnd_bound (- lo')); [|exact up]|apply big_gt; lia].
          assert (lo' <= n)%Z by (apply (le_bpow radix2); eapply Rle_trans; [apply grain_small; eassumption|exact Ba]). lia. }
        rewrite Q in D2. split; [exact D1|]. split; [exact D2|]. split; [rewrite D3; change (Bsign (b64_ofZ 1)) with false; destruct (Bsign a); reflexivity|].
        rewrite Rabs_inv, bpow_opp. apply Rinv_le; [apply Rabs_pos_lt; exact Za|exact Ba]. }
      destruct (D N F Z G B1) as [D1 [D2 [D3 D4]]]. destruct (D N' F' Z' G' B2) as [D1' [D2' [D3' D4']]].
      assert (lw : bpow radix2 (-1022) <= bpow radix2 (- n)) by (apply bpow_le; lia).
      assert (Ei : / B2R N = bpow radix2 e * / B2R N').
      { rewrite E. pose proof (bpow_gt_0 radix2 e). field. split; [exact Z|lra]. }
      assert (Er : rnd (/ B2R N) = bpow radix2 e * rnd (/ B2R N')).
      { rewrite Ei. apply rnd_pow2_big; [lra|]. rewrite <- Ei. lra. }
      split; [|rewrite D2, D2'; exact Er]. split; [rewrite D3, D3'; exact S|]. split; [|auto]. rewrite D2, D2', Er.
      pose proof (bpow_gt_0 radix2 e). split; [intros C; apply Rmult_integral in C; destruct C; [lra|assumption]|intros ->; ring]. }
  destruct HP as [HP|[<- HP]].
  - pose proof (sc_shape _ _ _ _ _ HP) as SP. pose proof HP as [F [F' [S [E _]]]]. destruct Hs as [[<- [FM|ZM]]|[[S2 [_ [F2 F2']]] E2]].
    + rewrite !(mult_comm _ (Bdiv mode_NE (b64_ofZ 1) N)). apply mult_nonfin_l; [exact FM|left; exact SP].
    + destruct (is_finite (Bdiv mode_NE (b64_ofZ 1) N)) eqn:FM.
      * apply mult_same; try assumption; try reflexivity. rewrite ZM. ring.
      * rewrite !(mult_comm _ (Bdiv mode_NE (b64_ofZ 1) N)). apply mult_nonfin_l; [exact FM|left; exact SP].
    + apply mult_same; try assumption. rewrite E, E2. ring.
  - destruct Hs as [[<- _]|[Hs _]]; [reflexivity|]. apply mult_nonfin_l; [exact HP|left; exact Hs].
Qed.
