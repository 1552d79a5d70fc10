(** The whole call on times scaled by a power of two. *)
From Coq Require Import String.
From Coq Require Import ZArith Reals List Bool Arith Lia Lra.
From Flocq Require Import Core BinarySingleNaN.
From Verif Require Import Num Mem MemFacts XR B64 Spec SpecR DataStructure Correlator Sacf Api Laws B64Facts Laws2 DSFacts CorrFacts LoopFacts MainFacts
  RelFacts ConstrFacts TimeFacts SelFacts DefaultFacts AccFacts SimFacts FixedFacts Pow2Facts.
Import ListNotations.
Local Open Scope list_scope.
Local Open Scope R_scope.

Lemma Forall2_weaken {X Y} (P Q : X -> Y -> Prop) l l' : (forall x y, P x y -> Q x y) -> Forall2 P l l' -> Forall2 Q l l'.
Proof. intros H. induction 1; constructor; auto. Qed.

Section Core.
Context (exp64 : b64 -> b64) (e tm : Z) (Htm : (0 <= tm <= 400)%Z).
Notation BN := (B64 exp64).
(** scaled by [2^e], multiples of [2^(-tm-52)], at most [2^(tm+k)] *)
Notation S k := (sc e (- tm - 52) (tm + k)).

Lemma S_add k x x' y y' : (0 <= k <= 3)%Z -> S k x x' -> S k y y' -> S (k + 1) (Bplus mode_NE x y) (Bplus mode_NE x' y').
Proof. intros Hk Hx Hy. rewrite Z.add_assoc. apply sc_add; try assumption; lia. Qed.
Lemma S_sub k x x' y y' : (0 <= k <= 3)%Z -> S k x x' -> S k y y' -> S (k + 1) (Bminus mode_NE x y) (Bminus mode_NE x' y').
Proof. intros Hk Hx Hy. rewrite Z.add_assoc. apply sc_sub; try assumption; lia. Qed.

Lemma sc_rel_times (ts ts' : list b64) : Forall2 (S 0) ts ts' -> Forall2 (S 1) (rel_times (A := BN) ts) (rel_times (A := BN) ts').
Proof.
  intros H. destruct H as [|t t' ts ts' Ht H]; [constructor|]. unfold rel_times. cbn [map].
  assert (G : forall x x', S 0 x x' -> S 1 (Bminus mode_NE x t) (Bminus mode_NE x' t')) by (intros x x' Hx; apply (S_sub 0); try assumption; lia).
  constructor; [apply G; exact Ht|]. induction H as [|x x' l l' Hx Hl IH]; cbn [map]; constructor; [apply G; exact Hx|exact IH].
Qed.

Lemma sc_min_loop (l l' : list b64) dd dd' : Forall2 (S 1) l l' -> S 2 dd dd' ->
  S 2 (findMinDiff_loop (A := BN) l dd) (findMinDiff_loop (A := BN) l' dd').
Proof.
  intros H. revert dd dd'. induction H as [|x x' l l' Hx Hl IH]; intros dd dd' Hd; [exact Hd|].
  destruct Hl as [|y y' l l' Hy Hl]; [exact Hd|]. cbn [findMinDiff_loop].
  change (@nsub BN y x) with (Bminus mode_NE y x). change (@nsub BN y' x') with (Bminus mode_NE y' x').
  assert (Hs : S 2 (Bminus mode_NE y x) (Bminus mode_NE y' x')) by (apply (S_sub 1); try assumption; lia).
  change (@nlt BN (Bminus mode_NE y x) dd) with (Bltb (Bminus mode_NE y x) dd).
  change (@nlt BN (Bminus mode_NE y' x') dd') with (Bltb (Bminus mode_NE y' x') dd'). rewrite (sc_lt _ _ _ _ _ _ _ _ _ Hs Hd).
  apply IH. destruct (Bltb (Bminus mode_NE y' x') dd'); assumption.
Qed.

Lemma lt_max (x : b64) n : is_finite x = true -> (n <= 1013)%Z -> Rabs (B2R x) <= bpow radix2 n -> Bltb x Bmax_float = true.
Proof.
  intros F Hn H. rewrite Bltb_correct by (try exact F; reflexivity). apply Rlt_bool_true.
  apply Rle_lt_trans with (bpow radix2 1013); [apply Rle_trans with (Rabs (B2R x)); [apply Rle_abs|]; eapply Rle_trans; [exact H|apply bpow_le; exact Hn]|].
  apply Rlt_le_trans with (bpow radix2 1023); [apply bpow_lt; lia|].
  unfold Bmax_float. rewrite B2R_SF2B. unfold SF2R, F2R. cbn [Fnum Fexp cond_Zopp].
  change (bpow radix2 1023) with (bpow radix2 (52 + (1024 - 53))). rewrite (bpow_plus radix2 52).
  apply Rmult_le_compat_r; [apply bpow_ge_0|]. change (bpow radix2 52) with (IZR (2 ^ 52)). apply IZR_le. vm_compute. discriminate.
Qed.

Lemma sc_min (l l' : list b64) : Forall2 (S 1) l l' -> (2 <= length l)%nat ->
  S 2 (findMinDiff (A := BN) l) (findMinDiff (A := BN) l').
Proof.
  intros H Hl. destruct H as [|x x' l l' Hx H]; [cbn in Hl; lia|]. destruct H as [|y y' l l' Hy H]; [cbn in Hl; lia|].
  unfold findMinDiff. cbn [findMinDiff_loop].
  change (@nsub BN y x) with (Bminus mode_NE y x). change (@nsub BN y' x') with (Bminus mode_NE y' x').
  assert (Hs : S 2 (Bminus mode_NE y x) (Bminus mode_NE y' x')) by (apply (S_sub 1); try assumption; lia).
  change (@nlt BN (Bminus mode_NE y x) (@ndblmax BN)) with (Bltb (Bminus mode_NE y x) Bmax_float).
  change (@nlt BN (Bminus mode_NE y' x') (@ndblmax BN)) with (Bltb (Bminus mode_NE y' x') Bmax_float).
  pose proof Hs as [F [F' [_ [_ [_ [_ [B B']]]]]]]. rewrite (lt_max _ (tm + 2) F ltac:(lia) B), (lt_max _ (tm + 2) F' ltac:(lia) B').
  apply (sc_min_loop (y :: l) (y' :: l')); [constructor; assumption|exact Hs].
Qed.

Lemma sc_allot (nt nt' : list b64) : Forall2 (S 1) nt nt' -> (2 <= length nt)%nat -> allot (A := BN) nt = allot (A := BN) nt'.
Proof.
  intros H Hl. unfold allot. pose proof (sc_min nt nt' H Hl) as Hm.
  assert (N : nt <> []) by (intros ->; cbn in Hl; lia). assert (N' : nt' <> []) by (intros ->; apply Forall2_len in H; cbn in H; lia).
  rewrite (lback_ok (nt : list (@num BN)) (b64_ofZ 0) N), (lback_ok (nt' : list (@num BN)) (b64_ofZ 0) N'). cbn [bind].
  pose proof (Forall2_last (S 1) nt nt' _ _ (sc_zero e (- tm - 52) (tm + 1)) H) as HL.
  set (m := last nt (b64_ofZ 0)) in *. set (m' := last nt' (b64_ofZ 0)) in *.
  change (@last (@num BN) nt (b64_ofZ 0)) with m. change (@last (@num BN) nt' (b64_ofZ 0)) with m'.
  change (@nsub BN m (@nneg BN m)) with (Bminus mode_NE m (Bopp m)). change (@nsub BN m' (@nneg BN m')) with (Bminus mode_NE m' (Bopp m')).
  assert (Hs : S 2 (Bminus mode_NE m (Bopp m)) (Bminus mode_NE m' (Bopp m'))) by (apply (S_sub 1); try lia; [|apply sc_neg]; exact HL).
  assert (E : @ndiv BN (Bminus mode_NE m (Bopp m)) (findMinDiff (A := BN) nt) = @ndiv BN (Bminus mode_NE m' (Bopp m')) (findMinDiff (A := BN) nt')).
  { exact (sc_div _ _ _ _ _ _ _ _ _ Hs Hm). }
  rewrite E. reflexivity.
Qed.

Lemma sc_nth (l l' : list b64) i n : Forall2 (S n) l l' -> S n (nth i l (b64_ofZ 0)) (nth i l' (b64_ofZ 0)).
Proof.
  intros H. revert i. induction H as [|x x' l l' Hx Hl IH]; intros [|i]; cbn; auto using sc_zero.
Qed.

Lemma sc_middle (l l' : list b64) : Forall2 (S 1) l l' -> sc e (- tm - 53) (tm + 2) (middle (A := BN) l (b64_ofZ 0)) (middle (A := BN) l' (b64_ofZ 0)).
Proof.
  intros H. unfold middle. change (@length (@num BN) l) with (@length b64 l). change (@length (@num BN) l') with (@length b64 l').
  rewrite <- (Forall2_len _ _ _ H). destruct (length l mod 2 =? 0)%nat.
  - replace (- tm - 53)%Z with (- tm - 52 - 1)%Z by lia. apply (sc_half e (- tm - 52) (tm + 2)); [lia|lia|]. apply (S_add 1); try lia; apply sc_nth; exact H.
  - apply (sc_mono e (- tm - 52) (- tm - 53) (tm + 1) (tm + 2)); try lia. apply sc_nth. exact H.
Qed.

(** the three weights *)
Lemma weight_same wgt al al' w w' dt dt' : sc e (- tm - 53) (tm + 2) al al' -> S 4 dt dt' ->
  weight_named (A := BN) wgt al = Some w -> weight_named (A := BN) wgt al' = Some w' -> w dt = w' dt'.
Proof.
  intros Ha Hd. unfold weight_named.
  assert (Q : @ndiv BN dt al = @ndiv BN dt' al') by exact (sc_div _ _ _ _ _ _ _ _ _ Hd Ha).
  destruct (String.eqb wgt "gaussian"); [|destruct (String.eqb wgt "fractional"); [|destruct (String.eqb wgt "fractional_squared"); [|discriminate]]];
    intros E E'; injection E as <-; injection E' as <-.
  - unfold gaussianWeightFunction. f_equal.
    change (Bdiv mode_NE (Bopp (Bmult mode_NE dt dt)) (Bmult mode_NE (Bmult mode_NE (b64_ofZ 2) al) al) =
            Bdiv mode_NE (Bopp (Bmult mode_NE dt' dt')) (Bmult mode_NE (Bmult mode_NE (b64_ofZ 2) al') al')).
    assert (H2 : sc 0 0 1 (b64_ofZ 2) (b64_ofZ 2)).
    { destruct (E_fin _ _ (toE_ofZ_small 2 ltac:(lia))) as [F K]. unfold sc. rewrite K. change (bpow radix2 0) with 1. change (bpow radix2 1) with 2.
      assert (G : grain 0 2) by (apply generic_format_FIX; exists (Float radix2 2 0); [unfold F2R; cbn; ring|reflexivity]).
      rewrite (Rabs_pos_eq 2) by lra. repeat (split; [first [assumption|reflexivity|lra]|]). lra. }
    pose proof (sc_mult e e (- tm - 52) (- tm - 52) (tm + 4) (tm + 4) _ _ _ _ ltac:(lia) ltac:(lia) Hd Hd) as H1.
    pose proof (sc_mult 0 e 0 (- tm - 53) 1 (tm + 2) _ _ _ _ ltac:(lia) ltac:(lia) H2 Ha) as H3.
    pose proof (sc_mult (0 + e) e (0 + (- tm - 53)) (- tm - 53) (1 + (tm + 2)) (tm + 2) _ _ _ _ ltac:(lia) ltac:(lia) H3 Ha) as H4.
    replace (0 + e + e)%Z with (e + e)%Z in H4 by lia.
    exact (sc_div _ _ _ _ _ _ _ _ _ (sc_neg _ _ _ _ _ H1) H4).
  - unfold fractionWeightFunction. rewrite Q. reflexivity.
  - unfold fractionSquaredWeightFunction. rewrite Q. reflexivity.
Qed.

Definition Lsc (x y : b64) : Prop := S 4 x y /\ - bpow radix2 (tm + 2) <= B2R x /\ - bpow radix2 (tm + 2) <= B2R y.

(** the unqualified abs: with the integer version the factor has to be one *)
Lemma sc_cabs p k x x' : p_abs p = AbsFloat \/ e = 0%Z -> S k x x' -> same_outcome (S k) (cabs (A := BN) p x) (cabs (A := BN) p x').
Proof.
  intros Hp Hx. unfold cabs. destruct (p_abs p) eqn:Ep; [cbn; apply sc_abs; exact Hx|].
  destruct Hp as [Hp|He]; [discriminate|]. destruct Hx as [F [F' [Sg [E [G [_ [B _]]]]]]].
  assert (Ex : x' = x) by (apply B2R_Bsign_inj; try assumption; [rewrite E, He; change (bpow radix2 0) with 1; ring|symmetry; exact Sg]). subst x'.
  change (@ntrunc BN x) with (b64_trunc x). rewrite b64_trunc_R by exact F.
  unfold to_int. destruct (in_int (Ztrunc (B2R x))) eqn:Ei; [|reflexivity]. cbn [bind].
  destruct (Ztrunc (B2R x) =? INT_MIN)%Z; [reflexivity|]. cbn [same_outcome].
  assert (Hz : (Z.abs (Ztrunc (B2R x)) <= 2 ^ 31)%Z).
  { unfold in_int, INT_MIN, INT_MAX in Ei. apply andb_prop in Ei. destruct Ei as [E1 E2]. apply Z.leb_le in E1, E2. lia. }
  destruct (E_fin _ _ (toE_ofZ_small (Z.abs (Ztrunc (B2R x))) ltac:(lia))) as [Fz Ez].
  change (@nofZ BN (Z.abs (Ztrunc (B2R x)))) with (b64_ofZ (Z.abs (Ztrunc (B2R x)))).
  assert (Gz : grain (- tm - 52) (B2R (b64_ofZ (Z.abs (Ztrunc (B2R x)))))).
  { rewrite Ez. apply generic_format_FIX. exists (Float radix2 (Z.abs (Ztrunc (B2R x)) * 2 ^ (tm + 52)) (- tm - 52)); [|reflexivity].
    unfold F2R. cbn [Fnum Fexp]. rewrite mult_IZR. change 2%Z with (radix_val radix2) at 1. rewrite IZR_Zpower by lia.
    rewrite Rmult_assoc, <- bpow_plus. replace (tm + 52 + (- tm - 52))%Z with 0%Z by lia. change (bpow radix2 0) with 1. ring. }
  assert (Bz : Rabs (B2R (b64_ofZ (Z.abs (Ztrunc (B2R x))))) <= bpow radix2 (tm + k)).
  { eapply Rle_trans; [|exact B]. rewrite Ez, abs_IZR, Rabs_Rabsolu. destruct (Rle_or_lt 0 (B2R x)) as [H0|H0].
    - rewrite Ztrunc_floor by exact H0. rewrite !Rabs_pos_eq; [apply Zfloor_lb|exact H0|apply IZR_le; apply Zfloor_lub; exact H0].
    - rewrite Ztrunc_ceil by lra. rewrite !Rabs_left1; [apply Ropp_le_contravar; apply Zceil_ub|lra|apply IZR_le; apply Zceil_glb; cbn; lra]. }
  repeat (split; [first [assumption|reflexivity|rewrite He; change (bpow radix2 0) with 1; ring]|]). assumption.
Qed.

Lemma sc_core_rel p (ts ts' : list b64) mi mi' ma ma' re re' al al' sel wgt : p_abs p = AbsFloat \/ e = 0%Z ->
  Forall2 (S 0) ts ts' -> (2 <= length ts)%nat -> ordered (A := BN) ts ->
  opt_rel (S 0) mi mi' -> opt_rel (S 0) ma ma' -> opt_rel (fun x y => S 0 x y /\ 0 <= B2R x) re re' -> opt_rel (S 0) al al' ->
  exists A A', sc e (- tm - 53) (tm + 2) A A' /\
  same_outcome (fun x y => Forall2 (S 2) (fst x) (fst y) /\ Forall2 (fun_rel (A := BN) (B := BN) (S 4) wgt A A') (snd x) (snd y))
    (acf_core (A := BN) p ts mi ma re al sel wgt) (acf_core (A := BN) p ts' mi' ma' re' al' sel wgt).
Proof.
  intros Hp H Hl Ho Hmi Hma Hre Hal.
  pose proof (sc_rel_times ts ts' H) as Hn. pose proof (arith_binary64 exp64) as HA.
  assert (HF : forall x, In x ts -> finite (A := BN) x).
  { intros x Hx. apply In_nth_error in Hx. destruct Hx as [i Hi]. pose proof (Forall2_nth_error (S 0) ts ts' i H) as K. rewrite Hi in K.
    destruct (nth_error ts' i); [|contradiction]. destruct K as [F _]. unfold finite. change (@nfloor BN x) with (b64_floor x). rewrite b64_floor_R by exact F. discriminate. }
  pose proof (@rel_times_ordered BN (arith_laws _ HA) ts Ho HF) as Hor.
  assert (Hl' : (2 <= @length b64 (rel_times (A := BN) ts))%nat) by (change (2 <= @length (@num BN) (rel_times (A := BN) ts))%nat; rewrite rel_times_length; exact Hl).
  pose proof (sc_allot _ _ Hn Hl') as EA. pose proof (sc_min _ _ Hn Hl') as Hr.
  pose proof (Forall2_last (S 1) _ _ _ _ (sc_zero e (- tm - 52) (tm + 1)) Hn) as HL. pose proof (sc_middle _ _ Hn) as HM.
  assert (P2 : 0 <= B2R (findMinDiff (A := BN) (rel_times (A := BN) ts) : b64)).
  { destruct (@findMinDiff_loop_spec BN (arith_laws _ HA) (rel_times (A := BN) ts) (@ndblmax BN) eq_refl) as [_ [_ Sp]].
    fold (findMinDiff (A := BN) (rel_times (A := BN) ts)) in Sp. destruct Sp as [E|[i [a [b [Ha [Hb [E _]]]]]]].
    - rewrite E. cbn [ndblmax B64]. unfold Bmax_float. rewrite B2R_SF2B. unfold SF2R. apply F2R_ge_0. cbn. lia.
    - rewrite E. change (@nsub BN b a) with (Bminus mode_NE b a). pose proof (Hor i (Datatypes.S i) a b ltac:(lia) Ha Hb) as Hab.
      assert (HFn : forall j x, nth_error (rel_times (A := BN) ts : list b64) j = Some x -> is_finite x = true /\ Rabs (B2R x) <= bpow radix2 (tm + 1)).
      { intros j x Hx. pose proof (Forall2_nth_error (S 1) _ _ j Hn) as K. rewrite Hx in K. destruct (nth_error _ j) as [y|] in K; [|contradiction].
        destruct K as [K1 [_ [_ [_ [_ [_ [K2 _]]]]]]]. auto. }
      destruct (HFn _ _ Ha) as [Fa Ba]. destruct (HFn _ _ Hb) as [Fb Bb].
      change (Bleb a b = true) in Hab. rewrite Bleb_correct in Hab by assumption. destruct (Rle_bool_spec (B2R a) (B2R b)) as [Hab'|]; [|discriminate].
      destruct (minus_fin b a Fb Fa) as [_ V].
      { eapply Rle_lt_trans; [apply (rnd_bound (tm + 2)); [lia|]|apply big_gt; lia]. apply Rle_trans with (Rabs (B2R b) + Rabs (B2R a)).
        - unfold Rminus. eapply Rle_trans; [apply Rabs_triang|]. rewrite Rabs_Ropp. lra.
        - replace (tm + 2)%Z with (tm + 1 + 1)%Z by lia. rewrite (bpow_plus radix2 (tm + 1)). change (bpow radix2 1) with 2. lra. }
      rewrite V. rewrite <- rnd_0. apply rnd_le. lra. }
  set (nt := rel_times (A := BN) ts : list b64) in *. set (nt' := rel_times (A := BN) ts' : list b64) in *.
  assert (oo : forall lo n (o o' : option b64) (x x' : b64), (lo <= - tm - 52)%Z -> (tm + 0 <= n)%Z -> opt_rel (S 0) o o' -> sc e lo n x x' -> sc e lo n (opt_or (A := BN) o x) (opt_or (A := BN) o' x')).
  { intros lo n o o' x x' H1 H2 K K'. destruct o, o'; cbn in *; try contradiction; [|exact K']. apply (sc_mono e (- tm - 52) lo (tm + 0) n); assumption. }
  assert (Hmax : S 2 (opt_or (A := BN) ma (last nt (b64_ofZ 0))) (opt_or (A := BN) ma' (last nt' (b64_ofZ 0)))).
  { apply oo; try lia; [exact Hma|]. apply (sc_mono e (- tm - 52) (- tm - 52) (tm + 1) (tm + 2)); try lia. exact HL. }
  assert (Hmin : S 2 (opt_or (A := BN) mi (Bopp (last nt (b64_ofZ 0)))) (opt_or (A := BN) mi' (Bopp (last nt' (b64_ofZ 0))))).
  { apply oo; try lia; [exact Hmi|]. apply sc_neg. apply (sc_mono e (- tm - 52) (- tm - 52) (tm + 1) (tm + 2)); try lia. exact HL. }
  assert (Hal' : sc e (- tm - 53) (tm + 2) (opt_or (A := BN) al (middle (A := BN) nt (b64_ofZ 0))) (opt_or (A := BN) al' (middle (A := BN) nt' (b64_ofZ 0)))).
  { apply oo; try lia; [exact Hal|exact HM]. }
  assert (Hres : S 2 (opt_or (A := BN) re (findMinDiff (A := BN) nt)) (opt_or (A := BN) re' (findMinDiff (A := BN) nt')) /\ 0 <= B2R (opt_or (A := BN) re (findMinDiff (A := BN) nt) : b64)).
  { destruct re as [r|], re' as [r'|]; cbn in Hre; try contradiction; cbn [opt_or].
    - destruct Hre as [K1 K2]. split; [|exact K2]. apply (sc_mono e (- tm - 52) (- tm - 52) (tm + 0) (tm + 2)); try lia. exact K1.
    - split; assumption. }
  assert (low : forall x y, S 2 x y -> - bpow radix2 (tm + 2) <= B2R x /\ - bpow radix2 (tm + 2) <= B2R y).
  { intros x y [_ [_ [_ [_ [_ [_ [B B']]]]]]]. apply Rabs_le_inv in B, B'. lra. }
  assert (mono : forall m n x y, (m <= n)%Z -> S m x y -> S n x y) by (intros m n x y Hmn; apply sc_mono; lia).
  assert (K : same_outcome (fun x y => Forall2 (S 2) (fst x) (fst y) /\
      Forall2 (fun_rel (A := BN) (B := BN) (S 4) wgt (opt_or (A := BN) al (middle (A := BN) nt (b64_ofZ 0))) (opt_or (A := BN) al' (middle (A := BN) nt' (b64_ofZ 0)))) (snd x) (snd y))
    (acf_core (A := BN) p ts mi ma re al sel wgt) (acf_core (A := BN) p ts' mi' ma' re' al' sel wgt)).
  { refine (acf_core_rel (A := BN) (B := BN) (S 2) (S 3) (S 4) _ _ _ _ _ _ p p eq_refl _ Lsc ts ts' mi mi' ma ma' re re' al al' sel wgt _ EA (sc_zero e (- tm - 52) (tm + 2)) _ _).
    - intros x x' y y' Hx Hy. exact (S_add 2 x x' y y' ltac:(lia) Hx Hy).
    - intros x x' y y' Hx Hy. exact (S_sub 3 x x' y y' ltac:(lia) Hx (mono 2%Z 3%Z _ _ ltac:(lia) Hy)).
    - intros x x' y y' Hx Hy. exact (S_sub 3 x x' y y' ltac:(lia) (mono 2%Z 3%Z _ _ ltac:(lia) Hx) Hy).
    - intros x x' y y' Hx Hy. exact (sc_lt _ _ _ _ _ _ _ _ _ Hx Hy).
    - intros x x' y y' Hx Hy. exact (sc_le _ _ _ _ _ _ _ _ _ Hx Hy).
    - intros x x' y y' Hx Hy. exact (sc_lt _ _ _ _ _ _ _ _ _ Hx Hy).
    - intros x x' Hx. exact (sc_cabs p 4 x x' Hp Hx).
    - apply (Forall2_weaken (S 1)); [|exact Hn]. intros x y Hx. apply (mono 1%Z); [lia|exact Hx].
    - split; [apply (mono 2%Z); [lia|exact Hmin]|]. exact (low _ _ Hmin).
    - intros x x' [Hx [Hlo Hlo']]. split; [exact (sc_le _ _ _ _ _ _ _ _ _ Hx Hmax)|]. intros Hle.
      split; [exact (sc_eqb _ _ _ _ _ _ _ _ _ Hx (sc_zero e (- tm - 52) (tm + 2)))|]. split; [exact (sc_lt _ _ _ _ _ _ _ _ _ (sc_zero e (- tm - 52) (tm + 2)) Hx)|].
      pose proof (sc_le _ _ _ _ _ _ _ _ _ Hx Hmax) as Hle'. change (Bleb x (opt_or (A := BN) ma (last nt (b64_ofZ 0)) : b64) = true) in Hle. rewrite Hle in Hle'. symmetry in Hle'.
      assert (T : S 2 x x').
      { destruct Hx as [F [F' [Sg [E [G [G' [B B']]]]]]]. destruct Hmax as [FM [FM' [_ [_ [_ [_ [BM BM']]]]]]].
        rewrite Bleb_correct in Hle, Hle' by assumption. destruct (Rle_bool_spec (B2R x) (B2R (opt_or (A := BN) ma (last nt (b64_ofZ 0)) : b64))) as [H1|]; [|discriminate].
        destruct (Rle_bool_spec (B2R x') (B2R (opt_or (A := BN) ma' (last nt' (b64_ofZ 0)) : b64))) as [H2|]; [|discriminate].
        apply Rabs_le_inv in BM, BM'. repeat (split; [first [assumption|apply Rabs_le; lra]|]). apply Rabs_le; lra. }
      split; [exact T|]. destruct Hres as [Hr1 Hr2]. 
      set (R := opt_or (A := BN) re (findMinDiff (A := BN) nt) : b64) in *. set (R' := opt_or (A := BN) re' (findMinDiff (A := BN) nt') : b64) in *.
      change (Lsc (Bplus mode_NE x R) (Bplus mode_NE x' R')).
      pose proof (S_add 2 _ _ _ _ ltac:(lia) T Hr1) as Hs. split; [apply (mono (2 + 1)%Z); [lia|exact Hs]|].
      assert (Hr2' : 0 <= B2R R').
      { destruct Hr1 as [_ [_ [_ [ER _]]]]. rewrite ER. apply Rmult_le_pos; [apply bpow_ge_0|exact Hr2]. }
      destruct Hs as [F1 [F2 _]]. apply plus_inv in F1, F2. destruct F1 as [_ [_ V1]], F2 as [_ [_ V2]]. rewrite V1, V2.
      assert (up : forall a r : b64, 0 <= B2R r -> B2R a <= rnd (B2R a + B2R r)).
      { intros a r Hr0. replace (B2R a) with (rnd (B2R a)) at 1 by (apply round_generic; [apply valid_rnd_N|apply (generic_format_B2R 53 1024)]). apply rnd_le. lra. }
      pose proof (up x R Hr2). pose proof (up x' R' Hr2'). lra. }
  exists (opt_or (A := BN) al (middle (A := BN) nt (b64_ofZ 0))), (opt_or (A := BN) al' (middle (A := BN) nt' (b64_ofZ 0))). split; [exact Hal'|exact K].
Qed.

Lemma sc_core p (ts ts' : list b64) mi mi' ma ma' re re' al al' sel wgt : p_abs p = AbsFloat ->
  Forall2 (S 0) ts ts' -> (2 <= length ts)%nat -> ordered (A := BN) ts ->
  opt_rel (S 0) mi mi' -> opt_rel (S 0) ma ma' -> opt_rel (fun x y => S 0 x y /\ 0 <= B2R x) re re' -> opt_rel (S 0) al al' ->
  same_outcome (fun x y => Forall2 (S 2) (fst x) (fst y) /\ Forall2 (fun F F' => forall row, F row = F' row) (snd x) (snd y))
    (acf_core (A := BN) p ts mi ma re al sel wgt) (acf_core (A := BN) p ts' mi' ma' re' al' sel wgt).
Proof.
  intros Hp H Hl Ho Hmi Hma Hre Hal.
  destruct (sc_core_rel p ts ts' mi mi' ma ma' re re' al al' sel wgt (or_introl Hp) H Hl Ho Hmi Hma Hre Hal) as [a [a' [Ha K]]].
  assert (fin_same : forall F F', fun_rel (A := BN) (B := BN) (S 4) wgt a a' F F' -> forall row, F row = F' row).
  { intros F F' [w [w' [s [dts [dts' [E1 [E2 [HD [-> ->]]]]]]]]] row. f_equal.
    clear - E1 E2 HD Ha Htm. induction HD as [|d d' l l' Hd HD IH]; [reflexivity|]. cbn [map]. f_equal; [|exact IH].
    exact (weight_same wgt _ _ _ _ _ _ Ha Hd E1 E2). }
  revert K. destruct (acf_core (A := BN) p ts mi ma re al sel wgt) as [[g Fs]|x|u|], (acf_core (A := BN) p ts' mi' ma' re' al' sel wgt) as [[g' Fs']|x'|u'|];
    cbn [same_outcome fst snd]; auto. intros [K1 K2]. split; [exact K1|]. eapply Forall2_weaken; [|exact K2]. exact fin_same.
Qed.
End Core.
