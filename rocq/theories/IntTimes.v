(** Integer time stamps: the two versions of [abs] do the same. *)
From Coq Require Import String.
From Coq Require Import ZArith Reals List Bool Arith Lia Lra.
From Flocq Require Import Core BinarySingleNaN.
From Verif Require Import Num Mem MemFacts XR B64 Spec SpecR SpecExt DataStructure Correlator Sacf Api Laws B64Facts Laws2 DSFacts CorrFacts LoopFacts MainFacts
  RelFacts ConstrFacts TimeFacts SelFacts SimFacts.
Import ListNotations.
Local Open Scope list_scope.

Section Int.
Context {A : Num} (HA : arith A).

(** the number is the integer [k] *)
Definition is_z (k : Z) (x : num) : Prop := neqb x (nofZ k) = true.

Lemma is_z_B64 e k (x : b64) : (Z.abs k <= 2 ^ 53)%Z -> (@neqb (B64 e) x (@nofZ (B64 e) k) = true <-> toE x = Fin (IZR k)).
Proof.
  intros H. cbn [neqb nofZ B64]. rewrite Beqb_toE, (toE_ofZ_small k H). destruct (toE x); cbn; split; intros E; try discriminate E.
  - apply Reqb_true in E. subst. reflexivity.
  - injection E as ->. apply Reqb_true. reflexivity.
Qed.

Lemma is_z_XR k (x : xr) : @neqb XR x (@nofZ XR k) = true <-> x = Fin (IZR k).
Proof.
  cbn [neqb nofZ XR]. destruct x; cbn; split; intros E; try discriminate E.
  - apply Reqb_true in E. subst. reflexivity.
  - injection E as ->. apply Reqb_true. reflexivity.
Qed.

Lemma rndE_IZR k : (Z.abs k <= 2 ^ 53)%Z -> rndE (Fin (IZR k)) = Fin (IZR k).
Proof. intros H. rewrite <- (toE_ofZ_small k H) at 1. rewrite rndE_toE. apply toE_ofZ_small. exact H. Qed.

Lemma is_add j k x y : (Z.abs j <= 2 ^ 52)%Z -> (Z.abs k <= 2 ^ 52)%Z -> is_z j x -> is_z k y -> is_z (j + k) (nadd x y).
Proof.
  unfold is_z. intros Hj Hk. destruct HA as [e|].
  - rewrite !is_z_B64 by lia. intros E1 E2. cbn [nadd B64]. rewrite toE_plus, E1, E2. cbn [xadd]. rewrite <- plus_IZR. apply rndE_IZR. lia.
  - rewrite !is_z_XR. intros -> ->. cbn. rewrite plus_IZR. reflexivity.
Qed.

Lemma is_sub j k x y : (Z.abs j <= 2 ^ 52)%Z -> (Z.abs k <= 2 ^ 52)%Z -> is_z j x -> is_z k y -> is_z (j - k) (nsub x y).
Proof.
  unfold is_z. intros Hj Hk. destruct HA as [e|].
  - rewrite !is_z_B64 by lia. intros E1 E2. cbn [nsub B64]. rewrite toE_minus, E1, E2. unfold xsub. cbn [xadd xneg].
    replace (IZR j + - IZR k)%R with (IZR (j - k)) by (rewrite minus_IZR; lra). apply rndE_IZR. lia.
  - rewrite !is_z_XR. intros -> ->. cbn. rewrite minus_IZR. reflexivity.
Qed.

Lemma is_neg k x : (Z.abs k <= 2 ^ 53)%Z -> is_z k x -> is_z (- k) (nneg x).
Proof.
  unfold is_z. intros Hk. destruct HA as [e|].
  - rewrite !is_z_B64 by lia. intros E1. cbn [nneg B64]. rewrite toE_opp, E1. cbn. rewrite opp_IZR. reflexivity.
  - rewrite !is_z_XR. intros ->. cbn. rewrite opp_IZR. reflexivity.
Qed.

Lemma is_le j k x y : (Z.abs j <= 2 ^ 53)%Z -> (Z.abs k <= 2 ^ 53)%Z -> is_z j x -> is_z k y -> nle x y = (j <=? k)%Z.
Proof.
  unfold is_z. intros Hj Hk. destruct HA as [e|].
  - rewrite !is_z_B64 by lia. intros E1 E2. cbn [nle B64]. rewrite Bleb_toE, E1, E2. cbn. apply Rleb_IZR.
  - rewrite !is_z_XR. intros -> ->. cbn. apply Rleb_IZR.
Qed.

Lemma is_zero : is_z 0 nzero.
Proof. unfold is_z. destruct HA as [e|]; [reflexivity|]. apply is_z_XR. reflexivity. Qed.

Lemma cabs_int p k x : (Z.abs k <= 2 ^ 30)%Z -> is_z k x -> cabs p x = Ok (nabs x) /\ is_z (Z.abs k) (nabs x).
Proof.
  intros Hk H.
  assert (T : ntrunc x = Some k /\ nabs x = nofZ (Z.abs k) /\ is_z (Z.abs k) (nabs x)).
  { unfold is_z in *. destruct HA as [e|].
    - rewrite is_z_B64 in * by lia. cbn [ntrunc nabs nofZ B64]. split; [|split].
      + rewrite b64_trunc_E, H, Ztrunc_IZR. reflexivity.
      + destruct (toE_Fin _ _ H) as [F V]. destruct (toE_Fin _ _ (toE_ofZ_small (Z.abs k) ltac:(lia))) as [F' V'].
        apply B2R_Bsign_inj; [rewrite is_finite_Babs; exact F|exact F'|rewrite B2R_Babs, V, V', <- abs_IZR; reflexivity|].
        rewrite Bsign_Babs by (destruct x; try discriminate F; reflexivity).
        destruct (Bsign (b64_ofZ (Z.abs k))) eqn:S; [|reflexivity]. pose proof (Bsign_neg _ F' S) as K. rewrite V' in K. apply le_IZR in K.
        replace (Z.abs k) with 0%Z in S by lia. discriminate S.
      + rewrite toE_abs, H. cbn. rewrite abs_IZR. reflexivity.
    - rewrite is_z_XR in *. subst x. split; [|split].
      + change (@ntrunc XR (Fin (IZR k))) with (Some (Ztrunc (IZR k))). rewrite Ztrunc_IZR. reflexivity.
      + cbn. rewrite abs_IZR. reflexivity.
      + cbn. rewrite abs_IZR. reflexivity. }
  destruct T as [T1 [T2 T3]]. split; [|exact T3]. unfold cabs. destruct (p_abs p); [reflexivity|].
  rewrite T1. unfold to_int, in_int, INT_MIN, INT_MAX. destruct ((-2147483648 <=? k)%Z && (k <=? 2147483647)%Z) eqn:E; cbn [bind].
  - destruct (Z.eqb_spec k (-2147483648)); [lia|]. rewrite <- T2. reflexivity.
  - apply andb_false_iff in E. destruct E as [E|E]; apply Z.leb_gt in E; lia.
Qed.

Lemma dblmax_facts : nisnan ndblmax = false /\ nle nzero ndblmax = true /\
  forall j k x y, (Z.abs j <= 2 ^ 40)%Z -> (Z.abs k <= 2 ^ 40)%Z -> is_z j x -> is_z k y -> nle (nadd x ndblmax) y = false.
Proof.
  unfold is_z. assert (BB : (IZR (2 ^ 42) <= bpow radix2 1000)%R) by (change (IZR (2 ^ 42)) with (bpow radix2 42); apply bpow_le; lia).
  assert (M0 : (bpow radix2 1000 <= (2 - bpow radix2 (-52)) * bpow radix2 1023)%R).
  { assert (bpow radix2 (-52) <= 1)%R by (change 1%R with (bpow radix2 0); apply bpow_le; lia).
    pose proof (bpow_le radix2 1000 1023 ltac:(lia)). pose proof (bpow_gt_0 radix2 1023). nra. }
  destruct HA as [e|].
  - assert (E : toE (@ndblmax (B64 e)) = Fin (B2R (@ndblmax (B64 e) : b64))) by (apply toE_finite; reflexivity).
    assert (V : (bpow radix2 1000 <= B2R (@ndblmax (B64 e) : b64))%R).
    { cbn [ndblmax B64]. unfold Bmax_float. rewrite B2R_SF2B. unfold SF2R, F2R. cbn [Fnum Fexp cond_Zopp].
      apply Rle_trans with (1 * bpow radix2 1000)%R; [lra|].
      replace (bpow radix2 1000) with (bpow radix2 29 * bpow radix2 (1024 - 53))%R by (rewrite <- bpow_plus; f_equal; lia).
      rewrite Rmult_1_l. apply Rmult_le_compat_r; [apply bpow_ge_0|]. change (bpow radix2 29) with (IZR (2 ^ 29)). apply IZR_le. vm_compute. discriminate. }
    split; [reflexivity|]. split; [reflexivity|]. intros j k x y Hj Hk Ex Ey. apply is_z_B64 in Ex, Ey; try lia.
    cbn [nle nadd B64]. rewrite Bleb_toE, toE_plus, Ex, Ey, E. cbn [xadd].
    set (m := B2R (@ndblmax (B64 e) : b64)) in *. apply not_true_iff_false. intros C.
    assert (K : xle (rndE (Fin (IZR (2 ^ 41)))) (Fin (IZR k)) = true).
    { refine (@l_le_trans XR (arith_laws XR arith_exact) _ _ _ _ C). apply (xle_rndE (Fin _) (Fin _)). cbn [xle]. apply Rleb_true.
      assert (- IZR (2 ^ 40) <= IZR j)%R by (rewrite <- opp_IZR; apply IZR_le; lia).
      assert (IZR (2 ^ 41) <= IZR (2 ^ 42) - IZR (2 ^ 40))%R by (rewrite <- minus_IZR; apply IZR_le; lia). lra. }
    rewrite rndE_IZR in K by lia. cbn in K. change (IZR (2^41)) with (IZR 2199023255552) in K. rewrite Rleb_IZR in K. apply Z.leb_le in K. lia.
  - split; [reflexivity|]. split; [cbn; apply Rleb_true; pose proof (bpow_ge_0 radix2 1000); lra|].
    intros j k x y Hj Hk Ex Ey. apply is_z_XR in Ex, Ey. subst x y. cbn [nle nadd XR ndblmax xadd xle]. apply not_true_iff_false. intros C. apply Rleb_true in C.
    assert (- IZR (2 ^ 40) <= IZR j)%R by (rewrite <- opp_IZR; apply IZR_le; lia). assert (IZR k <= IZR (2 ^ 40))%R by (apply IZR_le; lia).
    assert (IZR (2 ^ 42) - IZR (2 ^ 40) > IZR (2 ^ 40))%R by (rewrite <- minus_IZR; apply IZR_lt; lia). lra.
Qed.

(** equal numbers that are integers of size up to [n] *)
Definition zz (n : Z) (x x' : num) : Prop := x = x' /\ exists k, (Z.abs k <= n)%Z /\ is_z k x.

Lemma zz_mono n m x x' : (n <= m)%Z -> zz n x x' -> zz m x x'.
Proof. intros H [E [k [Hk K]]]. split; [exact E|]. exists k. split; [lia|exact K]. Qed.

Lemma zz_self n x : whole n x -> zz n x x.
Proof. intros H. split; [reflexivity|exact H]. Qed.

Lemma Forall2_zz n l : (forall x, In x l -> whole n x) -> Forall2 (zz n) l l.
Proof. induction l as [|x l IH]; intros H; constructor; [apply zz_self, H; left; reflexivity|apply IH; intros y Hy; apply H; right; exact Hy]. Qed.

Lemma whole_sub n m x y : (n <= 2 ^ 52)%Z -> (m <= 2 ^ 52)%Z -> whole n x -> whole m y -> whole (n + m) (nsub x y).
Proof. intros Hn Hm [j [Hj E]] [k [Hk F]]. exists (j - k)%Z. split; [lia|]. apply is_sub; [lia|lia|exact E|exact F]. Qed.
Lemma whole_neg n x : (n <= 2 ^ 52)%Z -> whole n x -> whole n (nneg x).
Proof. intros Hn [j [Hj E]]. exists (- j)%Z. split; [lia|]. apply is_neg; [lia|exact E]. Qed.

Lemma whole_rel_times n ts : (n <= 2 ^ 51)%Z -> (forall t, In t ts -> whole n t) -> forall x, In x (rel_times ts) -> whole (n + n) x.
Proof.
  intros Hn H x Hx. unfold rel_times in Hx. destruct ts as [|t0 ts]; [destruct Hx|]. apply in_map_iff in Hx. destruct Hx as [t [<- Ht]].
  apply whole_sub; try lia; [apply H; exact Ht|apply H; left; reflexivity].
Qed.

Lemma whole_finite n x : (n <= 2 ^ 53)%Z -> whole n x -> finite x.
Proof.
  intros Hn [k [Hk E]]. unfold finite. destruct HA as [e|].
  - apply is_z_B64 in E; [|lia]. cbn [nfloor B64]. rewrite b64_floor_E, E. discriminate.
  - apply is_z_XR in E. subst x. discriminate.
Qed.

Lemma last_In {X} (l : list X) x : l <> [] -> In (last l x) l.
Proof. induction l as [|a l IH]; [congruence|]. intros _. destruct l as [|b l]; [left; reflexivity|]. right. apply IH. discriminate. Qed.

Notation lim := (2 ^ 27)%Z.

Lemma int_core p p' ts mi ma re al sel wgt : p_checked p = p_checked p' ->
  (forall t, In t ts -> whole lim t) -> ts <> [] -> ordered ts ->
  opt_whole (2 ^ 28) mi -> opt_whole (2 ^ 28) ma -> opt_whole (2 ^ 28) re -> (forall r, re = Some r -> nle nzero r = true) ->
  acf_core p ts mi ma re al sel wgt = acf_core p' ts mi ma re al sel wgt.
Proof.
  intros Hck Ht Hl Ho Hmi Hma Hre Hrp.
  assert (L1 : NumLaws A) by exact (arith_laws A HA).
  pose proof (whole_rel_times lim ts ltac:(lia) Ht) as Hn. change (lim + lim)%Z with (2 ^ 28)%Z in Hn.
  assert (Hor : ordered (rel_times ts)) by (apply rel_times_ordered; [exact Ho|]; intros x Hx; exact (whole_finite lim x ltac:(lia) (Ht x Hx))).
  set (nt := rel_times ts) in *.
  assert (Hlast : whole (2 ^ 28) (last nt nzero)).
  { apply Hn, last_In. unfold nt. destruct ts; [congruence|discriminate]. }
  assert (Hmax : whole (2 ^ 28) (opt_or ma (last nt nzero))) by (destruct ma; cbn in *; assumption).
  assert (Hmin : whole (2 ^ 28) (opt_or mi (nneg (last nt nzero)))) by (destruct mi; cbn in *; [assumption|apply whole_neg; [lia|exact Hlast]]).
  set (r := opt_or re (findMinDiff nt)).
  assert (Hr : nle nzero r = true /\ (whole (2 ^ 29) r \/ r = ndblmax)).
  { unfold r. destruct re as [r0|]; cbn [opt_or].
    - split; [apply Hrp; reflexivity|]. left. destruct Hre as [k [Hk E]]. exists k. split; [lia|exact E].
    - destruct (@findMinDiff_loop_spec A L1 nt (@ndblmax A)) as [_ [_ S]].
      { exact (proj1 dblmax_facts). }
      fold (findMinDiff nt) in S. destruct S as [E|[i [a [b [Ea [Eb [E _]]]]]]].
      + rewrite E. split; [exact (proj1 (proj2 dblmax_facts))|right; reflexivity].
      + rewrite E. pose proof (Hor i (S i) a b ltac:(lia) Ea Eb) as Hab.
        destruct (Hn a (nth_error_In _ _ Ea)) as [j [Hj Ej]]. destruct (Hn b (nth_error_In _ _ Eb)) as [k [Hk Ek]].
        pose proof (is_sub k j b a ltac:(lia) ltac:(lia) Ek Ej) as Hs.
        rewrite (is_le j k a b ltac:(lia) ltac:(lia) Ej Ek) in Hab. apply Z.leb_le in Hab. split.
        * rewrite (is_le 0 (k - j) _ _ ltac:(lia) ltac:(lia) is_zero Hs). apply Z.leb_le. lia.
        * left. exists (k - j)%Z. split; [lia|exact Hs]. }
  pose (L := fun x x' : num => x = x' /\ (nle x (opt_or ma (last nt nzero)) = true -> exists k, (- 2 ^ 28 <= k <= 2 ^ 28)%Z /\ is_z k x)).
  assert (K : same_outcome (fun x y => Forall2 (zz (2 ^ 28)) (fst x) (fst y) /\
      Forall2 (fun_rel (zz (2 ^ 30)) wgt (opt_or al (middle nt nzero)) (opt_or al (middle nt nzero))) (snd x) (snd y))
    (acf_core p ts mi ma re al sel wgt) (acf_core p' ts mi ma re al sel wgt)).
  { refine (acf_core_rel (zz (2 ^ 28)) (zz (2 ^ 29)) (zz (2 ^ 30)) _ _ _ _ _ _ p p' Hck _ L ts ts mi mi ma ma re re al al sel wgt _ eq_refl _ _ _).
    - intros x x' y y' [-> [j [Hj Ej]]] [-> [k [Hk Ek]]]. split; [reflexivity|]. exists (j + k)%Z. split; [lia|]. apply is_add; try assumption; lia.
    - intros x x' y y' [-> [j [Hj Ej]]] [-> [k [Hk Ek]]]. split; [reflexivity|]. exists (j - k)%Z. split; [lia|]. apply is_sub; try assumption; lia.
    - intros x x' y y' [-> [j [Hj Ej]]] [-> [k [Hk Ek]]]. split; [reflexivity|]. exists (j - k)%Z. split; [lia|]. apply is_sub; try assumption; lia.
    - intros x x' y y' [-> _] [-> _]. reflexivity.
    - intros x x' y y' [-> _] [-> _]. reflexivity.
    - intros x x' y y' [-> _] [-> _]. reflexivity.
    - intros x x' [-> [k [Hk Ek]]]. destruct (cabs_int p k x' Hk Ek) as [E1 E2]. destruct (cabs_int p' k x' Hk Ek) as [E1' _]. rewrite E1, E1'. cbn.
      split; [reflexivity|]. exists (Z.abs k). split; [lia|exact E2].
    - apply Forall2_zz. exact Hn.
    - split; [reflexivity|]. exists 0%Z. split; [lia|exact is_zero].
    - split; [reflexivity|]. intros _. destruct Hmin as [k [Hk E]]. exists k. split; [lia|exact E].
    - intros x x' [-> Hx]. split; [reflexivity|]. intros Hle. split; [reflexivity|]. split; [reflexivity|].
      destruct (Hx Hle) as [k [Hk Ek]]. split; [split; [reflexivity|]; exists k; split; [lia|exact Ek]|].
      split; [reflexivity|]. intros Hle'. destruct Hr as [Hr0 [[m [Hm Em]]|Hr1]].
      + fold nt r in Hle'. exists (k + m)%Z. split; [|apply is_add; try assumption; lia].
        rewrite (is_le 0 m nzero r ltac:(lia) ltac:(lia) is_zero Em) in Hr0. apply Z.leb_le in Hr0. destruct Hmax as [q [Hq Eq]].
        assert (Es : is_z (k + m) (nadd x' r)) by (apply is_add; try assumption; lia).
        rewrite (is_le (k + m) q _ _ ltac:(lia) ltac:(lia) Es Eq) in Hle'. apply Z.leb_le in Hle'. lia.
      + exfalso. destruct Hmax as [q [Hq Eq]]. fold nt r in Hle'. rewrite Hr1, (proj2 (proj2 dblmax_facts) k q x' _ ltac:(lia) ltac:(lia) Ek Eq) in Hle'. discriminate. }
  destruct (acf_core p ts mi ma re al sel wgt) as [[g Fs]|x|u|], (acf_core p' ts mi ma re al sel wgt) as [[g' Fs']|x'|u'|]; cbn in K; try contradiction; try congruence.
  destruct K as [K1 K2]. f_equal. f_equal.
  - clear - K1. induction K1 as [|x y l l' [-> _] K1 IH]; [reflexivity|]. rewrite IH. reflexivity.
  - clear - K2. induction K2 as [|F F' Fs Fs' HF K2 IH]; [reflexivity|]. rewrite IH. f_equal.
    destruct HF as [w [w' [s [dts [dts' [E1 [E2 [Hd [-> ->]]]]]]]]]. rewrite E1 in E2. injection E2 as <-.
    assert (dts = dts') as <- by (clear - Hd; induction Hd as [|x y l l' [-> _] Hd IH]; [reflexivity|]; rewrite IH; reflexivity). reflexivity.
Qed.

Lemma int_times_lemma p p' d mi ma re al sel wgt : p_checked p = p_checked p' -> accepted d ->
  (forall t, In t (timeseries d) -> whole (2 ^ 27) t) -> ordered (timeseries d) ->
  opt_whole (2 ^ 28) mi -> opt_whole (2 ^ 28) ma -> opt_whole (2 ^ 28) re -> (forall r, re = Some r -> nle nzero r = true) ->
  visible (autocorrelation p d mi ma re al sel wgt) = visible (autocorrelation p' d mi ma re al sel wgt).
Proof.
  intros Hck Ha Ht Ho Hmi Hma Hre Hrp.
  destruct (accepted_values d Ha) as [ts [data [er [N [-> [G1 [G2 [G3 G4]]]]]]]].
  change (timeseries (the_ds ts data er N)) with ts in *. rewrite !visible_core by assumption.
  rewrite (int_core p p') by assumption. reflexivity.
Qed.
End Int.
