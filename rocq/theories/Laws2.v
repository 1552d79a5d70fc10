(** Further laws shared by binary64 and the extended reals: conversions to
    integers, and when sums are not NaN. *)
From Coq Require Import ZArith Reals List Bool Lia Lra.
From Flocq Require Import Core BinarySingleNaN.
From Verif Require Import Num Mem XR B64 Laws B64Facts Api.

Class NumLaws2 (A : Num) : Prop := {
  l_add_0_l : forall a, nisnan a = false -> neqb (nadd nzero a) a = true;
  l_add_mono_r : forall a b c, nle b c = true -> nisnan (nadd a b) = false -> nisnan (nadd a c) = false ->
    nle (nadd a b) (nadd a c) = true;
  l_add_again : forall a r, nisnan (nadd a r) = false -> nisnan (nadd (nadd a r) r) = false;
  l_add_fin_nan : forall a b, nfin a = true -> nisnan b = false -> nisnan (nadd a b) = false;
  l_sub_fin_nan : forall a b, nfin b = true -> nisnan a = false -> nisnan (nsub a b) = false;
  l_sub_fin_nan_l : forall a b, nfin a = true -> nisnan b = false -> nisnan (nsub a b) = false;
  l_trunc_mono : forall a b x y, nle a b = true -> ntrunc a = Some x -> ntrunc b = Some y -> (x <= y)%Z;
  l_trunc_fin : forall a, nfin a = true -> exists z, ntrunc a = Some z;
  l_fin_trunc : forall a z, ntrunc a = Some z -> nfin a = true;
  l_trunc_ofZ : forall z, in_int z = true -> ntrunc (nofZ z) = Some z;
  l_floor_mono : forall a b x y, nle a b = true -> nfloor a = Some x -> nfloor b = Some y -> (x <= y)%Z;
  l_floor_ofZ : forall z, in_int z = true -> nfloor (nofZ z) = Some z;
  l_ofZ_le : forall x y, in_int x = true -> in_int y = true -> nle (nofZ x) (nofZ y) = (x <=? y)%Z;
  l_trunc_sub : forall a b, ntrunc (nsub a b) = option_map Z.opp (ntrunc (nsub b a));
  l_add_nan_comm : forall a b, nisnan (nadd a b) = nisnan (nadd b a)
}.

Lemma in_int_abs z : in_int z = true -> (Z.abs z <= 2147483648)%Z.
Proof. unfold in_int, INT_MIN, INT_MAX. intros H. apply andb_prop in H. destruct H as [H1 H2]. lia. Qed.

Lemma Rleb_IZR x y : Rleb (IZR x) (IZR y) = (x <=? y)%Z.
Proof.
  destruct (Rleb_spec (IZR x) (IZR y)) as [H|H], (Z.leb_spec x y) as [H'|H']; try reflexivity.
  - apply le_IZR in H. lia.
  - apply IZR_le in H'. lra.
Qed.

#[export] Instance XR_laws2 : NumLaws2 XR.
Proof.
  constructor; unfold nfin, nzero; cbn [num nadd nsub nmul ndiv nneg nabs nlt nle neqb nisnan nofZ nfloor ntrunc nf32 nexp XR].
  - intros a; destruct a; cbn; try discriminate; auto. intros _. apply Reqb_true. lra.
  - intros a b c; destruct a, b, c; cbn; try discriminate; auto. rewrite !Rleb_true. intros; lra.
  - intros a r; destruct a, r; cbn; try discriminate; auto.
  - intros a b; destruct a, b; cbn; try discriminate; auto.
  - intros a b; destruct a, b; cbn; try discriminate; auto.
  - intros a b; destruct a, b; cbn; try discriminate; auto.
  - intros a b x y; destruct a, b; cbn; try discriminate. rewrite Rleb_true. intros H H1 H2.
    injection H1 as <-. injection H2 as <-. apply Ztrunc_le. exact H.
  - intros a; destruct a; cbn; try discriminate. eauto.
  - intros a z; destruct a; cbn; try discriminate. reflexivity.
  - intros z _. rewrite Ztrunc_IZR. reflexivity.
  - intros a b x y; destruct a, b; cbn; try discriminate. rewrite Rleb_true. intros H H1 H2.
    injection H1 as <-. injection H2 as <-. apply Zfloor_le. exact H.
  - intros z _. rewrite Zfloor_IZR. reflexivity.
  - intros x y _ _. cbn. apply Rleb_IZR.
  - intros a b; destruct a, b; cbn; try reflexivity. f_equal.
    replace (r + - r0)%R with (- (r0 + - r))%R by ring. apply Ztrunc_opp.
  - intros a b; destruct a, b; reflexivity.
Qed.

Lemma rndE_opp a : rndE (xneg a) = xneg (rndE a).
Proof.
  destruct a as [x| | |]; try reflexivity. cbn [xneg rndE]. rewrite rnd_opp.
  assert (0 < big)%R by apply bpow_gt_0.
  destruct (Rltb_spec (Rabs (rnd x)) big) as [H1|H1], (Rltb_spec (Rabs (- rnd x)) big) as [H2|H2];
    rewrite Rabs_Ropp in H2; try contradiction; [reflexivity|].
  assert (rnd x <> 0)%R. { intros E. rewrite E, Rabs_R0 in H1. lra. }
  assert (x <> 0)%R. { intros E. subst x. rewrite rnd_0 in H0. congruence. }
  destruct (Rltb_spec x 0), (Rltb_spec (- x) 0); try reflexivity; lra.
Qed.

Lemma b64_scaled (s : bool) m e (H : SpecFloat.bounded 53 1024 m e = true) :
  B2R (B754_finite s m e H : b64) =
  match e with
  | Zneg q => (IZR (cond_Zopp s (Zpos m)) / IZR (Z.pow_pos 2 q))%R
  | _ => IZR (cond_Zopp s (Zpos m) * 2 ^ e)
  end.
Proof.
  unfold B2R, F2R. cbn [Fnum Fexp]. destruct e as [|q|q].
  - cbn [bpow]. rewrite Rmult_1_r. f_equal. lia.
  - rewrite mult_IZR. reflexivity.
  - unfold Rdiv. f_equal.
Qed.

Lemma b64_floor_R (x : b64) : is_finite x = true -> b64_floor x = Some (Zfloor (B2R x)).
Proof.
  intros F. destruct x as [s|s| |s m e H]; try discriminate.
  - cbn. f_equal. symmetry. apply Zfloor_IZR.
  - rewrite b64_scaled. cbn [b64_floor]. destruct e as [|q|q]; f_equal; symmetry.
    + apply Zfloor_IZR.
    + apply Zfloor_IZR.
    + apply Zfloor_div. rewrite Zpower_pos_nat. pose proof (Z.pow_pos_nonneg 2 (Z.of_nat (Pos.to_nat q)) ltac:(lia) ltac:(lia)).
      rewrite <- Zpower_nat_Z in H0. lia.
Qed.

Lemma b64_trunc_R (x : b64) : is_finite x = true -> b64_trunc x = Some (Ztrunc (B2R x)).
Proof.
  intros F. destruct x as [s|s| |s m e H]; try discriminate.
  - cbn. f_equal. symmetry. apply Ztrunc_IZR.
  - rewrite b64_scaled. cbn [b64_trunc]. destruct e as [|q|q]; f_equal; symmetry.
    + apply Ztrunc_IZR.
    + apply Ztrunc_IZR.
    + apply Ztrunc_div. rewrite Zpower_pos_nat. pose proof (Z.pow_pos_nonneg 2 (Z.of_nat (Pos.to_nat q)) ltac:(lia) ltac:(lia)).
      rewrite <- Zpower_nat_Z in H0. lia.
Qed.

Lemma b64_floor_E (x : b64) : b64_floor x = match toE x with Fin r => Some (Zfloor r) | _ => None end.
Proof.
  destruct (is_finite x) eqn:F; [rewrite toE_finite, b64_floor_R by exact F; reflexivity|].
  destruct x as [s|[|]| |s m e H]; try discriminate; reflexivity.
Qed.
Lemma b64_trunc_E (x : b64) : b64_trunc x = match toE x with Fin r => Some (Ztrunc r) | _ => None end.
Proof.
  destruct (is_finite x) eqn:F; [rewrite toE_finite, b64_trunc_R by exact F; reflexivity|].
  destruct x as [s|[|]| |s m e H]; try discriminate; reflexivity.
Qed.

Lemma rndE_again a r : xisnan (xadd a r) = false -> xisnan (xadd (rndE (xadd a r)) r) = false.
Proof.
  destruct a as [x| | |], r as [y| | |]; cbn [xadd rndE xisnan]; intros H; try discriminate; try reflexivity.
  destruct (Rltb _ _); [reflexivity|]. destruct (Rltb _ _); reflexivity.
Qed.

#[export] Instance B64_laws2 exp64 : NumLaws2 (B64 exp64).
Proof.
  constructor; intros; rewrite ?fin_toE in *; unfold nzero in *; cbn [num nadd nsub nmul ndiv nneg nabs nlt nle neqb nisnan nofZ nfloor ntrunc nf32 nexp B64] in *;
    rewrite ?Bltb_toE, ?Bleb_toE, ?Beqb_toE, ?is_nan_toE, ?b64_floor_E, ?b64_trunc_E in *.
  - rewrite toE_plus. change (toE (b64_ofZ 0)) with (Fin 0).
    assert (E : xadd (Fin 0) (toE a) = toE a) by (destruct (toE a); cbn; try reflexivity; f_equal; ring).
    rewrite E, rndE_toE. rewrite xeqb_le, xle_self by assumption. reflexivity.
  - rewrite !toE_plus, !xisnan_rndE in *. apply xle_rndE. apply (l_add_mono_r (A:=XR)); assumption.
  - rewrite !toE_plus, !xisnan_rndE in *. apply rndE_again. exact H.
  - rewrite toE_plus, xisnan_rndE. destruct (toE a), (toE b); try discriminate; reflexivity.
  - rewrite toE_minus, xisnan_rndE. destruct (toE a), (toE b); try discriminate; reflexivity.
  - rewrite toE_minus, xisnan_rndE. destruct (toE a), (toE b); try discriminate; reflexivity.
  - exact (l_trunc_mono (A := XR) (toE a) (toE b) x y H H0 H1).
  - destruct (toE a); try discriminate. eauto.
  - destruct (toE a); try discriminate. reflexivity.
  - rewrite toE_ofZ_small by (apply in_int_abs in H; lia). rewrite Ztrunc_IZR. reflexivity.
  - exact (l_floor_mono (A := XR) (toE a) (toE b) x y H H0 H1).
  - rewrite toE_ofZ_small by (apply in_int_abs in H; lia). rewrite Zfloor_IZR. reflexivity.
  - rewrite !toE_ofZ_small by (apply in_int_abs in H; apply in_int_abs in H0; lia). cbn. apply Rleb_IZR.
  - rewrite !toE_minus. replace (xsub (toE a) (toE b)) with (xneg (xsub (toE b) (toE a))).
    + rewrite rndE_opp. destruct (rndE _); cbn; try reflexivity. f_equal. apply Ztrunc_opp.
    + destruct (toE a), (toE b); cbn; try reflexivity. f_equal. ring.
  - rewrite !toE_plus, !xisnan_rndE. destruct (toE a), (toE b); reflexivity.
Qed.

Lemma arith_laws A : arith A -> NumLaws A.
Proof. intros [e|]; [apply B64_laws|apply XR_laws]. Qed.
Lemma arith_laws2 A : arith A -> NumLaws2 A.
Proof. intros [e|]; [apply B64_laws2|apply XR_laws2]. Qed.

Lemma finite_nfin {A : Num} (a : num) : finite a <-> nfin a = true.
Proof. unfold finite, nfin. destruct (nfloor a); split; congruence. Qed.

Section Derived.
Context {A : Num} {L : NumLaws A} {L2 : NumLaws2 A}.

Lemma ofZ_lt x y : in_int x = true -> in_int y = true -> nlt (nofZ x) (nofZ y) = (x <? y)%Z.
Proof.
  intros Hx Hy. rewrite l_lt, !l_ofZ_le by assumption.
  destruct (Z.leb_spec x y), (Z.leb_spec y x), (Z.ltb_spec x y); cbn; try reflexivity; lia.
Qed.

Lemma trunc_nonneg a z : nle nzero a = true -> ntrunc a = Some z -> (0 <= z)%Z.
Proof. intros H Hz. apply (l_trunc_mono nzero a 0 z H); [|exact Hz]. apply l_trunc_ofZ. reflexivity. Qed.
Lemma trunc_nonpos a z : nle a nzero = true -> ntrunc a = Some z -> (z <= 0)%Z.
Proof. intros H Hz. apply (l_trunc_mono a nzero z 0 H Hz). apply l_trunc_ofZ. reflexivity. Qed.


End Derived.
