(** Order laws shared by binary64 and the extended reals, and their proof for
    the extended reals. *)
From Coq Require Import ZArith Reals List Bool Lia Lra.
From Verif Require Import Num XR.

(** finite: neither NaN nor infinite *)
Definition nfin {A : Num} (a : num) : bool := match nfloor a with Some _ => true | None => false end.

Class NumLaws (A : Num) : Prop := {
  l_le_trans : forall a b c, nle a b = true -> nle b c = true -> nle a c = true;
  l_le_nan : forall a b, nle a b = true -> nisnan a = false /\ nisnan b = false;
  l_le_total : forall a b, nisnan a = false -> nisnan b = false -> nle a b = true \/ nle b a = true;
  l_lt : forall a b, nlt a b = nle a b && negb (nle b a);
  l_eq : forall a b, neqb a b = nle a b && nle b a;
  l_fin_nan : forall a, nfin a = true -> nisnan a = false;
  l_fin_Z0 : nfin nzero = true;
  l_fin_between : forall a b c, nle a b = true -> nle b c = true -> nfin a = true -> nfin c = true -> nfin b = true;
  l_add_mono : forall a b c, nle a b = true -> nisnan (nadd a c) = false -> nisnan (nadd b c) = false ->
    nle (nadd a c) (nadd b c) = true;
  l_sub_mono : forall a b c, nle a b = true -> nisnan (nsub a c) = false -> nisnan (nsub b c) = false ->
    nle (nsub a c) (nsub b c) = true;
  l_sub_anti : forall a b c, nle a b = true -> nisnan (nsub c a) = false -> nisnan (nsub c b) = false ->
    nle (nsub c b) (nsub c a) = true;
  l_add_fin : forall a b, nfin a = true -> nfin b = true -> nisnan (nadd a b) = false;
  l_sub_fin : forall a b, nfin a = true -> nfin b = true -> nisnan (nsub a b) = false;
  l_sub_self : forall a, nfin a = true -> nsub a a = nzero;
  (* subtraction separates distinct numbers (gradual underflow) *)
  l_sub_pos : forall a b, nlt a b = true -> nisnan (nsub b a) = false -> nlt nzero (nsub b a) = true;
  l_sub_0_r : forall a, nisnan a = false -> neqb (nsub a nzero) a = true;
  l_add_0_r : forall a, nisnan a = false -> neqb (nadd a nzero) a = true;
  l_neg_anti : forall a b, nle a b = true -> nle (nneg b) (nneg a) = true;
  l_neg_0 : neqb (nneg nzero) nzero = true;
  l_neg_fin : forall a, nfin (nneg a) = nfin a;
  l_neg_nan : forall a, nisnan (nneg a) = nisnan a;
  l_abs_pos : forall a, nle nzero a = true -> neqb (nabs a) a = true;
  l_abs_neg : forall a, nle a nzero = true -> neqb (nabs a) (nneg a) = true;
  l_abs_nan : forall a, nisnan (nabs a) = nisnan a;
  l_abs_sub : forall a b, nabs (nsub a b) = nabs (nsub b a);
  l_nan_add : forall a b, nisnan a || nisnan b = true -> nisnan (nadd a b) = true;
  l_nan_sub : forall a b, nisnan a || nisnan b = true -> nisnan (nsub a b) = true;
  l_nan_mul : forall a b, nisnan a || nisnan b = true -> nisnan (nmul a b) = true;
  l_nan_div : forall a b, nisnan a || nisnan b = true -> nisnan (ndiv a b) = true;
  l_nan_f32 : forall a, nisnan (nf32 a) = nisnan a;
  l_inf_or_fin : forall a, nisnan a = false -> nfin a = false ->
    (forall b, nisnan b = false -> nle a b = true) \/ (forall b, nisnan b = false -> nle b a = true)
}.

(** ** Consequences *)
Section Derived.
Context {A : Num} {L : NumLaws A}.

Lemma le_refl a : nisnan a = false -> nle a a = true.
Proof. intros H. destruct (l_le_total a a H H); assumption. Qed.

Lemma lt_le a b : nlt a b = true -> nle a b = true.
Proof. rewrite l_lt. intros H. apply andb_prop in H. apply H. Qed.

Lemma lt_nle a b : nlt a b = true -> nle b a = false.
Proof. rewrite l_lt. intros H. apply andb_prop in H. destruct H as [_ H]. destruct (nle b a); [discriminate|reflexivity]. Qed.

Lemma le_nlt a b : nle a b = true -> nlt b a = false.
Proof. rewrite l_lt. intros ->. apply andb_false_r. Qed.

Lemma nlt_le a b : nisnan a = false -> nisnan b = false -> nlt a b = false -> nle b a = true.
Proof.
  intros Ha Hb. rewrite l_lt. destruct (l_le_total a b Ha Hb) as [->| ->]; [|reflexivity].
  cbn. destruct (nle b a); [reflexivity|discriminate].
Qed.

Lemma nle_lt a b : nisnan a = false -> nisnan b = false -> nle a b = false -> nlt b a = true.
Proof.
  intros Ha Hb H. rewrite l_lt, H. destruct (l_le_total a b Ha Hb) as [H1| ->]; [congruence|reflexivity].
Qed.

Lemma le_lt_trans a b c : nle a b = true -> nlt b c = true -> nlt a c = true.
Proof.
  intros H1 H2. rewrite l_lt. rewrite (l_le_trans a b c H1 (lt_le _ _ H2)). cbn.
  destruct (nle c a) eqn:E; [|reflexivity].
  pose proof (l_le_trans _ _ _ E H1) as H3.
  rewrite (lt_nle b c H2) in H3. discriminate.
Qed.

Lemma lt_le_trans a b c : nlt a b = true -> nle b c = true -> nlt a c = true.
Proof.
  intros H1 H2. rewrite l_lt. rewrite (l_le_trans a b c (lt_le _ _ H1) H2). cbn.
  destruct (nle c a) eqn:E; [|reflexivity].
  pose proof (l_le_trans _ _ _ H2 E) as H3. rewrite (lt_nle a b H1) in H3. discriminate.
Qed.

Lemma lt_trans a b c : nlt a b = true -> nlt b c = true -> nlt a c = true.
Proof. intros H1 H2. exact (lt_le_trans _ _ _ H1 (lt_le _ _ H2)). Qed.

Lemma lt_nan a b : nlt a b = true -> nisnan a = false /\ nisnan b = false.
Proof. intros H. exact (l_le_nan _ _ (lt_le _ _ H)). Qed.

Lemma lt_irrefl a : nlt a a = false.
Proof. rewrite l_lt. destruct (nle a a); reflexivity. Qed.

Lemma eq_le a b : neqb a b = true -> nle a b = true /\ nle b a = true.
Proof. rewrite l_eq. apply andb_prop. Qed.

Lemma eq_sym a b : neqb a b = neqb b a.
Proof. rewrite !l_eq. apply andb_comm. Qed.

Lemma eq_refl_num a : nisnan a = false -> neqb a a = true.
Proof. intros H. rewrite l_eq, le_refl by exact H. reflexivity. Qed.

Lemma zero_nan : nisnan nzero = false.
Proof. apply l_fin_nan, l_fin_Z0. Qed.

(** trichotomy with zero *)
Lemma trichotomy a b : nisnan a = false -> nisnan b = false ->
  nlt a b = true \/ neqb a b = true \/ nlt b a = true.
Proof.
  intros Ha Hb. rewrite l_eq, !l_lt.
  destruct (l_le_total a b Ha Hb) as [H|H]; rewrite H; cbn.
  - destruct (nle b a); cbn; auto.
  - destruct (nle a b); cbn; auto.
Qed.

End Derived.

(** ** The extended reals *)
Local Open Scope R_scope.

Lemma Rltb_true a b : Rltb a b = true <-> a < b.
Proof. unfold Rltb. destruct (Rlt_dec a b); split; auto; discriminate. Qed.
Lemma Rleb_true a b : Rleb a b = true <-> a <= b.
Proof. unfold Rleb. destruct (Rle_dec a b); split; auto; discriminate. Qed.
Lemma Reqb_true a b : Reqb a b = true <-> a = b.
Proof. unfold Reqb. destruct (Req_EM_T a b); split; auto; discriminate. Qed.
Lemma Rltb_false a b : Rltb a b = false <-> b <= a.
Proof. unfold Rltb. destruct (Rlt_dec a b); split; auto; try discriminate; lra. Qed.
Lemma Rleb_false a b : Rleb a b = false <-> b < a.
Proof. unfold Rleb. destruct (Rle_dec a b); split; auto; try discriminate; lra. Qed.
Lemma Reqb_false a b : Reqb a b = false <-> a <> b.
Proof. unfold Reqb. destruct (Req_EM_T a b); split; auto; try discriminate; congruence. Qed.

Lemma Rltb_spec a b : reflect (a < b) (Rltb a b).
Proof. unfold Rltb. destruct (Rlt_dec a b); constructor; assumption. Qed.
Lemma Rleb_spec a b : reflect (a <= b) (Rleb a b).
Proof. unfold Rleb. destruct (Rle_dec a b); constructor; assumption. Qed.
Lemma Reqb_spec a b : reflect (a = b) (Reqb a b).
Proof. unfold Reqb. destruct (Req_EM_T a b); constructor; assumption. Qed.

Lemma xlt_le a b : xlt a b = xle a b && negb (xle b a).
Proof.
  destruct a, b; cbn; try reflexivity.
  destruct (Rltb_spec r r0), (Rleb_spec r r0), (Rleb_spec r0 r); try reflexivity; lra.
Qed.

Lemma xeqb_le a b : xeqb a b = xle a b && xle b a.
Proof.
  destruct a, b; cbn; try reflexivity.
  destruct (Reqb_spec r r0), (Rleb_spec r r0), (Rleb_spec r0 r); try reflexivity; lra.
Qed.

#[export] Instance XR_laws : NumLaws XR.
Proof.
  constructor; unfold nfin, nzero; cbn [num nadd nsub nmul ndiv nneg nabs nlt nle neqb nisnan nofZ nfloor ntrunc nf32 nexp XR].
  - intros a b c; destruct a, b, c; cbn; try discriminate; auto. rewrite !Rleb_true. lra.
  - intros a b; destruct a, b; cbn; try discriminate; auto.
  - intros a b; destruct a, b; cbn; try discriminate; auto. intros _ _. rewrite !Rleb_true. lra.
  - apply xlt_le.
  - apply xeqb_le.
  - intros a; destruct a; cbn; try discriminate; auto.
  - reflexivity.
  - intros a b c; destruct a, b, c; cbn; try discriminate; auto.
  - intros a b c; destruct a, b, c; cbn; try discriminate; auto. rewrite !Rleb_true. intros; lra.
  - intros a b c; destruct a, b, c; cbn; try discriminate; auto. rewrite !Rleb_true. intros; lra.
  - intros a b c; destruct a, b, c; cbn; try discriminate; auto. rewrite !Rleb_true. intros; lra.
  - intros a b; destruct a, b; cbn; try discriminate; auto.
  - intros a b; destruct a, b; cbn; try discriminate; auto.
  - intros a; destruct a; cbn; try discriminate. intros _. f_equal. lra.
  - intros a b; destruct a, b; cbn; try discriminate; auto. rewrite !Rltb_true. intros; lra.
  - intros a; destruct a; cbn; try discriminate; auto. intros _. apply Reqb_true. lra.
  - intros a; destruct a; cbn; try discriminate; auto. intros _. apply Reqb_true. lra.
  - intros a b; destruct a, b; cbn; try discriminate; auto. rewrite !Rleb_true. intros; lra.
  - apply Reqb_true. lra.
  - intros a; destruct a; reflexivity.
  - intros a; destruct a; reflexivity.
  - intros a; destruct a; cbn; try discriminate; auto. rewrite Rleb_true, Reqb_true. intros. apply Rabs_pos_eq. lra.
  - intros a; destruct a; cbn; try discriminate; auto. rewrite Rleb_true, Reqb_true. intros. apply Rabs_left1. lra.
  - intros a; destruct a; reflexivity.
  - intros a b; destruct a, b; cbn; try reflexivity. f_equal. replace (r + - r0) with (- (r0 + - r)) by lra. apply Rabs_Ropp.
  - intros a b; destruct a, b; cbn; try discriminate; auto.
  - intros a b; destruct a, b; cbn; try discriminate; auto.
  - intros a b; destruct a, b; cbn; try discriminate; auto.
  - intros a b; destruct a, b; cbn; try discriminate; auto.
  - intros a; destruct a; reflexivity.
  - intros a; destruct a; cbn; try discriminate; intros _ _; [right|left]; intros b; destruct b; cbn; auto; discriminate.
Qed.
