(** Concrete inputs used to show that hypotheses of theorems can be met. *)
From Coq Require Import ZArith Reals List Bool Arith Lia.
From Coq Require Import SpecFloat.
From Flocq Require Import Core BinarySingleNaN.
From Verif Require Import Num Mem MemFacts XR B64 Spec Api DataStructure Correlator Sacf.
Import ListNotations.

(** binary64 with some [exp] *)
#[export] Instance BB : Num := B64 (fun x => x).

Definition ints (l : list Z) : list (@num BB) := map b64_ofZ l.
Definition fl (z : Z) : @num BB := b64_ofZ z.
Definition half (z : Z) : @num BB := Bdiv mode_NE (b64_ofZ z) (b64_ofZ 2).

Arguments fl z%Z_scope.
Arguments half z%Z_scope.

(** closed facts about binary64 values are decided on their sign, mantissa and exponent: normalising
    the values themselves would normalise the proofs inside them *)
Definition sf_same (a b : spec_float) : bool :=
  match a, b with
  | S754_zero s, S754_zero s' | S754_infinity s, S754_infinity s' => Bool.eqb s s'
  | S754_nan, S754_nan => true
  | S754_finite s m e, S754_finite s' m' e' => Bool.eqb s s' && Pos.eqb m m' && Z.eqb e e'
  | _, _ => false
  end.
Definition same (a b : @num BB) : bool := sf_same (B2SF a) (B2SF b).

Lemma same_eq a b : same a b = true -> a = b.
Proof.
  unfold same. intros H. apply B2SF_inj. revert H.
  destruct (B2SF a), (B2SF b); cbn; try discriminate; intros H.
  - apply eqb_prop in H. congruence.
  - apply eqb_prop in H. congruence.
  - reflexivity.
  - apply andb_prop in H. destruct H as [H H3]. apply andb_prop in H. destruct H as [H1 H2].
    apply eqb_prop in H1. apply Pos.eqb_eq in H2. apply Z.eqb_eq in H3. congruence.
Qed.

Fixpoint all2 {X} (f : X -> X -> bool) (l m : list X) : bool :=
  match l, m with
  | [], [] => true
  | x :: l, y :: m => f x y && all2 f l m
  | _, _ => false
  end.

Lemma all2_eq {X} (f : X -> X -> bool) : (forall x y, f x y = true -> x = y) ->
  forall l m, all2 f l m = true -> l = m.
Proof.
  intros Hf l. induction l as [|x l IH]; intros [|y m] H; cbn in H; try discriminate; [reflexivity|].
  apply andb_prop in H. destruct H as [H1 H2]. f_equal; [apply Hf; exact H1|apply IH; exact H2].
Qed.

Definition sames : list (@num BB) -> list (@num BB) -> bool := all2 same.
Definition sames2 : list (list (@num BB)) -> list (list (@num BB)) -> bool := all2 sames.
Lemma sames_eq l m : sames l m = true -> l = m.
Proof. apply all2_eq. exact same_eq. Qed.
Lemma sames2_eq l m : sames2 l m = true -> l = m.
Proof. apply all2_eq. exact sames_eq. Qed.

(** the call returned, and what it returned passes the check *)
Definition ok_with {T} (r : res T) (P : T -> bool) : bool := match r with Ok x => P x | _ => false end.
Lemma ok_with_ok {T} (r : res T) P : ok_with r P = true -> exists x, r = Ok x /\ P x = true.
Proof. destruct r; cbn; try discriminate. eauto. Qed.
Lemma ok_with_eq {T} (r : res T) P y : (forall x, P x = true -> x = y) -> ok_with r P = true -> r = Ok y.
Proof. intros HP H. destruct (ok_with_ok r P H) as [x [-> Hx]]. rewrite (HP x Hx). reflexivity. Qed.

Definition thrown {T} (r : res T) : option exn := match r with Throw e => Some e | _ => None end.
Definition undefined {T} (r : res T) : option ub := match r with UB u => Some u | _ => None end.
Lemma thrown_eq {T} (r : res T) e : thrown r = Some e -> r = Throw e.
Proof. destruct r; cbn; congruence. Qed.
Lemma undefined_eq {T} (r : res T) u : undefined r = Some u -> r = UB u.
Proof. destruct r; cbn; congruence. Qed.

(** GCC/libstdc++ and clang/libc++ without and with element access checks *)
Definition gcc : platform := {| p_abs := AbsInt; p_checked := false |}.
Definition clang : platform := {| p_abs := AbsFloat; p_checked := false |}.
Definition gcc_checked : platform := {| p_abs := AbsInt; p_checked := true |}.

(** decision procedures for closed lists *)
Section Dec.
Context {A : Num}.

Definition orderedb (l : list num) : bool :=
  forallb (fun i => forallb (fun j => (j <? i) || nle (nth i l nzero) (nth j l nzero)) (seq 0 (length l))) (seq 0 (length l)).

Lemma orderedb_ok l : orderedb l = true -> ordered l.
Proof.
  unfold orderedb. rewrite forallb_forall. intros H i j a b Hij Ha Hb.
  assert (Hi : i < length l) by (apply nth_error_Some; congruence).
  assert (Hj : j < length l) by (apply nth_error_Some; congruence).
  specialize (H i ltac:(apply in_seq; lia)). rewrite forallb_forall in H. specialize (H j ltac:(apply in_seq; lia)).
  destruct (Nat.ltb_spec j i); [lia|]. cbn in H.
  rewrite (nth_error_nth l i nzero Ha), (nth_error_nth l j nzero Hb) in H. exact H.
Qed.

Definition increasingb (l : list num) : bool :=
  orderedb l &&
  forallb (fun i => forallb (fun j => (j <=? i) || nlt (nth i l nzero) (nth j l nzero)) (seq 0 (length l))) (seq 0 (length l)).

Lemma increasingb_ok l : increasingb l = true -> increasing l.
Proof.
  unfold increasingb. intros H. apply andb_prop in H. destruct H as [H1 H]. split; [apply orderedb_ok; exact H1|].
  rewrite forallb_forall in H. intros i j a b Hij Ha Hb.
  assert (Hi : i < length l) by (apply nth_error_Some; congruence).
  assert (Hj : j < length l) by (apply nth_error_Some; congruence).
  specialize (H i ltac:(apply in_seq; lia)). rewrite forallb_forall in H. specialize (H j ltac:(apply in_seq; lia)).
  destruct (Nat.leb_spec j i); [lia|]. cbn in H.
  rewrite (nth_error_nth l i nzero Ha), (nth_error_nth l j nzero Hb) in H. exact H.
Qed.

Definition all_finite (l : list num) : bool :=
  forallb (fun x => match nfloor x with Some _ => true | None => false end) l.

Lemma all_finite_ok l : all_finite l = true -> forall x, In x l -> finite x.
Proof.
  unfold all_finite. rewrite forallb_forall. intros H x Hx E. specialize (H x Hx). rewrite E in H. discriminate.
Qed.

(** what a call returned, without the correlator *)
Definition returned (r : res (list num * py_corr * correlator)) : res (list num * py_corr) :=
  do x <- r; Ok (fst x).

End Dec.
