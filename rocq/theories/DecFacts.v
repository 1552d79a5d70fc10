(** The decimal conversion of the reader is correctly rounded. *)
From Coq Require Import ZArith Reals List Bool Lia Lra Psatz.
From Coq Require Import Floats.SpecFloat.
From Flocq Require Import Core BinarySingleNaN Div Bracket.
From Verif Require Import Num Mem XR B64 DataStructure FileReader.
Local Open Scope R_scope.

Notation fexp64 := (SpecFloat.fexp 53 1024).
Notation rnd64 := (round radix2 fexp64 ZnearestE).

Lemma quotient64_correct (neg : bool) (n d : Z) : (0 < n)%Z -> (0 < d)%Z ->
  let x := (if neg then - (IZR n / IZR d) else IZR n / IZR d) in
  if Rlt_bool (Rabs (rnd64 x)) (bpow radix2 1024) then
    B2R (quotient64 neg n d) = rnd64 x /\ is_finite (quotient64 neg n d) = true /\ Bsign (quotient64 neg n d) = neg
  else quotient64 neg n d = B754_infinity neg.
Proof.
  intros Hn Hd x.
  assert (Pn : 0 < IZR n) by (apply (IZR_lt 0); exact Hn).
  assert (Pd : 0 < IZR d) by (apply (IZR_lt 0); exact Hd).
  assert (Pq : 0 < IZR n / IZR d) by (apply Rdiv_lt_0_compat; assumption).
  assert (En : F2R (Float radix2 n 0) = IZR n) by (unfold F2R; cbn; lra).
  assert (Ed : F2R (Float radix2 d 0) = IZR d) by (unfold F2R; cbn; lra).
  pose proof (@Fdiv_correct radix2 fexp64 (Float radix2 n 0) (Float radix2 d 0)) as H.
  rewrite En, Ed in H. specialize (H Pn Pd).
  unfold quotient64. destruct (@Fdiv radix2 fexp64 (Float radix2 n 0) (Float radix2 d 0)) as [[m e] l].
  destruct H as [He Hb].
  assert (Hx : x <> 0) by (unfold x; destruct neg; lra).
  assert (Ha : Rabs x = IZR n / IZR d).
  { unfold x. destruct neg; [rewrite Rabs_Ropp|]; apply Rabs_pos_eq; lra. }
  assert (Hs : Rlt_bool x 0 = neg).
  { unfold x. destruct neg; [apply Rlt_bool_true|apply Rlt_bool_false]; lra. }
  pose proof (binary_round_aux_correct' 53 1024 _ _ mode_NE x m e l Hx) as B.
  rewrite Ha in B. specialize (B Hb).
  assert (Hc : (e <= cexp radix2 fexp64 x)%Z).
  { rewrite <- cexp_abs, Ha. exact He. }
  specialize (B Hc). rewrite Hs in B. cbv zeta in B. destruct B as [Hv B].
  cbn [round_mode] in B. revert Hv B.
  destruct (binary_round_aux 53 1024 mode_NE neg m e l) as [s|s| |s mz ez]; intros Hv B.
  - destruct (Rlt_bool (Rabs (rnd64 x)) (bpow radix2 1024)); [exact B|discriminate].
  - destruct (Rlt_bool (Rabs (rnd64 x)) (bpow radix2 1024)); [destruct B as (_ & B & _); discriminate|].
    cbn in B. injection B as ->. reflexivity.
  - destruct (Rlt_bool (Rabs (rnd64 x)) (bpow radix2 1024)); [destruct B as (_ & B & _); discriminate|discriminate].
  - cbn in Hv.
    assert (K : forall b (E : bounded 53 1024 mz ez = b), b = true -> exists H,
      (match b as b0 return bounded 53 1024 mz ez = b0 -> b64 with
       | true => fun H => B754_finite s mz ez H
       | false => fun _ => B754_nan
       end) E = B754_finite s mz ez H).
    { intros b E Hb'. destruct b; [|discriminate]. exists E. reflexivity. }
    destruct (K _ eq_refl Hv) as [H ->].
    destruct (Rlt_bool (Rabs (rnd64 x)) (bpow radix2 1024)); [exact B|discriminate].
Qed.

Lemma decR_sign neg m e : decR neg m e = (if neg then - decR false m e else decR false m e).
Proof. unfold decR. destruct neg; [rewrite opp_IZR; ring|reflexivity]. Qed.

Lemma dec64_correct neg m e : (0 <= m)%Z ->
  let x := decR neg m e in
  if Rlt_bool (Rabs (rnd64 x)) (bpow radix2 1024) then
    B2R (dec64 neg m e) = rnd64 x /\ is_finite (dec64 neg m e) = true /\ Bsign (dec64 neg m e) = neg
  else dec64 neg m e = B754_infinity neg.
Proof.
  intros Hm x. unfold dec64. destruct (Z.eqb_spec m 0) as [->|Hm0].
  - assert (E : x = 0) by (unfold x, decR; destruct neg; cbn [Z.opp]; ring). rewrite E, round_0 by apply valid_rnd_N.
    rewrite Rabs_R0, Rlt_bool_true by apply bpow_gt_0. repeat split.
  - assert (Hm1 : (0 < m)%Z) by lia. destruct (Z.leb_spec 0 e) as [He|He].
    + assert (E : x = if neg then - (IZR (m * 10 ^ e) / IZR 1) else IZR (m * 10 ^ e) / IZR 1).
      { unfold x. rewrite decR_sign. unfold decR. rewrite (proj2 (Z.leb_le 0 e) He), mult_IZR. destruct neg; field. }
      rewrite E. apply quotient64_correct; [|lia]. apply Z.mul_pos_pos; [exact Hm1|]. apply Z.pow_pos_nonneg; lia.
    + assert (E : x = if neg then - (IZR m / IZR (10 ^ (- e))) else IZR m / IZR (10 ^ (- e))).
      { unfold x. rewrite decR_sign. unfold decR. rewrite (proj2 (Z.leb_gt 0 e) He). reflexivity. }
      rewrite E. apply quotient64_correct; [exact Hm1|]. apply Z.pow_pos_nonneg; lia.
Qed.

(** the value of [decR] with powers of ten as reals *)
Lemma decR_power neg m e : decR neg m e = IZR (if neg then - m else m) * powerRZ 10 e.
Proof.
  unfold decR. f_equal. destruct e as [|p|p]; cbn [Z.leb Z.compare].
  - reflexivity.
  - cbn [powerRZ]. replace (Z.pos p) with (Z.of_nat (Pos.to_nat p)) by apply positive_nat_Z. rewrite <- pow_IZR. reflexivity.
  - cbn [powerRZ Z.opp]. replace (Z.pos p) with (Z.of_nat (Pos.to_nat p)) by apply positive_nat_Z. rewrite <- pow_IZR. reflexivity.
Qed.
