(** 17 digits determine a double; doubles keep 15 digits apart. *)
From Coq Require Import String.
From Coq Require Import ZArith Reals List Bool Arith Ascii Lia Lra.
From Flocq Require Import Core BinarySingleNaN Relative.
From Verif Require Import Num Mem XR B64 Spec SpecR DataStructure Correlator Sacf Api FileReader SpecFile FileThms FileVals SpecDigits.
Import ListNotations.
Local Open Scope list_scope.
Local Open Scope R_scope.

Definition F64 := generic_format radix2 (FLT_exp (-1074) 53).
#[local] Instance p53 : Prec_gt_0 53. Proof. reflexivity. Qed.

Lemma near_pos x y : F64 x -> F64 y -> 0 < x -> Rabs (y - x) < x * bpow radix2 (-53) -> y = x.
Proof.
  intros Fx Fy Hx H. apply Rabs_lt_inv in H. destruct (Rtotal_order y x) as [Hlt|[E|Hgt]]; [exfalso|exact E|exfalso].
  - pose proof (pred_ge_gt radix2 (FLT_exp (-1074) 53) y x Fy Fx Hlt) as K.
    rewrite pred_eq_pos in K by lra. unfold pred_pos in K. destruct (Req_bool_spec x (bpow radix2 (mag radix2 x - 1))) as [E|Hne].
    + assert (G : x * bpow radix2 (-53) <= bpow radix2 (FLT_exp (-1074) 53 (mag radix2 x - 1))); [|lra].
      rewrite E at 1. rewrite <- bpow_plus. apply bpow_le. unfold FLT_exp. lia.
    + pose proof (ulp_FLT_gt radix2 (-1074) 53 x) as G. rewrite Rabs_pos_eq in G by lra. unfold Z.opp in G. lra.
  - pose proof (succ_le_lt radix2 (FLT_exp (-1074) 53) x y Fx Fy Hgt) as K. rewrite succ_eq_pos in K by lra.
    pose proof (ulp_FLT_gt radix2 (-1074) 53 x) as G. rewrite Rabs_pos_eq in G by lra. unfold Z.opp in G. lra.
Qed.

Lemma near_eq x y : F64 x -> F64 y -> Rabs (y - x) < Rabs x * bpow radix2 (-53) -> y = x.
Proof.
  intros Fx Fy H. destruct (Rtotal_order x 0) as [Hn|[E|Hp]].
  - enough (- y = - x) by lra. apply near_pos; [apply generic_format_opp, Fx|apply generic_format_opp, Fy|lra|].
    replace (- y - - x) with (- (y - x)) by ring. rewrite Rabs_Ropp. rewrite (Rabs_left x) in H by exact Hn. exact H.
  - rewrite E, Rabs_R0, Rmult_0_l in H. pose proof (Rabs_pos (y - 0)). lra.
  - apply near_pos; try assumption. rewrite (Rabs_pos_eq x) in H by lra. exact H.
Qed.

Lemma round_near x v : F64 x -> Rabs (v - x) < Rabs x * bpow radix2 (-54) -> round radix2 (FLT_exp (-1074) 53) ZnearestE v = x.
Proof.
  intros Fx H. set (y := round _ _ _ v). assert (Fy : F64 y) by (apply generic_format_round; typeclasses eauto).
  apply near_eq; [exact Fx|exact Fy|].
  destruct (round_N_pt radix2 (FLT_exp (-1074) 53) (fun x => negb (Z.even x)) v) as [_ K]. specialize (K x Fx). fold y in K.
  assert (E : bpow radix2 (-53) = 2 * bpow radix2 (-54)) by (change 2 with (bpow radix2 1); rewrite <- bpow_plus; reflexivity).
  rewrite E. replace (y - x) with ((y - v) + (v - x)) by ring. eapply Rle_lt_trans; [apply Rabs_triang|].
  rewrite (Rabs_minus_sym x v) in K. lra.
Qed.

Lemma pow10_pos s : 0 < powerRZ 10 s. Proof. apply powerRZ_lt. lra. Qed.

Lemma lit_abs l : (0 <= mantissa l)%Z -> Rabs (literal_real l) = IZR (mantissa l) * powerRZ 10 (scale l).
Proof.
  intros H. unfold literal_real. rewrite Rabs_mult, (Rabs_pos_eq (powerRZ _ _)) by (apply Rlt_le, pow10_pos). f_equal.
  destruct (negative (l_sign l)); [rewrite opp_IZR, Rabs_Ropp|]; apply Rabs_pos_eq, IZR_le, H.
Qed.

Lemma written_round l x : written 17 l x -> nearest_double l = B2R x.
Proof.
  intros (Hf & _ & [[Hm Hx]|[Hm Hd]]); unfold nearest_double.
  - rewrite Hx. replace (literal_real l) with 0; [apply round_0; typeclasses eauto|]. unfold literal_real. rewrite Hm. destruct (negative (l_sign l)); cbn; ring.
  - apply round_near; [apply (generic_format_B2R 53 1024 x)|]. change (10 ^ (Z.of_nat 17 - 1))%Z with 10000000000000000%Z in Hm.
    pose proof (lit_abs l ltac:(lia)) as HA. pose proof (pow10_pos (scale l)) as HP. apply IZR_le in Hm.
    assert (HB : 10000000000000000 * powerRZ 10 (scale l) <= Rabs (literal_real l)) by (rewrite HA; apply Rmult_le_compat_r; lra).
    assert (HC : Rabs (literal_real l) - powerRZ 10 (scale l) / 2 <= Rabs (B2R x)).
    { pose proof (Rabs_triang (literal_real l - B2R x) (B2R x)) as T. replace (literal_real l - B2R x + B2R x) with (literal_real l) in T by ring. lra. }
    eapply Rle_lt_trans; [exact Hd|]. change (bpow radix2 (-54)) with (/ 18014398509481984). lra.
Qed.

Lemma written_reads l x y : written 17 l x -> reads_as l y -> y = x.
Proof.
  intros Hw (Hf & Hv & Hs). pose proof (written_round l x Hw) as E. destruct Hw as (Hx & Hxs & _).
  apply B2R_Bsign_inj; try assumption; congruence.
Qed.

Lemma written_col k ls xs ys : k = 17%nat -> Forall2 (written k) ls xs -> Forall2 reads_as ls ys -> ys = xs.
Proof.
  intros ->. intros H. revert ys. induction H as [|l x ls xs H1 H2 IH]; intros ys HR; inversion HR as [|? ? ? ? R1 R2]; subst; [reflexivity|].
  rewrite (written_reads l x _ H1 R1). f_equal. apply IH, R2.
Qed.

Lemma read_17 exp64 (n : nat) (ls : list line) (ts vs es : list b64) :
  (n = 2 \/ n = 3)%nat -> Forall line_ok ls -> all_of n ls -> Forall (fun l => Forall in_range (literals_of l)) ls -> ts <> [] ->
  Forall2 (written 17) (column 0 ls) ts -> Forall2 (written 17) (column 1 ls) vs -> (n = 3%nat -> Forall2 (written 17) (column 2 ls) es) ->
  exists d, ds_file (A := B64 exp64) (Some (text_of_lines ls)) = Ok d /\ timeseries d = ts /\ data_2d d = Ok [vs] /\
    err_2d d = Ok (if (n =? 3)%nat then [es] else []).
Proof.
  intros Hn Ho Hall Hr Hne Ht Hv He.
  assert (Hc : column 0 ls <> []). { intros C. rewrite C in Ht. inversion Ht; subst. contradiction. }
  destruct (stored_double exp64 n ls Hn Ho Hall Hr Hc) as (d & row & er & Ed & E1 & E2 & R0 & R1 & R2 & R3).
  exists d. split; [exact Ed|]. split; [exact (written_col 17 _ _ _ eq_refl Ht R0)|].
  split; [rewrite E1, (written_col 17 _ _ _ eq_refl Hv R1); reflexivity|]. rewrite E2. destruct Hn as [->| ->].
  - rewrite (R2 eq_refl). reflexivity.
  - destruct (R3 eq_refl) as (e & -> & R4). rewrite (written_col 17 _ _ _ eq_refl (He eq_refl) R4). reflexivity.
Qed.

(** ** 15 digits *)
Lemma rnd_rel r : bpow radix2 (-1022) <= Rabs r -> Rabs (round radix2 (FLT_exp (-1074) 53) ZnearestE r - r) <= bpow radix2 (-53) * Rabs r.
Proof.
  intros H. pose proof (relative_error_N_FLT radix2 (-1074) 53 p53 (fun x => negb (Z.even x)) r H) as K. 
  replace (/ 2 * bpow radix2 (- (53) + 1)) with (bpow radix2 (-53)) in K; [exact K|].
  change (- (53) + 1)%Z with (-53 + 1)%Z. rewrite bpow_plus. change (bpow radix2 1) with 2. field.
Qed.

Lemma pow10_le s s' : (s <= s')%Z -> exists k : Z, (0 < k)%Z /\ powerRZ 10 s' = IZR k * powerRZ 10 s.
Proof.
  intros H. exists (10 ^ (s' - s))%Z. split; [apply Z.pow_pos_nonneg; lia|].
  replace s' with ((s' - s) + s)%Z at 1 by ring. rewrite powerRZ_add by lra. f_equal.
  rewrite <- (Z2Nat.id (s' - s)) at 1 by lia. rewrite <- pow_powerRZ, <- (Z2Nat.id (s' - s)) at 1 by lia. rewrite pow_IZR. f_equal. rewrite !Z2Nat.id by lia. reflexivity.
Qed.

(** two decimal numbers with at most 15 digits, of which [a] is nearer to zero *)
Lemma short_gap a b : short 15 a -> short 15 b -> 0 < a -> a < b -> a <= 1000000000000000 * (b - a).
Proof.
  intros (m & s & Hm & Ea) (m' & s' & Hm' & Eb) Ha Hab. change (10 ^ Z.of_nat 15)%Z with 1000000000000000%Z in *.
  pose proof (pow10_pos s) as Ps. pose proof (pow10_pos s') as Ps'.
  assert (I : forall k z, 0 < z -> 0 < IZR k * z -> (1 <= k)%Z).
  { intros k z Hz Hk. destruct (Z_lt_le_dec 0 k) as [|C]; [lia|]. exfalso. apply IZR_le in C. pose proof (Rmult_le_compat_r z _ _ (Rlt_le _ _ Hz) C). lra. }
  destruct (Z_le_gt_dec s s') as [Hs|Hs].
  - destruct (pow10_le s s' Hs) as (k & _ & Ek). rewrite Ek in Eb.
    assert (Ed : b - a = IZR (m' * k - m) * powerRZ 10 s) by (rewrite minus_IZR, mult_IZR, Ea, Eb; ring).
    pose proof (I _ _ Ps ltac:(rewrite <- Ed; lra)) as H1. rewrite Ed. apply IZR_le in H1.
    assert (IZR m <= 1000000000000000) by (apply IZR_le; lia).
    apply Rle_trans with (1000000000000000 * (1 * powerRZ 10 s)); [rewrite Ea, Rmult_1_l; apply Rmult_le_compat_r; lra|].
    apply Rmult_le_compat_l; [lra|]. apply Rmult_le_compat_r; lra.
  - destruct (pow10_le s' s ltac:(lia)) as (k & _ & Ek). rewrite Ek in Ea.
    assert (Ed : b - a = IZR (m' - m * k) * powerRZ 10 s') by (rewrite minus_IZR, mult_IZR, Ea, Eb; ring).
    pose proof (I _ _ Ps' ltac:(rewrite <- Ed; lra)) as H1. apply IZR_le in H1.
    assert (IZR m' <= 1000000000000000) by (apply IZR_le; lia).
    apply Rle_trans with b; [lra|]. rewrite Ed.
    apply Rle_trans with (1000000000000000 * (1 * powerRZ 10 s')); [rewrite Eb, Rmult_1_l; apply Rmult_le_compat_r; lra|].
    apply Rmult_le_compat_l; [lra|]. apply Rmult_le_compat_r; lra.
Qed.

Notation rnd64 := (round radix2 (FLT_exp (-1074) 53) ZnearestE).

Lemma short_lt_pos a b : short 15 a -> short 15 b -> zero_or_normal a -> 0 < a -> a < b -> rnd64 a < rnd64 b.
Proof.
  intros Sa Sb Na Ha Hab. pose proof (short_gap a b Sa Sb Ha Hab) as G. destruct Na as [Na|Na]; [lra|].
  assert (Nb : bpow radix2 (-1022) <= Rabs b) by (rewrite Rabs_pos_eq in Na |- * by lra; lra).
  pose proof (rnd_rel a Na) as Ra. pose proof (rnd_rel b Nb) as Rb. rewrite (Rabs_pos_eq b) in Rb by lra. rewrite (Rabs_pos_eq a) in Ra by lra.
  apply Rabs_le_inv in Ra. apply Rabs_le_inv in Rb. change (bpow radix2 (-53)) with (/ 9007199254740992) in *. lra.
Qed.

Lemma short_opp k r : short k r -> short k (- r).
Proof. intros (m & s & H & E). exists (- m)%Z, s. split; [lia|]. rewrite opp_IZR, E. ring. Qed.

Lemma rnd_opp r : rnd64 (- r) = - rnd64 r.
Proof. apply round_NE_opp. Qed.

Lemma rnd_sign r : zero_or_normal r -> 0 < r -> 0 < rnd64 r.
Proof.
  intros [->|H] Hr; [lra|]. pose proof (rnd_rel r H) as K. rewrite (Rabs_pos_eq r) in K by lra. apply Rabs_le_inv in K.
  change (bpow radix2 (-53)) with (/ 9007199254740992) in *. lra.
Qed.

Lemma short_lt a b : short 15 a -> short 15 b -> zero_or_normal a -> zero_or_normal b -> a < b -> rnd64 a < rnd64 b.
Proof.
  intros Sa Sb Na Nb Hab.
  assert (No : forall r, zero_or_normal r -> zero_or_normal (- r)) by (intros r [->|H]; [left; ring|right; rewrite Rabs_Ropp; exact H]).
  assert (R0 : rnd64 0 = 0) by (apply round_0; typeclasses eauto).
  destruct (Rlt_le_dec 0 a) as [Ha|Ha]; [apply short_lt_pos; assumption|].
  destruct (Rlt_le_dec b 0) as [Hb|Hb].
  - enough (rnd64 (- b) < rnd64 (- a)) by (rewrite !rnd_opp in *; lra). apply short_lt_pos; [apply short_opp, Sb|apply short_opp, Sa|apply No, Nb|lra|lra].
  - assert (La : rnd64 a <= 0) by (rewrite <- R0; apply round_le; [typeclasses eauto|typeclasses eauto|lra]).
    assert (Lb : 0 <= rnd64 b) by (rewrite <- R0; apply round_le; [typeclasses eauto|typeclasses eauto|lra]).
    destruct (Rlt_le_dec 0 b) as [Hb'|Hb'].
    + pose proof (rnd_sign b Nb Hb'). lra.
    + assert (Ha' : 0 < - a) by lra. pose proof (rnd_sign (- a) (No a Na) Ha') as K. rewrite rnd_opp in K. lra.
Qed.

(** strictly increasing decimal time stamps stay strictly increasing *)
Lemma F2_len {X Y} (R : X -> Y -> Prop) l l' : Forall2 R l l' -> length l = length l'.
Proof. induction 1; cbn [length]; [reflexivity|]. f_equal. assumption. Qed.

Lemma Forall2_nth {X Y} (P : X -> Y -> Prop) xs ys i y : Forall2 P xs ys -> nth_error ys i = Some y -> exists x, nth_error xs i = Some x /\ P x y.
Proof.
  intros H. revert i. induction H as [|x y' xs ys H1 H2 IH]; intros [|i] E; cbn in E; try discriminate.
  - injection E as <-. exists x. auto.
  - destruct (IH i E) as (z & Hz & Hp). exists z. auto.
Qed.

Lemma read_15 exp64 (n : nat) (ls : list line) :
  (n = 2 \/ n = 3)%nat -> Forall line_ok ls -> all_of n ls -> Forall (fun l => Forall in_range (literals_of l)) ls -> column 0 ls <> [] ->
  let times := map literal_real (column 0 ls) in
  Forall (short 15) times -> Forall zero_or_normal times -> (forall i j a b, (i < j)%nat -> nth_error times i = Some a -> nth_error times j = Some b -> a < b) ->
  exists d, ds_file (A := B64 exp64) (Some (text_of_lines ls)) = Ok d /\ length (timeseries d) = length times /\ increasing (timeseries d).
Proof.
  intros Hn Ho Hall Hr Hc times Hs Hz Hi.
  destruct (stored_double exp64 n ls Hn Ho Hall Hr Hc) as (d & row & er & Ed & E1 & E2 & R0 & _).
  exists d. split; [exact Ed|]. split; [unfold times; rewrite map_length; symmetry; exact (F2_len _ _ _ R0)|].
  rewrite Forall_forall in Hs, Hz.
  assert (K : forall i x, nth_error (timeseries d) i = Some x -> exists r, nth_error times i = Some r /\ is_finite (x : b64) = true /\ B2R (x : b64) = rnd64 r).
  { intros i x Hx. destruct (Forall2_nth _ _ _ i x R0 Hx) as (l & Hl & H1 & H2 & _). exists (literal_real l). split; [|split; assumption].
    unfold times. rewrite nth_error_map, Hl. reflexivity. }
  assert (S : forall i j a b, (i < j)%nat -> nth_error (timeseries d) i = Some a -> nth_error (timeseries d) j = Some b -> is_finite (a : b64) = true /\ is_finite (b : b64) = true /\ B2R (a : b64) < B2R (b : b64)).
  { intros i j a b Hij Ha Hb. destruct (K i a Ha) as (r & Hr1 & Hf1 & ->). destruct (K j b Hb) as (r' & Hr2 & Hf2 & ->). split; [exact Hf1|]. split; [exact Hf2|].
    pose proof (nth_error_In _ _ Hr1) as I1. pose proof (nth_error_In _ _ Hr2) as I2.
    apply short_lt; [apply Hs, I1|apply Hs, I2|apply Hz, I1|apply Hz, I2|exact (Hi i j r r' Hij Hr1 Hr2)]. }
  split.
  - intros i j a b Hij Ha Hb. change (Bleb a b = true). destruct (Nat.eq_dec i j) as [->|].
    + rewrite Ha in Hb. injection Hb as <-. destruct (K j a Ha) as (r & _ & Hf & _). rewrite Bleb_correct by assumption. apply Rle_bool_true. lra.
    + destruct (S i j a b ltac:(lia) Ha Hb) as (Fa & Fb & H). rewrite Bleb_correct by assumption. apply Rle_bool_true. lra.
  - intros i j a b Hij Ha Hb. change (Bltb a b = true). destruct (S i j a b Hij Ha Hb) as (Fa & Fb & H). rewrite Bltb_correct by assumption. apply Rlt_bool_true. exact H.
Qed.
