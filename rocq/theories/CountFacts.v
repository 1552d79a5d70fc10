(** The number of lags in exact arithmetic. *)
From Coq Require Import String.
From Coq Require Import ZArith Reals List Bool Arith Lia Lra Classical_Prop.
From Flocq Require Import Core.
From Verif Require Import Num Mem MemFacts XR B64 Spec SpecR DataStructure DSFacts Correlator Sacf Api CorrFacts LoopFacts MainFacts
  Laws B64Facts Laws2 WeightFacts ConstrFacts SelFacts SelThms FastFacts TimeFacts GridFacts SafeFacts DefaultFacts ValFacts ExactFacts GridVals.
Import ListNotations.
Local Open Scope list_scope.
Local Open Scope R_scope.

Definition ncount (a r b : R) : nat := Z.to_nat (Zfloor ((b - a) / r) + 1).

Lemma ncount_Z a r b : 0 < r -> a <= b -> Z.of_nat (ncount a r b) = (Zfloor ((b - a) / r) + 1)%Z.
Proof.
  intros Hr Hab. unfold ncount. rewrite Z2Nat.id; [reflexivity|].
  assert (0 <= Zfloor ((b - a) / r))%Z; [|lia]. apply Zfloor_lub. apply Rmult_le_pos; [lra|]. apply Rlt_le, Rinv_0_lt_compat, Hr.
Qed.

Lemma ncount_in a r b i : 0 < r -> a <= b -> ((i < ncount a r b)%nat <-> a + INR i * r <= b).
Proof.
  intros Hr Hab. pose proof (ncount_Z a r b Hr Hab) as HZ.
  assert (E : a + INR i * r <= b <-> IZR (Z.of_nat i) <= (b - a) / r).
  { rewrite <- INR_IZR_INZ. split; intros H.
    - apply (Rmult_le_reg_r r); [exact Hr|]. unfold Rdiv. rewrite Rmult_assoc, Rinv_l by lra. lra.
    - apply (Rmult_le_compat_r r) in H; [|lra]. unfold Rdiv in H. rewrite Rmult_assoc, Rinv_l in H by lra. lra. }
  rewrite E. split; intros H.
  - apply Rle_trans with (IZR (Zfloor ((b - a) / r))); [apply IZR_le; lia|apply Zfloor_lb].
  - apply Zfloor_lub in H. lia.
Qed.

Lemma grid_stops a r b : 0 < r -> a <= b -> stops_at (A := XR) (Fin a) (Fin r) (Fin b) (ncount a r b).
Proof.
  intros Hr Hab. split.
  - intros i Hi. rewrite steps_exact. apply nle_Fin. apply (ncount_in a r b i Hr Hab). exact Hi.
  - rewrite steps_exact. apply not_true_iff_false. intros C. apply nle_Fin in C. apply (ncount_in a r b _ Hr Hab) in C. lia.
Qed.

Lemma wz_none a r n s : (forall j, (s <= j < s + n)%nat -> a + INR j * r < 0) ->
  length (with_zero (A := XR) (map (steps (A := XR) (Fin a) (Fin r)) (seq s n))) = n.
Proof.
  revert s. induction n as [|n IH]; intros s H; [reflexivity|]. cbn [seq map with_zero]. rewrite steps_exact.
  pose proof (H s ltac:(lia)) as Hs.
  assert (E1 : @neqb XR (Fin (a + INR s * r)) (@nzero XR) = false) by (apply Reqb_false; lra).
  assert (E2 : @nlt XR (@nzero XR) (Fin (a + INR s * r)) = false) by (apply Rltb_false; lra).
  rewrite E1, E2. cbn [length]. f_equal. apply IH. intros j Hj. apply H. lia.
Qed.

Lemma wz_hit a r n s k : 0 < r -> (s <= k < s + n)%nat -> a + INR k * r = 0 ->
  length (with_zero (A := XR) (map (steps (A := XR) (Fin a) (Fin r)) (seq s n))) = n.
Proof.
  intros Hr. revert s. induction n as [|n IH]; intros s Hk E; [lia|]. cbn [seq map with_zero]. rewrite steps_exact.
  destruct (Nat.eq_dec s k) as [->|Hne].
  - rewrite E. assert (E1 : @neqb XR (Fin 0) (@nzero XR) = true) by (apply Reqb_true; reflexivity). rewrite E1.
    cbn [length]. rewrite map_length, seq_length. reflexivity.
  - assert (Hs : a + INR s * r < 0). { assert (INR s < INR k) by (apply lt_INR; lia). nra. }
    assert (E1 : @neqb XR (Fin (a + INR s * r)) (@nzero XR) = false) by (apply Reqb_false; lra).
    assert (E2 : @nlt XR (@nzero XR) (Fin (a + INR s * r)) = false) by (apply Rltb_false; lra).
    rewrite E1, E2. cbn [length]. f_equal. apply IH; [lia|exact E].
Qed.

Lemma wz_jump a r n s k : (s <= k < s + n)%nat -> 0 < a + INR k * r -> (forall j, a + INR j * r <> 0) ->
  length (with_zero (A := XR) (map (steps (A := XR) (Fin a) (Fin r)) (seq s n))) = S n.
Proof.
  revert s. induction n as [|n IH]; intros s Hk E Hz; [lia|]. cbn [seq map with_zero]. rewrite steps_exact.
  assert (E1 : @neqb XR (Fin (a + INR s * r)) (@nzero XR) = false) by (apply Reqb_false; apply Hz). rewrite E1.
  destruct (Rlt_le_dec 0 (a + INR s * r)) as [H|H].
  - assert (E2 : @nlt XR (@nzero XR) (Fin (a + INR s * r)) = true) by (apply Rltb_true; exact H).
    rewrite E2. cbn [length]. rewrite map_length, seq_length. reflexivity.
  - assert (E2 : @nlt XR (@nzero XR) (Fin (a + INR s * r)) = false) by (apply Rltb_false; exact H).
    rewrite E2. cbn [length]. f_equal. apply IH; [|exact E|exact Hz]. assert (s <> k) by (intros ->; lra). lia.
Qed.

Lemma wz_length a r b (e : nat) : 0 < r -> a <= b -> (jumps_zero a r b /\ e = 1%nat \/ ~ jumps_zero a r b /\ e = 0%nat) ->
  length (with_zero (A := XR) (map (steps (A := XR) (Fin a) (Fin r)) (seq 0 (ncount a r b)))) = (ncount a r b + e)%nat.
Proof.
  intros Hr Hab He. destruct He as [[[[k Hk] Hz] ->]|[Hn ->]].
  - rewrite (wz_jump a r _ 0 k); [lia| |apply Hk|exact Hz]. split; [lia|]. cbn [Nat.add]. apply (ncount_in a r b k Hr Hab), Hk.
  - rewrite Nat.add_0_r.
    destruct (Rlt_le_dec (a + INR (ncount a r b - 1) * r) 0) as [H|H].
    + apply wz_none. intros j Hj. assert (INR j <= INR (ncount a r b - 1)) by (apply le_INR; lia). nra.
    + assert (Hc : (0 < ncount a r b)%nat) by (apply (ncount_in a r b 0 Hr Hab); cbn [INR]; lra).
      assert (HL : a + INR (ncount a r b - 1) * r <= b) by (apply (ncount_in a r b _ Hr Hab); lia).
      destruct (classic (exists j, a + INR j * r = 0)) as [[j Hj]|Hnj].
      * apply (wz_hit a r _ 0 j Hr); [|exact Hj]. split; [lia|]. cbn [Nat.add]. apply (ncount_in a r b j Hr Hab). lra.
      * exfalso. apply Hn. assert (Hz : forall j, a + INR j * r <> 0) by (intros j Hj; apply Hnj; eauto). split; [|exact Hz].
        exists (ncount a r b - 1)%nat. split; [|exact HL]. specialize (Hz (ncount a r b - 1)%nat). lra.
Qed.

Lemma stops_unique a r b n m : 0 < r -> a <= b -> stops_at (A := XR) (Fin a) (Fin r) (Fin b) n -> stops_at (A := XR) (Fin a) (Fin r) (Fin b) m -> n = m.
Proof.
  intros Hr Hab [H1 H2] [K1 K2]. destruct (Nat.lt_trichotomy n m) as [H|[H|H]]; [|exact H|].
  - rewrite (K1 n H) in H2. discriminate.
  - rewrite (H1 m H) in K2. discriminate.
Qed.

(** the lags of a returning call *)
Lemma lag_count p d mi ma re al sel wgt lags corr c (a r b : R) (e : nat) : accepted d ->
  autocorrelation (A := XR) p d mi ma re al sel wgt = Ok (lags, corr, c) ->
  (forall c0, new_Correlator d = Ok c0 -> opt_or mi (min_lag c0) = Fin a /\ opt_or re (lag_resolution c0) = Fin r /\ opt_or ma (max_lag c0) = Fin b) ->
  0 < r -> a <= b -> (jumps_zero a r b /\ e = 1%nat \/ ~ jumps_zero a r b /\ e = 0%nat) ->
  Z.of_nat (length lags) = (Zfloor ((b - a) / r) + 1 + Z.of_nat e)%Z.
Proof.
  intros Ha E Hs Hr Hab He.
  assert (exists c0, new_Correlator d = Ok c0) as [c0 Hn].
  { unfold autocorrelation in E. destruct (new_Correlator d); try discriminate. eauto. }
  destruct (Hs c0 Hn) as [E1 [E2 E3]]. pose proof (proj1 (returned_grid p d c0 mi ma re al sel wgt _ Ha Hn E)) as Hg. cbn [fst] in Hg.
  rewrite E1, E2, E3 in Hg. destruct Hg as [n [Hst ->]]. rewrite (stops_unique a r b n (ncount a r b) Hr Hab Hst (grid_stops a r b Hr Hab)).
  rewrite (wz_length a r b e Hr Hab He). rewrite Nat2Z.inj_add, ncount_Z by assumption. reflexivity.
Qed.

(** which lag settings fit *)
Lemma count_call p d (c0 : @correlator XR) mi ma re al wgt (a r b : R) (e : nat) :
  accepted d -> new_Correlator d = Ok c0 -> p_checked p = false -> p_abs p = AbsFloat -> known_weight wgt ->
  opt_or mi (min_lag c0) = Fin a -> opt_or re (lag_resolution c0) = Fin r -> opt_or ma (max_lag c0) = Fin b ->
  0 < r -> a <= b -> (jumps_zero a r b /\ e = 1%nat \/ ~ jumps_zero a r b /\ e = 0%nat) ->
  let call := autocorrelation (A := XR) p d mi ma re al "natural" wgt in
  let count := (Zfloor ((b - a) / r) + 1 + Z.of_nat e)%Z in
  ((count <= Z.of_nat (length (lag_timeseries c0)))%Z -> exists x, call = Ok x) /\
  ((Z.of_nat (length (lag_timeseries c0)) < count)%Z -> call = UB OobWrite).
Proof.
  intros Ha Hn Hc Hp Hw E1 E2 E3 Hr Hab He call count.
  assert (Hz : abs_defined p d (@nzero XR)) by (intros C; congruence).
  assert (HN : Z.of_nat (ncount a r b + e) = count) by (rewrite Nat2Z.inj_add, ncount_Z by assumption; reflexivity).
  destruct (natural_call_outcome p d c0 mi ma re al wgt Ha Hn Hc Hw Hz) as [C1 C2]; [intros n _ _ C; congruence|].
  rewrite E1, E2, E3 in C1, C2. split.
  - intros Hle. apply C1. eexists. split; [exists (ncount a r b); split; [exact (grid_stops a r b Hr Hab)|reflexivity]|].
    rewrite (wz_length a r b e Hr Hab He). split; [lia|]. left. intros C. apply (f_equal (@length _)) in C.
    pose proof (wz_length a r b e Hr Hab He) as K. rewrite C in K. cbn [length] in K.
    assert ((0 < ncount a r b)%nat) by (apply (ncount_in a r b 0 Hr Hab); cbn [INR]; lra). lia.
  - intros Hlt. apply C2. intros [g [[n [Hst ->]] Hle]]. rewrite (stops_unique a r b n (ncount a r b) Hr Hab Hst (grid_stops a r b Hr Hab)) in Hle.
    rewrite (wz_length a r b e Hr Hab He) in Hle. lia.
Qed.
