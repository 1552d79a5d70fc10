(** A data structure whose default lag grid does not fit the buffers in binary64: rounding makes the
    steps shorter than the lag resolution. *)
From Coq Require Import String.
From Coq Require Import ZArith Reals List Bool Arith Lia Lra Psatz.
From Coq Require Import Floats.SpecFloat.
From Flocq Require Import Core BinarySingleNaN.
From Verif Require Import Num Mem MemFacts XR B64 Spec SpecR DataStructure Correlator Sacf Api DSFacts LoopFacts MainFacts Laws B64Facts
  Laws2 ConstrFacts SafeFacts DefaultFacts.
Import ListNotations.
Local Open Scope list_scope.
Local Open Scope R_scope.

Definition rB : b64 := @B754_finite 53 1024 false 4503599761588223 (-52) eq_refl.
Definition LB : b64 := @B754_finite 53 1024 false 4503599627370496 (-23) eq_refl.
Definition zB : b64 := B754_zero false.

Definition delta : R := / 33554432 - / 4503599627370496.

Lemma rB_R : B2R rB = 1 + delta.
Proof.
  unfold rB, B2R, F2R, delta. cbn [Fnum Fexp cond_Zopp]. change (bpow radix2 (-52)) with (/ 4503599627370496).
  replace 4503599761588223 with (4503599627370496 + 134217728 - 1) by lra. field.
Qed.
Lemma LB_R : B2R LB = 536870912.
Proof.
  unfold LB, B2R, F2R. cbn [Fnum Fexp cond_Zopp]. change (bpow radix2 (-23)) with (/ 8388608). lra.
Qed.

Lemma delta_val : 0 < delta /\ 16777216 * delta < / 2 /\ delta <= / 33554432.
Proof. unfold delta. lra. Qed.

(** rounding where the spacing is 2^-24 *)
Lemma rnd_whole (z : Z) (v : R) : 268435456 <= Rabs v < 536870912 -> v = IZR z + delta -> rnd v = IZR z.
Proof.
  intros Hv E. unfold rnd, round, scaled_mantissa.
  assert (Hc : cexp radix2 (FLT_exp (-1074) 53) v = (-24)%Z).
  { unfold cexp. rewrite (mag_unique radix2 v 29).
    - reflexivity.
    - change (29 - 1)%Z with 28%Z. change (bpow radix2 28) with 268435456. change (bpow radix2 29) with 536870912. exact Hv. }
  rewrite Hc. change (bpow radix2 (- -24)) with 16777216.
  rewrite (Znearest_imp _ _ (z * 16777216)).
  - unfold F2R. cbn [Fnum Fexp]. change (bpow radix2 (-24)) with (/ 16777216). rewrite mult_IZR. lra.
  - rewrite E, mult_IZR. destruct delta_val as [D1 [D2 D3]].
    replace ((IZR z + delta) * 16777216 - IZR z * 16777216) with (16777216 * delta) by ring.
    rewrite Rabs_pos_eq; lra.
Qed.

(** rounding below 2^28 *)
Lemma rnd_near (v : R) : Rabs v < 268435456 -> rnd v <= v + / 67108864.
Proof.
  intros Hv. destruct (Req_dec v 0) as [->|Hz]; [rewrite rnd_0; lra|].
  pose proof (error_le_half_ulp radix2 (FLT_exp (-1074) 53) (fun x => negb (Z.even x)) v) as H.
  change (round radix2 (FLT_exp (-1074) 53) (Znearest (fun x => negb (Z.even x))) v) with (rnd v) in H.
  assert (Hu : ulp radix2 (FLT_exp (-1074) 53) v <= / 33554432).
  { rewrite ulp_neq_0 by exact Hz. change (/ 33554432) with (bpow radix2 (-25)). apply bpow_le. unfold cexp.
    assert (mag radix2 v <= 28)%Z.
    { apply mag_le_bpow; [exact Hz|]. change (bpow radix2 28) with 268435456. exact Hv. }
    unfold FLT_exp. lia. }
  apply Rabs_le_inv in H. lra.
Qed.

Section Overrun.
Variable exp64 : b64 -> b64.
Notation BN := (B64 exp64).

(** one step of the lag loop *)
Lemma step_bound (x : b64) (c : R) : is_finite x = true -> -536870912 <= B2R x <= c -> c <= 536870912 ->
  is_finite (Bplus mode_NE x rB) = true /\ -536870912 <= B2R (Bplus mode_NE x rB) <= rnd (c + (1 + delta)).
Proof.
  intros F Hx Hc. destruct delta_val as [D1 [D2 D3]].
  assert (Hr : -536870912 <= rnd (B2R x + (1 + delta)) <= 536870914).
  { split.
    - change (-536870912) with (IZR (-536870912)). rewrite <- (rnd_IZR (-536870912)) by (cbn; lia). apply rnd_le. lra.
    - change (536870914) with (IZR 536870914). rewrite <- (rnd_IZR 536870914) by (cbn; lia). apply rnd_le. lra. }
  pose proof (toE_plus x rB) as E. rewrite (toE_finite x F), (toE_finite rB eq_refl), rB_R in E. cbn [xadd rndE] in E.
  assert (Hb : Rabs (rnd (B2R x + (1 + delta))) < big).
  { apply Rle_lt_trans with 536870914; [apply Rabs_le; lra|]. unfold big. change 536870914 with (IZR 536870914).
    apply Rlt_le_trans with (bpow radix2 53); [|apply bpow_le; lia]. rewrite <- (IZR_Zpower radix2 53) by lia. apply IZR_lt. reflexivity. }
  destruct (Rltb_spec (Rabs (rnd (B2R x + (1 + delta)))) big) as [_|C]; [|lra].
  destruct (toE_Fin _ _ E) as [F' E']. split; [exact F'|]. rewrite E'. split; [apply Hr|]. apply rnd_le. lra.
Qed.

Notation st := (steps (A := BN) (Bopp LB) rB).
Notation within n c := (is_finite (st n) = true /\ -536870912 <= B2R (st n) <= c).

Lemma st_S n : st (S n) = Bplus mode_NE (st n) rB.
Proof. reflexivity. Qed.

(** on the left *)
Lemma phase1 n : (Z.of_nat n <= 268435455)%Z -> within n (IZR (Z.of_nat n - 536870912)).
Proof.
  induction n as [|n IH]; intros Hn.
  - change (st 0) with (Bopp LB). rewrite is_finite_Bopp, B2R_Bopp, LB_R. split; [reflexivity|]. cbn. lra.
  - destruct IH as [F H]; [lia|]. rewrite st_S.
    assert (Hz : (Z.of_nat n - 536870912 <= -268435458)%Z) by lia. apply IZR_le in Hz.
    assert (Hz' : (-536870912 <= Z.of_nat n - 536870912)%Z) by lia. apply IZR_le in Hz'.
    destruct (step_bound (st n) _ F H) as [F' H']; [lra|]. split; [exact F'|].
    rewrite (rnd_whole (Z.of_nat (S n) - 536870912)) in H'; [exact H'| |].
    + destruct delta_val as [D1 [D2 D3]]. rewrite Rabs_left; lra.
    + replace (Z.of_nat (S n) - 536870912)%Z with (Z.of_nat n - 536870912 + 1)%Z by lia. rewrite plus_IZR. ring.
Qed.

(** in the middle *)
Definition s2 : R := 1 + delta + / 67108864.
Lemma phase2 n1 m : Z.of_nat n1 = 268435455%Z -> (Z.of_nat m <= 536870888)%Z ->
  within (n1 + m)%nat (-268435457 + IZR (Z.of_nat m) * s2).
Proof.
  intros H1. destruct delta_val as [D1 [D2 D3]]. induction m as [|m IH]; intros Hm.
  - rewrite Nat.add_0_r. destruct (phase1 n1) as [F H]; [lia|]. split; [exact F|].
    rewrite H1 in H. cbn in H. cbn. lra.
  - destruct IH as [F H]; [lia|]. rewrite Nat.add_succ_r, st_S.
    assert (Hz : (0 <= Z.of_nat m <= 536870887)%Z) by lia. destruct Hz as [Hz1 Hz2]. apply IZR_le in Hz1, Hz2.
    assert (S2 : s2 <= 1 + 3 * / 67108864) by (unfold s2; lra).
    assert (S2' : 1 <= s2) by (unfold s2; lra).
    destruct (step_bound _ _ F H) as [F' H'].
    { apply Rle_trans with (-268435457 + 536870887 * (1 + 3 * / 67108864)); [|lra].
      apply Rplus_le_compat_l. apply Rmult_le_compat; lra. }
    split; [exact F'|].
    replace (Z.of_nat (S m)) with (Z.of_nat m + 1)%Z by lia. rewrite plus_IZR.
    set (c := -268435457 + IZR (Z.of_nat m) * s2) in *.
    assert (Hr : rnd (c + (1 + delta)) <= c + (1 + delta) + / 67108864).
    { apply rnd_near.
      assert (IZR (Z.of_nat m) * s2 <= 536870887 * (1 + 3 * / 67108864)) by (apply Rmult_le_compat; lra).
      assert (0 <= IZR (Z.of_nat m) * s2) by (apply Rmult_le_pos; lra).
      apply Rabs_def1; unfold c; lra. }
    split; [apply H'|]. apply Rle_trans with (1 := proj2 H'). unfold c, s2 in *. lra.
Qed.

(** on the right *)
Lemma phase3 n2 m : Z.of_nat n2 = (268435455 + 536870888)%Z -> (Z.of_nat m <= 268435455)%Z ->
  within (n2 + m)%nat (IZR (268435456 + Z.of_nat m)).
Proof.
  intros H2. destruct delta_val as [D1 [D2 D3]]. induction m as [|m IH]; intros Hm.
  - rewrite Nat.add_0_r. destruct (phase2 (Z.to_nat 268435455) (Z.to_nat 536870888)) as [F H]; [apply Z2Nat.id; discriminate|rewrite Z2Nat.id; [apply Z.le_refl|discriminate]|].
    replace (Z.to_nat 268435455 + Z.to_nat 536870888)%nat with n2 in F, H by lia.
    split; [exact F|]. rewrite Z2Nat.id in H by lia. unfold s2 in H. change (268435456 + Z.of_nat 0)%Z with 268435456%Z. lra.
  - destruct IH as [F H]; [lia|]. rewrite Nat.add_succ_r, st_S.
    assert (Hz : (268435456 <= 268435456 + Z.of_nat m <= 536870910)%Z) by lia. destruct Hz as [Hz1 Hz2]. apply IZR_le in Hz1, Hz2.
    destruct (step_bound _ _ F H) as [F' H']; [lra|]. split; [exact F'|].
    rewrite (rnd_whole (268435456 + Z.of_nat (S m))) in H'; [exact H'| |].
    + rewrite Rabs_pos_eq; lra.
    + replace (268435456 + Z.of_nat (S m))%Z with (268435456 + Z.of_nat m + 1)%Z by lia. rewrite (plus_IZR (268435456 + Z.of_nat m)). ring.
Qed.

(** all of the first 2^30 - 26 terms are in the range *)
Lemma many_steps n : (Z.of_nat n <= 1073741798)%Z -> Bleb (st n) LB = true /\ Bleb (Bopp LB) (st n) = true.
Proof.
  intros Hn. assert (K : exists c, within n c /\ c <= 536870912).
  { destruct (Z.le_gt_cases (Z.of_nat n) 268435455) as [H1|H1].
    - eexists. split; [apply phase1; exact H1|]. assert (Z.of_nat n - 536870912 <= 0)%Z by lia. apply IZR_le in H. lra.
    - destruct (Z.le_gt_cases (Z.of_nat n) (268435455 + 536870888)) as [H2|H2].
      + replace n with (Z.to_nat 268435455 + (n - Z.to_nat 268435455))%nat by lia.
        eexists. split; [apply phase2; lia|].
        assert (Z.of_nat (n - Z.to_nat 268435455) <= 536870888)%Z by lia. apply IZR_le in H.
        assert (0 <= Z.of_nat (n - Z.to_nat 268435455))%Z by lia. apply IZR_le in H0.
        destruct delta_val as [D1 [D2 D3]]. assert (1 <= s2 <= 1 + 3 * / 67108864) by (unfold s2; lra).
        assert (IZR (Z.of_nat (n - Z.to_nat 268435455)) * s2 <= 536870888 * (1 + 3 * / 67108864)) by (apply Rmult_le_compat; lra).
        lra.
      + replace n with (Z.to_nat (268435455 + 536870888) + (n - Z.to_nat (268435455 + 536870888)))%nat by lia.
        eexists. split; [apply phase3; lia|].
        assert (268435456 + Z.of_nat (n - Z.to_nat (268435455 + 536870888)) <= 536870912)%Z by lia. apply IZR_le in H. exact H. }
  destruct K as (c & [F H] & Hc). rewrite !Bleb_toE, (toE_finite _ F), (toE_finite LB eq_refl), toE_opp, (toE_finite LB eq_refl), LB_R.
  cbn [xle xneg]. split; apply Rleb_true; lra.
Qed.

(** the data structure *)
Definition over_times : list b64 := [zB; rB; LB].

Lemma sf_inj (x y : b64) : B2SF x = B2SF y -> x = y.
Proof. apply B2SF_inj. Qed.

Lemma over_rel : @rel_times BN over_times = over_times.
Proof.
  unfold rel_times, over_times. cbn [map]. repeat f_equal; apply sf_inj; vm_compute; reflexivity.
Qed.
Lemma over_diff : @findMinDiff BN over_times = rB.
Proof. apply sf_inj. vm_compute. reflexivity. Qed.

Definition room : nat := Z.to_nat 1073741795.
Lemma over_floor : b64_floor (Bdiv mode_NE (Bminus mode_NE LB (Bopp LB)) rB) = Some 1073741792%Z.
Proof. vm_compute. reflexivity. Qed.
Lemma over_allot : @allot BN over_times = Ok room.
Proof.
  unfold allot. rewrite over_diff. change (lback over_times) with (Ok LB). cbn [bind].
  change (@nfloor BN (@ndiv BN (@nsub BN LB (@nneg BN LB)) rB)) with (b64_floor (Bdiv mode_NE (Bminus mode_NE LB (Bopp LB)) rB)).
  rewrite over_floor. change (to_int (Some 1073741792%Z)) with (Ok 1073741792%Z). cbn [bind].
  change (int_add 1073741792 3) with (Ok 1073741795%Z). cbn [bind].
  change (1073741795 <? 0)%Z with false. cbv iota. unfold room. reflexivity.
Qed.

Lemma room_Z : Z.of_nat room = 1073741795%Z.
Proof. unfold room. apply Z2Nat.id. discriminate. Qed.
Local Opaque room.
Variables v0 v1 v2 : b64.
Definition over_ds : @dstruct BN := the_ds (A := BN) over_times [v0; v1; v2] [] 1.

Lemma over_built : SACF_1d (A := BN) over_times [v0; v1; v2] None = Ok over_ds.
Proof.
  unfold SACF_1d, ds_1d. apply setUp_ok; try discriminate; [reflexivity|]. cbn. lia.
Qed.

Definition over_c : @correlator BN := the_corr (A := BN) over_times [v0; v1; v2] [] 1 room.
Lemma over_new : new_Correlator over_ds = Ok over_c.
Proof.
  unfold over_ds. rewrite new_Correlator_closed; [|discriminate|cbn; lia].
  rewrite over_rel, over_allot. reflexivity.
Qed.

Lemma over_max : max_lag over_c = LB.
Proof. unfold over_c, the_corr. cbn [max_lag]. rewrite over_rel. reflexivity. Qed.
Lemma over_min : min_lag over_c = Bopp LB.
Proof. unfold over_c, the_corr. cbn [min_lag]. rewrite over_rel. reflexivity. Qed.
Lemma over_res : lag_resolution over_c = rB.
Proof. unfold over_c, the_corr. cbn [lag_resolution]. rewrite over_rel. exact over_diff. Qed.
Lemma over_room : length (lag_timeseries over_c) = room.
Proof. unfold over_c, the_corr, lag_timeseries. cbn [timeseries_]. apply repeat_length. Qed.

Lemma over_accepted : accepted over_ds.
Proof. left. exists over_times, [v0; v1; v2], None. exact over_built. Qed.

Lemma over_times_ok : times_ok over_ds.
Proof.
  unfold times_ok, over_ds. cbn [norm_t the_ds timeseries]. unfold normalised_timeseries. cbn [norm_t the_ds].
  rewrite over_rel.
  assert (Hf : forall x, In x over_times -> finite (A := BN) x).
  { intros x [<-|[<-|[<-|[]]]]; unfold finite; vm_compute; discriminate. }
  split; [|split; exact Hf].
  intros i j a b Hij Ha Hb.
  destruct i as [|[|[|i]]]; [..|destruct i; discriminate];
  (destruct j as [|[|[|j]]]; [..|destruct j; discriminate]); try lia;
  injection Ha as <-; injection Hb as <-; vm_compute; reflexivity.
Qed.

Lemma over_no_grid : ~ exists g, lag_grid (A := BN) (Bopp LB) rB LB g /\ (length g <= room)%nat.
Proof.
  intros (g & (n & [_ Hn] & ->) & Hl). pose proof (with_zero_length (A := BN) (map st (seq 0 n))) as Hw.
  rewrite map_length, seq_length in Hw.
  assert (Hr : (n <= room)%nat) by (eapply Nat.le_trans; [apply Hw|exact Hl]).
  assert (Hz : (Z.of_nat n <= 1073741798)%Z).
  { apply Nat2Z.inj_le in Hr. rewrite room_Z in Hr. lia. }
  destruct (many_steps n Hz) as [K _]. change (Bleb (st n) LB = false) in Hn. congruence.
Qed.

Lemma over_call p wgt : p_checked p = false -> known_weight wgt ->
  autocorrelation (A := BN) p over_ds None None None None "natural" wgt = UB OobWrite.
Proof.
  intros Hp Hw.
  assert (Hs : p_abs p = AbsInt -> @nle BN (nadd (max_lag over_c) (max_lag over_c)) (nofZ INT_MAX) = true).
  { intros _. rewrite over_max. vm_compute. reflexivity. }
  assert (Hab : forall kk, Bleb (Bopp LB) kk = true -> Bleb kk LB = true -> abs_defined (A := BN) p over_ds kk).
  { intros kk K1 K2.
    apply (@abs_defined_range BN (arith_binary64 exp64) (arith_laws BN (arith_binary64 exp64)) (arith_laws2 BN (arith_binary64 exp64))
      p over_ds over_c kk over_accepted over_times_ok over_new Hs).
    - rewrite over_min. exact K1.
    - rewrite over_max. exact K2. }
  pose proof (@natural_call_outcome BN (arith_laws2 BN (arith_binary64 exp64)) p over_ds over_c None None None None wgt
    over_accepted over_new Hp Hw) as H.
  cbn [opt_or] in H. rewrite over_min, over_max, over_res, over_room in H.
  destruct H as [_ H].
  - apply Hab; vm_compute; reflexivity.
  - intros n Hn _. apply Nat2Z.inj_le in Hn. rewrite room_Z in Hn.
    destruct (many_steps n) as [K1 K2]; [lia|]. exact (Hab _ K2 K1).
  - exact (H over_no_grid).
Qed.

Lemma over_all p : p_checked p = false ->
  exists (d : @dstruct BN) (c0 : @correlator BN),
    SACF_1d (A := BN) over_times [v0; v1; v2] None = Ok d /\ accepted d /\ times_ok d /\ new_Correlator d = Ok c0 /\
    nle (nadd (max_lag c0) (max_lag c0)) (nofZ INT_MAX) = true /\
    Z.of_nat (length (lag_timeseries c0)) = 1073741795%Z /\
    forall wgt, known_weight wgt -> autocorrelation p d None None None None "natural" wgt = UB OobWrite.
Proof.
  intros Hp. exists over_ds, over_c. split; [exact over_built|]. split; [exact over_accepted|].
  split; [exact over_times_ok|]. split; [exact over_new|]. split; [rewrite over_max; vm_compute; reflexivity|].
  split; [rewrite over_room; exact room_Z|]. intros wgt. exact (over_call p wgt Hp).
Qed.

End Overrun.
