(** Distance between the correlations in binary64 and in exact arithmetic. *)
From Coq Require Import String.
From Coq Require Import ZArith Reals List Bool Arith Lia Lra.
From Flocq Require Import Core BinarySingleNaN.
From Verif Require Import Num Mem MemFacts XR B64 Spec SpecR DataStructure Correlator Sacf Api Laws B64Facts Laws2 DSFacts CorrFacts LoopFacts MainFacts
  RelFacts ConstrFacts TimeFacts SelFacts WeightFacts DefaultFacts WeightAcc ValFacts ExactFacts AccFacts OffFacts AccThms SimFacts FixedFacts GridVals.
Import ListNotations.
Local Open Scope list_scope.
Local Open Scope R_scope.

(** ** real arithmetic *)
Lemma term_diff w w' x x' y y' B dl om : 0 <= B -> 0 <= dl -> Rabs w <= 1 -> Rabs w' <= 1 -> Rabs (w' - w) <= om ->
  Rabs x <= 2 * B -> Rabs y <= 2 * B -> Rabs (x' - x) <= dl -> Rabs (y' - y) <= dl ->
  Rabs (w' * x' * y' - w * x * y) <= om * ((2 * B + dl) * (2 * B + dl)) + dl * (4 * B + dl) /\
  Rabs (w' * x' * y') <= (2 * B + dl) * (2 * B + dl).
Proof.
  intros HB Hd Hw Hw' Ho Hx Hy Hx' Hy'.
  assert (X' : Rabs x' <= 2 * B + dl) by (apply Rle_trans with (Rabs x + dl); [apply near; exact Hx'|lra]).
  assert (Y' : Rabs y' <= 2 * B + dl) by (apply Rle_trans with (Rabs y + dl); [apply near; exact Hy'|lra]).
  pose proof (Rabs_pos w) as P1. pose proof (Rabs_pos w') as P2. pose proof (Rabs_pos x') as P3. pose proof (Rabs_pos y') as P4.
  pose proof (Rabs_pos x) as P5. pose proof (Rabs_pos y) as P6. pose proof (Rabs_pos (w' - w)) as P7. pose proof (Rabs_pos (x' - x)) as P8. pose proof (Rabs_pos (y' - y)) as P9.
  assert (XY : Rabs x' * Rabs y' <= (2 * B + dl) * (2 * B + dl)) by (apply Rmult_le_compat; assumption).
  split.
  - replace (w' * x' * y' - w * x * y) with ((w' - w) * (x' * y') + w * ((x' - x) * y' + x * (y' - y))) by ring.
    eapply Rle_trans; [apply Rabs_triang|]. apply Rplus_le_compat.
    + rewrite !Rabs_mult. apply Rmult_le_compat; try assumption. apply Rmult_le_pos; assumption.
    + rewrite Rabs_mult. apply Rle_trans with (1 * (dl * (4 * B + dl))); [|lra]. apply Rmult_le_compat; try assumption; [apply Rabs_pos|].
      eapply Rle_trans; [apply Rabs_triang|]. rewrite !Rabs_mult.
      assert (Rabs (x' - x) * Rabs y' <= dl * (2 * B + dl)) by (apply Rmult_le_compat; assumption).
      assert (Rabs x * Rabs (y' - y) <= 2 * B * dl) by (apply Rmult_le_compat; assumption). lra.
  - rewrite !Rabs_mult. apply Rle_trans with (1 * Rabs x' * Rabs y'); [|lra]. rewrite !Rmult_assoc. apply Rmult_le_compat; try lra. apply Rmult_le_pos; assumption.
Qed.

Lemma sum_diff {X} (f h : X -> R) (l : list X) c : (forall x, In x l -> Rabs (f x - h x) <= c) ->
  Rabs (rsum (map f l) - rsum (map h l)) <= INR (length l) * c.
Proof.
  induction l as [|x l IH]; intros H.
  - cbn. rewrite Rminus_0_r, Rabs_R0. lra.
  - cbn [map length]. rewrite !rsum_cons, S_INR. replace (f x + rsum (map f l) - (h x + rsum (map h l))) with ((f x - h x) + (rsum (map f l) - rsum (map h l))) by ring.
    eapply Rle_trans; [apply Rabs_triang|]. pose proof (H x (or_introl eq_refl)). pose proof (IH (fun y Hy => H y (or_intror Hy))). lra.
Qed.

Lemma sum_bound {X} (f : X -> R) (l : list X) c : (forall x, In x l -> f x <= c) -> rsum (map f l) <= INR (length l) * c.
Proof.
  induction l as [|x l IH]; intros H; [cbn; lra|]. cbn [map length]. rewrite rsum_cons, S_INR.
  pose proof (H x (or_introl eq_refl)). pose proof (IH (fun y Hy => H y (or_intror Hy))). lra.
Qed.

Lemma mean_bound (rs : list R) B : rs <> [] -> (forall r, In r rs -> Rabs r <= B) -> Rabs (rmean rs) <= B.
Proof.
  intros Hn H. unfold rmean. assert (N : 0 < INR (length rs)) by (apply lt_0_INR; destruct rs; [congruence|cbn; lia]).
  unfold Rdiv. rewrite Rabs_mult, (Rabs_pos_eq (/ _)) by (apply Rlt_le, Rinv_0_lt_compat; exact N).
  apply Rmult_le_reg_r with (INR (length rs)); [exact N|]. rewrite Rmult_assoc, Rinv_l, Rmult_1_r by lra.
  pose proof (sum_diff (fun r => r) (fun _ => 0) rs B ltac:(intros r Hr; rewrite Rminus_0_r; apply H; exact Hr)) as K. rewrite map_id in K.
  assert (Z : rsum (map (fun _ : R => 0) rs) = 0) by (clear; induction rs; [reflexivity|]; cbn [map]; rewrite rsum_cons, IHrs; lra).
  rewrite Z, Rminus_0_r in K. lra.
Qed.

(** quotients *)
Lemma quot_diff v V V' N N' T n B dl om (m : R) : 0 < B -> 0 < n -> 0 <= m <= n -> 0 <= om -> 0 < N ->
  0 <= dl <= (12 / 10) * ((n + 1) * u64 * B) -> (n + 1) * u64 <= / 8 -> (n + 1) * u64 * (n * (B * B) / N) <= / 32 ->
  Rabs (V' - V) <= m * (om * ((2 * B + dl) * (2 * B + dl)) + dl * (4 * B + dl)) ->
  Rabs V' <= T -> T <= m * ((2 * B + dl) * (2 * B + dl)) -> Rabs (N' - N) <= n * (dl * (4 * B + dl)) ->
  Rabs (v - V' / N') <= 2 * (m + n + 10) * u64 * (T / N') + bpow radix2 (-110) ->
  let K := n * (B * B) / N in
  N / 2 <= N' /\ Rabs (v - V / N) <= 50 * (n + 10) * u64 * (K * K + K) + 5 * om * K + bpow radix2 (-110).
Proof.
  intros HB Hn Hm Hom HN Hdl H8 Hc HV HT1 HT2 HNN Hv K.
  pose proof u64_pos as U. set (b := bpow radix2 (-110)) in *.
  assert (D1 : dl <= (15 / 100) * B).
  { apply Rle_trans with ((12 / 10) * ((n + 1) * u64 * B)); [lra|]. assert ((n + 1) * u64 * B <= / 8 * B) by (apply Rmult_le_compat_r; lra). lra. }
  assert (BB : 0 < B * B) by (apply Rmult_lt_0_compat; exact HB).
  assert (Q : (2 * B + dl) * (2 * B + dl) <= (463 / 100) * (B * B)).
  { assert ((2 * B + dl) * (2 * B + dl) <= ((215 / 100) * B) * ((215 / 100) * B)) by (apply Rmult_le_compat; lra). lra. }
  assert (P : dl * (4 * B + dl) <= (498 / 100) * ((n + 1) * u64 * (B * B))).
  { apply Rle_trans with ((12 / 10) * ((n + 1) * u64 * B) * ((415 / 100) * B)); [apply Rmult_le_compat; lra|]. lra. }
  set (e := (n + 1) * u64) in *. assert (E0 : 0 < e) by (apply Rmult_lt_0_compat; lra).
  assert (EN : n * (B * B) = K * N) by (unfold K; field; lra).
  assert (K0 : 0 < K) by (unfold K; apply Rmult_lt_0_compat; [apply Rmult_lt_0_compat; lra|apply Rinv_0_lt_compat; exact HN]).
  (* the normalisation *)
  assert (DN : Rabs (N' - N) <= (498 / 100) * e * (K * N)).
  { eapply Rle_trans; [exact HNN|]. apply Rle_trans with (n * ((498 / 100) * (e * (B * B)))); [apply Rmult_le_compat_l; lra|]. rewrite <- EN. lra. }
  assert (EK : e * K <= / 32) by exact Hc.
  assert (DN2 : (498 / 100) * e * (K * N) <= N / 2).
  { replace ((498 / 100) * e * (K * N)) with ((498 / 100) * (e * K) * N) by ring. apply Rle_trans with ((498 / 100) * / 32 * N); [|lra]. apply Rmult_le_compat_r; lra. }
  assert (N2 : N / 2 <= N').
  { apply Rabs_le_inv in DN. lra. }
  split; [exact N2|]. assert (N0 : 0 < N') by lra.
  assert (IN : / N' <= 2 * / N).
  { apply Rle_trans with (/ (N / 2)); [apply Rinv_le; lra|]. apply Req_le. field. lra. }
  assert (I0 : 0 < / N) by (apply Rinv_0_lt_compat; exact HN). assert (I1 : 0 < / N') by (apply Rinv_0_lt_compat; exact N0).
  assert (TK : T <= (463 / 100) * (K * N)).
  { eapply Rle_trans; [exact HT2|]. apply Rle_trans with (n * ((463 / 100) * (B * B))); [|rewrite <- EN; lra].
    apply Rmult_le_compat; try lra. apply Rmult_le_pos; lra. }
  assert (T0 : 0 <= T) by (eapply Rle_trans; [apply Rabs_pos|exact HT1]).
  assert (TN : T / N' <= (926 / 100) * K).
  { unfold Rdiv. apply Rle_trans with ((463 / 100) * (K * N) * (2 * / N)); [apply Rmult_le_compat; lra|]. apply Req_le. field. lra. }
  (* three parts *)
  assert (P1 : Rabs (v - V' / N') <= 2 * (m + n + 10) * u64 * ((926 / 100) * K) + b).
  { eapply Rle_trans; [exact Hv|]. apply Rplus_le_compat_r. apply Rmult_le_compat_l; [|exact TN]. apply Rmult_le_pos; lra. }
  assert (P2 : Rabs (V' / N' - V' / N) <= 47 * e * (K * K)).
  { replace (V' / N' - V' / N) with (V' * (N - N') * (/ N * / N')) by (field; lra).
    rewrite !Rabs_mult, (Rabs_minus_sym N N'), (Rabs_pos_eq (/ N)), (Rabs_pos_eq (/ N')) by lra.
    apply Rle_trans with ((463 / 100) * (K * N) * ((498 / 100) * e * (K * N)) * (/ N * (2 * / N))).
    - apply Rmult_le_compat.
      + apply Rmult_le_pos; apply Rabs_pos.
      + apply Rmult_le_pos; lra.
      + apply Rmult_le_compat; try apply Rabs_pos; lra.
      + apply Rmult_le_compat_l; lra.
    - replace ((463 / 100) * (K * N) * ((498 / 100) * e * (K * N)) * (/ N * (2 * / N))) with ((461148 / 10000) * e * (K * K)) by (field; lra).
      apply Rmult_le_compat_r; [apply Rmult_le_pos; lra|]. lra. }
  assert (P3 : Rabs (V' / N - V / N) <= (463 / 100) * om * K + (498 / 100) * e * K).
  { replace (V' / N - V / N) with ((V' - V) * / N) by (field; lra). rewrite Rabs_mult, (Rabs_pos_eq (/ N)) by lra.
    apply Rle_trans with (n * (om * ((463 / 100) * (B * B)) + (498 / 100) * (e * (B * B))) * / N).
    - apply Rmult_le_compat_r; [lra|]. eapply Rle_trans; [exact HV|].
      assert (0 <= om * ((2 * B + dl) * (2 * B + dl))) by (apply Rmult_le_pos; [exact Hom|apply Rmult_le_pos; lra]).
      assert (0 <= dl * (4 * B + dl)) by (apply Rmult_le_pos; lra).
      assert (om * ((2 * B + dl) * (2 * B + dl)) <= om * ((463 / 100) * (B * B))) by (apply Rmult_le_compat_l; lra).
      apply Rmult_le_compat; lra.
    - apply Req_le. unfold K. field. lra. }
  replace (v - V / N) with ((v - V' / N') + (V' / N' - V' / N) + (V' / N - V / N)) by ring.
  eapply Rle_trans; [apply Rabs_triang|]. eapply Rle_trans; [apply Rplus_le_compat_r; apply Rabs_triang|].
  assert (KK : 0 < K * K) by (apply Rmult_lt_0_compat; exact K0).
  assert (L1 : 2 * (m + n + 10) * u64 * ((926 / 100) * K) <= (3704 / 100) * ((n + 10) * u64) * K).
  { replace (2 * (m + n + 10) * u64 * ((926 / 100) * K)) with ((m + n + 10) * ((1852 / 100) * (u64 * K))) by field.
    replace ((3704 / 100) * ((n + 10) * u64) * K) with ((2 * (n + 10)) * ((1852 / 100) * (u64 * K))) by field. apply Rmult_le_compat_r; [|lra].
    apply Rmult_le_pos; [lra|apply Rmult_le_pos; lra]. }
  assert (L2 : e <= (n + 10) * u64) by (apply Rmult_le_compat_r; lra).
  assert (L3 : e * (K * K) <= (n + 10) * u64 * (K * K)) by (apply Rmult_le_compat_r; lra).
  assert (L4 : e * K <= (n + 10) * u64 * K) by (apply Rmult_le_compat_r; lra).
  assert (L5 : 0 <= (n + 10) * u64 * (K * K)) by (apply Rmult_le_pos; [apply Rmult_le_pos; lra|lra]).
  assert (L6 : 0 <= (n + 10) * u64 * K) by (apply Rmult_le_pos; [apply Rmult_le_pos; lra|lra]).
  assert (L7 : 0 <= om * K) by (apply Rmult_le_pos; lra).
  lra.
Qed.

Lemma exact_toE x : exact_of x = toE x.
Proof. destruct x as [s|[]| |s m e h]; reflexivity. Qed.
Lemma fixed_fx g n x : fixed_point g n x -> fx g n x (exact_of x).
Proof. intros [F H]. split; [exact F|]. split; [rewrite exact_toE; apply toE_finite; exact F|exact H]. Qed.
Lemma fx_fixed g n x y : fx g n x y -> y = exact_of x.
Proof. intros [F [-> _]]. rewrite exact_toE. symmetry. apply toE_finite. exact F. Qed.
Lemma fixed_all g n ts : (forall t, In t ts -> fixed_point g n t) -> Forall2 (fx g n) ts (map exact_of ts).
Proof.
  intros H. induction ts as [|t ts IH]; cbn [map]; constructor; [apply fixed_fx, H; left; reflexivity|]. apply IH. intros x Hx. apply H. right. exact Hx.
Qed.
Lemma fx_all g n ts ts' : Forall2 (fx g n) ts ts' -> ts' = map exact_of ts.
Proof. induction 1 as [|x y l l' Hx Hl IH]; [reflexivity|]. cbn [map]. f_equal; [exact (fx_fixed _ _ _ _ Hx)|exact IH]. Qed.
Lemma exact_Fin (xs : list b64) : (forall x, In x xs -> is_finite x = true) -> map exact_of xs = map Fin (map B2R xs).
Proof. intros H. rewrite map_map. apply map_ext_in. intros x Hx. rewrite exact_toE. apply toE_finite. apply H. exact Hx. Qed.

Section Call.
Context (exp64 : b64 -> b64).
Notation BN := (B64 exp64).

(** one value, with the parts it is made of *)
Lemma value_parts {A : Num} (p : platform) (d : dstruct) mi ma re al sel wgt lags corr c rows j i row kk :
  accepted d -> autocorrelation p d mi ma re al sel wgt = Ok (lags, corr, c) ->
  data_2d d = Ok rows -> nth_error rows j = Some row -> nth_error lags i = Some kk ->
  exists sf w sidx S dts,
    sel_named sel = Some sf /\ weight_named wgt (opt_or al (median_time d)) = Some w /\
    sf p (normalised_timeseries d) kk = Ok (sidx, S) /\ deltas p (normalised_timeseries d) sidx S = Ok dts /\
    length row = length (normalised_timeseries d) /\ length dts = length sidx /\ length sidx = length S /\ (length sidx <= length row)%nat /\
    (forall s, In s sidx -> (s < length row)%nat) /\
    let x := fun q => nsub (nth q row nzero) (mean row) in
    let term := fun q => nmul (nmul (w (nth q dts nzero)) (x q)) (x (nth q sidx 0%nat)) in
    corr_at corr j i = Some (nmul (fold_left (fun acc q => nadd acc (term q)) (seq 0 (length sidx)) nzero) (ndiv none_ (norm_of row))).
Proof.
  intros Ha E Hd Hj Hi.
  destruct (call_value p d mi ma re al sel wgt lags corr c rows j i row kk Ha E Hd Hj Hi) as [sf [w [sidx [S [dts [Hs [Hw [HS [HD [HV HL]]]]]]]]]].
  assert (Hpos : (0 < length (normalised_timeseries d))%nat).
  { destruct (accepted_times d Ha) as [ts [data [er [N [E1 [H1 [_ [_ [_ Hlen]]]]]]]]]. subst d.
    change (0 < length (rel_times ts))%nat. rewrite Hlen. destruct ts; [congruence|cbn; lia]. }
  destruct (sel_named_ok sel sf Hs p _ kk sidx S Hpos HS) as [K1 [K2 K3]].
  assert (Hdl : length dts = length sidx).
  { destruct (mapM_Ok_inv _ _ _ HD) as [Hdl _]. rewrite Hdl, combine_length. lia. }
  exists sf, w, sidx, S, dts. rewrite HL, Hdl. repeat split; try assumption.
  rewrite HV. unfold corr_value. rewrite pair_sum_fold by (rewrite map_length; congruence).
  f_equal. f_equal. apply fold_left_ext_in. intros acc q Hq. apply in_seq in Hq. f_equal.
  rewrite (nth_indep _ nzero (w nzero)) by (rewrite map_length; lia). rewrite map_nth. cbn [Nat.add].
  rewrite (centred_nth row q) by lia. rewrite (centred_nth row (nth q sidx 0%nat)); [reflexivity|].
  rewrite HL. apply K3. apply nth_In. lia.
Qed.

(** the weights in the two arithmetics *)
Lemma weight_pair wgt w (a o : b64) om : weight_named (A := BN) wgt a = Some w -> is_finite a = true -> 0 < B2R a ->
  is_finite o = true -> 0 <= B2R o -> proper_alpha (A := BN) wgt a ->
  finite (A := BN) (if String.eqb wgt "gaussian" then nmul (Num := BN) (nmul (Num := BN) (b64_ofZ 2) a) a else a) ->
  weight_error exp64 wgt (B2R a) om ->
  is_finite (w o : b64) = true /\ 0 <= B2R (w o : b64) <= 1 /\ Rabs (B2R (w o : b64) - rweight wgt (B2R a) (B2R o)) <= om.
Proof.
  intros Hw Fa Pa Fo Po Hp Hf He.
  destruct (@weight_names BN wgt a w Hw) as [w' [Hw' ->]].
  assert (O : @nle BN (@nzero BN) o = true).
  { change (Bleb (b64_ofZ 0) o = true). rewrite Bleb_correct by (try exact Fo; reflexivity). apply Rle_bool_true. exact Po. }
  destruct (weights_unit BN (arith_binary64 exp64) wgt w' a o Hw' Hp Hf O) as [W1 W2]. set (z := w' a o : b64) in *.
  assert (Fz : is_finite z = true).
  { clear - W1 W2. destruct z as [s|[]| |s m e h]; try reflexivity; exfalso; revert W1 W2; vm_compute; discriminate. }
  split; [exact Fz|]. change (Bleb (b64_ofZ 0) z = true) in W1. change (Bleb z (b64_ofZ 1) = true) in W2.
  rewrite Bleb_correct in W1, W2 by (assumption || reflexivity). destruct (E_fin _ _ one_E) as [_ E1]. rewrite E1 in W2.
  change (B2R (b64_ofZ 0)) with 0 in W1. destruct (Rle_bool_spec 0 (B2R z)) as [Z0|]; [|discriminate]. destruct (Rle_bool_spec (B2R z) 1) as [Z1|]; [|discriminate].
  split; [split; assumption|]. destruct He as [[[-> | ->] ->]|[-> [Ra [eps [Hx ->]]]]]; cbn in Hw'; injection Hw' as <-; unfold z.
  - pose proof (proj2 (frac_acc exp64 a o Fa Fo Pa Po)) as K. cbn [rweight String.eqb Ascii.eqb Bool.eqb]. eapply Rle_trans; [exact K|]. pose proof u64_pos. unfold u64 in *. lra.
  - exact (proj2 (sq_acc exp64 a o Fa Fo Pa Po)).
  - exact (proj2 (gauss_acc_r exp64 eps a o Hx Fa Fo Po Ra)).
Qed.

Lemma sq_dev32_bound (rs : list R) b : (-149 <= b)%Z -> rs <> [] -> (forall r, In r rs -> Rabs r <= bpow radix2 b) ->
  sq_dev32 rs <= INR (length rs) * (4 * (bpow radix2 b * bpow radix2 b)).
Proof.
  intros Hb Hn H. unfold sq_dev32. pose proof (fun r Hr => f32R_le r b Hb (H r Hr)) as F32.
  pose proof (bpow_gt_0 radix2 b) as B0. set (B := bpow radix2 b) in *. pose proof (mean_bound rs B Hn H) as M.
  apply (sum_bound (fun v => (f32R v - rmean rs) * (f32R v - rmean rs))). intros r Hr.
  assert (D : Rabs (f32R r - rmean rs) <= 2 * B).
  { eapply Rle_trans; [apply Rabs_triang|]. rewrite Rabs_Ropp. pose proof (F32 r Hr). lra. }
  apply Rle_trans with (Rabs (f32R r - rmean rs) * Rabs (f32R r - rmean rs)).
  - rewrite <- Rabs_mult. apply Rle_abs.
  - replace (4 * (B * B)) with ((2 * B) * (2 * B)) by ring. apply Rmult_le_compat; try apply Rabs_pos; exact D.
Qed.

Lemma valid_all (row : list b64) : (forall x, In x row -> is_finite x = true) -> valid (A := BN) row = row.
Proof.
  intros H. unfold valid. change (@num BN) with b64. induction row as [|x row IH]; [reflexivity|]. cbn [filter].
  replace (negb (@nisnan BN x)) with true; [f_equal; apply IH; intros y Hy; apply H; right; exact Hy|].
  pose proof (H x (or_introl eq_refl)) as F. destruct x; try reflexivity; discriminate.
Qed.


(** the pairs and offsets of one lag in the two arithmetics *)
Lemma fx_pairs_rel (p : platform) g (nt : list b64) (nt' : list xr) (kk : b64) (kk' : xr) sel sf sf' : (-1073 <= g <= 960)%Z ->
  Forall2 (fx g 51) nt nt' -> fx g 51 kk kk' -> sel_named (A := BN) sel = Some sf -> sel_named (A := XR) sel = Some sf' ->
  same_outcome (sel_rel (A := BN) (B := XR) (fx g 52)) (sf p nt kk) (sf' p nt' kk') /\
  same_outcome (fun x y => fst x = fst y /\ Forall2 (fx g 53) (snd x) (snd y))
    (do sS <- sf p nt kk; do dts <- deltas (A := BN) p nt (fst sS) (snd sS); Ok (fst sS, dts))
    (do sS <- sf' p nt' kk'; do dts <- deltas (A := XR) p nt' (fst sS) (snd sS); Ok (fst sS, dts)).
Proof.
  intros Hg Hn Hk Hs Hs'.
  assert (T_add : forall x x' y y', fx g 51 x x' -> fx g 51 y y' -> fx g 52 (nadd (Num := BN) x y) (nadd (Num := XR) x' y')).
  { intros x x' y y' H1 H2. exact (fx_add g Hg 51 x x' y y' ltac:(lia) H1 H2). }
  assert (T_sub : forall x x' y y', fx g 52 x x' -> fx g 51 y y' -> fx g 53 (nsub (Num := BN) x y) (nsub (Num := XR) x' y')).
  { intros x x' y y' H1 H2. exact (fx_sub g Hg 52 x x' y y' ltac:(lia) H1 (fx_mono g 51 52 _ _ ltac:(lia) H2)). }
  assert (T_sub_r : forall x x' y y', fx g 51 x x' -> fx g 52 y y' -> fx g 53 (nsub (Num := BN) x y) (nsub (Num := XR) x' y')).
  { intros x x' y y' H1 H2. exact (fx_sub g Hg 52 x x' y y' ltac:(lia) (fx_mono g 51 52 _ _ ltac:(lia) H1) H2). }
  assert (T_lt : forall x x' y y', fx g 51 x x' -> fx g 52 y y' -> nlt (Num := BN) x y = nlt (Num := XR) x' y').
  { intros x x' y y' H1 H2. exact (fx_lt g 51 52 x x' y y' H1 H2). }
  assert (T_le : forall x x' y y', fx g 51 x x' -> fx g 52 y y' -> nle (Num := BN) x y = nle (Num := XR) x' y').
  { intros x x' y y' H1 H2. exact (fx_le g 51 52 x x' y y' H1 H2). }
  assert (T_lt2 : forall x x' y y', fx g 53 x x' -> fx g 53 y y' -> nlt (Num := BN) x y = nlt (Num := XR) x' y').
  { intros x x' y y' H1 H2. exact (fx_lt g 53 53 x x' y y' H1 H2). }
  assert (T_abs : forall x x', fx g 53 x x' -> same_outcome (fx g 53) (cabs (A := BN) p x) (cabs (A := XR) p x')).
  { intros x x' H1. apply fx_abs; [lia|exact H1]. }
  pose proof (sel_named_rel (A := BN) (B := XR) (fx g 51) (fx g 52) (fx g 53) T_add T_sub T_lt T_le T_lt2 p p T_abs sel nt nt' kk kk' Hn Hk) as R.
  rewrite Hs, Hs' in R. split; [exact R|].
  eapply bind_rel; [exact R|]. intros [s1 S1] [s2 S2] [R1 R2]. cbn [fst snd] in *. subst s2.
  eapply bind_rel; [exact (deltas_rel (A := BN) (B := XR) (fx g 51) (fx g 52) (fx g 53) T_sub_r p p eq_refl T_abs nt nt' s1 S1 S2 Hn R2)|].
  intros o o' Ho. cbn. split; [reflexivity|exact Ho].
Qed.

Lemma fx_pairs (p : platform) g (nt : list b64) (nt' : list xr) (kk : b64) (kk' : xr) sel sf sf' sidx S dts sidx' S' : (-1073 <= g <= 960)%Z ->
  Forall2 (fx g 51) nt nt' -> fx g 51 kk kk' -> sel_named (A := BN) sel = Some sf -> sel_named (A := XR) sel = Some sf' ->
  sf p nt kk = Ok (sidx, S) -> deltas (A := BN) p nt sidx S = Ok dts -> sf' p nt' kk' = Ok (sidx', S') ->
  sidx' = sidx /\ length S = length S' /\ exists dts', deltas (A := XR) p nt' sidx S' = Ok dts' /\ Forall2 (fx g 53) dts dts'.
Proof.
  intros Hg Hn Hk Hs Hs' E D E'. destruct (fx_pairs_rel p g nt nt' kk kk' sel sf sf' Hg Hn Hk Hs Hs') as [R Q].
  rewrite E, E' in R. cbn in R. destruct R as [R1 R2]. cbn [fst snd] in R1, R2. subst sidx'. split; [reflexivity|]. split; [exact (Forall2_len _ _ _ R2)|].
  rewrite E, E' in Q. cbn [bind fst snd] in Q. rewrite D in Q. cbn [bind] in Q.
  destruct (deltas (A := XR) p nt' sidx S') as [dts'| | |]; try contradiction. exists dts'. split; [reflexivity|]. exact (proj2 Q).
Qed.

Lemma value_vs (p : platform) (d : @dstruct BN) (e : @dstruct XR) mi ma re al mi' ma' re' al' sel wgt lags lags' corr corr' c c'
    (rows : list (list b64)) (rows' : list (list xr)) j j' i (row : list b64) (kk : b64) g b om :
  (-1073 <= g <= 960)%Z ->
  accepted d -> accepted e -> Forall2 (fx g 50) (timeseries d) (timeseries e) ->
  autocorrelation (A := BN) p d mi ma re al sel wgt = Ok (lags, corr, c) ->
  autocorrelation (A := XR) p e mi' ma' re' al' sel wgt = Ok (lags', corr', c') ->
  data_2d d = Ok rows -> data_2d e = Ok rows' -> nth_error rows j = Some row -> nth_error rows' j' = Some (map exact_of row) ->
  nth_error lags i = Some kk -> nth_error lags' i = Some (exact_of kk) -> fx g 51 kk (exact_of kk) ->
  let a : b64 := opt_or (A := BN) al (median_time d) in
  is_finite a = true -> 0 < B2R a -> opt_or (A := XR) al' (median_time e) = Fin (B2R a) ->
  proper_alpha (A := BN) wgt a ->
  finite (A := BN) (if String.eqb wgt "gaussian" then nmul (Num := BN) (nmul (Num := BN) (b64_ofZ 2) a) a else a) ->
  weight_error exp64 wgt (B2R a) om ->
  (-149 <= b <= 100)%Z -> (forall x : b64, In x row -> is_finite x = true /\ Rabs (B2R x) <= bpow radix2 b) ->
  let n := INR (length row) in
  let N := sq_dev32 (map B2R row) in
  let K := n * (bpow radix2 b * bpow radix2 b) / N in
  bpow radix2 (-700) <= N -> (n + 1) * K <= bpow radix2 48 ->
  exists (v : b64) (v' : R), corr_at corr j i = Some v /\ corr_at corr' j' i = Some (Fin v') /\ is_finite v = true /\
    Rabs (B2R v - v') <= 50 * (n + 10) * u64 * (K * K + K) + 5 * om * K + bpow radix2 (-110).
Proof.
  intros Hg Ha Ha' Ht E E' Hd Hd' Hj Hj' Hi Hi' Hk a Fa Pa Ea Hp Hfa Hom Hb Hx n N K HN HK.
  (* the exact call *)
  assert (Fx : forall x : b64, In x row -> is_finite x = true) by (intros x Hx0; apply Hx; exact Hx0).
  set (rs := map B2R row) in *.
  rewrite exact_Fin in Hj' by exact Fx. fold rs in Hj'.
  assert (Ek : exact_of kk = Fin (B2R kk)) by (rewrite exact_toE; apply toE_finite; apply Hk).
  assert (FT : forall x : b64, In x (timeseries d) -> is_finite x = true).
  { intros x Hin. apply In_nth_error in Hin. destruct Hin as [q Hq]. pose proof (Forall2_nth_error _ _ _ q Ht) as Kq. rewrite Hq in Kq.
    change (@num XR) with xr in *. destruct (nth_error (timeseries e : list xr) q); [apply Kq|contradiction]. }
  assert (Et : timeseries e = map Fin (map B2R (timeseries d))) by (rewrite (fx_all _ _ _ _ Ht); apply exact_Fin; exact FT).
  rewrite Ek in Hi'. set (ts := map B2R (timeseries d)) in *.
  destruct (exact_value p e mi' ma' re' al' sel wgt lags' corr' c' rows' j' i rs ts (B2R kk) (B2R a) Ha' E' Hd' Hj' Hi' Et Ea Pa)
    as [sf' [sidx' [S' [Hs' [Hw0 [En' [HS' [Hrs [HL' [K2' [K3' HV']]]]]]]]]]].
  (* the call in binary64 *)
  destruct (@value_parts BN p d mi ma re al sel wgt lags corr c rows j i row kk Ha E Hd Hj Hi)
    as [sf [w [sidx [S [dts [Hs [Hw [HS [HD [HL [Hdl [HlS [Hle [Hlt HV]]]]]]]]]]]]]]. cbv zeta in HV. fold a in Hw. change (@num BN) with b64 in *.
  (* the times *)
  assert (Hn : Forall2 (fx g 51) (normalised_timeseries d : list b64) (normalised_timeseries e : list xr)).
  { destruct (accepted_times d Ha) as [tx [data [er [M [Ed _]]]]]. destruct (accepted_times e Ha') as [tx' [data' [er' [M' [Ed' _]]]]].
    rewrite Ed, Ed' in Ht |- *. change (Forall2 (fx g 50) (tx : list b64) (tx' : list xr)) in Ht.
    change (Forall2 (fx g (50 + 1)) (rel_times (A := BN) tx : list b64) (rel_times (A := XR) tx' : list xr)).
    apply fx_rel_times; [exact Hg|lia|exact Ht]. }
  change (50 + 1)%Z with 51%Z in Hn || idtac.
  rewrite Ek in Hk. change (@num XR) with xr in *.
  destruct (fx_pairs p g _ _ kk (Fin (B2R kk)) sel sf sf' sidx S dts sidx' S' Hg Hn Hk Hs Hs' HS HD HS') as [-> [HlS' [dts' [HD' Hdd]]]].
  rewrite En' in HD', HS'.
  destruct (deltas_exact p (map (fun x => x - nth 0 ts 0) ts) (B2R kk) sidx S' dts') as [D1 D2].
  { intros s Hin. rewrite map_length. apply K3'. exact Hin. }
  { exact (sel_shifted sel sf' p _ _ sidx S' Hs' HS'). }
  { rewrite HlS. exact HlS'. }
  { exact HD'. }
  set (off := fun q => dist p (nth (nth q sidx 0%nat) ts 0 - (nth q ts 0 + B2R kk))).
  set (o := fun q => nth q dts (nzero (A := BN)) : b64).
  assert (Ho : forall q, (q < length sidx)%nat -> is_finite (o q) = true /\ B2R (o q) = off q /\ 0 <= off q).
  { intros q Hq. pose proof (Forall2_nth_error _ _ _ q Hdd) as Q. pose proof (D2 q Hq) as D2q. change (@num XR) with xr in *. rewrite D2q in Q. change (@num BN) with b64 in *.
    destruct (nth_error dts q) as [z|] eqn:Ez; [|contradiction]. destruct Q as [Q1 [Q2 _]]. injection Q2 as Q2.
    unfold o. rewrite (nth_error_nth dts q _ Ez). split; [exact Q1|]. rewrite <- Q2. unfold off.
    assert (Hq1 : (q < length ts)%nat) by lia.
    assert (Hnn : forall s, (s < length ts)%nat -> nth s (map (fun x => x - nth 0 ts 0) ts) 0 = nth s ts 0 - nth 0 ts 0).
    { intros s Hs1. apply nth_error_nth. rewrite nth_error_map, (nth_error_nth' ts 0 Hs1). reflexivity. }
    rewrite (Hnn q Hq1), Hnn by (apply K3', nth_In; exact Hq). split; [f_equal; ring|apply dist_pos]. }
  assert (Hwt : forall q, (q < length sidx)%nat -> is_finite (w (o q) : b64) = true /\ 0 <= B2R (w (o q) : b64) <= 1 /\
      Rabs (B2R (w (o q) : b64) - rweight wgt (B2R a) (off q)) <= om).
  { intros q Hq. destruct (Ho q Hq) as [F [E1 P1]]. rewrite <- E1 in P1 |- *. apply weight_pair; assumption. }
  (* sizes *)
  rewrite (norm_of_sum_sq (A := BN)) in HV. 
  set (m := length sidx) in *. assert (Hop : forall q, (q < m)%nat -> 0 <= off q) by (intros q Hq; apply Ho; exact Hq).
  clear - Hb Hx Fx HN HK Hrs HV HV' Hwt Hle Hlt Hom Pa Hop.
  assert (U := u64_pos). set (B := bpow radix2 b) in *. assert (B0 : 0 < B) by apply bpow_gt_0.
  assert (Hr : forall r, In r rs -> Rabs r <= B).
  { intros r Hr. apply in_map_iff in Hr. destruct Hr as [x [<- Hin]]. apply Hx. exact Hin. }
  assert (Ln : length rs = length row) by apply map_length.
  assert (N0 : 0 < N) by (pose proof (bpow_gt_0 radix2 (-700)); lra).
  assert (n1 : 1 <= n).
  { unfold n. rewrite <- Ln. change 1 with (INR 1). apply le_INR. destruct rs; [congruence|cbn; lia]. }
  pose proof (sq_dev32_bound rs b ltac:(lia) Hrs Hr) as NB. fold N B in NB. rewrite Ln in NB. fold n in NB.
  assert (K4 : / 4 <= K).
  { unfold K. apply Rmult_le_reg_r with N; [exact N0|]. unfold Rdiv. rewrite Rmult_assoc, Rinv_l by lra. lra. }
  assert (S48 : bpow radix2 48 = 281474976710656) by (change (bpow radix2 48) with (IZR (2 ^ 48)); reflexivity).
  assert (n50 : n + 1 <= 1125899906842624).
  { assert ((n + 1) * / 4 <= (n + 1) * K) by (apply Rmult_le_compat_l; lra). lra. }
  assert (Z50 : (Z.of_nat (length row) <= 2 ^ 50)%Z).
  { apply le_IZR. rewrite <- INR_IZR_INZ. fold n. change (IZR (2 ^ 50)) with 1125899906842624. lra. }
  pose proof u64_val as UV.
  assert (H8 : (n + 1) * u64 <= / 8).
  { apply Rle_trans with (1125899906842624 * u64); [apply Rmult_le_compat_r; lra|]. rewrite UV. lra. }
  assert (H32 : (n + 1) * u64 * K <= / 32).
  { replace ((n + 1) * u64 * K) with ((n + 1) * K * u64) by ring. apply Rle_trans with (bpow radix2 48 * u64); [apply Rmult_le_compat_r; lra|]. rewrite S48, UV. lra. }
  (* the mean *)
  pose proof (valid_all row Fx) as EV.
  set (mu := mean (A := BN) row : b64) in *. set (dl := (12 / 10) * ((n + 1) * u64 * B)).
  assert (B100 : B <= bpow radix2 100) by (apply bpow_le; lia).
  assert (Hrow : (0 < length row)%nat) by (rewrite <- Ln; destruct rs; [congruence|cbn; lia]).
  assert (Fmu : is_finite mu = true).
  { apply (mean_moderate exp64 row); rewrite EV; [exact Hrow|lia|]. apply Forall_forall. intros x Hin. destruct (Hx x Hin). split; [assumption|lra]. }
  destruct (mean_acc exp64 row ltac:(change (@num BN) with b64; rewrite EV; lia) Fmu) as [_ Hmu]. rewrite EV in Hmu. fold mu rs in Hmu. change (@num BN) with b64 in Hmu.
  assert (Hd : Rabs (B2R mu - rmean rs) <= dl).
  { eapply Rle_trans; [exact Hmu|].
    assert (A1 : asum row / INR (length row) <= B).
    { apply Rmult_le_reg_r with n; [lra|]. fold n. unfold Rdiv. rewrite Rmult_assoc, Rinv_l, Rmult_1_r by lra.
      rewrite Rmult_comm. unfold n. apply (sum_bound (fun x => Rabs (B2R x))). intros x Hin. apply Hx. exact Hin. }
    assert (A0 : 0 <= asum row / INR (length row)).
    { apply Rmult_le_pos; [apply asum_pos|]. apply Rlt_le, Rinv_0_lt_compat. fold n. lra. }
    destruct (PW_mid (length row + 1)) as [P1 _].
    { rewrite plus_INR. fold n. change (INR 1) with 1. lra. }
    rewrite plus_INR in P1. fold n in P1. change (INR 1) with 1 in P1.
    assert (E1 : eta <= (5 / 100) * ((n + 1) * u64 * B)).
    { apply Rle_trans with ((5 / 100) * (2 * u64 * bpow radix2 (-149))).
      - apply Rle_trans with (bpow radix2 (-4) * (u64 * bpow radix2 (-149))).
        + unfold eta, u64. rewrite <- !bpow_plus. apply bpow_le. lia.
        + change (bpow radix2 (-4)) with (/ 16). pose proof (bpow_gt_0 radix2 (-149)) as P149. assert (0 < u64 * bpow radix2 (-149)) by (apply Rmult_lt_0_compat; assumption). lra.
      - apply Rmult_le_compat_l; [lra|]. apply Rmult_le_compat; try (apply bpow_ge_0); try lra; [apply Rmult_le_compat_r; lra|]. apply bpow_le. lia. }
    assert ((PW (length row + 1) - 1) * (asum row / INR (length row)) <= (115 / 100) * ((n + 1) * u64) * B).
    { apply Rmult_le_compat; try lra. pose proof (PW_ge (length row + 1)). lra. }
    unfold dl. lra. }
  assert (dl0 : 0 <= dl) by (eapply Rle_trans; [apply Rabs_pos|exact Hd]).
  assert (MB : Rabs (rmean rs) <= B) by (apply mean_bound; assumption).
  (* deviations *)
  assert (DV : forall r, Rabs r <= B -> Rabs (r - rmean rs) <= 2 * B /\ Rabs ((r - B2R mu) - (r - rmean rs)) <= dl).
  { intros r Hrb. split.
    - eapply Rle_trans; [apply Rabs_triang|]. rewrite Rabs_Ropp. lra.
    - replace ((r - B2R mu) - (r - rmean rs)) with (- (B2R mu - rmean rs)) by ring. rewrite Rabs_Ropp. exact Hd. }
  set (N' := rsum (map (rsq exp64 row) row)).
  assert (HNN : Rabs (N' - N) <= n * (dl * (4 * B + dl))).
  { change N with (rsum (map (fun v => (f32R v - rmean rs) * (f32R v - rmean rs)) (map B2R row))). unfold N', n. rewrite map_map. apply (sum_diff (rsq exp64 row) (fun x => (f32R (B2R x) - rmean rs) * (f32R (B2R x) - rmean rs))).
    intros x Hin. destruct (Hx x Hin) as [_ Hxb]. pose proof (f32R_le (B2R x) b ltac:(lia) Hxb) as Hf. destruct (DV _ Hf) as [D1 D2].
    destruct (term_diff 1 1 (f32R (B2R x) - rmean rs) (f32R (B2R x) - B2R mu) (f32R (B2R x) - rmean rs) (f32R (B2R x) - B2R mu) B dl 0) as [T1 _]; try assumption; try lra;
      try (rewrite Rabs_R1; lra); [rewrite Rminus_diag_eq, Rabs_R0 by reflexivity; lra|].
    rewrite !Rmult_1_l, Rmult_0_l, Rplus_0_l in T1. exact T1. }
  assert (N2 : N / 2 <= N').
  { destruct (quot_diff 0 0 0 N N' 0 n B dl 0 0) as [Q _]; try assumption; try lra.
    - split; [exact dl0|apply Rle_refl].
    - rewrite Rminus_0_r, Rabs_R0. lra.
    - rewrite Rabs_R0. lra.
    - unfold Rdiv. rewrite !Rmult_0_l, Rminus_0_r, Rabs_R0, Rmult_0_r. pose proof (bpow_ge_0 radix2 (-110)). lra. }
  assert (N750 : bpow radix2 (-750) <= N').
  { apply Rle_trans with (N / 2); [|exact N2]. apply Rle_trans with (bpow radix2 (-701)); [apply bpow_le; lia|].
    change (bpow radix2 (-701)) with (bpow radix2 (-700 + -1)). rewrite bpow_plus. change (bpow radix2 (-1)) with (/ 2). lra. }
  (* the value in binary64 *)
  set (W := fun q => w (o q) : b64) in *. set (Y1 := fun q => nth q row (nzero (A := BN)) : b64).
  set (Y2 := fun q => nth (nth q sidx 0%nat) row (nzero (A := BN)) : b64).
  assert (I1 : forall q, (q < m)%nat -> In (Y1 q) row) by (intros q Hq; apply nth_In; lia).
  assert (I2 : forall q, (q < m)%nat -> In (Y2 q) row) by (intros q Hq; apply nth_In; apply Hlt; apply nth_In; exact Hq).
  pose proof (value_fin exp64 row W Y1 Y2 m) as KF. cbv zeta in KF. pose proof (value_acc exp64 row W Y1 Y2 m) as KA. cbv zeta in KA.
  change (@num BN) with b64 in KF, KA. rewrite EV in KF, KA. fold N' in KF, KA.
  match type of KF with _ -> _ -> _ -> _ -> _ -> is_finite ?z = true => set (v := z) in * end.
  assert (Fv : is_finite v = true).
  { apply KF; try assumption.
    - intros x Hin. destruct (Hx x Hin). split; [assumption|lra].
    - intros q Hq. destruct (Hwt q Hq) as [W1 [W2 W3]]. repeat split; auto. fold (W q). unfold W at 1. rewrite Rabs_pos_eq; apply W2. }
  set (V := rsum (map (fun q => rweight wgt (B2R a) (off q) * dev rs q * dev rs (nth q sidx 0%nat)) (seq 0 m))) in *.
  exists v, (V / N). split; [exact HV|]. split.
  { rewrite HV'. cbn. destruct (Reqb_spec (sq_dev32 rs) 0) as [C|_]; [fold N in C; lra|]. reflexivity. }
  split; [exact Fv|].
  assert (KA' := KA Z50 Hle ltac:(intros x Hin; right; destruct (Hx x Hin); split; [assumption|lra]) I2 ltac:(eapply Rle_trans; [|exact N750]; apply bpow_le; lia) Fv).
  clear KA KF. set (t := fun q => B2R (W q) * (B2R (Y1 q) - B2R mu) * (B2R (Y2 q) - B2R mu)) in *.
  set (V' := rsum (map t (seq 0 m))) in *. set (T := rsum (map (fun q => Rabs (t q)) (seq 0 m))) in *.
  rewrite plus_INR, plus_INR in KA'. fold n in KA'. change (INR 10) with 10 in KA' || (replace (INR 10) with 10 in KA' by (cbn; lra)).
  assert (Hm : 0 <= INR m <= n) by (split; [apply pos_INR|apply le_INR; exact Hle]).
  assert (TD : forall q, In q (seq 0 m) -> Rabs (t q - rweight wgt (B2R a) (off q) * dev rs q * dev rs (nth q sidx 0%nat)) <= om * ((2 * B + dl) * (2 * B + dl)) + dl * (4 * B + dl) /\
      Rabs (t q) <= (2 * B + dl) * (2 * B + dl)).
  { intros q Hq. apply in_seq in Hq. assert (Hq' : (q < m)%nat) by lia. destruct (Hwt q Hq') as [W1 [W2 W3]].
    assert (G : forall k, (k < length row)%nat -> dev rs k = B2R (nth k row (nzero (A := BN)) : b64) - rmean rs /\ Rabs (B2R (nth k row (nzero (A := BN)) : b64)) <= B).
    { intros k Hk. split; [|apply Hx; apply nth_In; exact Hk]. unfold dev, rs. f_equal. apply nth_error_nth. rewrite nth_error_map, (nth_error_nth' row (nzero (A := BN)) Hk). reflexivity. }
    destruct (G q ltac:(lia)) as [G1 G2]. destruct (G (nth q sidx 0%nat) ltac:(apply Hlt, nth_In; exact Hq')) as [G3 G4].
    destruct (DV _ G2) as [D1 D2]. destruct (DV _ G4) as [D3 D4]. rewrite <- G1 in D1, D2. rewrite <- G3 in D3, D4.
    destruct (rweight_range wgt (B2R a) (off q) Pa (Hop q Hq')) as [R0 R1].
    apply term_diff; try assumption; try lra; rewrite Rabs_pos_eq; try assumption; apply W2. }
  assert (om0 : 0 <= om).
  { clear - Hom. destruct Hom as [[_ ->]|[_ [_ [eps [[_ [_ H]] ->]]]]]; [pose proof (bpow_ge_0 radix2 (-53)); lra|].
    pose proof (bpow_ge_0 radix2 (-53)). pose proof (Rabs_pos (B2R (exp64 (B754_infinity true)))). lra. }
  refine (proj2 (quot_diff (B2R v) V V' N N' T n B dl om (INR m) B0 ltac:(lra) Hm om0 N0 (conj dl0 (Rle_refl _)) H8 H32 _ _ _ HNN KA')).
  - rewrite <- (seq_length m 0) at 1. apply sum_diff. intros q Hq. apply TD. exact Hq.
  - pose proof (sum_bound (fun q => Rabs (t q)) (seq 0 m)) as _. unfold V', T. generalize (seq 0 m) as Q. clear. intros Q. induction Q as [|q Q IH]; [cbn; rewrite Rabs_R0; lra|].
    cbn [map]. rewrite !rsum_cons. eapply Rle_trans; [apply Rabs_triang|]. lra.
  - rewrite <- (seq_length m 0) at 1. apply sum_bound. intros q Hq. apply TD. exact Hq.
Qed.
End Call.
