(** What a build with contracted operations returns. *)
From Coq Require Import String.
From Coq Require Import ZArith Reals List Bool Arith Lia Lra Psatz.
From Flocq Require Import Core BinarySingleNaN.
From Verif Require Import Num Mem MemFacts XR B64 Spec SpecR DataStructure Correlator Sacf Api Laws B64Facts Laws2 DSFacts CorrFacts LoopFacts MainFacts
  RelFacts SelFacts WeightFacts DefaultFacts WeightAcc ValFacts ExactFacts AccFacts OffFacts Contract ContractFacts ContractAcc.
Import ListNotations.
Local Open Scope list_scope.

Section Outcome.
Context {A : Num}.

(** nothing contracted *)
Lemma contract_none p d mi ma re al sel wgt :
  autocorrelation_k {| ma_norm := two_steps; ma_square := two_steps; ma_sum := two_steps |} p d mi ma re al sel wgt =
  autocorrelation p d mi ma re al sel wgt.
Proof. reflexivity. Qed.

Context (K : contraction).

Lemma run_room_same {X Y} (f : num -> res X) (g : num -> res Y) :
  (forall kk, same_outcome (fun _ _ => True) (f kk) (g kk)) -> forall ks room,
  same_outcome (fun l l' => length l = length l') (run_room f ks room) (run_room g ks room).
Proof.
  intros H. induction ks as [|kk ks IH]; intros room; [reflexivity|]. cbn [run_room]. pose proof (H kk) as Hk.
  destruct (f kk), (g kk); cbn in *; try contradiction; try assumption. destruct room as [|room]; [reflexivity|].
  specialize (IH room). destruct (run_room f ks room), (run_room g ks room); cbn in *; try contradiction; try assumption. congruence.
Qed.

Lemma named_acf_same sel wgt al p ts kk : same_outcome (fun _ _ => True) (named_acf_k K sel wgt al p ts kk) (named_acf sel wgt al p ts kk).
Proof.
  unfold named_acf_k, named_acf. destruct (sel_named sel) as [sf|]; [|reflexivity].
  assert (H : (exists w w', weight_named_k K wgt al = Some w /\ weight_named wgt al = Some w') \/ weight_named_k K wgt al = None /\ weight_named wgt al = None).
  { unfold weight_named_k, weight_named. destruct (String.eqb wgt "gaussian"); [left; eauto|]. destruct (String.eqb wgt "fractional"); [left; eauto|].
    destruct (String.eqb wgt "fractional_squared"); [left; eauto|right; auto]. }
  destruct H as [[w [w' [-> ->]]]|[-> ->]].
  - unfold acf_at_k, acf_at. destruct (sf p (rel_times ts) kk) as [sS|e|u|]; cbn [bind same_outcome]; try exact I; try reflexivity.
    destruct (deltas p (rel_times ts) (fst sS) (snd sS)); cbn [bind same_outcome]; try exact I; reflexivity.
  - destruct (sf p (rel_times ts) kk) as [sS|e|u|]; cbn [bind same_outcome]; try exact I; try reflexivity.
    destruct (deltas p (rel_times ts) (fst sS) (snd sS)); cbn [bind same_outcome]; try exact I; reflexivity.
Qed.

Lemma acf_core_same p ts mi ma re al sel wgt :
  same_outcome (fun r r' => fst r = fst r' /\ length (snd r) = length (snd r')) (acf_core_k K p ts mi ma re al sel wgt) (acf_core p ts mi ma re al sel wgt).
Proof.
  unfold acf_core_k, acf_core. destruct (allot (rel_times ts)) as [n|e|u|]; cbn [bind same_outcome]; try exact I; try reflexivity.
  set (L := lag_list _ _ _ _ _). set (a := opt_or al _).
  assert (G : same_outcome (fun r r' => fst r = fst r' /\ length (snd r) = length (snd r'))
    (do Fs <- run_room (named_acf_k K sel wgt a p ts) (fst L) n; Ok (fst L, Fs)) (do Fs <- run_room (named_acf sel wgt a p ts) (fst L) n; Ok (fst L, Fs))).
  { pose proof (run_room_same _ _ (named_acf_same sel wgt a p ts) (fst L) n) as H.
    destruct (run_room (named_acf_k K sel wgt a p ts) (fst L) n), (run_room (named_acf sel wgt a p ts) (fst L) n); cbn in *; try contradiction; auto. }
  destruct (fst L); [|exact G]. destruct (String.eqb sel "natural" && String.eqb wgt "fractional"); [exact G|reflexivity].
Qed.

Lemma contract_outcome p d mi ma re al sel wgt : accepted d ->
  same_outcome same_form (visible (autocorrelation_k K p d mi ma re al sel wgt)) (visible (autocorrelation p d mi ma re al sel wgt)).
Proof.
  intros Ha. destruct (accepted_setUp d Ha) as [ts [data [er [N [-> [H1 [H2 [H3 [H4 H5]]]]]]]]].
  rewrite auto_core_k, auto_core by assumption. pose proof (acf_core_same p ts mi ma re al sel wgt) as H.
  destruct (acf_core_k K p ts mi ma re al sel wgt) as [[g Fs]|e|u|], (acf_core p ts mi ma re al sel wgt) as [[g' Fs']|e'|u'|]; cbn in H; try contradiction;
    cbn [bind visible]; try exact H.
  destruct H as [<- Hl]. destruct (allot (rel_times ts)) as [n|e|u|]; cbn [bind]; try reflexivity. cbn [fst snd same_outcome same_form visible bind].
  split; [reflexivity|]. unfold pack. destruct (recut N (length ts) data) as [|row [|row2 rows]]; cbn [map snd].
  { reflexivity. }
  { unfold row_fun in *. rewrite !map_length. exact Hl. }
  unfold row_fun in *.
  rewrite !map_length, Hl. do 2 f_equal. rewrite !map_map. apply map_ext. intros r. rewrite !map_length. exact Hl.
Qed.

Lemma weight_names_k wgt al w : weight_named_k K wgt al = Some w -> exists w', weight_function_k K wgt = Some w' /\ w = w' al.
Proof.
  unfold weight_named_k, weight_function_k.
  destruct (String.eqb_spec wgt "gaussian"); [subst; intros E; injection E as <-; eexists; split; reflexivity|].
  destruct (String.eqb_spec wgt "fractional"); [subst; intros E; injection E as <-; eexists; split; reflexivity|].
  destruct (String.eqb_spec wgt "fractional_squared"); [subst; intros E; injection E as <-; eexists; split; reflexivity|discriminate].
Qed.

Lemma value_by_iterator_k p d mi ma re al sel wgt lags corr c rows j i row kk :
  accepted d -> autocorrelation_k K p d mi ma re al sel wgt = Ok (lags, corr, c) ->
  data_2d d = Ok rows -> nth_error rows j = Some row -> nth_error lags i = Some kk ->
  exists f w it it',
    selection_function p sel d = Some f /\ weight_function_k K wgt = Some w /\
    f (CorrelationIterator kk (length rows)) = (it, Ok tt) /\ deltaT p d it = (it', Ok tt) /\
    length (offsets it') = length (selection it) /\ length (selection it) <= length row /\
    (forall s, In s (selection it) -> s < length row) /\
    let a := opt_or al (median_time d) in
    let x := fun q => nsub (nth q row nzero) (mean row) in
    corr_at corr j i = Some (nmul
      (fold_left (fun acc q => ma_sum K (nmul (w a (nth q (offsets it') nzero)) (x q)) (x (nth q (selection it) 0%nat)) acc) (seq 0 (length (selection it))) nzero)
      (ndiv none_ (norm_of_k K row))).
Proof.
  intros Ha E Hd Hj Hi.
  destruct (call_value_k K p d mi ma re al sel wgt lags corr c rows j i row kk Ha E Hd Hj Hi) as [sf [w [sidx [S [dts [Hs [Hw [HS [HD [HV HL]]]]]]]]]].
  assert (exists f, selection_function p sel d = Some f /\
    match sf p (norm_t d) kk with
    | Ok (sl, Sv) => exists it, f (CorrelationIterator kk (length rows)) = (it, Ok tt) /\ selected it kk (length rows) sl Sv
    | q => same_failure q (snd (f (CorrelationIterator kk (length rows))))
    end) as [f [Hf Hrun]].
  { unfold sel_named in Hs. unfold selection_function.
    destruct (String.eqb_spec sel "fast"); destruct (String.eqb_spec sel "natural"); subst; try discriminate; injection Hs as <-.
    - eexists; split; [reflexivity|]. exact (fast_closed p d kk (length rows)).
    - eexists; split; [reflexivity|]. exact (natural_closed p d kk (length rows)). }
  change (norm_t d) with (normalised_timeseries d) in Hrun. rewrite HS in Hrun. destruct Hrun as [it [Hit Hsel]].
  assert (0 < length (normalised_timeseries d)) as Hpos.
  { destruct (accepted_times d Ha) as [ts [data [er [N [E1 [H1 [_ [_ [_ Hlen]]]]]]]]]. subst d.
    change (0 < length (rel_times ts)). rewrite Hlen. destruct ts; [congruence|cbn; lia]. }
  assert (Hok : length sidx = length S /\ length sidx <= length (normalised_timeseries d) /\ forall s, In s sidx -> s < length (normalised_timeseries d)).
  { unfold sel_named in Hs. destruct (String.eqb sel "fast"); [injection Hs as <-; apply (fast_sel_ok p _ kk sidx S Hpos HS)|].
    destruct (String.eqb sel "natural"); [injection Hs as <-; apply (natural_sel_ok p _ kk sidx S Hpos HS)|discriminate]. }
  destruct Hok as [K1 [K2 K3]].
  pose proof (deltaT_closed p d it kk (length rows) sidx S Hsel K1) as HDT.
  change (norm_t d) with (normalised_timeseries d) in HDT. rewrite HD in HDT. destruct HDT as [it' [Hit' Hoff]].
  assert (Es : selection it = sidx) by apply Hsel. assert (Eo : offsets it' = dts) by apply Hoff.
  assert (Hdl : length dts = length sidx).
  { destruct (mapM_Ok_inv _ _ _ HD) as [Hdl _]. rewrite Hdl, combine_length. lia. }
  destruct (weight_names_k wgt (opt_or al (median_time d)) w Hw) as [w' [Hw' Ew]].
  exists f, w', it, it'. rewrite Es, Eo, Hdl, HL. repeat split; try assumption.
  rewrite HV. unfold corr_value_k. rewrite pair_sum_fold_k by (rewrite map_length; congruence).
  f_equal. f_equal. apply fold_left_ext_in. intros acc q Hq. apply in_seq in Hq.
  rewrite (nth_indep _ nzero (w nzero)) by (rewrite map_length; lia). rewrite map_nth, Ew. cbn [Nat.add].
  rewrite (centred_nth row q) by lia. rewrite (centred_nth row (nth q sidx 0)); [reflexivity|].
  rewrite HL. apply K3. apply nth_In. lia.
Qed.
End Outcome.

(** ** binary64 *)
Section Values64.
Context (exp64 : b64 -> b64).
Notation BN := (B64 exp64).
Context (kn ks km : bool).
Notation K := (contractions exp64 kn ks km).

Lemma norm_knorm (row : list b64) : (norm_of_k K row : b64) = knorm exp64 (fused_at (exp64 := exp64) kn) row.
Proof.
  unfold norm_of_k, knorm, ksum, dev, valid. cbn [ma_norm contractions]. change (@nzero BN) with (b64_ofZ 0). generalize (b64_ofZ 0). 
  change (@num BN) with b64 in *. generalize (mean (A := BN) row) at 1 2 3 4. change (@num BN) with b64. intros m.
  induction row as [|x row' IH]; intros a; cbn [fold_left filter]; [reflexivity|].
  rewrite (@l_nan_f32 BN (arith_laws BN (arith_binary64 exp64))). change (@nisnan BN x) with (is_nan x). destruct (is_nan x); cbn [negb fold_left]; apply IH.
Qed.

(** the fused square: 1/(1+v) for a number v near the square of the quotient *)
Lemma over_acc2 (s : b64) (Y k : R) : (0 <= Y)%R -> (0 <= k <= 1000)%R ->
  (toE s = PInf /\ (10000000000000000000000 <= Y)%R) \/ (exists v, toE s = rndE (Fin (1 + v)) /\ (0 <= v)%R /\ (Rabs (v - Y) <= k * u64 * (1 + Y))%R) ->
  let w := Bdiv mode_NE (b64_ofZ 1) s in is_finite w = true /\ (Rabs (B2R w - / (1 + Y)) <= (k + 3) * u64)%R.
Proof.
  intros HY Hk Hy w.
  assert (OI : toE s = PInf -> (1000000000000000000000 <= Y)%R -> is_finite w = true /\ (Rabs (B2R w - / (1 + Y)) <= (k + 3) * u64)%R).
  { intros E Hb. assert (W : toE w = Fin 0).
    { unfold w. rewrite toE_div by (rewrite E; discriminate). rewrite E, one_E. cbn [xdiv rndE].
      rewrite rnd_0, Rabs_R0. destruct (Rltb_spec 0 big) as [|n]; [reflexivity|]. exfalso. apply n. apply bpow_gt_0. }
    apply toE_Fin in W. destruct W as [F W]. split; [exact F|]. rewrite W.
    pose proof u64_pos as Hp. assert (/ (1 + Y) <= u64)%R by (rewrite u64_val; apply Rinv_le_contravar; lra).
    assert (0 < / (1 + Y))%R by (apply Rinv_0_lt_compat; lra). rewrite Rabs_left by lra. nra. }
  pose proof u64_pos as Hp. pose proof u64_small as Hu. pose proof eta_pos as He0. pose proof eta_small as He.
  destruct Hy as [[E Hb]|(v & S & Hv & Hd)]; [apply OI; [exact E|lra]|].
  assert (Hd2 : (v <= Y + k * u64 * (1 + Y))%R) by (apply Rabs_le_inv in Hd; lra).
  assert (Hku : (0 <= k * u64 <= / 1000000)%R) by nra.
  cbn [rndE] in S. destruct (Rltb_spec (Rabs (rnd (1 + v))) big) as [Hs|Hs].
  2:{ assert (Hbig : (IZR (2 ^ 399) <= 1 + v)%R) by (apply not_in_range; [lra|exact Hs]).
      assert (Hz : (IZR (2 ^ 399) >= 100000000000000000000000)%R) by (apply Rle_ge, IZR_le; discriminate || (cbn; lia)).
      destruct (Rltb_spec (1 + v) 0) as [C|C]; [lra|]. apply OI; [exact S|]. nra. }
  set (sr := rnd (1 + v)) in *.
  assert (Hs1 : (1 <= sr)%R). { unfold sr. rewrite <- rnd_1 at 1. apply rnd_le. lra. }
  (* the same quotient as with the double nearest to v: compare with over_acc *)
  assert (Es : (Rabs (sr - (1 + v)) <= u64 * (1 + v) + eta)%R).
  { unfold sr. pose proof (rnd_err (1 + v)) as Q. rewrite (Rabs_pos_eq (1 + v)) in Q by lra. exact Q. }
  assert (Hi : (0 < / sr <= 1)%R). { split; [apply Rinv_0_lt_compat; lra|]. rewrite <- Rinv_1. apply Rinv_le_contravar; lra. }
  assert (W : toE w = rndE (Fin (1 / sr))).
  { unfold w. rewrite toE_div by (rewrite S; intros C; injection C; lra). rewrite S, one_E. cbn [xdiv].
    destruct (Reqb_spec sr 0); [lra|reflexivity]. }
  cbn [rndE] in W. replace (1 / sr)%R with (/ sr)%R in W by lra.
  assert (Hr1 : (0 <= rnd (/ sr) <= 1)%R). { split; [apply rnd_nonneg; lra|]. rewrite <- rnd_1. apply rnd_le. lra. }
  destruct (Rltb_spec (Rabs (rnd (/ sr))) big) as [_|C].
  2:{ exfalso. apply C. rewrite Rabs_pos_eq by apply Hr1. apply Rle_lt_trans with 1%R; [apply Hr1|]. unfold big.
      change 1%R with (bpow radix2 0). apply bpow_lt. lia. }
  apply toE_Fin in W. destruct W as [F W]. split; [exact F|]. rewrite W.
  assert (Ew : (Rabs (rnd (/ sr) - / sr) <= u64 + eta)%R).
  { eapply Rle_trans; [apply rnd_err|]. rewrite Rabs_pos_eq by lra. nra. }
  assert (Ei : (Rabs (/ sr - / (1 + Y)) <= (k * u64 + u64 * (1 + k * u64) + eta))%R).
  { replace (/ sr - / (1 + Y))%R with ((1 + Y - sr) * / sr * / (1 + Y))%R by (field; lra).
    assert (Hi2 : (0 < / (1 + Y) <= 1)%R). { split; [apply Rinv_0_lt_compat; lra|]. rewrite <- Rinv_1. apply Rinv_le_contravar; lra. }
    rewrite !Rabs_mult, (Rabs_pos_eq (/ sr)), (Rabs_pos_eq (/ (1 + Y))) by lra.
    assert (Q : (Rabs (1 + Y - sr) <= (k * u64 + u64 * (1 + k * u64) + eta) * (1 + Y))%R).
    { replace (1 + Y - sr)%R with (- (sr - (1 + v)) - (v - Y))%R by ring.
      eapply Rle_trans; [apply Rabs_triang|]. rewrite !Rabs_Ropp.
      assert (u64 * (1 + v) <= u64 * ((1 + k * u64) * (1 + Y)))%R by (apply Rmult_le_compat_l; lra).
      nra. }
    set (T := (k * u64 + u64 * (1 + k * u64) + eta)%R) in *.
    assert (HT : (0 <= T)%R) by (unfold T; nra).
    apply Rle_trans with (T * (1 + Y) * / sr * / (1 + Y))%R.
    - apply Rmult_le_compat_r; [lra|]. apply Rmult_le_compat_r; [lra|]. exact Q.
    - replace (T * (1 + Y) * / sr * / (1 + Y))%R with (T * / sr)%R by (field; lra). nra. }
  replace (rnd (/ sr) - / (1 + Y))%R with ((rnd (/ sr) - / sr) + (/ sr - / (1 + Y)))%R by ring.
  eapply Rle_trans; [apply Rabs_triang|]. nra.
Qed.

Lemma ksq_acc (al d : b64) : is_finite al = true -> is_finite d = true -> (0 < B2R al)%R -> (0 <= B2R d)%R ->
  is_finite (fractionSquaredWeightFunction_k K al d : b64) = true /\
  (Rabs (B2R (fractionSquaredWeightFunction_k K al d : b64) - / (1 + (B2R d / B2R al) * (B2R d / B2R al))) <= 7 * u64)%R.
Proof.
  intros Fa Fd Pa Pd. destruct ks; [|exact (sq_acc exp64 al d Fa Fd Pa Pd)].
  set (X := (B2R d / B2R al)%R). pose proof (X_pos al d Pa Pd : (0 <= X)%R) as HX.
  pose proof u64_pos as U0. pose proof u64_small as U1. pose proof eta_pos as E0. pose proof eta_small as E1.
  replace (7 * u64)%R with ((4 + 3) * u64)%R by lra.
  unfold fractionSquaredWeightFunction_k. cbn [ma_square contractions fused_at ndiv B64].
  change (@none_ BN) with (b64_ofZ 1). set (q := Bdiv mode_NE d al).
  apply (over_acc2 (fused q q (b64_ofZ 1)) (X * X) 4); [nra|lra|].
  pose proof (quot_E al d Fa Fd Pa : toE q = rndE (Fin X)) as QE. cbn [rndE] in QE.
  destruct (Rltb_spec (Rabs (rnd X)) big) as [Hb|Hb].
  2:{ left. pose proof (not_in_range X HX Hb). pose proof huge. destruct (Rltb_spec X 0); [lra|]. split; [|nra].
      destruct q as [s|[|]| |s mm e h]; try discriminate. reflexivity. }
  right. apply E_fin in QE. destruct QE as [Fq Eq]. set (r := rnd X) in *. exists (r * r)%R.
  assert (Hr : (0 <= r)%R) by (apply rnd_nonneg; exact HX). split; [|split; [nra|]].
  { rewrite toE_fused by (assumption || reflexivity). rewrite Eq. destruct (E_fin _ _ one_E) as [_ ->]. do 2 f_equal. ring. }
  assert (Er : (Rabs (r - X) <= u64 * X + eta)%R).
  { unfold r. eapply Rle_trans; [apply rnd_err|]. rewrite Rabs_pos_eq by exact HX. lra. }
  assert (Hx2 : (2 * X <= 1 + X * X)%R). { pose proof (Rle_0_sqr (X - 1)) as Q. unfold Rsqr in Q. lra. }
  set (D := (r - X)%R) in *. replace (r * r - X * X)%R with (D * (2 * X + D))%R by (unfold D; ring).
  rewrite Rabs_mult. apply Rabs_le_inv in Er.
  assert (H2 : (Rabs (2 * X + D) <= 2 * X + (u64 * X + eta))%R) by (apply Rabs_le; lra).
  apply Rle_trans with ((u64 * X + eta) * (2 * X + (u64 * X + eta)))%R.
  { apply Rmult_le_compat; [apply Rabs_pos..|apply Rabs_le; lra|exact H2]. }
  assert (Q1 : (u64 * eta * (2 * X) <= u64 * eta * (1 + X * X))%R) by (apply Rmult_le_compat_l; nra).
  assert (Q2 : (eta * (2 * X) <= eta * (1 + X * X))%R) by (apply Rmult_le_compat_l; lra).
  assert (Q6 : (0 <= X * X)%R) by nra.
  replace ((u64 * X + eta) * (2 * X + (u64 * X + eta)))%R with
    (2 * u64 * (X * X) + eta * (2 * X) + u64 * u64 * (X * X) + u64 * eta * (2 * X) + eta * eta)%R by ring.
  assert (Q7 : (u64 * u64 <= u64)%R) by nra. assert (Q8 : (u64 * eta <= u64)%R) by nra. assert (Q9 : (eta * eta <= u64)%R) by nra.
  assert (Q10 : (eta <= u64 / 4)%R) by lra. assert (Q11 : (u64 * u64 <= u64 / 4)%R) by nra. assert (Q12 : (u64 * eta <= u64 / 4)%R) by nra.
  assert (Q13 : (eta * eta <= u64 / 4)%R) by nra.
  set (P := (1 + X * X)%R) in *. assert (HP : (1 <= P)%R) by (unfold P; lra).
  assert (R1 : (u64 * u64 * (X * X) <= u64 / 4 * P)%R) by (apply Rmult_le_compat; try nra; unfold P; lra).
  assert (R2 : (u64 * eta * P <= u64 / 4 * P)%R) by (apply Rmult_le_compat_r; lra).
  assert (R3 : (eta * P <= u64 / 4 * P)%R) by (apply Rmult_le_compat_r; lra).
  assert (R4 : (2 * u64 * (X * X) <= 2 * u64 * P)%R) by (apply Rmult_le_compat_l; unfold P; lra).
  assert (R5 : (u64 / 4 <= u64 / 4 * P)%R) by nra.
  lra.
Qed.

(** in the unit interval *)
Lemma over_unit (s : b64) : toE s = PInf \/ is_finite s = true /\ (1 <= B2R s)%R ->
  let w := Bdiv mode_NE (b64_ofZ 1) s in is_finite w = true /\ (0 <= B2R w <= 1)%R.
Proof.
  intros H w. assert (W : toE w = Fin 0 \/ exists r, (0 <= r <= 1)%R /\ toE w = rndE (Fin r)).
  { destruct H as [E|[F H]].
    - left. unfold w. rewrite toE_div by (rewrite E; discriminate). rewrite E, one_E. cbn [xdiv rndE].
      rewrite rnd_0, Rabs_R0. destruct (Rltb_spec 0 big) as [|n]; [reflexivity|]. exfalso. apply n. apply bpow_gt_0.
    - right. exists (/ B2R s)%R. split.
      + split; [apply Rlt_le, Rinv_0_lt_compat; lra|]. rewrite <- Rinv_1. apply Rinv_le_contravar; lra.
      + unfold w. rewrite toE_div by (rewrite (toE_finite s F); intros C; injection C; lra). rewrite (toE_finite s F), one_E. cbn [xdiv].
        destruct (Reqb_spec (B2R s) 0); [lra|]. do 2 f_equal. lra. }
  destruct W as [W|[r [Hr W]]].
  - apply E_fin in W. destruct W as [F ->]. split; [exact F|lra].
  - assert (Hr1 : (0 <= rnd r <= 1)%R) by (split; [apply rnd_nonneg; lra|rewrite <- rnd_1; apply rnd_le; lra]). cbn [rndE] in W.
    destruct (Rltb_spec (Rabs (rnd r)) big) as [_|C].
    + apply E_fin in W. destruct W as [F ->]. split; [exact F|exact Hr1].
    + exfalso. apply C. rewrite Rabs_pos_eq by apply Hr1. apply Rle_lt_trans with 1%R; [apply Hr1|]. unfold big. change 1%R with (bpow radix2 0). apply bpow_lt. lia.
Qed.

Lemma ksq_unit (al d : b64) : is_finite al = true -> (0 < B2R al)%R -> Bleb (b64_ofZ 0) d = true ->
  is_finite (fractionSquaredWeightFunction_k K al d : b64) = true /\ (0 <= B2R (fractionSquaredWeightFunction_k K al d : b64) <= 1)%R.
Proof.
  intros Fa Pa Hd. unfold fractionSquaredWeightFunction_k. cbn [ma_square contractions ndiv B64]. change (@none_ BN) with (b64_ofZ 1).
  apply over_unit. set (q := Bdiv mode_NE d al).
  assert (Q : toE q = PInf \/ is_finite q = true).
  { destruct d as [b|b| |b mm e h] eqn:Ed; try discriminate Hd.
    - right. unfold q. destruct al; try discriminate Fa; [cbn in Pa; lra|reflexivity].
    - destruct b; [discriminate Hd|]. left. unfold q. destruct al as [b|b| |b mm e h]; try discriminate Fa; [cbn in Pa; lra|].
      destruct b; [|reflexivity]. exfalso. cbn [B2R] in Pa. pose proof (F2R_lt_0 radix2 (Float radix2 (Zneg mm) e) ltac:(reflexivity)) as C. cbn in Pa, C. lra.
    - rewrite <- Ed in *. assert (Fd : is_finite d = true) by (rewrite Ed; reflexivity).
      assert (Pd : (0 <= B2R d)%R).
      { rewrite Bleb_correct in Hd by (assumption || reflexivity). change (B2R (b64_ofZ 0)) with 0%R in Hd. destruct (Rle_bool_spec 0 (B2R d)); [assumption|discriminate]. }
      pose proof (quot_E al d Fa Fd Pa) as QE. replace (Bdiv mode_NE d al) with q in QE by (unfold q; rewrite Ed; reflexivity). cbn [rndE] in QE.
      destruct (Rltb_spec (Rabs (rnd (B2R d / B2R al))) big); [right; apply E_fin in QE; apply QE|].
      pose proof (X_pos al d Pa Pd). destruct (Rltb_spec (B2R d / B2R al) 0); [lra|]. left. exact QE. }
  destruct Q as [Q|Q].
  - left. assert (q = B754_infinity false) as ->; [|destruct ks; reflexivity]. destruct q as [b|[|]| |b mm e h]; try discriminate. reflexivity.
  - assert (S : exists v, (1 <= v)%R /\ toE (fused_at (exp64 := exp64) ks q q (b64_ofZ 1) : b64) = rndE (Fin v) \/
      toE (fused_at (exp64 := exp64) ks q q (b64_ofZ 1) : b64) = PInf).
    { destruct ks; cbn [fused_at].
      - exists (B2R q * B2R q + 1)%R. left. split; [pose proof (Rle_0_sqr (B2R q)) as C; unfold Rsqr in C; lra|].
        rewrite toE_fused by (assumption || reflexivity). destruct (E_fin _ _ one_E) as [_ ->]. reflexivity.
      - unfold two_steps. cbn [nadd nmul B64]. exists (1 + rnd (B2R q * B2R q))%R. pose proof (Rle_0_sqr (B2R q)) as C. unfold Rsqr in C.
        pose proof (rnd_nonneg _ C) as C2. rewrite toE_plus, toE_mult, (toE_finite q Q), one_E. cbn [xmul rndE].
        destruct (Rltb_spec (Rabs (rnd (B2R q * B2R q))) big); [left; split; [lra|reflexivity]|]. right.
        destruct (Rltb_spec (B2R q * B2R q) 0); [lra|reflexivity]. }
    destruct S as [v [[Hv S]|S]]; [|left; exact S]. cbn [rndE] in S. destruct (Rltb_spec (Rabs (rnd v)) big).
    + right. apply E_fin in S. destruct S as [F ->]. split; [exact F|]. rewrite <- rnd_1. apply rnd_le. exact Hv.
    + left. destruct (Rltb_spec v 0); [lra|]. exact S.
Qed.

Lemma unit_R (z : b64) : @nle BN (@nzero BN) z = true -> @nle BN z (@none_ BN) = true -> is_finite z = true /\ (0 <= B2R z <= 1)%R.
Proof.
  intros W1 W2.
  assert (Fz : is_finite z = true).
  { clear - W1 W2. destruct z as [s|[]| |s m e h]; try reflexivity; exfalso; revert W1 W2; vm_compute; discriminate. }
  split; [exact Fz|]. change (Bleb (b64_ofZ 0) z = true) in W1. change (Bleb z (b64_ofZ 1) = true) in W2.
  rewrite Bleb_correct in W1, W2 by (assumption || reflexivity). destruct (E_fin _ _ one_E) as [_ E1]. rewrite E1 in W2.
  change (B2R (b64_ofZ 0)) with 0%R in W1. destruct (Rle_bool_spec 0 (B2R z)); [|discriminate]. destruct (Rle_bool_spec (B2R z) 1); [|discriminate].
  split; assumption.
Qed.

Lemma weights_pair wgt (w w' : b64 -> b64 -> b64) (a o : b64) :
  weight_function (A := BN) wgt = Some w -> weight_function_k K wgt = Some w' -> proper_alpha (A := BN) wgt a ->
  finite (A := BN) (if String.eqb wgt "gaussian" then nmul (Num := BN) (nmul (Num := BN) (nofZ (Num := BN) 2) a) a else a) -> @nle BN (@nzero BN) o = true ->
  (is_finite (w a o) = true /\ (0 <= B2R (w a o) <= 1)%R) /\ (is_finite (w' a o) = true /\ (0 <= B2R (w' a o) <= 1)%R) /\
  (Rabs (B2R (w' a o) - B2R (w a o)) <= 14 * u64)%R.
Proof.
  intros Hw Hw' Hp Hf Ho. pose proof u64_pos as U.
  destruct (weights_unit BN (arith_binary64 exp64) wgt w a o Hw Hp Hf Ho) as [W1 W2]. pose proof (unit_R _ W1 W2) as W.
  split; [exact W|].
  assert (Same : w' = w -> (is_finite (w' a o) = true /\ (0 <= B2R (w' a o) <= 1)%R) /\ (Rabs (B2R (w' a o) - B2R (w a o)) <= 14 * u64)%R).
  { intros ->. split; [exact W|]. rewrite Rminus_eq_0, Rabs_R0. lra. }
  unfold weight_function in Hw. unfold weight_function_k in Hw'.
  destruct (String.eqb_spec wgt "fractional"); [apply Same; congruence|].
  destruct (String.eqb_spec wgt "fractional_squared"); [|destruct (String.eqb wgt "gaussian"); [apply Same; congruence|discriminate]].
  subst wgt. clear Same. injection Hw as <-. injection Hw' as <-. cbn in Hf. destruct Hp as [[_ Hp]|[C _]]; [|discriminate].
  apply (@finite_nfin BN) in Hf. rewrite fin_toE in Hf.
  assert (Hf' : is_finite a = true) by (destruct a as [b|[]| |b mm e h]; try discriminate Hf; reflexivity). clear Hf. rename Hf' into Hf.
  assert (Pa : (0 < B2R a)%R).
  { change (Bltb (b64_ofZ 0) a = true) in Hp. rewrite Bltb_correct in Hp by (assumption || reflexivity).
    change (B2R (b64_ofZ 0)) with 0%R in Hp. destruct (Rlt_bool_spec 0 (B2R a)); [assumption|discriminate]. }
  change (Bleb (b64_ofZ 0) o = true) in Ho. split; [apply ksq_unit; assumption|].
  destruct (is_finite o) eqn:Fo.
  - assert (Po : (0 <= B2R o)%R).
    { rewrite Bleb_correct in Ho by (assumption || reflexivity). change (B2R (b64_ofZ 0)) with 0%R in Ho. destruct (Rle_bool_spec 0 (B2R o)); [assumption|discriminate]. }
    destruct (sq_acc exp64 a o Hf Fo Pa Po) as [_ K1]. destruct (ksq_acc a o Hf Fo Pa Po) as [_ K2].
    set (V := (/ (1 + B2R o / B2R a * (B2R o / B2R a)))%R) in *.
    replace (B2R (fractionSquaredWeightFunction_k K a o : b64) - B2R (fractionSquaredWeightFunction (A := BN) a o : b64))%R
      with ((B2R (fractionSquaredWeightFunction_k K a o : b64) - V) + - (B2R (fractionSquaredWeightFunction (A := BN) a o : b64) - V))%R by ring.
    eapply Rle_trans; [apply Rabs_triang|]. rewrite Rabs_Ropp. lra.
  - assert (o = B754_infinity false) as -> by (destruct o as [b|[|]| |b mm e h]; try discriminate; reflexivity).
    assert (E : fractionSquaredWeightFunction_k K a (B754_infinity false : b64) = fractionSquaredWeightFunction (A := BN) a (B754_infinity false : b64)).
    { unfold fractionSquaredWeightFunction_k, fractionSquaredWeightFunction. cbn [ma_square contractions ndiv nadd nmul B64].
      assert (Bdiv mode_NE (B754_infinity false) a = B754_infinity false) as ->; [|destruct ks; reflexivity].
      destruct a as [b|b| |b mm e h]; try discriminate Hf; [cbn in Pa; lra|].
      destruct b; [|reflexivity]. exfalso. cbn [B2R] in Pa. pose proof (F2R_lt_0 radix2 (Float radix2 (Zneg mm) e) ltac:(reflexivity)) as C. cbn in Pa, C. lra. }
    rewrite E. rewrite Rminus_eq_0, Rabs_R0. lra.
Qed.

(** ** accuracy and finiteness *)
Lemma call_acc_k p (d : @dstruct BN) mi ma re al sel wgt lags corr c rows j i (row : list b64) kk (v : b64) :
  accepted d -> autocorrelation_k K p d mi ma re al sel wgt = Ok (lags, corr, c) ->
  data_2d d = Ok rows -> nth_error rows j = Some row -> nth_error lags i = Some kk -> corr_at corr j i = Some v ->
  (Z.of_nat (length row) <= 2 ^ 50)%Z ->
  (forall x : b64, In x row -> is_nan x = true \/ is_finite x = true /\ (Rabs (B2R x) <= bpow radix2 100)%R) ->
  (bpow radix2 (-750) <= rsum (map (rsq exp64 row) (valid (A := BN) row)))%R -> is_finite v = true ->
  exists f w it it',
    selection_function (A := BN) p sel d = Some f /\ weight_function_k K wgt = Some w /\
    f (CorrelationIterator (A := BN) kk (length rows)) = (it, Ok tt) /\ deltaT (A := BN) p d it = (it', Ok tt) /\
    length (selection it) <= length row /\
    let a := opt_or (A := BN) al (median_time d) in
    let m := B2R (mean (A := BN) row : b64) in
    let x := fun q => (B2R (nth q row (nzero (A := BN)) : b64) - m)%R in
    let term := fun q => (B2R (w a (nth q (offsets it') (nzero (A := BN))) : b64) * x q * x (nth q (selection it) 0%nat))%R in
    let V := rsum (map term (seq 0 (length (selection it)))) in
    let T := rsum (map (fun q => Rabs (term q)) (seq 0 (length (selection it)))) in
    let N := rsum (map (rsq exp64 row) (valid (A := BN) row)) in
    (Rabs (B2R v - V / N) <= 2 * INR (length (selection it) + length (valid (A := BN) row) + 10) * bpow radix2 (-53) * (T / N) + bpow radix2 (-110))%R.
Proof.
  intros Ha E Hd Hj Hi Hc Hl Hx HN Fv.
  destruct (value_by_iterator_k K p d mi ma re al sel wgt lags corr c rows j i row kk Ha E Hd Hj Hi)
    as [f [w [it [it' [Hf [Hw [Hrun [Hdt [Ho [Hlen [Hs HV]]]]]]]]]]]. cbv zeta in HV. rewrite norm_knorm in HV.
  exists f, w, it, it'. split; [exact Hf|]. split; [exact Hw|]. split; [exact Hrun|]. split; [exact Hdt|]. split; [exact Hlen|]. intros a m x term V T N.
  change (@num BN) with b64 in *. rewrite Hc in HV. injection HV as HV.
  pose proof (kvalue_acc exp64 (fused_at (exp64 := exp64) kn) (fused_at (exp64 := exp64) km) (fused_at_accum exp64 kn) (fused_at_accum exp64 km)
    row (fun q => w a (nth q (offsets it') (nzero (A := BN)))) (fun q => nth q row (nzero (A := BN)))
    (fun q => nth (nth q (selection it) 0%nat) row (nzero (A := BN))) (length (selection it))) as Q.
  cbv zeta in Q. rewrite HV. apply Q; clear Q.
  - exact Hl.
  - exact Hlen.
  - exact Hx.
  - intros q Hq. apply nth_In. apply Hs. apply nth_In. exact Hq.
  - eapply Rle_trans; [|exact HN]. apply bpow_le. lia.
  - rewrite HV in Fv. exact Fv.
Qed.

Lemma call_fin_k p (d : @dstruct BN) mi ma re al sel wgt lags corr c rows j i (row : list b64) kk :
  accepted d -> autocorrelation_k K p d mi ma re al sel wgt = Ok (lags, corr, c) ->
  data_2d d = Ok rows -> nth_error rows j = Some row -> nth_error lags i = Some kk -> is_nan (kk : b64) = false ->
  (forall x, In x (normalised_timeseries d) -> finite (A := BN) x) ->
  let a := opt_or (A := BN) al (median_time d) in
  proper_alpha (A := BN) wgt a ->
  finite (A := BN) (if String.eqb wgt "gaussian" then nmul (nmul (nofZ 2) a) a else a) ->
  (Z.of_nat (length row) <= 2 ^ 50)%Z ->
  (forall x : b64, In x row -> is_finite x = true /\ (Rabs (B2R x) <= bpow radix2 100)%R) ->
  (bpow radix2 (-750) <= rsum (map (rsq exp64 row) (valid (A := BN) row)))%R ->
  exists v : b64, corr_at corr j i = Some v /\ is_finite v = true.
Proof.
  intros Ha E Hd Hj Hi Hk Ht a Hp Hfa Hl Hx HN.
  destruct (value_by_iterator_k K p d mi ma re al sel wgt lags corr c rows j i row kk Ha E Hd Hj Hi)
    as [f [w [it [it' [Hf [Hw [Hrun [Hdt [Ho [Hlen [Hs HV]]]]]]]]]]]. cbv zeta in HV. rewrite norm_knorm in HV.
  eexists. split; [exact HV|]. fold a. change (@num BN) with b64 in *.
  apply (kvalue_fin exp64 (fused_at (exp64 := exp64) kn) (fused_at (exp64 := exp64) km) (fused_at_accum exp64 kn) (fused_at_accum exp64 km)
    row (fun q => w a (nth q (offsets it') (nzero (A := BN)))) (fun q => nth q row (nzero (A := BN)))
    (fun q => nth (nth q (selection it) 0%nat) row (nzero (A := BN))) (length (selection it))); try assumption.
  intros q Hq. split; [apply nth_In; lia|]. split; [apply nth_In; apply Hs; apply nth_In; exact Hq|].
  assert (O : @nle BN (@nzero BN) (nth q (offsets it') (nzero (A := BN))) = true).
  { eapply (offsets_nonneg BN (arith_binary64 exp64)); try eassumption. apply nth_In. change (@num BN) with b64. lia. }
  assert (exists w0, weight_function (A := BN) wgt = Some w0) as [w0 Hw0].
  { unfold weight_function. unfold weight_function_k in Hw. destruct (String.eqb wgt "fractional"); [eauto|]. destruct (String.eqb wgt "fractional_squared"); [eauto|].
    destruct (String.eqb wgt "gaussian"); [eauto|discriminate]. }
  destruct (weights_pair wgt w0 w a _ Hw0 Hw Hp Hfa O) as [_ [[F [B1 B2]] _]]. split; [exact F|]. rewrite Rabs_pos_eq; assumption.
Qed.
End Values64.

(** ** two builds *)
Section Builds.
Context (exp64 : b64 -> b64).
Notation BN := (B64 exp64).

Lemma builds_lags (K K' : @contraction BN) p (d : @dstruct BN) mi ma re al sel wgt lags corr c lags' corr' c' : accepted d ->
  autocorrelation_k K p d mi ma re al sel wgt = Ok (lags, corr, c) -> autocorrelation_k K' p d mi ma re al sel wgt = Ok (lags', corr', c') -> lags = lags'.
Proof.
  intros Ha E E'. pose proof (contract_outcome K p d mi ma re al sel wgt Ha) as H. pose proof (contract_outcome K' p d mi ma re al sel wgt Ha) as H'.
  rewrite E in H. rewrite E' in H'. cbn [visible bind fst] in H, H'. destruct (visible (autocorrelation p d mi ma re al sel wgt)); cbn [same_outcome] in H, H'; try contradiction.
  destruct H as [H _], H' as [H' _]. cbn [fst] in H, H'. congruence.
Qed.

Lemma rsum_diff {X} (f g h : X -> R) (b : R) l : (forall q, In q l -> (Rabs (f q - g q) <= b * h q)%R) ->
  (Rabs (rsum (map f l) - rsum (map g l)) <= b * rsum (map h l))%R.
Proof.
  induction l as [|q l IH]; intros H; cbn [map].
  - unfold rsum. cbn. rewrite Rminus_eq_0, Rabs_R0. lra.
  - rewrite !rsum_cons. specialize (IH (fun q Hq => H q (or_intror Hq))). pose proof (H q (or_introl eq_refl)) as Hq.
    replace (f q + rsum (map f l) - (g q + rsum (map g l)))%R with ((f q - g q) + (rsum (map f l) - rsum (map g l)))%R by ring.
    eapply Rle_trans; [apply Rabs_triang|]. lra.
Qed.
Lemma rsum_mono {X} (f g : X -> R) l : (forall q, In q l -> (f q <= g q)%R) -> (rsum (map f l) <= rsum (map g l))%R.
Proof.
  induction l as [|q l IH]; intros H; cbn [map]; [apply Rle_refl|]. rewrite !rsum_cons. pose proof (H q (or_introl eq_refl)).
  specialize (IH (fun q Hq => H q (or_intror Hq))). lra.
Qed.

Lemma builds_differ (kn ks km kn' ks' km' : bool) p (d : @dstruct BN) mi ma re al sel wgt lags corr c lags' corr' c' rows j i (row : list b64) kk :
  accepted d ->
  autocorrelation_k (contractions exp64 kn ks km) p d mi ma re al sel wgt = Ok (lags, corr, c) ->
  autocorrelation_k (contractions exp64 kn' ks' km') p d mi ma re al sel wgt = Ok (lags', corr', c') ->
  data_2d d = Ok rows -> nth_error rows j = Some row -> nth_error lags i = Some kk -> is_nan (kk : b64) = false ->
  (forall x, In x (normalised_timeseries d) -> finite (A := BN) x) ->
  let a := opt_or (A := BN) al (median_time d) in
  proper_alpha (A := BN) wgt a ->
  finite (A := BN) (if String.eqb wgt "gaussian" then nmul (nmul (nofZ 2) a) a else a) ->
  (Z.of_nat (length row) <= 2 ^ 50)%Z ->
  (forall x : b64, In x row -> is_finite x = true /\ (Rabs (B2R x) <= bpow radix2 100)%R) ->
  (bpow radix2 (-750) <= rsum (map (rsq exp64 row) (valid (A := BN) row)))%R ->
  exists (v v' : b64) f it,
    corr_at corr j i = Some v /\ corr_at corr' j i = Some v' /\ is_finite v = true /\ is_finite v' = true /\
    selection_function (A := BN) p sel d = Some f /\ f (CorrelationIterator (A := BN) kk (length rows)) = (it, Ok tt) /\
    let m := B2R (mean (A := BN) row : b64) in
    let x := fun q => (B2R (nth q row (nzero (A := BN)) : b64) - m)%R in
    let T := rsum (map (fun q => Rabs (x q * x (nth q (selection it) 0%nat))) (seq 0 (length (selection it)))) in
    let N := rsum (map (rsq exp64 row) (valid (A := BN) row)) in
    (Rabs (B2R v - B2R v') <= 4 * INR (length (selection it) + length (valid (A := BN) row) + 17) * bpow radix2 (-53) * (T / N) + bpow radix2 (-109))%R.
Proof.
  intros Ha E E' Hd Hj Hi Hk Ht a Hp Hfa Hl Hx HN. pose proof (builds_lags _ _ p d mi ma re al sel wgt _ _ _ _ _ _ Ha E E') as <-.
  destruct (call_fin_k exp64 kn ks km p d mi ma re al sel wgt _ _ _ rows j i row kk Ha E Hd Hj Hi Hk Ht Hp Hfa Hl Hx HN) as [v [Hv Fv]].
  destruct (call_fin_k exp64 kn' ks' km' p d mi ma re al sel wgt _ _ _ rows j i row kk Ha E' Hd Hj Hi Hk Ht Hp Hfa Hl Hx HN) as [v' [Hv' Fv']].
  assert (Hx' : forall x : b64, In x row -> is_nan x = true \/ is_finite x = true /\ (Rabs (B2R x) <= bpow radix2 100)%R) by (intros; right; auto).
  destruct (call_acc_k exp64 kn ks km p d mi ma re al sel wgt _ _ _ rows j i row kk v Ha E Hd Hj Hi Hv Hl Hx' HN Fv)
    as [f [w [it [it' [Hf [Hw [Hrun [Hdt [Hlen Q]]]]]]]]].
  destruct (call_acc_k exp64 kn' ks' km' p d mi ma re al sel wgt _ _ _ rows j i row kk v' Ha E' Hd Hj Hi Hv' Hl Hx' HN Fv')
    as [f' [w' [it1 [it1' [Hf' [Hw' [Hrun' [Hdt' [Hlen' Q']]]]]]]]].
  rewrite Hf in Hf'. injection Hf' as <-. rewrite Hrun in Hrun'. injection Hrun' as <-. rewrite Hdt in Hdt'. injection Hdt' as <-.
  exists v, v', f, it. do 6 (split; [assumption|]). cbv zeta in Q, Q'. fold a in Q, Q'. change (@num BN) with b64 in *. intros m x T N. fold m in Q, Q'. fold N in Q, Q'.
  set (n := length (selection it)) in *. set (nv := length (valid (A := BN) row)) in *.
  set (W := fun q => B2R (w a (nth q (offsets it') (nzero (A := BN))) : b64)). set (W' := fun q => B2R (w' a (nth q (offsets it') (nzero (A := BN))) : b64)).
  set (t := fun q => (W q * x q * x (nth q (selection it) 0%nat))%R). set (t' := fun q => (W' q * x q * x (nth q (selection it) 0%nat))%R).
  set (V := rsum (map t (seq 0 n))). set (V' := rsum (map t' (seq 0 n))).
  set (T1 := rsum (map (fun q => Rabs (t q)) (seq 0 n))). set (T1' := rsum (map (fun q => Rabs (t' q)) (seq 0 n))).
  change (Rabs (B2R v - V / N) <= 2 * INR (n + nv + 10) * bpow radix2 (-53) * (T1 / N) + bpow radix2 (-110))%R in Q.
  change (Rabs (B2R v' - V' / N) <= 2 * INR (n + nv + 10) * bpow radix2 (-53) * (T1' / N) + bpow radix2 (-110))%R in Q'. change (bpow radix2 (-53)) with u64 in *.
  assert (exists w0, weight_function (A := BN) wgt = Some w0) as [w0 Hw0].
  { unfold weight_function. unfold weight_function_k in Hw. destruct (String.eqb wgt "fractional"); [eauto|]. destruct (String.eqb wgt "fractional_squared"); [eauto|].
    destruct (String.eqb wgt "gaussian"); [eauto|discriminate]. }
  pose proof u64_pos as U.
  assert (WW : forall q, q < n -> (0 <= W q <= 1 /\ 0 <= W' q <= 1 /\ Rabs (W q - W' q) <= 28 * u64)%R).
  { intros q Hq. assert (Lo : length (offsets it') = n).
    { destruct (value_by_iterator_k _ p d mi ma re al sel wgt _ _ _ rows j i row kk Ha E Hd Hj Hi) as [f2 [w2 [i2 [i2' [H1 [H2 [H3 [H4 [H5 _]]]]]]]]].
      change (@num BN) with b64 in *. rewrite Hf in H1. injection H1 as <-. rewrite Hrun in H3. injection H3 as <-. rewrite Hdt in H4. injection H4 as <-. exact H5. }
    assert (O : @nle BN (@nzero BN) (nth q (offsets it') (nzero (A := BN))) = true).
    { eapply (offsets_nonneg BN (arith_binary64 exp64)); try eassumption. apply nth_In. rewrite <- Lo in Hq. exact Hq. }
    destruct (weights_pair exp64 kn ks km wgt w0 w a _ Hw0 Hw Hp Hfa O) as [_ [[_ B1] D1]].
    destruct (weights_pair exp64 kn' ks' km' wgt w0 w' a _ Hw0 Hw' Hp Hfa O) as [_ [[_ B2] D2]].
    split; [exact B1|]. split; [exact B2|]. unfold W, W'. set (z := B2R (w0 a _)) in *. set (z1 := B2R (w a _)) in *. set (z2 := B2R (w' a _)) in *.
    replace (z1 - z2)%R with ((z1 - z) + - (z2 - z))%R by ring. eapply Rle_trans; [apply Rabs_triang|]. rewrite Rabs_Ropp. lra. }
  assert (N0 : (0 < N)%R) by (eapply Rlt_le_trans; [|exact HN]; apply bpow_gt_0).
  assert (I0 : (0 < / N)%R) by (apply Rinv_0_lt_compat; exact N0).
  assert (TT : (T1 <= T)%R /\ (T1' <= T)%R).
  { split; apply rsum_mono; intros q Hq; apply in_seq in Hq; destruct (WW q ltac:(lia)) as [[A1 A2] [[A3 A4] _]]; unfold t, t';
      rewrite Rmult_assoc, Rabs_mult, (Rabs_pos_eq (W _)) || rewrite Rmult_assoc, Rabs_mult, (Rabs_pos_eq (W' _)); try assumption;
      rewrite <- (Rmult_1_l (Rabs (x q * _))) at 2; apply Rmult_le_compat_r; try apply Rabs_pos; assumption. }
  assert (VV : (Rabs (V - V') <= 28 * u64 * T)%R).
  { apply rsum_diff. intros q Hq. apply in_seq in Hq. destruct (WW q ltac:(lia)) as [_ [_ D]]. unfold t, t'.
    replace (W q * x q * x (nth q (selection it) 0%nat) - W' q * x q * x (nth q (selection it) 0%nat))%R with ((W q - W' q) * (x q * x (nth q (selection it) 0%nat)))%R by ring.
    rewrite Rabs_mult. apply Rmult_le_compat_r; [apply Rabs_pos|exact D]. }
  assert (Q2 : forall S, (S <= T)%R -> (2 * INR (n + nv + 10) * u64 * (S / N) <= 2 * INR (n + nv + 10) * u64 * (T / N))%R).
  { intros S HS. apply Rmult_le_compat_l; [apply Rmult_le_pos; [apply Rmult_le_pos; [lra|apply pos_INR]|lra]|]. apply Rmult_le_compat_r; lra. }
  pose proof (Q2 _ (proj1 TT)) as Q3. pose proof (Q2 _ (proj2 TT)) as Q4.
  replace (B2R v - B2R v')%R with ((B2R v - V / N) + (- (B2R v' - V' / N) + (V - V') * / N))%R by (unfold Rdiv; ring).
  eapply Rle_trans; [apply Rabs_triang|]. pose proof (Rabs_triang (- (B2R v' - V' / N)) ((V - V') * / N)) as Q5. rewrite Rabs_Ropp, Rabs_mult, (Rabs_pos_eq (/ N)) in Q5 by lra.
  assert (Q6 : (Rabs (V - V') * / N <= 28 * u64 * T * / N)%R) by (apply Rmult_le_compat_r; lra).
  pose proof (bpow_double (-110)) as B. change (-110 + 1)%Z with (-109)%Z in B.
  match goal with |- (_ <= ?r)%R => change r with (4 * INR (n + nv + 17) * u64 * (T / N) + bpow radix2 (-109))%R end.
  replace (INR (n + nv + 17)) with (INR (n + nv + 10) + 7)%R by (rewrite !plus_INR; cbn; lra).
  replace (4 * (INR (n + nv + 10) + 7) * u64 * (T / N))%R with (2 * (2 * INR (n + nv + 10) * u64 * (T / N)) + 28 * u64 * T * / N)%R by (unfold Rdiv; ring).
  lra.
Qed.
End Builds.
