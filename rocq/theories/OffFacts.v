(** Time offsets, weights and values in a call. *)
From Coq Require Import String.
From Coq Require Import ZArith Reals List Bool Arith Lia Lra.
From Flocq Require Import Core BinarySingleNaN.
From Verif Require Import Num Mem MemFacts XR B64 Spec SpecR DataStructure Correlator Sacf Api Laws B64Facts Laws2 DSFacts CorrFacts MainFacts
  RelFacts SelFacts WeightFacts DefaultFacts WeightAcc ValFacts ExactFacts AccFacts.
Import ListNotations.
Local Open Scope list_scope.

Section Off.
Context (A : Num) (HA : arith A).
Let L1 := arith_laws A HA.
Let L2 := arith_laws2 A HA.
Let L3 := arith_laws3 A HA.
Existing Instance L1.
Existing Instance L2.
Existing Instance L3.

Lemma offsets_nonneg p d sel f kk n it it' :
  accepted d -> (forall x, In x (normalised_timeseries d) -> finite x) -> nisnan kk = false ->
  selection_function p sel d = Some f -> f (CorrelationIterator kk n) = (it, Ok tt) -> deltaT p d it = (it', Ok tt) ->
  forall o, In o (offsets it') -> nle nzero o = true.
Proof.
  intros Ha Hf Hk Hs E1 E2 o Ho.
  assert (exists sf, sel_named sel = Some sf /\
    match sf p (norm_t d) kk with
    | Ok (sl, Sv) => exists it, f (CorrelationIterator kk n) = (it, Ok tt) /\ selected it kk n sl Sv
    | q => same_failure q (snd (f (CorrelationIterator kk n)))
    end) as [sf [Hn Hrun]].
  { unfold sel_named. unfold selection_function in Hs.
    destruct (String.eqb_spec sel "fast"); destruct (String.eqb_spec sel "natural"); subst; try discriminate; injection Hs as <-.
    - eexists; split; [reflexivity|]. exact (fast_closed p d kk n).
    - eexists; split; [reflexivity|]. exact (natural_closed p d kk n). }
  destruct (sf p (norm_t d) kk) as [[sl Sv]|e|u|] eqn:ES; rewrite E1 in Hrun; cbn in Hrun; try contradiction; try discriminate.
  destruct Hrun as [it0 [Hit Hsel]]. injection Hit as <-.
  assert (Hpos : 0 < length (norm_t d)).
  { destruct (accepted_times d Ha) as [ts [data [er [N [E [H1 [_ [_ [_ Hlen]]]]]]]]]. subst d.
    change (0 < length (rel_times ts)). rewrite Hlen. destruct ts; [congruence|cbn; lia]. }
  destruct (sel_named_ok sel sf Hn p (norm_t d) kk sl Sv Hpos ES) as [K1 [K2 K3]].
  pose proof (deltaT_closed p d it kk n sl Sv Hsel K1) as HDT.
  destruct (deltas p (norm_t d) sl Sv) as [dts|e|u|] eqn:ED; rewrite E2 in HDT; cbn in HDT; try contradiction; try discriminate.
  destruct HDT as [it1 [Hit1 Hoff]]. injection Hit1 as <-.
  assert (Eo : offsets it' = dts) by apply Hoff. rewrite Eo in Ho. unfold deltas in ED. destruct (mapM_Ok_inv _ _ _ ED) as [Hl Hd].
  apply In_nth_error in Ho. destruct Ho as [q Hq]. assert (Hlt : q < length (combine sl Sv)) by (rewrite <- Hl; apply nth_error_Some; congruence).
  destruct (nth_error_Some_ex _ _ Hlt) as [[a s] Has]. destruct (Hd q _ Has) as [b [Hb Hdel]]. rewrite Hq in Hb. injection Hb as <-.
  unfold delta_of in Hdel. cbn [fst snd] in Hdel. apply bind_Ok in Hdel. destruct Hdel as [x [Hx Hdel]].
  destruct (p_checked p); [discriminate|]. cbn [bind] in Hdel.
  assert (Hsv : nth_error Sv q = Some s).
  { clear - Has. revert sl Sv Has. induction q as [|q IH]; intros [|y sl] [|z Sv] H; try discriminate; cbn in *; [congruence|apply (IH sl Sv H)]. }
  destruct (sel_shifted sel sf p (norm_t d) kk sl Sv Hn ES q s Hsv) as [t [Ht ->]].
  assert (Fx : nfin x = true).
  { unfold lat in Hx. destruct (nth_error (norm_t d) a) as [x'|] eqn:Ex; [|discriminate]. injection Hx as <-.
    apply finite_nfin. apply Hf. exact (nth_error_In _ _ Ex). }
  refine (cabs_pos p _ o _ Hdel). apply l_sub_fin_nan_l; [exact Fx|]. apply l_add_fin_nan; [|exact Hk].
  apply finite_nfin. apply Hf. exact (nth_error_In _ _ Ht).
Qed.

Lemma weights_unit wgt w a o :
  weight_function wgt = Some w -> proper_alpha wgt a ->
  finite (if String.eqb wgt "gaussian" then nmul (nmul (nofZ 2) a) a else a) -> nle nzero o = true ->
  nle nzero (w a o) = true /\ nle (w a o) none_ = true.
Proof.
  intros Hw Hp Hf Ho. destruct Hp as [[[->| ->] Hp]|[-> [Hg Hp]]]; cbn in Hw, Hf; injection Hw as <-.
  - apply frac_range; auto.
  - apply sq_range; auto.
  - apply gauss_range; auto.
Qed.
End Off.

(** ** values in binary64 *)
Section Values64.
Context (exp64 : b64 -> b64).
Notation BN := (B64 exp64).

Lemma call_acc p (d : @dstruct BN) mi ma re al sel wgt lags corr c rows j i (row : list b64) kk (v : b64) :
  accepted d -> autocorrelation (A := BN) p d mi ma re al sel wgt = Ok (lags, corr, c) ->
  data_2d d = Ok rows -> nth_error rows j = Some row -> nth_error lags i = Some kk -> corr_at corr j i = Some v ->
  (Z.of_nat (length row) <= 2 ^ 50)%Z ->
  (forall x : b64, In x row -> is_nan x = true \/ is_finite x = true /\ (Rabs (B2R x) <= bpow radix2 100)%R) ->
  (bpow radix2 (-750) <= rsum (map (rsq exp64 row) (valid (A := BN) row)))%R -> is_finite v = true ->
  exists f w it it',
    selection_function (A := BN) p sel d = Some f /\ weight_function (A := BN) wgt = Some w /\
    f (CorrelationIterator (A := BN) kk (length rows)) = (it, Ok tt) /\ deltaT (A := BN) p d it = (it', Ok tt) /\
    length (selection it) <= length row /\
    let a := opt_or (A := BN) al (median_time d) in
    let m := B2R (mean (A := BN) row : b64) in
    let x := fun q => (B2R (nth q row (nzero (A := BN)) : b64) - m)%R in
    let term := fun q => (B2R (w a (nth q (offsets it') (nzero (A := BN))) : b64) * x q * x (nth q (selection it) 0%nat))%R in
    let V := rsum (map term (seq 0 (length (selection it)))) in
    let T := rsum (map (fun q => Rabs (term q)) (seq 0 (length (selection it)))) in
    let N := rsum (map (rsq exp64 row) (valid (A := BN) row)) in
    (Rabs (B2R v - V / N) <= 2 * INR (length (selection it) + length (valid (A := BN) row) + 10) * bpow radix2 (-53) * (T / N) + bpow radix2 (-110))%R.
Proof.
  intros Ha E Hd Hj Hi Hc Hl Hx HN Fv.
  destruct (@value_by_iterator BN p d mi ma re al sel wgt lags corr c rows j i row kk Ha E Hd Hj Hi)
    as [f [w [it [it' [Hf [Hw [Hrun [Hdt [Ho [Hlen [Hs HV]]]]]]]]]]]. cbv zeta in HV. rewrite norm_of_sum_sq in HV.
  exists f, w, it, it'. split; [exact Hf|]. split; [exact Hw|]. split; [exact Hrun|]. split; [exact Hdt|]. split; [exact Hlen|]. intros a m x term V T N.
  change (@num BN) with b64 in *. rewrite Hc in HV. injection HV as HV.
  pose proof (value_acc exp64 row (fun q => w a (nth q (offsets it') (nzero (A := BN)))) (fun q => nth q row (nzero (A := BN)))
    (fun q => nth (nth q (selection it) 0) row (nzero (A := BN))) (length (selection it))) as K.
  cbv zeta in K. rewrite HV. apply K; clear K.
  - exact Hl.
  - exact Hlen.
  - exact Hx.
  - intros q Hq. apply nth_In. apply Hs. apply nth_In. exact Hq.
  - eapply Rle_trans; [|exact HN]. apply bpow_le. lia.
  - rewrite HV in Fv. exact Fv.
Qed.

Lemma call_fin p (d : @dstruct BN) mi ma re al sel wgt lags corr c rows j i (row : list b64) kk :
  accepted d -> autocorrelation (A := BN) p d mi ma re al sel wgt = Ok (lags, corr, c) ->
  data_2d d = Ok rows -> nth_error rows j = Some row -> nth_error lags i = Some kk -> is_nan (kk : b64) = false ->
  (forall x, In x (normalised_timeseries d) -> finite (A := BN) x) ->
  let a := opt_or (A := BN) al (median_time d) in
  proper_alpha (A := BN) wgt a ->
  finite (A := BN) (if String.eqb wgt "gaussian" then nmul (nmul (nofZ 2) a) a else a) ->
  (Z.of_nat (length row) <= 2 ^ 50)%Z ->
  (forall x : b64, In x row -> is_finite x = true /\ (Rabs (B2R x) <= bpow radix2 100)%R) ->
  (bpow radix2 (-750) <= rsum (map (rsq exp64 row) (valid (A := BN) row)))%R ->
  exists v : b64, corr_at corr j i = Some v /\ is_finite v = true.
Proof.
  intros Ha E Hd Hj Hi Hk Ht a Hp Hfa Hl Hx HN.
  destruct (@value_by_iterator BN p d mi ma re al sel wgt lags corr c rows j i row kk Ha E Hd Hj Hi)
    as [f [w [it [it' [Hf [Hw [Hrun [Hdt [Ho [Hlen [Hs HV]]]]]]]]]]]. cbv zeta in HV. rewrite norm_of_sum_sq in HV.
  eexists. split; [exact HV|]. fold a. change (@num BN) with b64 in *.
  apply (value_fin exp64 row (fun q => w a (nth q (offsets it') (nzero (A := BN)))) (fun q => nth q row (nzero (A := BN)))
    (fun q => nth (nth q (selection it) 0) row (nzero (A := BN))) (length (selection it))); try assumption.
  intros q Hq. split; [apply nth_In; lia|]. split; [apply nth_In; apply Hs; apply nth_In; exact Hq|].
  assert (O : @nle BN (@nzero BN) (nth q (offsets it') (nzero (A := BN))) = true).
  { eapply (offsets_nonneg BN (arith_binary64 exp64)); try eassumption. apply nth_In. change (@num BN) with b64. lia. }
  destruct (weights_unit BN (arith_binary64 exp64) wgt w a _ Hw Hp Hfa O) as [W1 W2].
  set (z := w a (nth q (offsets it') (nzero (A := BN))) : b64) in *.
  assert (Fz : is_finite z = true).
  { clear - W1 W2. destruct z as [s|[]| |s m e h]; try reflexivity; exfalso; revert W1 W2; vm_compute; discriminate. }
  split; [exact Fz|]. change (Bleb (b64_ofZ 0) z = true) in W1. change (Bleb z (b64_ofZ 1) = true) in W2.
  rewrite Bleb_correct in W1, W2 by (assumption || reflexivity). destruct (E_fin _ _ one_E) as [_ E1]. rewrite E1 in W2.
  change (B2R (b64_ofZ 0)) with 0%R in W1. destruct (Rle_bool_spec 0 (B2R z)); [|discriminate]. destruct (Rle_bool_spec (B2R z) 1); [|discriminate].
  rewrite Rabs_pos_eq; assumption.
Qed.
End Values64.
