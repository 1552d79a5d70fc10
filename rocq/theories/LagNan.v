(** No returned lag is NaN. *)
From Coq Require Import String.
From Coq Require Import ZArith List Bool Arith Lia.
From Verif Require Import Num Mem MemFacts XR B64 Spec SpecR DataStructure Correlator Sacf Api Laws Laws2 DSFacts CorrFacts MainFacts LoopFacts GridFacts SafeFacts Contract ContractThms.
Import ListNotations.
Local Open Scope list_scope.

Section LagNan.
Context (A : Num) (HA : arith A).

Lemma with_zero_in l (x : num) : In x (with_zero l) -> In x l \/ x = nzero.
Proof.
  induction l as [|y l IH]; cbn [with_zero]; [contradiction|]. destruct (neqb y nzero); [intros H; left; exact H|].
  destruct (nlt nzero y).
  - intros [<-|H]; [right; reflexivity|left; exact H].
  - intros [<-|H]; [left; left; reflexivity|]. destruct (IH H) as [K|K]; [left; right; exact K|right; exact K].
Qed.

Lemma lag_not_nan p d mi ma re al sel wgt lags corr c i kk : accepted d -> autocorrelation p d mi ma re al sel wgt = Ok (lags, corr, c) ->
  nth_error lags i = Some kk -> nisnan kk = false.
Proof.
  intros Ha E Hi. pose proof (arith_laws A HA) as L. destruct (new_Correlator d) as [c0|e|u|] eqn:Hn; try (unfold autocorrelation in E; rewrite Hn in E; discriminate E).
  destruct (proj1 (returned_grid p d c0 mi ma re al sel wgt (lags, corr, c) Ha Hn E)) as [n [[H _] Hg]]. cbn [fst] in Hg. rewrite Hg in Hi. apply nth_error_In in Hi.
  destruct (with_zero_in _ _ Hi) as [K| ->].
  - apply in_map_iff in K as [q [<- Hq]]. apply in_seq in Hq. destruct (l_le_nan _ _ (H q ltac:(lia))) as [K _]. exact K.
  - destruct HA; reflexivity.
Qed.

Lemma lag_not_nan_k (K : contraction) p d mi ma re al sel wgt lags corr c i kk : accepted d -> autocorrelation_k K p d mi ma re al sel wgt = Ok (lags, corr, c) ->
  nth_error lags i = Some kk -> nisnan kk = false.
Proof.
  intros Ha E Hi. pose proof (contract_outcome K p d mi ma re al sel wgt Ha) as S. unfold visible in S. rewrite E in S.
  destruct (autocorrelation p d mi ma re al sel wgt) as [[[lags' corr'] c']|e|u|] eqn:E'; cbn in S; try contradiction. destruct S as [S _]. cbn [fst] in S.
  apply (lag_not_nan p d mi ma re al sel wgt lags' corr' c' i kk Ha E'). congruence.
Qed.
End LagNan.
