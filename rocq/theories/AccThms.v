(** Statements on accuracy, in terms of the data structure. *)
From Coq Require Import String.
From Coq Require Import ZArith Reals List Bool Arith Lia Lra.
From Flocq Require Import Core BinarySingleNaN.
From Verif Require Import Num Mem MemFacts XR B64 Spec SpecR DataStructure Correlator Sacf Api Laws B64Facts Laws2 DSFacts CorrFacts MainFacts
  RelFacts ConstrFacts WeightFacts DefaultFacts WeightAcc ValFacts AccFacts OffFacts.
Import ListNotations.
Local Open Scope list_scope.

Lemma weights_in_call (A : Num) (HA : arith A) (p : platform) (d : dstruct) (sel wgt : string) (f : cor_it -> meth cor_it unit)
  (w : num -> num -> num) (a kk : num) (n : nat) (it it' : cor_it) :
  accepted d -> (forall x, In x (normalised_timeseries d) -> finite x) -> nisnan kk = false ->
  proper_alpha wgt a -> finite (if String.eqb wgt "gaussian" then nmul (nmul (nofZ 2) a) a else a) ->
  selection_function p sel d = Some f -> weight_function wgt = Some w ->
  f (CorrelationIterator kk n) = (it, Ok tt) -> deltaT p d it = (it', Ok tt) ->
  forall o, In o (offsets it') -> nle nzero o = true /\ nle nzero (w a o) = true /\ nle (w a o) none_ = true.
Proof.
  intros Ha Hf Hk Hp Hfa Hs Hw E1 E2 o Ho. pose proof (offsets_nonneg A HA p d sel f kk n it it' Ha Hf Hk Hs E1 E2 o Ho) as O.
  split; [exact O|]. exact (weights_unit A HA wgt w a o Hw Hp Hfa O).
Qed.

Section Mean64.
Context (exp64 : b64 -> b64).
Notation BN := (B64 exp64).

Lemma mean_entry (d : @dstruct BN) rows j (row : list b64) : accepted d -> data_2d d = Ok rows -> nth_error rows j = Some row ->
  nth_error (mean_data d) j = Some (mean (A := BN) row).
Proof.
  intros Ha Hd Hj. destruct (mean_data_rows d Ha) as [rows' [E [_ [_ [-> _]]]]]. rewrite Hd in E. injection E as <-.
  rewrite nth_error_map, Hj. reflexivity.
Qed.

Lemma mean_accuracy (d : @dstruct BN) (rows : list (list b64)) (j : nat) (row : list b64) (mj : b64) :
  accepted d -> data_2d d = Ok rows -> nth_error rows j = Some row -> nth_error (mean_data d) j = Some mj ->
  let vs := valid (A := BN) row in
  (Z.of_nat (length vs) <= 2 ^ 53)%Z -> is_finite mj = true ->
  0 < length vs /\
  (Rabs (B2R mj - rmean (map B2R vs)) <=
     ((1 + bpow radix2 (-53)) ^ (length vs + 1) - 1) * rmean (map (fun x => Rabs (B2R x)) vs) + bpow radix2 (-1075))%R.
Proof.
  intros Ha Hd Hj Hm vs Hn Fm. rewrite (mean_entry d rows j row Ha Hd Hj) in Hm. injection Hm as <-.
  destruct (mean_acc exp64 row Hn Fm) as [K1 K2]. split; [exact K1|]. unfold rmean at 2. rewrite map_length. exact K2.
Qed.

Lemma mean_finite (d : @dstruct BN) (rows : list (list b64)) (j : nat) (row : list b64) :
  accepted d -> data_2d d = Ok rows -> nth_error rows j = Some row ->
  let vs := valid (A := BN) row in
  0 < length vs -> (Z.of_nat (length vs) <= 2 ^ 50)%Z ->
  (forall x : b64, In x row -> is_nan x = true \/ is_finite x = true /\ (Rabs (B2R x) <= bpow radix2 100)%R) ->
  exists mj : b64, nth_error (mean_data d) j = Some mj /\ is_finite mj = true.
Proof.
  intros Ha Hd Hj vs H0 Hn Hv. exists (mean (A := BN) row). split; [exact (mean_entry d rows j row Ha Hd Hj)|].
  apply (mean_moderate exp64 row H0 Hn). apply Forall_forall. intros x Hx. apply filter_In in Hx. destruct Hx as [Hx Hx']. destruct (Hv x Hx) as [C|C]; [|exact C].
  exfalso. cbn in Hx'. rewrite C in Hx'. discriminate.
Qed.
End Mean64.

Lemma f32R_IZR z : (Z.abs z <= 2 ^ 24 - 1)%Z -> f32R (IZR z) = IZR z.
Proof.
  intros H. unfold f32R. apply round_generic; [apply valid_rnd_N|]. apply generic_format_FLT. exists (Float radix2 z 0).
  - unfold F2R. cbn. ring.
  - cbn [Fnum]. change (radix2 ^ 24)%Z with (2 ^ 24)%Z. lia.
  - cbn. lia.
Qed.
