(** Calls on times scaled by a power of two in binary64. *)
From Coq Require Import String.
From Coq Require Import ZArith Reals List Bool Arith Lia Lra.
From Flocq Require Import Core BinarySingleNaN.
From Verif Require Import Num Mem MemFacts XR B64 Spec SpecR DataStructure Correlator Sacf Api Laws B64Facts Laws2 DSFacts CorrFacts LoopFacts MainFacts
  RelFacts ConstrFacts TimeFacts SelFacts DefaultFacts AccFacts SimFacts FixedFacts Pow2Facts Pow2Core.
Import ListNotations.
Local Open Scope list_scope.
Local Open Scope R_scope.

Lemma grain_moderate n (x : b64) : (0 <= n <= 1021)%Z -> moderate n x -> grain (- n - 52) (B2R x) /\ Rabs (B2R x) <= bpow radix2 n.
Proof.
  intros Hn [F [E|[L U]]].
  - rewrite E. split; [apply generic_format_0|]. rewrite Rabs_R0. apply bpow_ge_0.
  - split; [|exact U]. apply (generic_inclusion_mag radix2 fexp64); [|apply (generic_format_B2R 53 1024)].
    intros Hx. unfold FIX_exp, fexp64, FLT_exp. pose proof (mag_ge_bpow radix2 (B2R x) (- n + 1) ltac:(replace (- n + 1 - 1)%Z with (- n)%Z by lia; exact L)). lia.
Qed.

Lemma moderate_sc e n (x y : b64) : (0 <= n <= 1021)%Z -> times_pow2 e x y -> moderate n x -> moderate n y -> sc e (- n - 52) n x y.
Proof.
  intros Hn [F [F' [S E]]] Hx Hy. destruct (grain_moderate n x Hn Hx) as [G B]. destruct (grain_moderate n y Hn Hy) as [G' B'].
  repeat (split; [first [assumption|symmetry; assumption]|]). assumption.
Qed.

Lemma sc_pow2 e lo n x y : sc e lo n x y -> times_pow2 e x y.
Proof. intros [F [F' [S [E _]]]]. repeat (split; [first [assumption|symmetry; assumption]|]). assumption. Qed.

Lemma Forall2_In_l {X Y} (R : X -> Y -> Prop) l l' x : Forall2 R l l' -> In x l -> exists y, In y l' /\ R x y.
Proof. intros H. induction H as [|a b l l' Hab H IH]; cbn; [tauto|]. intros [->|Hx]; [eauto|]. destruct (IH Hx) as [y [H1 H2]]. eauto. Qed.

Lemma moderate_all e n (l l' : list b64) : (0 <= n <= 1021)%Z -> Forall2 (times_pow2 e) l l' -> (forall t, In t l -> moderate n t) -> (forall t, In t l' -> moderate n t) ->
  Forall2 (sc e (- n - 52) n) l l'.
Proof.
  intros Hn H. induction H as [|x y l l' Hx H IH]; intros H1 H2; constructor.
  - apply moderate_sc; try assumption; [apply H1|apply H2]; left; reflexivity.
  - apply IH; intros t Ht; [apply H1|apply H2]; right; exact Ht.
Qed.

Section Pow2.
Context (exp64 : b64 -> b64).
Notation BN := (B64 exp64).

Lemma opt_sc e o o' : opt_pow2 e o o' -> opt_rel (sc e (-452) 400) o o'.
Proof. destruct o, o'; cbn; auto. intros [H1 [H2 H3]]. exact (moderate_sc e 400 _ _ ltac:(lia) H1 H2 H3). Qed.

Lemma pow2_times_lemma (e : Z) (p : platform) (d d' : @dstruct BN) (mi ma re al mi' ma' re' al' : option b64) (sel wgt : string) (rows : list (list b64)) :
  p_abs p = AbsFloat -> accepted d -> accepted d' -> Forall2 (times_pow2 e) (timeseries d) (timeseries d') ->
  (forall t : b64, In t (timeseries d) -> moderate 400 t) -> (forall t : b64, In t (timeseries d') -> moderate 400 t) ->
  (2 <= length (timeseries d))%nat -> ordered (timeseries d) -> data_2d d = Ok rows -> data_2d d' = Ok rows ->
  opt_pow2 e mi mi' -> opt_pow2 e ma ma' -> opt_pow2 e re re' -> opt_pow2 e al al' -> (forall r, re = Some r -> 0 <= B2R r) ->
  same_outcome (fun x y => Forall2 (times_pow2 e) (fst x) (fst y) /\ snd y = snd x)
    (visible (autocorrelation (A := BN) p d mi ma re al sel wgt)) (visible (autocorrelation (A := BN) p d' mi' ma' re' al' sel wgt)).
Proof.
  intros Hp Ha Ha' Ht Hm Hm' Hl Ho Hr Hr' Hmi Hma Hre Hal Hrp.
  pose proof (moderate_all e 400 _ _ ltac:(lia) Ht Hm Hm') as HT.
  destruct (accepted_values d Ha) as [ts [data [er [N [-> [G1 [G2 [G3 G4]]]]]]]].
  destruct (accepted_values d' Ha') as [ts' [data' [er' [N' [-> [G1' [G2' [G3' G4']]]]]]]].
  change (timeseries (the_ds ts data er N)) with ts in *. change (timeseries (the_ds ts' data' er' N')) with ts' in *.
  rewrite !visible_core by assumption.
  rewrite Hr in G4. injection G4 as G4. rewrite Hr' in G4'. injection G4' as G4'. change (@num BN) with b64 in *. rewrite <- G4, <- G4'.
  assert (Hre' : opt_rel (fun x y => sc e (-452) 400 x y /\ 0 <= B2R x) re re').
  { apply opt_sc in Hre. destruct re as [r|], re' as [r'|]; cbn in *; auto. }
  pose proof (sc_core exp64 e 400 ltac:(lia) p ts ts' mi mi' ma ma' re re' al al' sel wgt Hp HT Hl Ho (opt_sc _ _ _ Hmi) (opt_sc _ _ _ Hma) Hre' (opt_sc _ _ _ Hal)) as K.
  destruct (acf_core (A := BN) p ts mi ma re al sel wgt) as [[g Fs]|x|u|], (acf_core (A := BN) p ts' mi' ma' re' al' sel wgt) as [[g' Fs']|x'|u'|];
    cbn [bind same_outcome fst snd] in *; auto. destruct K as [K1 K2]. split.
  - eapply Forall2_weaken; [|exact K1]. intros x y. apply sc_pow2.
  - f_equal. apply map_ext. intros row. symmetry. clear - K2. induction K2 as [|F F' Fs Fs' HF K2 IH]; [reflexivity|]. cbn [map]. rewrite (HF row), IH. reflexivity.
Qed.

Lemma pow2_median_lemma (e : Z) (d d' : @dstruct BN) :
  accepted d -> accepted d' -> Forall2 (times_pow2 e) (timeseries d) (timeseries d') ->
  (forall t : b64, In t (timeseries d) -> moderate 400 t) -> (forall t : b64, In t (timeseries d') -> moderate 400 t) ->
  Forall2 (times_pow2 e) (normalised_timeseries d) (normalised_timeseries d') /\ times_pow2 e (median_time d) (median_time d').
Proof.
  intros Ha Ha' Ht Hm Hm'. pose proof (moderate_all e 400 _ _ ltac:(lia) Ht Hm Hm') as HT.
  destruct (accepted_values d Ha) as [ts [data [er [N [-> _]]]]]. destruct (accepted_values d' Ha') as [ts' [data' [er' [N' [-> _]]]]].
  change (timeseries (the_ds ts data er N)) with ts in *. change (timeseries (the_ds ts' data' er' N')) with ts' in *.
  pose proof (sc_rel_times exp64 e 400 ltac:(lia) ts ts' HT) as HR. split.
  - eapply Forall2_weaken; [|exact HR]. intros x y. apply sc_pow2.
  - exact (sc_pow2 _ _ _ _ _ (sc_middle exp64 e 400 ltac:(lia) _ _ HR)).
Qed.
End Pow2.
