(** Theorems: iterators used from Python (C54 - C56). *)
From Coq Require Import String.
From Coq Require Import ZArith Reals List Bool Arith Lia Lra.
From Flocq Require Import Core BinarySingleNaN.
From Verif Require Import Num Mem MemFacts XR B64 Spec SpecR DataStructure Correlator Sacf Api Examples
  Laws B64Facts Laws2 DSFacts MainFacts StateFacts ItFacts ItThms Props01_Construction Props02_Lags.
Import ListNotations.
Local Open Scope list_scope.

(** ** C54: an iterator in any order of calls *)
(** no sequence of operations on an iterator with a place for each dataset writes outside a vector or hangs, even
    after exceptions and with different correlators; the only exception is IndexError *)
Theorem C54_any_history {A : Num} (p : platform) (kk : num) (n : nat) (os : list (correlator * it_op)) (it : cor_it)
  (c : correlator) (o : it_op) :
  it_after p (CorrelationIterator kk n) os it -> (forall c' o', In (c', o') (os ++ [(c, o)]) -> N_datasets (ds c') <= n) ->
  length (correlation it) = n /\ length (correlation (fst (run_it_op p c it o))) = n /\
  let r := snd (run_it_op p c it o) in r <> UB OobWrite /\ r <> Diverge /\ (forall e, r = Throw e -> e = OutOfRange).
Proof. intros H1 H2. exact (it_history p n kk os it c o H1 H2). Qed.
Print Assumptions C54_any_history.

(** an IndexError of the fast selection is caught, then natural selection is used on the same iterator *)
Lemma it_after_step {A : Num} p it os it1 c o : it_after p it os it1 ->
  (snd (run_it_op p c it1 o) = Ok tt \/ exists e, snd (run_it_op p c it1 o) = Throw e) -> it_after p it (os ++ [(c, o)]) (fst (run_it_op p c it1 o)).
Proof. intros H1 H2. apply (it_after_snoc p it os it1 c o _ (snd (run_it_op p c it1 o)) H1); [apply surjective_pairing|exact H2]. Qed.

Example C54_case : exists it, it_after gcc (CorrelationIterator (fl 4) 1) [(example_c, FastSelection); (example_c, NaturalSelection)] it /\
    selection it = [2; 2; 2; 2; 3].
Proof.
  exists (fst (run_it_op gcc example_c (fst (run_it_op gcc example_c (CorrelationIterator (fl 4) 1) FastSelection)) NaturalSelection)). split.
  - apply (it_after_step gcc _ [(example_c, FastSelection)]).
    + apply (it_after_step gcc _ []); [constructor|]. right. exists OutOfRange. vm_compute. reflexivity.
    + left. vm_compute. reflexivity.
  - vm_compute. reflexivity.
Qed.

(** what went before counts: a second use with the same lag reads outside a vector ... *)
Theorem C54_reuse {A : Num} (p : platform) (d : dstruct) (c0 : correlator) (os : list op) (c : correlator) (kk : num) (n : nat) (o : it_op) (it : cor_it) :
  accepted d -> new_Correlator d = Ok c0 -> after p c0 os c -> N_datasets d <= n -> is_weights o ->
  run_it p c (CorrelationIterator kk n) [NaturalSelection; DeltaT; o; FindCorrelation] = (it, Ok tt) -> selection it <> [] ->
  snd (run_it p c it [NaturalSelection; DeltaT]) = UB OobRead.
Proof.
  intros Ha Hn Hh HN Ho E Hne. destruct (new_base d c0 Ha Hn) as [H0 H1].
  destruct (proj1 (after_inv p c0 os c H0 Hh)) as [Hd _]. rewrite H1 in Hd. destruct H0 as [[[K1 [K2 _]] _] _]. rewrite H1 in K1, K2.
  apply (reuse p c kk n o it Ho); [rewrite Hd; exact HN|rewrite Hd, K2; exact K1|exact E|exact Hne].
Qed.
Print Assumptions C54_reuse.

(** ... and so does one with another lag at which anything is selected *)
Theorem C54_reuse_other {A : Num} (p : platform) (d : dstruct) (c0 : correlator) (os : list op) (c : correlator) (kk kk' : num) (n : nat) (o : it_op)
  (it it' : cor_it) :
  accepted d -> new_Correlator d = Ok c0 -> after p c0 os c -> N_datasets d <= n -> is_weights o -> p_abs p = AbsFloat ->
  run_it p c (CorrelationIterator kk n) [NaturalSelection; DeltaT; o; FindCorrelation] = (it, Ok tt) -> selection it <> [] ->
  run_it p c it [SetK kk'; NaturalSelection] = (it', Ok tt) -> length (selection it) < length (selection it') ->
  snd (run_it_op p c it' DeltaT) = UB OobRead.
Proof.
  intros Ha Hn Hh HN Ho Hp E Hne E' Hlt. destruct (new_base d c0 Ha Hn) as [H0 H1].
  destruct (proj1 (after_inv p c0 os c H0 Hh)) as [Hd _]. rewrite H1 in Hd. destruct H0 as [[[K1 [K2 _]] _] _]. rewrite H1 in K1, K2.
  rewrite (reuse_other p c kk kk' n o it it' Hp Ho); try assumption; [reflexivity|rewrite Hd; exact HN|rewrite Hd, K2; exact K1].
Qed.
Print Assumptions C54_reuse_other.

(** offsets taken twice: findCorrelation fails *)
Theorem C54_offsets_twice {A : Num} (p : platform) (d : dstruct) (c0 : correlator) (os : list op) (c : correlator) (kk : num) (n : nat) (o : it_op) (it : cor_it) :
  accepted d -> new_Correlator d = Ok c0 -> after p c0 os c -> N_datasets d <= n -> is_weights o ->
  run_it p c (CorrelationIterator kk n) [NaturalSelection; DeltaT] = (it, Ok tt) -> selection it <> [] ->
  let r := snd (run_it p c it [DeltaT; o; FindCorrelation]) in r = UB OobRead \/ r = Throw OutOfRange.
Proof.
  intros Ha Hn Hh HN Ho E Hne. destruct (new_base d c0 Ha Hn) as [H0 H1].
  destruct (proj1 (after_inv p c0 os c H0 Hh)) as [Hd _]. rewrite H1 in Hd. destruct H0 as [[[K1 [K2 _]] _] K3]. rewrite H1 in K1, K2, K3.
  apply (twice p c kk n o it Ho); [rewrite Hd; exact HN|rewrite Hd, K2; exact K1|rewrite Hd; exact K3|exact E|exact Hne].
Qed.
Print Assumptions C54_offsets_twice.

(** weights asked for twice: the second time nothing happens *)
Theorem C54_weights_twice {A : Num} (p : platform) (c : correlator) (it : cor_it) (o o' : it_op) : is_weights o -> is_weights o' ->
  snd (run_it p c it [o; o']) = Ok tt /\
  let a := fst (run_it_op p c it o) in let b := fst (run_it p c it [o; o']) in
  vlive (weights b) = vlive (weights a) /\ offsets b = [] /\ selection b = selection a /\ correlation b = correlation a.
Proof. exact (weights_twice p c it o o'). Qed.
Print Assumptions C54_weights_twice.

Example C54_reuse_case : snd (run_it gcc example_c (CorrelationIterator (fl 3) 1) [NaturalSelection; DeltaT; GaussianWeights; FindCorrelation]) = Ok tt /\
  selection (fst (run_it gcc example_c (CorrelationIterator (fl 3) 1) [NaturalSelection; DeltaT; GaussianWeights; FindCorrelation])) = [2; 2; 3] /\
  (let it := fst (run_it clang example_c (CorrelationIterator (fl 3) 1) [NaturalSelection; DeltaT; GaussianWeights; FindCorrelation]) in
   snd (run_it clang example_c it [SetK (fl 4); NaturalSelection]) = Ok tt /\
   length (selection (fst (run_it clang example_c it [SetK (fl 4); NaturalSelection]))) = 6) /\
  snd (run_it gcc example_c (CorrelationIterator (fl 3) 1) [NaturalSelection; DeltaT; DeltaT; GaussianWeights; FindCorrelation]) = UB OobRead /\
  snd (run_it gcc example_c (CorrelationIterator (fl 0) 1) [NaturalSelection; DeltaT; DeltaT; GaussianWeights; FindCorrelation]) = Throw OutOfRange.
Proof. vm_compute. repeat split. Qed.

(** an IndexError leaves its traces: natural selection on the iterator finds too many points *)
Theorem C54_after_exception {A : Num} (p : platform) (d : dstruct) (kk : num) (n : nat) (it it' : cor_it) (e : exn) :
  accepted d -> fastSelectionFunctionIdx p d (CorrelationIterator kk n) = (it, Throw e) -> naturalSelectionFunctionIdx p d it = (it', Ok tt) ->
  exists it1 l, naturalSelectionFunctionIdx p d (CorrelationIterator kk n) = (it1, Ok tt) /\ l <> [] /\ selection it' = l ++ selection it1.
Proof.
  intros Ha E1 E2. apply (after_exception p d kk n it e it'); try assumption.
  destruct (accepted_setUp d Ha) as [ts [data [er [N [-> [H1 _]]]]]]. cbn [norm_t the_ds]. apply rel_times_nil. exact H1.
Qed.
Print Assumptions C54_after_exception.

(** ** C55: the size given to CorrelationIterator(k, size) *)
Theorem C55_whole {A : Num} (HA : arith A) (kk x : num) (z : Z) : (0 <= z <= INT_MAX)%Z -> neqb x (nofZ z) = true ->
  new_CorrelationIterator kk x = Ok (CorrelationIterator kk (Z.to_nat z)).
Proof. exact (@ctor_whole A (arith_laws A HA) (arith_laws2 A HA) kk x z). Qed.
Print Assumptions C55_whole.

(** a size that is not a whole number makes the constructor write one element too many *)
Theorem C55_fraction {A : Num} (HA : arith A) (kk x : num) : nlt nzero x = true -> nle x (nofZ INT_MAX) = true ->
  (forall z, (0 < z <= INT_MAX)%Z -> neqb x (nofZ z) = false) -> new_CorrelationIterator kk x = UB OobWrite.
Proof. exact (@ctor_fraction A (arith_laws A HA) (arith_laws2 A HA) HA kk x). Qed.
Print Assumptions C55_fraction.

(** sizes from above -1 to 0 make an iterator without places *)
Theorem C55_none {A : Num} (HA : arith A) (kk x : num) : nlt (nofZ (-1)) x = true -> nle x nzero = true ->
  new_CorrelationIterator kk x = Ok (CorrelationIterator kk 0).
Proof. exact (@ctor_empty A (arith_laws A HA) (arith_laws2 A HA) HA kk x). Qed.
Print Assumptions C55_none.

(** no size at all: the conversion is undefined *)
Theorem C55_undefined {A : Num} (HA : arith A) (kk x : num) : nle x (nofZ (-1)) = true \/ ~ finite x ->
  new_CorrelationIterator kk x = UB BadConversion.
Proof.
  intros H. apply (@ctor_rejected A (arith_laws2 A HA)). destruct H as [H|H]; [left; exact H|right].
  destruct (nfin x) eqn:E; [|reflexivity]. apply finite_nfin in E. contradiction.
Qed.
Print Assumptions C55_undefined.

(** too large: std::length_error from 2^60 to 2^64, otherwise undefined (overflow of the counter, or of the conversion) *)
Theorem C55_large {A : Num} (HA : arith A) (kk x : num) (z : Z) : ntrunc x = Some z -> (INT_MAX < z)%Z ->
  new_CorrelationIterator kk x = if ((2 ^ 60 <=? z) && (z <? 2 ^ 64))%Z then Throw LengthError else UB BadConversion.
Proof. exact (@ctor_large A (arith_laws A HA) (arith_laws2 A HA) kk x z). Qed.
Print Assumptions C55_large.

(** 2.5 *)
Example C55_case : nlt nzero (half 5) = true /\ nle (half 5) (nofZ INT_MAX) = true /\
  (forall z, (0 < z <= INT_MAX)%Z -> neqb (half 5) (nofZ z) = false) /\
  neqb (fl 2) (nofZ 2) = true /\ nlt (nofZ (-1)) (half (-1)) = true /\ nle (half (-1)) nzero = true /\
  ntrunc (nofZ (2 ^ 61) : @num BB) = Some (2 ^ 61)%Z /\ nle (half (-5)) (nofZ (-1)) = true.
Proof.
  assert (E : toE (half 5 : b64) = Fin (5 / 2)).
  { replace (half 5) with (@B754_finite 53 1024 false 5629499534213120 (-51) eq_refl) by (apply B2SF_inj; vm_compute; reflexivity).
    rewrite toE_finite by reflexivity. unfold B2R, F2R. cbn [Fnum Fexp cond_Zopp]. change (bpow radix2 (-51)) with (/ 2251799813685248)%R. f_equal. lra. }
  split; [vm_compute; reflexivity|]. split; [vm_compute; reflexivity|]. split.
  { intros z Hz. cbn [neqb nofZ BB B64]. rewrite Beqb_toE, E, toE_ofZ_small by (unfold INT_MAX in Hz; lia).
    cbn [xeqb]. apply Reqb_false. intros X.
    assert (H : (IZR 5 = IZR (2 * z))%R) by (rewrite mult_IZR; lra). apply eq_IZR in H. lia. }
  split; [vm_compute; reflexivity|]. split; [vm_compute; reflexivity|]. split; [vm_compute; reflexivity|].
  split; vm_compute; reflexivity.
Qed.

(** ** C56: the steps of a call by hand *)
(** a value returned by autocorrelation() is what selection, deltaT, weights and findCorrelation leave in a fresh
    iterator at that lag; [c] is the correlator that autocorrelation() returned *)
Theorem C56_by_hand {A : Num} (p : platform) (d : dstruct) (mi ma re al : option num) (sel wgt : string)
  (lags : list num) (corr : py_corr) (c : correlator) (i : nat) (kk : num) :
  accepted d -> autocorrelation p d mi ma re al sel wgt = Ok (lags, corr, c) -> nth_error lags i = Some kk ->
  exists o o' it, selection_op sel = Some o /\ weights_op wgt = Some o' /\
    run_it p c (CorrelationIterator kk (N_datasets d)) [o; DeltaT; o'; FindCorrelation] = (it, Ok tt) /\
    length (correlation it) = N_datasets d /\ (forall j, corr_at corr j i = nth_error (correlation it) j).
Proof. exact (by_hand p d mi ma re al sel wgt lags corr c i kk). Qed.
Print Assumptions C56_by_hand.

(** -15/28 at lag 3 (see C47), from the call and by hand *)
Example C56_case : ok_with (autocorrelation clang example_ds (Some (fl 3)) (Some (fl 3)) (Some (fl 1)) (Some (fl 1)) "natural" "fractional")
  (fun r => sames (fst (fst r)) (ints [0; 3]%Z) &&
     match run_it clang (snd r) (CorrelationIterator (fl 3) 1) [NaturalSelection; DeltaT; FractionWeights; FindCorrelation], corr_at (snd (fst r)) 0 1 with
     | (it, Ok _), Some v => sames (correlation it) [v] | _, _ => false end) = true.
Proof. vm_compute. reflexivity. Qed.
