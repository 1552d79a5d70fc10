(** Theorems: builds in which multiplications and additions are contracted (C96). *)
From Coq Require Import String.
From Coq Require Import ZArith Reals List Bool Arith Lia Lra.
From Flocq Require Import Core BinarySingleNaN.
From Verif Require Import Num Mem MemFacts XR B64 Spec SpecR DataStructure Correlator Sacf Api Examples B64Facts AccFacts Contract ContractThms LagNan
  Props01_Construction Props14_Accuracy.
Import ListNotations.
Local Open Scope list_scope.

(** ** C96: with nothing contracted it is the function of all other theorems *)
Theorem C96_nothing_contracted {A : Num} (p : platform) (d : dstruct) (mi ma re al : option num) (sel wgt : string) :
  let plain := fun x y z => nadd z (nmul x y) in
  autocorrelation_k {| ma_norm := plain; ma_square := plain; ma_sum := plain |} p d mi ma re al sel wgt =
  autocorrelation p d mi ma re al sel wgt.
Proof. exact (contract_none p d mi ma re al sel wgt). Qed.
Print Assumptions C96_nothing_contracted.

(** ** C96: however x*y+z is computed in the three places, the lags, the number of values, exceptions and undefined behaviour are the same *)
Theorem C96_same_outcome {A : Num} (K : contraction) (p : platform) (d : dstruct) (mi ma re al : option num) (sel wgt : string) :
  accepted d ->
  same_outcome same_form (visible (autocorrelation_k K p d mi ma re al sel wgt)) (visible (autocorrelation p d mi ma re al sel wgt)).
Proof. exact (contract_outcome K p d mi ma re al sel wgt). Qed.
Print Assumptions C96_same_outcome.

(** ** C96: the accuracy of C63 holds for every choice of the places with a fused operation *)
Theorem C96_accuracy (exp64 : b64 -> b64) (norm square sum : bool) (p : platform) (d : @dstruct (B64 exp64)) (mi ma re al : option b64) (sel wgt : string)
  (lags : list b64) (corr : @py_corr (B64 exp64)) (c : @correlator (B64 exp64)) (rows : list (list b64)) (j i : nat) (row : list b64) (kk v : b64) :
  let K := contractions exp64 norm square sum in
  accepted d -> autocorrelation_k (A := B64 exp64) K p d mi ma re al sel wgt = Ok (lags, corr, c) ->
  data_2d d = Ok rows -> nth_error rows j = Some row -> nth_error lags i = Some kk -> corr_at corr j i = Some v ->
  let m := B2R (mean (A := B64 exp64) row : b64) in
  let N := rsum (map (fun x : b64 => ((f32R (B2R x) - m) * (f32R (B2R x) - m))%R) (valid (A := B64 exp64) row)) in
  (Z.of_nat (length row) <= 2 ^ 50)%Z ->
  (forall x : b64, In x row -> is_nan x = true \/ is_finite x = true /\ (Rabs (B2R x) <= bpow radix2 100)%R) ->
  (bpow radix2 (-750) <= N)%R -> is_finite v = true ->
  exists f w it it',
    selection_function (A := B64 exp64) p sel d = Some f /\ weight_function_k (A := B64 exp64) K wgt = Some w /\
    f (CorrelationIterator (A := B64 exp64) kk (length rows)) = (it, Ok tt) /\ deltaT (A := B64 exp64) p d it = (it', Ok tt) /\
    length (selection it) <= length row /\
    let a := opt_or (A := B64 exp64) al (median_time d) in
    let x := fun q => (B2R (nth q row (b64_ofZ 0)) - m)%R in
    let term := fun q => (B2R (w a (nth q (offsets it') (b64_ofZ 0)) : b64) * x q * x (nth q (selection it) 0%nat))%R in
    let V := rsum (map term (seq 0 (length (selection it)))) in
    let T := rsum (map (fun q => Rabs (term q)) (seq 0 (length (selection it)))) in
    (Rabs (B2R v - V / N) <= 2 * INR (length (selection it) + length (valid (A := B64 exp64) row) + 10) * bpow radix2 (-53) * (T / N) + bpow radix2 (-110))%R.
Proof. exact (call_acc_k exp64 norm square sum p d mi ma re al sel wgt lags corr c rows j i row kk v). Qed.
Print Assumptions C96_accuracy.

(** ** C96: so does the accuracy of the squared fractional weight (C21) *)
Theorem C96_squared_weight (exp64 : b64 -> b64) (norm square sum : bool) (w : b64 -> b64 -> b64) (al d : b64) :
  weight_function_k (A := B64 exp64) (contractions exp64 norm square sum) "fractional_squared" = Some w ->
  is_finite al = true -> is_finite d = true -> (0 < B2R al)%R -> (0 <= B2R d)%R ->
  is_finite (w al d) = true /\ (0 <= B2R (w al d) <= 1)%R /\
  (Rabs (B2R (w al d) - / (1 + (B2R d / B2R al) * (B2R d / B2R al))) <= 7 * bpow radix2 (-53))%R.
Proof.
  intros E Fa Fd Pa Pd. injection E as <-. destruct (ksq_acc exp64 norm square sum al d Fa Fd Pa Pd) as [H1 H2]. split; [exact H1|]. split; [|exact H2].
  apply ksq_unit; try assumption. rewrite Bleb_correct by (assumption || reflexivity). apply Rle_bool_true. exact Pd.
Qed.
Print Assumptions C96_squared_weight.

(** ** C96: two builds return finite values that differ by rounding only *)
Theorem C96_builds (exp64 : b64 -> b64) (norm square sum norm' square' sum' : bool) (p : platform) (d : @dstruct (B64 exp64)) (mi ma re al : option b64) (sel wgt : string)
  (lags lags' : list b64) (corr corr' : @py_corr (B64 exp64)) (c c' : @correlator (B64 exp64)) (rows : list (list b64)) (j i : nat) (row : list b64) (kk : b64) :
  accepted d ->
  autocorrelation_k (A := B64 exp64) (contractions exp64 norm square sum) p d mi ma re al sel wgt = Ok (lags, corr, c) ->
  autocorrelation_k (A := B64 exp64) (contractions exp64 norm' square' sum') p d mi ma re al sel wgt = Ok (lags', corr', c') ->
  data_2d d = Ok rows -> nth_error rows j = Some row -> nth_error lags i = Some kk ->
  (forall x, In x (normalised_timeseries d) -> finite (A := B64 exp64) x) ->
  let a := opt_or (A := B64 exp64) al (median_time d) in
  proper_alpha (A := B64 exp64) wgt a ->
  finite (A := B64 exp64) (if String.eqb wgt "gaussian" then nmul (Num := B64 exp64) (nmul (Num := B64 exp64) (b64_ofZ 2) a) a else a) ->
  (Z.of_nat (length row) <= 2 ^ 50)%Z ->
  (forall x : b64, In x row -> is_finite x = true /\ (Rabs (B2R x) <= bpow radix2 100)%R) ->
  let m := B2R (mean (A := B64 exp64) row : b64) in
  let N := rsum (map (fun x : b64 => ((f32R (B2R x) - m) * (f32R (B2R x) - m))%R) (valid (A := B64 exp64) row)) in
  (bpow radix2 (-750) <= N)%R ->
  exists (v v' : b64) f it,
    corr_at corr j i = Some v /\ corr_at corr' j i = Some v' /\ is_finite v = true /\ is_finite v' = true /\
    selection_function (A := B64 exp64) p sel d = Some f /\ f (CorrelationIterator (A := B64 exp64) kk (length rows)) = (it, Ok tt) /\
    let x := fun q => (B2R (nth q row (b64_ofZ 0)) - m)%R in
    let T := rsum (map (fun q => Rabs (x q * x (nth q (selection it) 0%nat))) (seq 0 (length (selection it)))) in
    (Rabs (B2R v - B2R v') <= 4 * INR (length (selection it) + length (valid (A := B64 exp64) row) + 17) * bpow radix2 (-53) * (T / N) + bpow radix2 (-109))%R.
Proof.
  intros Ha E E' Hd Hj Hi. exact (builds_differ exp64 norm square sum norm' square' sum' p d mi ma re al sel wgt lags corr c lags' corr' c' rows j i row kk Ha E E' Hd Hj Hi
    (lag_not_nan_k _ (arith_binary64 exp64) _ p d mi ma re al sel wgt lags corr c i kk Ha E Hi)).
Qed.
Print Assumptions C96_builds.

(** ** C96: the last bits do depend on the build, in each of the three places *)
Definition differs (K : @contraction BB) (d : @dstruct BB) (wgt : string) : Prop :=
  exists lags corr c corr' c' j i v v',
    autocorrelation_k (A := BB) K clang d None None None None "natural" wgt = Ok (lags, corr, c) /\
    autocorrelation (A := BB) clang d None None None None "natural" wgt = Ok (lags, corr', c') /\
    corr_at corr j i = Some v /\ corr_at corr' j i = Some v' /\ v <> v'.

Lemma differs_ok K d wgt i :
  (match autocorrelation_k (A := BB) K clang d None None None None "natural" wgt with
   | Ok (lags, corr, _) => match autocorrelation (A := BB) clang d None None None None "natural" wgt with
       | Ok (lags', corr', _) => sames lags lags' && match corr_at corr 0 i, corr_at corr' 0 i with
           | Some v, Some v' => negb (Beqb (v : b64) (v' : b64)) && is_finite (v : b64) | _, _ => false end
       | _ => false end
   | _ => false end = true) -> differs K d wgt.
Proof.
  intros H. unfold differs. destruct (autocorrelation_k K clang d None None None None "natural" wgt) as [[[lags corr] c]|e|u|]; try discriminate.
  destruct (autocorrelation clang d None None None None "natural" wgt) as [[[lags' corr'] c']|e|u|]; try discriminate.
  apply andb_prop in H. destruct H as [H1 H2]. apply sames_eq in H1. subst lags'.
  destruct (corr_at corr 0 i) as [v|] eqn:E1; [|discriminate]. destruct (corr_at corr' 0 i) as [v'|] eqn:E2; [|discriminate].
  exists lags, corr, c, corr', c', 0, i, v, v'. do 4 (split; [reflexivity || assumption|]). intros <-. apply andb_prop in H2. destruct H2 as [H2 H3].
  rewrite Beqb_correct in H2 by exact H3. rewrite Req_bool_true in H2 by reflexivity. discriminate.
Qed.

Definition small_ds (ts vs : list Z) : @dstruct BB := match SACF_1d (ints ts) (ints vs) None with Ok d => d | _ => example_ds end.

Lemma small_ds_accepted ts vs : ok_with (SACF_1d (ints ts) (ints vs) None) (fun _ => true) = true -> accepted (small_ds ts vs).
Proof.
  intros H. destruct (ok_with_ok _ _ H) as [d [E _]]. left. exists (ints ts), (ints vs), None. unfold small_ds. rewrite E. reflexivity.
Qed.

Theorem C96_bits_depend_on_build :
  (exists d, accepted d /\ differs (contractions (fun x => x) true false false) d "fractional" /\ differs (contractions (fun x => x) false false true) d "fractional") /\
  (exists d, accepted d /\ differs (contractions (fun x => x) false true false) d "fractional_squared").
Proof.
  split.
  - exists (small_ds [0; 1; 2]%Z [1; 2; 4]%Z). split; [apply small_ds_accepted; vm_compute; reflexivity|]. split; apply (differs_ok _ _ _ 0); vm_compute; reflexivity.
  - exists (small_ds [0; 4; 7; 40]%Z [1; 2; 4; -3]%Z). split; [apply small_ds_accepted; vm_compute; reflexivity|].
    apply (differs_ok _ _ _ 1); vm_compute; reflexivity.
Qed.
Print Assumptions C96_bits_depend_on_build.

(** the dataset of C63_case with everything contracted; see C63_case and C65_case for the other hypotheses *)
Example C96_case :
  accepted example_ds /\
  exists lags corr c lags' corr' c' v v',
    autocorrelation_k (A := BB) (contractions (fun x => x) true true true) clang example_ds (Some (fl 3)) (Some (fl 3)) (Some (fl 1)) (Some (fl 1)) "natural" "fractional_squared" = Ok (lags, corr, c) /\
    autocorrelation_k (A := BB) (contractions (fun x => x) false false false) clang example_ds (Some (fl 3)) (Some (fl 3)) (Some (fl 1)) (Some (fl 1)) "natural" "fractional_squared" = Ok (lags', corr', c') /\
    nth_error lags 1 = Some (fl 3) /\ corr_at corr 0 1 = Some v /\ corr_at corr' 0 1 = Some v' /\ is_finite (v : b64) = true /\
    proper_alpha (A := BB) "fractional_squared" (fl 1).
Proof.
  split; [exact (proj1 (proj2 C06_case))|].
  set (Ka := contractions (fun x => x) true true true). set (Kb := contractions (fun x => x) false false false).
  destruct (ok_with_ok (autocorrelation_k (A := BB) Ka clang example_ds (Some (fl 3)) (Some (fl 3)) (Some (fl 1)) (Some (fl 1)) "natural" "fractional_squared")
    (fun r => sames (fst (fst r)) (ints [0; 3]%Z) && match corr_at (snd (fst r)) 0 1 with Some v => is_finite (v : b64) | None => false end)) as [[[l r] c] [E H]];
    [vm_compute; reflexivity|]. cbn [fst snd] in H. apply andb_prop in H. destruct H as [H1 H2]. apply sames_eq in H1.
  destruct (ok_with_ok (autocorrelation_k (A := BB) Kb clang example_ds (Some (fl 3)) (Some (fl 3)) (Some (fl 1)) (Some (fl 1)) "natural" "fractional_squared")
    (fun r => match corr_at (snd (fst r)) 0 1 with Some v => is_finite (v : b64) | None => false end)) as [[[l' r'] c'] [E' H']];
    [vm_compute; reflexivity|]. cbn [fst snd] in H'.
  destruct (corr_at r 0 1) as [v|] eqn:Ev; [|discriminate H2]. destruct (corr_at r' 0 1) as [v'|] eqn:Ev'; [|discriminate H'].
  exists l, r, c, l', r', c', v, v'. split; [exact E|]. split; [exact E'|]. split; [rewrite H1; reflexivity|]. split; [exact Ev|]. split; [exact Ev'|]. split; [exact H2|].
  left. split; [right; reflexivity|vm_compute; reflexivity].
Qed.
