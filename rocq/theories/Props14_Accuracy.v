(** Theorems: weights in a call (C21), accuracy of the correlations (C63), finite results (C65) and accuracy of the mean (C64). *)
From Coq Require Import String.
From Coq Require Import ZArith Reals List Bool Arith Lia Lra.
From Flocq Require Import Core BinarySingleNaN.
From Verif Require Import Num Mem MemFacts XR B64 Spec SpecR DataStructure Correlator Sacf Api Examples B64Facts AccFacts OffFacts AccThms LagNan
  Props01_Construction.
Import ListNotations.
Local Open Scope list_scope.

(** ** C21: the weights that enter a correlation *)
Theorem C21_weights_in_call {A : Num} (HA : arith A) (p : platform) (d : dstruct) (sel wgt : string) (f : cor_it -> meth cor_it unit)
  (w : num -> num -> num) (a kk : num) (n : nat) (it it' : cor_it) :
  accepted d -> (forall x, In x (normalised_timeseries d) -> finite x) -> nisnan kk = false ->
  proper_alpha wgt a -> finite (if String.eqb wgt "gaussian" then nmul (nmul (nofZ 2) a) a else a) ->
  selection_function p sel d = Some f -> weight_function wgt = Some w ->
  f (CorrelationIterator kk n) = (it, Ok tt) -> deltaT p d it = (it', Ok tt) ->
  forall o, In o (offsets it') -> nle nzero o = true /\ nle nzero (w a o) = true /\ nle (w a o) none_ = true.
Proof. exact (weights_in_call A HA p d sel wgt f w a kk n it it'). Qed.
Print Assumptions C21_weights_in_call.

(** ** C63: the correlations are the exact ones up to rounding.

    [V] is the weighted sum over the pairs in real arithmetic, with the weights, the mean and the selection as computed; [T] is the sum of the
    magnitudes and [N] the normalisation in real arithmetic (values rounded to single precision, see C47). *)
Theorem C63_accuracy (exp64 : b64 -> b64) (p : platform) (d : @dstruct (B64 exp64)) (mi ma re al : option b64) (sel wgt : string)
  (lags : list b64) (corr : @py_corr (B64 exp64)) (c : @correlator (B64 exp64)) (rows : list (list b64)) (j i : nat) (row : list b64) (kk v : b64) :
  accepted d -> autocorrelation (A := B64 exp64) p d mi ma re al sel wgt = Ok (lags, corr, c) ->
  data_2d d = Ok rows -> nth_error rows j = Some row -> nth_error lags i = Some kk -> corr_at corr j i = Some v ->
  let m := B2R (mean (A := B64 exp64) row : b64) in
  let N := rsum (map (fun x : b64 => ((f32R (B2R x) - m) * (f32R (B2R x) - m))%R) (valid (A := B64 exp64) row)) in
  (Z.of_nat (length row) <= 2 ^ 50)%Z ->
  (forall x : b64, In x row -> is_nan x = true \/ is_finite x = true /\ (Rabs (B2R x) <= bpow radix2 100)%R) ->
  (bpow radix2 (-750) <= N)%R -> is_finite v = true ->
  exists f w it it',
    selection_function (A := B64 exp64) p sel d = Some f /\ weight_function (A := B64 exp64) wgt = Some w /\
    f (CorrelationIterator (A := B64 exp64) kk (length rows)) = (it, Ok tt) /\ deltaT (A := B64 exp64) p d it = (it', Ok tt) /\
    length (selection it) <= length row /\
    let a := opt_or (A := B64 exp64) al (median_time d) in
    let x := fun q => (B2R (nth q row (b64_ofZ 0)) - m)%R in
    let term := fun q => (B2R (w a (nth q (offsets it') (b64_ofZ 0)) : b64) * x q * x (nth q (selection it) 0%nat))%R in
    let V := rsum (map term (seq 0 (length (selection it)))) in
    let T := rsum (map (fun q => Rabs (term q)) (seq 0 (length (selection it)))) in
    (Rabs (B2R v - V / N) <= 2 * INR (length (selection it) + length (valid (A := B64 exp64) row) + 10) * bpow radix2 (-53) * (T / N) + bpow radix2 (-110))%R.
Proof. exact (call_acc exp64 p d mi ma re al sel wgt lags corr c rows j i row kk v). Qed.
Print Assumptions C63_accuracy.

(** values 1, -1, 4, 0: mean 1 and N = 14 *)
Example C63_case :
  let row := ints [1; -1; 4; 0]%Z in
  data_2d example_ds = Ok [row] /\
  (exists lags corr c v, autocorrelation clang example_ds (Some (fl 3)) (Some (fl 3)) (Some (fl 1)) (Some (fl 1)) "natural" "fractional" = Ok (lags, corr, c) /\
     nth_error lags 1 = Some (fl 3) /\ corr_at corr 0 1 = Some v /\ is_finite v = true) /\
  (forall x : b64, In x row -> is_finite x = true /\ (Rabs (B2R x) <= bpow radix2 100)%R) /\
  rsum (map (fun x : b64 => ((f32R (B2R x) - B2R (mean (A := BB) row : b64)) * (f32R (B2R x) - B2R (mean (A := BB) row : b64)))%R) (valid (A := BB) row)) = 14%R /\
  (bpow radix2 (-750) <= 14)%R.
Proof.
  intros row. split; [|split; [|split; [|split]]].
  - destruct (ok_with_ok (data_2d example_ds) (sames2 [row])) as [r [E H]]; [vm_compute; reflexivity|]. rewrite E. f_equal. symmetry. exact (sames2_eq _ _ H).
  - destruct (ok_with_ok (autocorrelation clang example_ds (Some (fl 3)) (Some (fl 3)) (Some (fl 1)) (Some (fl 1)) "natural" "fractional")
      (fun r => sames (fst (fst r)) (ints [0; 3]%Z) && match corr_at (snd (fst r)) 0 1 with Some v => is_finite (v : b64) | None => false end)) as [[[l r] c] [E H]];
      [vm_compute; reflexivity|]. cbn [fst snd] in H. apply andb_prop in H. destruct H as [H1 H2]. apply sames_eq in H1.
    destruct (corr_at r 0 1) as [v|] eqn:Ev; [|discriminate]. exists l, r, c, v. split; [exact E|]. split; [rewrite H1; reflexivity|]. split; [exact Ev|exact H2].
  - intros x Hx. assert (G : forall z, (Z.abs z <= 4)%Z -> is_finite (b64_ofZ z) = true /\ (Rabs (B2R (b64_ofZ z)) <= bpow radix2 100)%R).
    { intros z Hz. destruct (E_fin _ _ (toE_ofZ_small z ltac:(lia))) as [F ->]. split; [exact F|]. rewrite <- abs_IZR.
      change (bpow radix2 100) with (IZR (2 ^ 100)). apply IZR_le. lia. }
    unfold row, ints in Hx. apply in_map_iff in Hx. destruct Hx as [z [<- Hz]]. apply G. repeat (destruct Hz as [<-|Hz]; [cbn; lia|]). destruct Hz.
  - replace (mean (A := BB) row : b64) with (b64_ofZ 1) by (apply B2SF_inj; vm_compute; reflexivity).
    change (valid (A := BB) row) with row. unfold row, ints. rewrite map_map. cbn [map].
    assert (G : forall z, (Z.abs z <= 4)%Z -> B2R (b64_ofZ z) = IZR z) by (intros z Hz; apply (E_fin _ _ (toE_ofZ_small z ltac:(lia)))).
    rewrite !G by (cbn; lia). rewrite !f32R_IZR by (cbn; lia). unfold rsum. cbn [fold_right]. lra.
  - apply Rle_trans with 1%R; [|lra]. change 1%R with (bpow radix2 0). apply bpow_le. lia.
Qed.

(** ** C65: values of moderate size, none missing, give finite correlations *)
Theorem C65_finite (exp64 : b64 -> b64) (p : platform) (d : @dstruct (B64 exp64)) (mi ma re al : option b64) (sel wgt : string)
  (lags : list b64) (corr : @py_corr (B64 exp64)) (c : @correlator (B64 exp64)) (rows : list (list b64)) (j i : nat) (row : list b64) (kk : b64) :
  accepted d -> autocorrelation (A := B64 exp64) p d mi ma re al sel wgt = Ok (lags, corr, c) ->
  data_2d d = Ok rows -> nth_error rows j = Some row -> nth_error lags i = Some kk ->
  (forall x, In x (normalised_timeseries d) -> finite (A := B64 exp64) x) ->
  let a := opt_or (A := B64 exp64) al (median_time d) in
  proper_alpha (A := B64 exp64) wgt a ->
  finite (A := B64 exp64) (if String.eqb wgt "gaussian" then nmul (Num := B64 exp64) (nmul (Num := B64 exp64) (b64_ofZ 2) a) a else a) ->
  (Z.of_nat (length row) <= 2 ^ 50)%Z ->
  (forall x : b64, In x row -> is_finite x = true /\ (Rabs (B2R x) <= bpow radix2 100)%R) ->
  let m := B2R (mean (A := B64 exp64) row : b64) in
  (bpow radix2 (-750) <= rsum (map (fun x : b64 => ((f32R (B2R x) - m) * (f32R (B2R x) - m))%R) (valid (A := B64 exp64) row)))%R ->
  exists v : b64, corr_at corr j i = Some v /\ is_finite v = true.
Proof.
  intros Ha E Hd Hj Hi. exact (call_fin exp64 p d mi ma re al sel wgt lags corr c rows j i row kk Ha E Hd Hj Hi (lag_not_nan _ (arith_binary64 exp64) p d mi ma re al sel wgt lags corr c i kk Ha E Hi)).
Qed.
Print Assumptions C65_finite.

(** the dataset of C63_case with alpha = 1; and a constant dataset, for which the normalisation is 0 and the values are not finite *)
Example C65_case :
  proper_alpha (A := BB) "fractional" (fl 1) /\ (forall x, In x (normalised_timeseries example_ds) -> finite x) /\ is_nan (fl 3 : b64) = false /\
  match (do d <- SACF_1d (ints [0; 1; 2]%Z) (ints [7; 7; 7]%Z) None; returned (autocorrelation clang d None None None None "natural" "fractional")) with
  | Ok (_, Flat l) => (length l =? 5) && forallb (fun x : b64 => negb (is_finite x)) l
  | _ => false
  end = true.
Proof.
  split; [left; split; [left; reflexivity|vm_compute; reflexivity]|].
  split; [apply all_finite_ok; vm_compute; reflexivity|]. split; vm_compute; reflexivity.
Qed.

(** ** C64: the mean *)
Theorem C64_mean_accuracy (exp64 : b64 -> b64) (d : @dstruct (B64 exp64)) (rows : list (list b64)) (j : nat) (row : list b64) (mj : b64) :
  accepted d -> data_2d d = Ok rows -> nth_error rows j = Some row -> nth_error (mean_data d) j = Some mj ->
  let vs := valid (A := B64 exp64) row in
  (Z.of_nat (length vs) <= 2 ^ 53)%Z -> is_finite mj = true ->
  0 < length vs /\
  (Rabs (B2R mj - rmean (map B2R vs)) <=
     ((1 + bpow radix2 (-53)) ^ (length vs + 1) - 1) * rmean (map (fun x => Rabs (B2R x)) vs) + bpow radix2 (-1075))%R.
Proof. exact (mean_accuracy exp64 d rows j row mj). Qed.
Print Assumptions C64_mean_accuracy.

Theorem C64_mean_finite (exp64 : b64 -> b64) (d : @dstruct (B64 exp64)) (rows : list (list b64)) (j : nat) (row : list b64) :
  accepted d -> data_2d d = Ok rows -> nth_error rows j = Some row ->
  let vs := valid (A := B64 exp64) row in
  0 < length vs -> (Z.of_nat (length vs) <= 2 ^ 50)%Z ->
  (forall x : b64, In x row -> is_nan x = true \/ is_finite x = true /\ (Rabs (B2R x) <= bpow radix2 100)%R) ->
  exists mj : b64, nth_error (mean_data d) j = Some mj /\ is_finite mj = true.
Proof. exact (mean_finite exp64 d rows j row). Qed.
Print Assumptions C64_mean_finite.

(** 1, missing, 0, 0: the mean 1/3 is not a double; two values of 1.5 * 2^1023: their sum is not finite *)
Example C64_case : exists d, SACF_1d (ints [0; 1; 2; 3]%Z) [fl 1; B754_nan; fl 0; fl 0] None = Ok d /\
  mean_data d = [ndiv (fl 1) (fl 3)] /\ neqb (nmul (fl 3) (ndiv (fl 1) (fl 3))) (fl 1) = true /\
  (let x := nmul (fl 3) (nofZ (2 ^ 1022)) in is_finite (x : b64) = true /\
   ok_with (SACF_1d (ints [0; 1]%Z) [x; x] None) (fun d => match mean_data d with [m] => negb (is_finite (m : b64)) | _ => false end) = true).
Proof.
  destruct (ok_with_ok (SACF_1d (ints [0; 1; 2; 3]%Z) [fl 1; B754_nan; fl 0; fl 0] None) (fun d => sames [ndiv (fl 1) (fl 3)] (mean_data d))) as [d [E H]];
    [vm_compute; reflexivity|].
  exists d. split; [exact E|]. split; [symmetry; apply sames_eq; exact H|]. split; [vm_compute; reflexivity|]. split; vm_compute; reflexivity.
Qed.
