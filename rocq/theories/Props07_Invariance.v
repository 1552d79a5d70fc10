(** Theorems: invariance of the result under affine changes of the values and of the times (C29, C30). *)
From Coq Require Import String.
From Coq Require Import ZArith Reals List Bool Arith Lia Lra.
From Coq Require Import SpecFloat.
From Flocq Require Import Core BinarySingleNaN.
From Verif Require Import Num Mem MemFacts XR B64 Spec SpecR DataStructure Correlator Sacf Api Examples
  Laws B64Facts Laws2 ConstrFacts GridCall ValThms AffineFacts ScaleFacts Props01_Construction Props02_Lags.
Import ListNotations.
Local Open Scope list_scope.
Local Open Scope R_scope.

(** ** C29: affine changes of the values of one dataset; a cell may be missing *)
Theorem C29_affine (p : platform) (d d' : @dstruct XR) (rows rows' : list (list xr)) (mi ma re al : option xr) (sel wgt : string)
  (j : nat) (row : list (option R)) (a b : R) :
  accepted d -> accepted d' -> timeseries d = timeseries d' -> data_2d d = Ok rows -> data_2d d' = Ok rows' ->
  nth_error rows j = Some (map cell row) -> nth_error rows' j = Some (map cell (map (option_map (fun v => a * v + b)) row)) ->
  a <> 0 -> Forall single (present row) -> Forall single (present (map (option_map (fun v => a * v + b)) row)) ->
  same_outcome (fun x y => fst x = fst y /\
      exists out, nth_error (rows_of (snd x)) j = Some out /\ nth_error (rows_of (snd y)) j = Some out)
    (visible (autocorrelation (A := XR) p d mi ma re al sel wgt)) (visible (autocorrelation (A := XR) p d' mi ma re al sel wgt)).
Proof. exact (affine_call p d d' rows rows' mi ma re al sel wgt j row a b). Qed.
Print Assumptions C29_affine.

(** values 1, 2, 4 and their images 2, -1, -7 *)
Example C29_case : exists d' : @dstruct XR, accepted exact_ds /\ accepted d' /\ timeseries exact_ds = timeseries d' /\
  data_2d exact_ds = Ok [map Fin [1; 2; 4]] /\ data_2d d' = Ok [map Fin [2; -1; -7]] /\
  nth_error [map Fin [1; 2; 4]] 0 = Some (map cell (map Some [1; 2; 4])) /\
  nth_error [map Fin [2; -1; -7]] 0 = Some (map cell (map (option_map (fun v => (-3) * v + 5)) (map Some [1; 2; 4]))) /\
  Forall single [1; 2; 4] /\ Forall single [2; -1; -7] /\
  exists lags corr c, autocorrelation (A := XR) gcc exact_ds None None None None "natural" "fractional" = Ok (lags, corr, c).
Proof.
  destruct exact_ds_ok as [Ha [Ht Hd]].
  destruct (one_dataset (A := XR) (map Fin (grid 0 1 3)) (map Fin [2; -1; -7]) None) as [_ [_ H]].
  destruct H as [d' [E [H1 [H2 _]]]]; [discriminate|discriminate|reflexivity|].
  exists d'. split; [exact Ha|]. split; [left; eauto|]. split; [rewrite Ht, H1; reflexivity|]. split; [exact Hd|]. split; [exact H2|].
  split; [reflexivity|]. split; [cbn; repeat f_equal; ring|].
  split; [repeat constructor; apply single_int; cbn; lia|]. split; [repeat constructor; apply single_int; cbn; lia|].
  destruct (exact_ds_call gcc "fractional") as [corr [c [Ec _]]]; [reflexivity|left; reflexivity|]. eauto.
Qed.

(** adding 2^24 to the values 1, 3, as doubles: the correlation at lag 0 drops from 1 to 1/4 *)
Theorem C29_any_values_refuted : exists d d' : @dstruct BB,
  SACF_1d (ints [0; 1]%Z) (ints [1; 3]%Z) None = Ok d /\
  SACF_1d (ints [0; 1]%Z) (map (fun x => nadd x (fl 16777216)) (ints [1; 3]%Z)) None = Ok d' /\
  ok_with (autocorrelation clang d None None None None "natural" "fractional") (fun x =>
    match corr_at (snd (fst x)) 0 1 with Some v => same v (fl 1) | _ => false end) = true /\
  ok_with (autocorrelation clang d' None None None None "natural" "fractional") (fun x =>
    match corr_at (snd (fst x)) 0 1 with Some v => same v (quarter 1) | _ => false end) = true.
Proof.
  assert (K : forall t v, ok_with (SACF_1d (A := BB) t v None) (fun _ => true) = true ->
    SACF_1d t v None = Ok (match SACF_1d t v None with Ok d => d | _ => example_ds end)).
  { intros t0 v H. destruct (ok_with_ok _ _ H) as [d [E _]]. rewrite E. reflexivity. }
  eexists _, _. split; [apply K; vm_compute; reflexivity|]. split; [apply K; vm_compute; reflexivity|].
  split; vm_compute; reflexivity.
Qed.
Print Assumptions C29_any_values_refuted.

(** ** C30: shifting the times *)
Theorem C30_shift (p : platform) (d d' : @dstruct XR) (rows : list (list xr)) (mi ma re al : option xr) (sel wgt : string)
  (ts : list R) (s : R) :
  accepted d -> accepted d' -> timeseries d = map Fin ts -> timeseries d' = map Fin (map (fun x => x + s) ts) ->
  data_2d d = Ok rows -> data_2d d' = Ok rows ->
  normalised_timeseries d' = normalised_timeseries d /\ median_time d' = median_time d /\
  visible (autocorrelation (A := XR) p d' mi ma re al sel wgt) = visible (autocorrelation (A := XR) p d mi ma re al sel wgt).
Proof. exact (shift_call p d d' rows mi ma re al sel wgt ts s). Qed.
Print Assumptions C30_shift.

(** ** C30: scaling the times together with all lag parameters *)
Theorem C30_scale (p : platform) (d d' : @dstruct XR) (rows : list (list xr)) (mi ma re al : option xr) (sel wgt : string)
  (ts : list R) (c : R) :
  0 < c -> p_abs p = AbsFloat ->
  accepted d -> accepted d' -> timeseries d = map Fin ts -> timeseries d' = map Fin (map (fun x => c * x) ts) ->
  data_2d d = Ok rows -> data_2d d' = Ok rows -> (2 <= length ts)%nat ->
  (forall x y, In x ts -> In y ts -> x - y < dbl_max /\ c * (x - y) < dbl_max) ->
  same_outcome (fun x y => fst y = map (xmul (Fin c)) (fst x) /\ snd y = snd x)
    (visible (autocorrelation (A := XR) p d mi ma re al sel wgt))
    (visible (autocorrelation (A := XR) p d' (option_map (xmul (Fin c)) mi) (option_map (xmul (Fin c)) ma)
                (option_map (xmul (Fin c)) re) (option_map (xmul (Fin c)) al) sel wgt)).
Proof. intros Hc Hp. exact (scale_call c Hc p Hp d d' rows mi ma re al sel wgt ts). Qed.
Print Assumptions C30_scale.

Lemma big_dbl_max x : x <= 1000 -> x < dbl_max.
Proof.
  intros H. unfold dbl_max. assert (bpow radix2 (-52) <= 1) by (change 1 with (bpow radix2 0); apply bpow_le; lia).
  assert (bpow radix2 10 <= bpow radix2 1023) by (apply bpow_le; lia). change (bpow radix2 10) with 1024 in H1. nra.
Qed.

Example C30_case : exists d' d'' : @dstruct XR, accepted exact_ds /\ accepted d' /\ accepted d'' /\
  timeseries exact_ds = map Fin (grid 0 1 3) /\ timeseries d' = map Fin (map (fun x => x + 7) (grid 0 1 3)) /\
  timeseries d'' = map Fin (map (fun x => 10 * x) (grid 0 1 3)) /\
  data_2d exact_ds = Ok [map Fin [1; 2; 4]] /\ data_2d d' = Ok [map Fin [1; 2; 4]] /\ data_2d d'' = Ok [map Fin [1; 2; 4]] /\
  (forall x y, In x (grid 0 1 3) -> In y (grid 0 1 3) -> x - y < dbl_max /\ 10 * (x - y) < dbl_max) /\
  exists lags corr c, autocorrelation (A := XR) clang exact_ds None None None None "natural" "gaussian" = Ok (lags, corr, c).
Proof.
  destruct exact_ds_ok as [Ha [Ht Hd]].
  destruct (one_dataset (A := XR) (map Fin (map (fun x => x + 7) (grid 0 1 3))) (map Fin [1; 2; 4]) None) as [_ [_ H]].
  destruct H as [d' [E [H1 [H2 _]]]]; [discriminate|discriminate|reflexivity|].
  destruct (one_dataset (A := XR) (map Fin (map (fun x => 10 * x) (grid 0 1 3))) (map Fin [1; 2; 4]) None) as [_ [_ H']].
  destruct H' as [d'' [E' [H1' [H2' _]]]]; [discriminate|discriminate|reflexivity|].
  exists d', d''. split; [exact Ha|]. split; [left; eauto|]. split; [left; eauto|]. split; [exact Ht|]. split; [exact H1|]. split; [exact H1'|].
  split; [exact Hd|]. split; [exact H2|]. split; [exact H2'|]. split.
  - assert (K : forall x, In x (grid 0 1 3) -> 0 <= x <= 2).
    { intros x Hx. cbn in Hx. destruct Hx as [<-|[<-|[<-|[]]]]; lra. }
    intros x y Hx Hy. apply K in Hx. apply K in Hy. split; apply big_dbl_max; lra.
  - destruct (exact_ds_call clang "gaussian") as [corr [c [Ec _]]]; [reflexivity|right; right; reflexivity|]. eauto.
Qed.

(** with the integer abs scaling by 2 (exact in binary64) changes correlations *)
Definition scaled_ds (z : Z) : res (@dstruct BB) :=
  SACF_1d (map (fun x => nmul (fl z) x) [fl 0; fl 1; half 5; half 7]) (ints [1; -1; 4; 0]%Z) None.
Theorem C30_integer_abs_refuted :
  ok_with (do d <- scaled_ds 1; autocorrelation gcc d None None None None "natural" "fractional") (fun x =>
    ok_with (do d <- scaled_ds 2; autocorrelation gcc d None None None None "natural" "fractional") (fun y =>
      sames (map (fun k => nmul (fl 2) k) (fst (fst x))) (fst (fst y)) && negb (sames2 (rows_of (snd (fst x))) (rows_of (snd (fst y)))))) = true /\
  ok_with (do d <- scaled_ds 1; autocorrelation clang d None None None None "natural" "fractional") (fun x =>
    ok_with (do d <- scaled_ds 2; autocorrelation clang d None None None None "natural" "fractional") (fun y =>
      sames (map (fun k => nmul (fl 2) k) (fst (fst x))) (fst (fst y)) && sames2 (rows_of (snd (fst x))) (rows_of (snd (fst y))))) = true.
Proof. split; vm_compute; reflexivity. Qed.
Print Assumptions C30_integer_abs_refuted.

(** in binary64 a large time offset changes the lags: times 0, 3/2, 5 and the same plus 2^53 *)
Definition shifted_ds (z : Z) : res (@dstruct BB) :=
  SACF_1d (map (fun x => nadd (fl z) x) [fl 0; half 3; fl 5]) (ints [1; -1; 4]%Z) None.
Theorem C30_binary64_shift_refuted :
  ok_with (do d <- shifted_ds 0; autocorrelation clang d None None None None "natural" "fractional") (fun x =>
    ok_with (do d <- shifted_ds (2 ^ 53); autocorrelation clang d None None None None "natural" "fractional") (fun y =>
      negb (sames (fst (fst x)) (fst (fst y))))) = true.
Proof. vm_compute. reflexivity. Qed.
Print Assumptions C30_binary64_shift_refuted.
