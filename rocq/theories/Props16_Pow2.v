(** Theorems: time stamps multiplied by a power of two, in binary64 (C69). *)
From Coq Require Import String.
From Coq Require Import ZArith Reals List Bool Arith Lia Lra.
From Flocq Require Import Core BinarySingleNaN.
From Verif Require Import Num Mem MemFacts XR B64 Spec SpecR DataStructure Correlator Sacf Api Examples B64Facts Laws2 AccFacts Pow2Thms.
Import ListNotations.
Local Open Scope list_scope.

(** ** C69: the unit of time, changed by a power of two, does not change a single bit of the correlations *)
Theorem C69_scaled_times (exp64 : b64 -> b64) (e : Z) (p : platform) (d d' : @dstruct (B64 exp64)) (mi ma re al mi' ma' re' al' : option b64)
  (sel wgt : string) (rows : list (list b64)) :
  p_abs p = AbsFloat -> accepted d -> accepted d' -> Forall2 (times_pow2 e) (timeseries d) (timeseries d') ->
  (forall t : b64, In t (timeseries d) -> moderate 400 t) -> (forall t : b64, In t (timeseries d') -> moderate 400 t) ->
  2 <= length (timeseries d) -> ordered (timeseries d) -> data_2d d = Ok rows -> data_2d d' = Ok rows ->
  opt_pow2 e mi mi' -> opt_pow2 e ma ma' -> opt_pow2 e re re' -> opt_pow2 e al al' -> (forall r, re = Some r -> (0 <= B2R r)%R) ->
  same_outcome (fun x y => Forall2 (times_pow2 e) (fst x) (fst y) /\ snd y = snd x)
    (visible (autocorrelation (A := B64 exp64) p d mi ma re al sel wgt)) (visible (autocorrelation (A := B64 exp64) p d' mi' ma' re' al' sel wgt)).
Proof. exact (pow2_times_lemma exp64 e p d d' mi ma re al mi' ma' re' al' sel wgt rows). Qed.
Print Assumptions C69_scaled_times.

Theorem C69_scaled_median (exp64 : b64 -> b64) (e : Z) (d d' : @dstruct (B64 exp64)) :
  accepted d -> accepted d' -> Forall2 (times_pow2 e) (timeseries d) (timeseries d') ->
  (forall t : b64, In t (timeseries d) -> moderate 400 t) -> (forall t : b64, In t (timeseries d') -> moderate 400 t) ->
  Forall2 (times_pow2 e) (normalised_timeseries d) (normalised_timeseries d') /\ times_pow2 e (median_time d) (median_time d').
Proof. exact (pow2_median_lemma exp64 e d d'). Qed.
Print Assumptions C69_scaled_median.

Lemma small_moderate z : (Z.abs z <= 1000)%Z -> moderate 400 (b64_ofZ z).
Proof.
  intros H. destruct (E_fin _ _ (toE_ofZ_small z ltac:(lia))) as [F E]. split; [exact F|]. rewrite E, <- abs_IZR.
  destruct (Z.eq_dec z 0) as [->|Hz]; [left; reflexivity|right]. split.
  - apply Rle_trans with (bpow radix2 0); [apply bpow_le; lia|]. apply (IZR_le 1). lia.
  - apply Rle_trans with (bpow radix2 10); [apply IZR_le; cbn; lia|apply bpow_le; lia].
Qed.
Lemma double_pow2 z : (Z.abs z <= 1000)%Z -> Bsign (b64_ofZ z) = Bsign (b64_ofZ (2 * z)) -> times_pow2 1 (b64_ofZ z) (b64_ofZ (2 * z)).
Proof.
  intros H Hs. destruct (E_fin _ _ (toE_ofZ_small z ltac:(lia))) as [F E]. destruct (E_fin _ _ (toE_ofZ_small (2 * z) ltac:(lia))) as [F' E'].
  repeat split; try assumption; [auto|]. rewrite E, E', mult_IZR. cbn. lra.
Qed.

(** times 0, 1, 3, 4, 7 and 0, 2, 6, 8, 14, the resolution of the second run doubled, and the numbers returned by both runs *)
Example C69_case : exists d d', SACF_1d (ints [0; 1; 3; 4; 7]%Z) (ints [1; 2; 4; 8; 9]%Z) None = Ok d /\ SACF_1d (ints [0; 2; 6; 8; 14]%Z) (ints [1; 2; 4; 8; 9]%Z) None = Ok d' /\
  Forall2 (times_pow2 1) (timeseries d) (timeseries d') /\
  (forall t : b64, In t (timeseries d) -> moderate 400 t) /\ (forall t : b64, In t (timeseries d') -> moderate 400 t) /\
  2 <= length (timeseries d) /\ ordered (timeseries d) /\ data_2d d = Ok [ints [1; 2; 4; 8; 9]%Z] /\ data_2d d' = Ok [ints [1; 2; 4; 8; 9]%Z] /\
  opt_pow2 1 (Some (fl 1)) (Some (fl 2)).
Proof.
  destruct (ok_with_ok (SACF_1d (ints [0; 1; 3; 4; 7]%Z) (ints [1; 2; 4; 8; 9]%Z) None)
    (fun d => sames (ints [0; 1; 3; 4; 7]%Z) (timeseries d) && (ok_with (data_2d d) (fun r => sames2 [ints [1; 2; 4; 8; 9]%Z] r)))) as [d [E H]]; [vm_compute; reflexivity|].
  destruct (ok_with_ok (SACF_1d (ints [0; 2; 6; 8; 14]%Z) (ints [1; 2; 4; 8; 9]%Z) None)
    (fun d => sames (ints [0; 2; 6; 8; 14]%Z) (timeseries d) && (ok_with (data_2d d) (fun r => sames2 [ints [1; 2; 4; 8; 9]%Z] r)))) as [d' [E' H']]; [vm_compute; reflexivity|].
  apply andb_prop in H. destruct H as [H1 H2]. apply sames_eq in H1. destruct (ok_with_ok (data_2d d) _ H2) as [r [Er H3]]. apply sames2_eq in H3.
  apply andb_prop in H'. destruct H' as [H1' H2']. apply sames_eq in H1'. destruct (ok_with_ok (data_2d d') _ H2') as [r' [Er' H3']]. apply sames2_eq in H3'.
  exists d, d'. split; [exact E|]. split; [exact E'|]. rewrite <- H1, <- H1', Er, Er', <- H3, <- H3'.
  assert (M : forall l : list Z, Forall (fun z => (Z.abs z <= 1000)%Z) l -> forall t : b64, In t (ints l) -> moderate 400 t).
  { intros l Hl t Hin. unfold ints in Hin. apply in_map_iff in Hin as (z & <- & Hz). rewrite Forall_forall in Hl. apply small_moderate, Hl, Hz. }
  split; [|split; [|split; [|split; [cbn; lia|split; [|split; [|split]]]]]]; try reflexivity.
  - repeat apply Forall2_cons; try apply Forall2_nil;
    [apply (double_pow2 0)|apply (double_pow2 1)|apply (double_pow2 3)|apply (double_pow2 4)|apply (double_pow2 7)]; (lia || vm_compute; reflexivity).
  - apply M. repeat (apply Forall_cons; [lia|]). apply Forall_nil.
  - apply M. repeat (apply Forall_cons; [lia|]). apply Forall_nil.
  - apply orderedb_ok. vm_compute. reflexivity.
  - split; [apply (double_pow2 1); [lia|vm_compute; reflexivity]|]. split; [apply (small_moderate 1); lia|apply (small_moderate 2); lia].
Qed.
