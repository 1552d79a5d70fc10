(** Theorems: the origin of time and the unit of the data values, in binary64 (C73, C74). *)
From Coq Require Import String.
From Coq Require Import ZArith Reals List Bool Arith Lia Lra.
From Flocq Require Import Core BinarySingleNaN.
From Verif Require Import Num Mem MemFacts XR B64 Spec SpecR DataStructure Correlator Sacf Api Examples B64Facts Laws2 AccFacts ShiftFacts ValPow2Thms.
Import ListNotations.
Local Open Scope list_scope.

(** ** C73: the origin of time *)
Theorem C73_normalised_only {A : Num} (p : platform) (d d' : dstruct) (rows : list (list num)) (mi ma re al : option num) (sel wgt : string) :
  accepted d -> accepted d' -> normalised_timeseries d' = normalised_timeseries d -> data_2d d = Ok rows -> data_2d d' = Ok rows ->
  median_time d' = median_time d /\
  visible (autocorrelation p d' mi ma re al sel wgt) = visible (autocorrelation p d mi ma re al sel wgt).
Proof. exact (same_normalised p d d' rows mi ma re al sel wgt). Qed.
Print Assumptions C73_normalised_only.

Theorem C73_exact_shift (exp64 : b64 -> b64) (s : R) (p : platform) (d d' : @dstruct (B64 exp64)) (mi ma re al : option b64) (sel wgt : string) (rows : list (list b64)) :
  accepted d -> accepted d' -> Forall2 (shifted_exactly s) (timeseries d) (timeseries d') -> data_2d d = Ok rows -> data_2d d' = Ok rows ->
  normalised_timeseries d' = normalised_timeseries d /\ median_time d' = median_time d /\
  visible (autocorrelation (A := B64 exp64) p d' mi ma re al sel wgt) = visible (autocorrelation (A := B64 exp64) p d mi ma re al sel wgt).
Proof. exact (exact_shift_lemma exp64 s p d d' mi ma re al sel wgt rows). Qed.
Print Assumptions C73_exact_shift.

Lemma ints_shift z s : (Z.abs z <= 2 ^ 50)%Z -> (Z.abs s <= 2 ^ 50)%Z -> b64_ofZ z <> B754_zero true -> b64_ofZ (z + s) <> B754_zero true ->
  shifted_exactly (IZR s) (b64_ofZ z) (b64_ofZ (z + s)).
Proof.
  intros H H' N N'. destruct (E_fin _ _ (toE_ofZ_small z ltac:(lia))) as [F E]. destruct (E_fin _ _ (toE_ofZ_small (z + s) ltac:(lia))) as [F' E'].
  split; [exact F|]. split; [exact F'|]. split; [exact N|]. split; [exact N'|]. rewrite E, E', plus_IZR. reflexivity.
Qed.

(** the times 0, 1, 3, 4, 7 counted from 1 April 2018 and from 1 January 1970, in seconds; unordered times are covered too *)
Example C73_case : exists d d', SACF_1d (ints [0; 1; 3; 4; 7]%Z) (ints [1; 2; 4; 8; 9]%Z) None = Ok d /\
  SACF_1d (ints [1522540800; 1522540801; 1522540803; 1522540804; 1522540807]%Z) (ints [1; 2; 4; 8; 9]%Z) None = Ok d' /\
  Forall2 (shifted_exactly (IZR 1522540800)) (timeseries d) (timeseries d') /\ timeseries d' <> timeseries d /\
  data_2d d = Ok [ints [1; 2; 4; 8; 9]%Z] /\ data_2d d' = Ok [ints [1; 2; 4; 8; 9]%Z] /\
  ok_with (returned (autocorrelation clang d' None None None None "natural" "fractional")) (fun r => Nat.eqb (length (fst r)) 15) = true.
Proof.
  destruct (ok_with_ok (SACF_1d (ints [0; 1; 3; 4; 7]%Z) (ints [1; 2; 4; 8; 9]%Z) None)
    (fun d => sames (ints [0; 1; 3; 4; 7]%Z) (timeseries d) && (ok_with (data_2d d) (fun r => sames2 [ints [1; 2; 4; 8; 9]%Z] r)))) as [d [E H]]; [vm_compute; reflexivity|].
  destruct (ok_with_ok (SACF_1d (ints [1522540800; 1522540801; 1522540803; 1522540804; 1522540807]%Z) (ints [1; 2; 4; 8; 9]%Z) None)
    (fun d => sames (ints [1522540800; 1522540801; 1522540803; 1522540804; 1522540807]%Z) (timeseries d) && (ok_with (data_2d d) (fun r => sames2 [ints [1; 2; 4; 8; 9]%Z] r)) &&
      ok_with (returned (autocorrelation clang d None None None None "natural" "fractional")) (fun r => Nat.eqb (length (fst r)) 15))) as [d' [E' H']]; [vm_compute; reflexivity|].
  apply andb_prop in H. destruct H as [H1 H2]. apply sames_eq in H1. destruct (ok_with_ok (data_2d d) _ H2) as [r [Er H3]]. apply sames2_eq in H3.
  apply andb_prop in H'. destruct H' as [H' H4']. apply andb_prop in H'. destruct H' as [H1' H2']. apply sames_eq in H1'. destruct (ok_with_ok (data_2d d') _ H2') as [r' [Er' H3']]. apply sames2_eq in H3'.
  exists d, d'. split; [exact E|]. split; [exact E'|]. rewrite <- H1, <- H1', Er, Er', <- H3, <- H3'.
  split; [|split; [|split; [reflexivity|split; [reflexivity|exact H4']]]].
  - repeat apply Forall2_cons; try apply Forall2_nil;
      [apply (ints_shift 0)|apply (ints_shift 1)|apply (ints_shift 3)|apply (ints_shift 4)|apply (ints_shift 7)]; (lia || discriminate || (intros C; apply (f_equal B2SF) in C; vm_compute in C; discriminate)).
  - intros C. injection C as C. apply (f_equal B2SF) in C. vm_compute in C. discriminate.
Qed.

(** ** C74: the unit of the data values *)
Theorem C74_scaled_values (exp64 : b64 -> b64) (e : Z) (p : platform) (d d' : @dstruct (B64 exp64)) (mi ma re al : option b64) (sel wgt : string) (rows rows' : list (list b64)) :
  wgt = "fractional"%string \/ wgt = "fractional_squared"%string ->
  accepted d -> accepted d' -> timeseries d' = timeseries d -> (forall t : b64, In t (timeseries d) -> moderate 100 t) ->
  2 <= length (timeseries d) -> (Z.of_nat (length (timeseries d)) <= 2 ^ 50)%Z -> ordered (timeseries d) ->
  data_2d d = Ok rows -> data_2d d' = Ok rows' -> Forall2 (Forall2 (value_pow2 e)) rows rows' ->
  (forall x, In (Some x) [mi; ma; re; al] -> moderate 100 x) -> (forall r, re = Some r -> (0 <= B2R r)%R) ->
  visible (autocorrelation (A := B64 exp64) p d' mi ma re al sel wgt) = visible (autocorrelation (A := B64 exp64) p d mi ma re al sel wgt).
Proof. exact (pow2_values_lemma exp64 e p d d' mi ma re al sel wgt rows rows'). Qed.
Print Assumptions C74_scaled_values.

Lemma pow2_bits (e : Z) (x y : b64) s m ex : B2SF x = SpecFloat.S754_finite s m ex -> B2SF y = SpecFloat.S754_finite s m (ex + e) -> times_pow2 e x y.
Proof.
  destruct x as [sx|sx| |sx mx exx Hx]; try discriminate. destruct y as [sy|sy| |sy my ey Hy]; try discriminate. cbn [B2SF].
  intros E E'. injection E as -> -> ->. injection E' as -> -> ->. repeat (split; [reflexivity|]).
  cbn [B2R]. unfold F2R. cbn [Fnum Fexp]. rewrite bpow_plus. ring.
Qed.

Lemma moderate_bits (n k : Z) (x : b64) s m ex : B2SF x = SpecFloat.S754_finite s m ex -> (Zpos m < 2 ^ k)%Z -> (0 <= k)%Z -> (- n <= ex)%Z -> (k + ex <= n)%Z -> moderate n x.
Proof.
  destruct x as [sx|sx| |sx mx exx Hx]; try discriminate. cbn [B2SF]. intros E Hm Hk H1 H2. injection E as -> -> ->. split; [reflexivity|right].
  cbn [B2R]. rewrite <- F2R_Zabs. replace (Z.abs (cond_Zopp s (Zpos m))) with (Zpos m) by (destruct s; reflexivity). unfold F2R. cbn [Fnum Fexp]. split.
  - apply Rle_trans with (1 * bpow radix2 ex)%R; [rewrite Rmult_1_l; apply bpow_le; exact H1|]. apply Rmult_le_compat_r; [apply bpow_ge_0|]. apply (IZR_le 1). lia.
  - apply Rle_trans with (bpow radix2 (k + ex)); [|apply bpow_le; exact H2]. rewrite bpow_plus. apply Rmult_le_compat_r; [apply bpow_ge_0|].
    rewrite <- IZR_Zpower by exact Hk. apply IZR_le. cbn [radix_val radix2]. lia.
Qed.

Definition Zscale (k : Z) (l : list Z) : list Z := map (Z.mul (2 ^ k)) l.

(** five values, one of them NaN, and the same values multiplied by 2^20 *)
Example C74_case : exists d d', SACF_1d (ints [0; 1; 3; 4; 7]%Z) (B754_nan :: ints [1; 2; 4; 9]%Z) None = Ok d /\
  SACF_1d (ints [0; 1; 3; 4; 7]%Z) (B754_nan :: ints (Zscale 20 [1; 2; 4; 9]%Z)) None = Ok d' /\
  timeseries d = ints [0; 1; 3; 4; 7]%Z /\ timeseries d' = timeseries d /\ (forall t : b64, In t (timeseries d) -> moderate 100 t) /\ ordered (timeseries d) /\
  data_2d d = Ok [B754_nan :: ints [1; 2; 4; 9]%Z] /\ data_2d d' = Ok [B754_nan :: ints (Zscale 20 [1; 2; 4; 9]%Z)] /\
  Forall2 (Forall2 (value_pow2 20)) [B754_nan :: ints [1; 2; 4; 9]%Z] [B754_nan :: ints (Zscale 20 [1; 2; 4; 9]%Z)].
Proof.
  destruct (ok_with_ok (SACF_1d (ints [0; 1; 3; 4; 7]%Z) (B754_nan :: ints [1; 2; 4; 9]%Z) None)
    (fun d => sames (ints [0; 1; 3; 4; 7]%Z) (timeseries d) && (ok_with (data_2d d) (fun r => sames2 [B754_nan :: ints [1; 2; 4; 9]%Z] r)))) as [d [E H]]; [vm_compute; reflexivity|].
  destruct (ok_with_ok (SACF_1d (ints [0; 1; 3; 4; 7]%Z) (B754_nan :: ints (Zscale 20 [1; 2; 4; 9]%Z)) None)
    (fun d => sames (ints [0; 1; 3; 4; 7]%Z) (timeseries d) && (ok_with (data_2d d) (fun r => sames2 [B754_nan :: ints (Zscale 20 [1; 2; 4; 9]%Z)] r)))) as [d' [E' H']]; [vm_compute; reflexivity|].
  apply andb_prop in H. destruct H as [H1 H2]. apply sames_eq in H1. destruct (ok_with_ok (data_2d d) _ H2) as [r [Er H3]]. apply sames2_eq in H3.
  apply andb_prop in H'. destruct H' as [H1' H2']. apply sames_eq in H1'. destruct (ok_with_ok (data_2d d') _ H2') as [r' [Er' H3']]. apply sames2_eq in H3'.
  exists d, d'. split; [exact E|]. split; [exact E'|]. rewrite <- H1, <- H1', Er, Er', <- H3, <- H3'.
  split; [reflexivity|]. split; [reflexivity|]. split; [|split; [apply orderedb_ok; vm_compute; reflexivity|split; [reflexivity|split; [reflexivity|]]]].
  - intros t Hin. cbn in Hin. repeat (destruct Hin as [<-|Hin]; [first [split; [reflexivity|left; reflexivity]|eapply (moderate_bits 100 53); [vm_compute; reflexivity|lia..]]|]). contradiction.
  - apply Forall2_cons; [|apply Forall2_nil]. apply Forall2_cons; [right; split; reflexivity|].
    repeat (apply Forall2_cons; [left; split; [eapply pow2_bits; vm_compute; reflexivity|]; split; (eapply (moderate_bits 70 53); [vm_compute; reflexivity|lia..])|]). apply Forall2_nil.
Qed.

(** without bounds on the values it is false: multiplied by 2^130 the values are ordinary doubles, but the norm is computed from
    values rounded to single precision, which overflow *)
Theorem C74_any_values_refuted : exists d d' : @dstruct BB,
  SACF_1d (ints [0; 1; 2]%Z) (ints [1; 2; 4]%Z) None = Ok d /\ SACF_1d (ints [0; 1; 2]%Z) (ints (Zscale 130 [1; 2; 4]%Z)) None = Ok d' /\
  Forall2 (times_pow2 130) (ints [1; 2; 4]%Z) (ints (Zscale 130 [1; 2; 4]%Z)) /\
  visible (autocorrelation clang d' None None None None "natural" "fractional") <> visible (autocorrelation clang d None None None None "natural" "fractional").
Proof.
  destruct (ok_with_ok (SACF_1d (ints [0; 1; 2]%Z) (ints [1; 2; 4]%Z) None) (fun d =>
    ok_with (SACF_1d (ints [0; 1; 2]%Z) (ints (Zscale 130 [1; 2; 4]%Z)) None) (fun d' =>
      ok_with (visible (autocorrelation clang d None None None None "natural" "fractional")) (fun x =>
      ok_with (visible (autocorrelation clang d' None None None None "natural" "fractional")) (fun y =>
        match snd x, snd y with Flat a, Flat b => negb (sames a b) | _, _ => false end))))) as [d [E H]]; [vm_compute; reflexivity|].
  apply ok_with_ok in H. destruct H as [d' [E' H]]. apply ok_with_ok in H. destruct H as [x [Ex H]]. apply ok_with_ok in H. destruct H as [y [Ey H]].
  exists d, d'. split; [exact E|]. split; [exact E'|]. split.
  - repeat (apply Forall2_cons; [eapply pow2_bits; vm_compute; reflexivity|]). apply Forall2_nil.
  - intros C. rewrite Ex, Ey in C. injection C as ->. destruct (snd x) as [a|a]; [|discriminate].
    assert (R : sames a a = true).
    { clear. unfold sames. induction a as [|v a IH]; [reflexivity|]. cbn [all2]. rewrite IH, andb_true_r. unfold same. destruct (B2SF v) as [[]|[]| |[] m ex]; cbn; rewrite ?Pos.eqb_refl, ?Z.eqb_refl; reflexivity. }
    rewrite R in H. discriminate.
Qed.
Print Assumptions C74_any_values_refuted.
