(** Theorems: which of several nearest points is selected (C111); only distances up to twice the lag matter (C112). *)
From Coq Require Import String.
From Coq Require Import ZArith Reals List Bool Arith Lia Lra.
From Flocq Require Import Core BinarySingleNaN.
From Verif Require Import Num Mem XR B64 Spec SpecR SpecTime SpecNear DataStructure Correlator Sacf Api Examples TimeJump AccExact NearFacts NearExample NearFloat Props15_Exactness.
Import ListNotations.
Local Open Scope list_scope.

(** ** C111 *)

(** In either arithmetic: let [i] be the first position whose time is not below the shifted time. The position selected is [i], or the
    one before it if the computed distance to that one is strictly smaller. *)
Theorem C111_rule {A : Num} (HA : arith A) (p : platform) (d : dstruct) (kk : num) (n : nat) (it : cor_it) :
  accepted d -> times_ok d -> p_abs p = AbsFloat -> nisnan kk = false ->
  naturalSelectionFunctionIdx p d (CorrelationIterator kk n) = (it, Ok tt) ->
  let nt := normalised_timeseries d in
  forall q z, nth_error (selection it) q = Some z ->
  exists x i, nth_error nt q = Some x /\ i < length nt /\
    (forall y t, y < i -> nth_error nt y = Some t -> nlt t (nadd x kk) = true) /\
    (forall y t, i <= y -> nth_error nt y = Some t -> nlt t (nadd x kk) = false) /\
    ((i = 0 /\ z = 0) \/
     exists j a b, i = S j /\ nth_error nt j = Some a /\ nth_error nt i = Some b /\
       z = if nlt (nabs (nsub (nadd x kk) a)) (nabs (nsub (nadd x kk) b)) then j else i).
Proof. exact (natural_rule HA p d kk n it). Qed.
Print Assumptions C111_rule.

(** In exact arithmetic the position selected is the partner: a nearest one, of several nearest ones those not before the shifted time
    first, of these the first, of those before it the last. *)
Theorem C111_partner (p : platform) (d : @dstruct XR) (kk : R) (n : nat) (s : list nat) (os : list xr) (ts : list R) :
  accepted d -> times_ok (A := XR) d -> p_abs p = AbsFloat -> timeseries d = map Fin ts ->
  pairs_by (A := XR) p d (naturalSelectionFunctionIdx (A := XR) p d) (Fin kk) n = Ok (s, os) ->
  forall q, q < length s -> partner ts kk q (nth q s 0).
Proof. exact (natural_partner p d kk n s os ts). Qed.
Print Assumptions C111_partner.

(** There is only one such position. *)
Theorem C111_unique (ts : list R) (kk : R) (q z y : nat) : partner ts kk q z -> partner ts kk q y -> z = y.
Proof. exact (partner_unique ts kk q z y). Qed.
Print Assumptions C111_unique.

(** times 0, 1, 3 and lag 1: time 1 moved to 2 is as near to 1 as to 3; 3 is selected *)
Example C111_case : exists (d : @dstruct XR), accepted d /\ times_ok (A := XR) d /\ timeseries d = map Fin [0; 1; 3]%R /\
  pairs_by (A := XR) clang d (naturalSelectionFunctionIdx (A := XR) clang d) (Fin 1) 1 = Ok ([1; 2], map Fin [0; 1]%R) /\
  nearest_to [0; 1; 3]%R 1 1 1 /\ nearest_to [0; 1; 3]%R 1 1 2.
Proof.
  destruct (near_built 3 clang "gaussian") as (d & corr & c & _ & Ha & Hok & Et & Hd & E); [lra|reflexivity|reflexivity|right; right; reflexivity|].
  destruct (near_value 3 2 clang "gaussian") with (d := d) (corr := corr) (c := c) as [P _]; try assumption; try reflexivity; [lra|left; split; reflexivity|right; right; reflexivity|].
  exists d. split; [exact Ha|]. split; [exact Hok|]. split; [exact Et|]. split; [exact P|].
  split; (split; [cbn; lia|]; intros [|[|[|y]]] Hy; cbn in Hy; try lia; unfold gap; cbn [nth]; unfold Rabs; repeat destruct Rcase_abs; lra).
Qed.

(** ** C112 *)

(** The same pairs and offsets for time stamps that agree in all distances up to twice the size of the lag. *)
Theorem C112_pairs (p : platform) (d d' : @dstruct XR) (kk : R) (n n' : nat) (s s' : list nat) (os os' ts ts' : list R) :
  accepted d -> times_ok (A := XR) d -> accepted d' -> times_ok (A := XR) d' -> p_abs p = AbsFloat ->
  timeseries d = map Fin ts -> timeseries d' = map Fin ts' -> same_near ts ts' (2 * Rabs kk) ->
  pairs_by (A := XR) p d (naturalSelectionFunctionIdx (A := XR) p d) (Fin kk) n = Ok (s, map Fin os) ->
  pairs_by (A := XR) p d' (naturalSelectionFunctionIdx (A := XR) p d') (Fin kk) n' = Ok (s', map Fin os') ->
  length s = length os -> length s' = length os' -> s' = s /\ os' = os.
Proof. exact (near_pairs p d d' kk n n' s s' os os' ts ts'). Qed.
Print Assumptions C112_pairs.

(** The same correlation at that lag, whatever the other settings of the two calls. *)
Theorem C112_value (p : platform) (d d' : @dstruct XR) (mi ma re al mi' ma' re' al' : option xr) (wgt : string)
  (lags lags' : list xr) (corr corr' : @py_corr XR) (c c' : @correlator XR) (rows rows' : list (list xr)) (j j' i i' : nat)
  (rs ts ts' : list R) (kk a : R) :
  accepted d -> times_ok (A := XR) d -> accepted d' -> times_ok (A := XR) d' -> p_abs p = AbsFloat ->
  autocorrelation (A := XR) p d mi ma re al "natural" wgt = Ok (lags, corr, c) ->
  autocorrelation (A := XR) p d' mi' ma' re' al' "natural" wgt = Ok (lags', corr', c') ->
  data_2d d = Ok rows -> nth_error rows j = Some (map Fin rs) -> data_2d d' = Ok rows' -> nth_error rows' j' = Some (map Fin rs) ->
  timeseries d = map Fin ts -> timeseries d' = map Fin ts' ->
  nth_error lags i = Some (Fin kk) -> nth_error lags' i' = Some (Fin kk) ->
  opt_or (A := XR) al (median_time d) = Fin a -> opt_or (A := XR) al' (median_time d') = Fin a -> (0 < a)%R ->
  same_near ts ts' (2 * Rabs kk) ->
  exists r, corr_at corr j i = Some r /\ corr_at corr' j' i' = Some r.
Proof. exact (near_values p d d' mi ma re al mi' ma' re' al' wgt lags corr c lags' corr' c' rows rows' j j' i i' rs ts ts' kk a). Qed.
Print Assumptions C112_value.

(** Moving all times after a gap changes no distance up to [w], if the gap exceeds [w] before and after. *)
Theorem C112_gap (l1 l2 : list R) (sh w : R) : (forall x y, In x l1 -> In y l2 -> w < y - x /\ w < y + sh - x)%R ->
  same_near (l1 ++ l2) (l1 ++ map (fun t => t + sh)%R l2) w.
Proof. exact (gap_same_near l1 l2 sh w). Qed.
Print Assumptions C112_gap.

(** Twice the lag cannot be replaced by anything less: a distance of exactly that size matters. *)
Theorem C112_less_refuted (p : platform) (wgt : string) : p_checked p = false -> p_abs p = AbsFloat -> known_weight wgt ->
  exists (d d' : @dstruct XR) corr c corr' c' r r',
    accepted d /\ times_ok (A := XR) d /\ accepted d' /\ times_ok (A := XR) d' /\
    timeseries d = map Fin [0; 1; 3]%R /\ timeseries d' = map Fin [0; 1; 4]%R /\
    data_2d d = Ok [map Fin [1; 2; 4]%R] /\ data_2d d' = Ok [map Fin [1; 2; 4]%R] /\
    autocorrelation (A := XR) p d (Some (Fin 1)) (Some (Fin 1)) (Some (Fin 1)) (Some (Fin 1)) "natural" wgt = Ok (map Fin [0; 1]%R, corr, c) /\
    autocorrelation (A := XR) p d' (Some (Fin 1)) (Some (Fin 1)) (Some (Fin 1)) (Some (Fin 1)) "natural" wgt = Ok (map Fin [0; 1]%R, corr', c') /\
    (forall w, (w < 2)%R -> same_near [0; 1; 3]%R [0; 1; 4]%R w) /\
    corr_at corr 0 1 = Some (Fin r) /\ corr_at corr' 0 1 = Some (Fin r') /\ r <> r'.
Proof. exact (near_sharp p wgt). Qed.
Print Assumptions C112_less_refuted.

(** values 1, 2, 4 at the times 0, 1, 4 and at the times 0, 1, 5; lag 1 *)
Example C112_case : exists (d d' : @dstruct XR) corr c corr' c',
  accepted d /\ times_ok (A := XR) d /\ accepted d' /\ times_ok (A := XR) d' /\
  timeseries d = map Fin [0; 1; 4]%R /\ timeseries d' = map Fin [0; 1; 5]%R /\
  data_2d d = Ok [map Fin [1; 2; 4]%R] /\ data_2d d' = Ok [map Fin [1; 2; 4]%R] /\
  autocorrelation (A := XR) clang d (Some (Fin 1)) (Some (Fin 1)) (Some (Fin 1)) (Some (Fin 1)) "natural" "gaussian" = Ok (map Fin [0; 1]%R, corr, c) /\
  autocorrelation (A := XR) clang d' (Some (Fin 1)) (Some (Fin 1)) (Some (Fin 1)) (Some (Fin 1)) "natural" "gaussian" = Ok (map Fin [0; 1]%R, corr', c') /\
  nth_error (map Fin [0; 1]%R) 1 = Some (Fin 1) /\ same_near [0; 1; 4]%R [0; 1; 5]%R (2 * Rabs 1) /\ timeseries d <> timeseries d'.
Proof.
  destruct (near_built 4 clang "gaussian") as (d & corr & c & _ & Ha & Hok & Et & Hd & E); [lra|reflexivity|reflexivity|right; right; reflexivity|].
  destruct (near_built 5 clang "gaussian") as (d' & corr' & c' & _ & Ha' & Hok' & Et' & Hd' & E'); [lra|reflexivity|reflexivity|right; right; reflexivity|].
  exists d, d', corr, c, corr', c'. do 10 (split; [assumption|]). split; [reflexivity|]. split.
  - rewrite Rabs_R1. replace [0; 1; 5]%R with ([0; 1] ++ map (fun t => t + 1) [4])%R by (cbn; repeat f_equal; lra).
    change [0; 1; 4]%R with ([0; 1] ++ [4])%R. apply C112_gap. intros x y [<-|[<-|[]]] [<-|[]]; lra.
  - rewrite Et, Et'. intros C. injection C as C. lra.
Qed.

(** In binary64, with time stamps and lag on a binary grid as in C66: the same doubles. *)
Theorem C112_binary64 (exp64 : b64 -> b64) (p : platform) (d d' : @dstruct (B64 exp64)) (g : Z) (mi ma re al mi' ma' re' al' : option b64) (wgt : string)
  (lags lags' : list b64) (corr corr' : @py_corr (B64 exp64)) (c c' : @correlator (B64 exp64)) (rows rows' : list (list b64)) (j j' i i' : nat)
  (row : list b64) (kk : b64) :
  (-1073 <= g <= 960)%Z -> accepted d -> accepted d' -> ordered (timeseries d) -> ordered (timeseries d') ->
  (forall t : b64, In t (timeseries d) -> fixed_point g 50 t) -> (forall t : b64, In t (timeseries d') -> fixed_point g 50 t) -> fixed_point g 51 kk ->
  p_abs p = AbsFloat ->
  autocorrelation (A := B64 exp64) p d mi ma re al "natural" wgt = Ok (lags, corr, c) ->
  autocorrelation (A := B64 exp64) p d' mi' ma' re' al' "natural" wgt = Ok (lags', corr', c') ->
  data_2d d = Ok rows -> nth_error rows j = Some row -> data_2d d' = Ok rows' -> nth_error rows' j' = Some row ->
  nth_error lags i = Some kk -> nth_error lags' i' = Some kk ->
  opt_or (A := B64 exp64) al (median_time d) = opt_or (A := B64 exp64) al' (median_time d') ->
  same_near (map B2R (timeseries d : list b64)) (map B2R (timeseries d' : list b64)) (2 * Rabs (B2R kk)) ->
  exists r, corr_at corr j i = Some r /\ corr_at corr' j' i' = Some r.
Proof. exact (near_values_float exp64 p d d' g mi ma re al mi' ma' re' al' wgt lags corr c lags' corr' c' rows rows' j j' i i' row kk). Qed.
Print Assumptions C112_binary64.

Example C112_binary64_case : exists d d' lags corr c lags' corr' c',
  SACF_1d (ints [0; 1; 4]%Z) (ints [1; 2; 4]%Z) None = Ok d /\ SACF_1d (ints [0; 1; 5]%Z) (ints [1; 2; 4]%Z) None = Ok d' /\
  ordered (timeseries d) /\ ordered (timeseries d') /\
  (forall t : b64, In t (timeseries d) -> fixed_point 0 50 t) /\ (forall t : b64, In t (timeseries d') -> fixed_point 0 50 t) /\ fixed_point 0 51 (fl 1) /\
  autocorrelation (A := BB) clang d None None None (Some (fl 1)) "natural" "fractional" = Ok (lags, corr, c) /\
  autocorrelation (A := BB) clang d' None None None (Some (fl 1)) "natural" "fractional" = Ok (lags', corr', c') /\
  data_2d d = Ok [ints [1; 2; 4]%Z] /\ data_2d d' = Ok [ints [1; 2; 4]%Z] /\
  nth_error lags 5 = Some (fl 1) /\ nth_error lags' 6 = Some (fl 1) /\
  same_near (map B2R (timeseries d : list b64)) (map B2R (timeseries d' : list b64)) (2 * Rabs (B2R (fl 1 : b64))).
Proof.
  assert (G : forall t k, (t = 4 \/ t = 5)%Z -> ok_with (SACF_1d (ints [0; 1; t]%Z) (ints [1; 2; 4]%Z) None) (fun d =>
      sames (ints [0; 1; t]%Z) (timeseries d) && ok_with (data_2d d) (fun r => sames2 [ints [1; 2; 4]%Z] r) &&
      ok_with (autocorrelation (A := BB) clang d None None None (Some (fl 1)) "natural" "fractional") (fun r => match nth_error (fst (fst r)) k with Some x => same x (fl 1) | None => false end)) = true ->
    exists d lags corr c, SACF_1d (ints [0; 1; t]%Z) (ints [1; 2; 4]%Z) None = Ok d /\ ordered (timeseries d) /\ timeseries d = ints [0; 1; t]%Z /\
      (forall x : b64, In x (timeseries d) -> fixed_point 0 50 x) /\
      autocorrelation (A := BB) clang d None None None (Some (fl 1)) "natural" "fractional" = Ok (lags, corr, c) /\ data_2d d = Ok [ints [1; 2; 4]%Z] /\
      nth_error lags k = Some (fl 1)).
  { intros t k Ht H. apply ok_with_ok in H. destruct H as [d [E H]]. apply andb_prop in H. destruct H as [H H3]. apply andb_prop in H. destruct H as [H1 H2].
    apply sames_eq in H1. apply ok_with_ok in H2. destruct H2 as [r [Er H2]]. apply sames2_eq in H2. apply ok_with_ok in H3. destruct H3 as [[[lags corr] c] [Ec H3]].
    exists d, lags, corr, c. split; [exact E|]. rewrite <- H1. split.
    { apply orderedb_ok. destruct Ht as [-> | ->]; vm_compute; reflexivity. }
    split; [reflexivity|]. split.
    { intros x Hin. unfold ints in Hin. apply in_map_iff in Hin. destruct Hin as [z [<- Hz]]. apply small_fixed. repeat (destruct Hz as [<-|Hz]; [cbn; lia|]). destruct Hz. }
    split; [exact Ec|]. split; [rewrite Er, H2; reflexivity|]. cbn [fst] in H3. destruct (nth_error lags k) as [x|]; [|discriminate H3]. apply same_eq in H3. rewrite H3. reflexivity. }
  destruct (G 4%Z 5 (or_introl eq_refl)) as (d & lags & corr & c & E & Ho & Et & Hf & Ec & Hd & Hl); [vm_compute; reflexivity|].
  destruct (G 5%Z 6 (or_intror eq_refl)) as (d' & lags' & corr' & c' & E' & Ho' & Et' & Hf' & Ec' & Hd' & Hl'); [vm_compute; reflexivity|].
  exists d, d', lags, corr, c, lags', corr', c'. split; [exact E|]. split; [exact E'|]. split; [exact Ho|]. split; [exact Ho'|].
  split; [exact Hf|]. split; [exact Hf'|]. split.
  { destruct (small_fixed 1 ltac:(cbn; lia)) as [F [z [Hz Ez]]]. split; [exact F|]. exists z. split; [eapply Z.le_trans; [exact Hz|]; apply Z.pow_le_mono_r; lia|exact Ez]. }
  split; [exact Ec|]. split; [exact Ec'|]. split; [exact Hd|]. split; [exact Hd'|]. split; [exact Hl|]. split; [exact Hl'|].
  assert (B : forall z, (Z.abs z <= 5)%Z -> B2R (b64_ofZ z) = IZR z).
  { intros z Hz. pose proof (exact_ofZ z ltac:(cbn; lia)) as K. destruct (small_fixed z ltac:(cbn; lia)) as [F _]. destruct (b64_ofZ z); try discriminate F; injection K as K; exact K. }
  rewrite Et, Et'. unfold ints, fl. cbn [map]. rewrite !B by (cbn; lia). rewrite Rabs_R1.
  replace [0; 1; 5]%R with ([0; 1] ++ map (fun t => t + 1) [4])%R by (cbn; repeat f_equal; lra).
  change [0; 1; 4]%R with ([0; 1] ++ [4])%R. apply C112_gap. intros x y [<-|[<-|[]]] [<-|[]]; lra.
Qed.
