(** Theorems: bound by the number of times a point is used (C84), wide and narrow weights (C85), time offsets of the natural
    selection (C86), number of pairs (C87). *)
From Coq Require Import String.
From Coq Require Import ZArith Reals List Bool Arith Lia Lra.
From Flocq Require Import Core BinarySingleNaN.
From Verif Require Import Num Mem XR B64 Spec SpecR DataStructure Correlator Sacf Api Examples ConstrFacts GridVals Laws Laws2 SelThms ExactFacts GridVals ValThms MainFacts DSFacts SelFacts LoopFacts PairBounds
  Props01_Construction Props02_Lags Props20_Series.
Import ListNotations.
Local Open Scope list_scope.

(** ** C84: if no point is the second of more than m pairs, the square of the correlation is at most m *)
Theorem C84_multiplicity (p : platform) (d : @dstruct XR) (mi ma re al : option xr) (sel wgt : string)
  (lags : list xr) (corr : @py_corr XR) (c : @correlator XR) (rows : list (list xr)) (j i : nat) (rs ts os : list R) (kk a v w : R)
  (f : @cor_it XR -> meth (@cor_it XR) unit) (n : nat) (s : list nat) (m : nat) :
  accepted d -> autocorrelation (A := XR) p d mi ma re al sel wgt = Ok (lags, corr, c) ->
  data_2d d = Ok rows -> nth_error rows j = Some (map Fin rs) -> nth_error lags i = Some (Fin kk) ->
  timeseries d = map Fin ts -> opt_or (A := XR) al (median_time d) = Fin a -> (0 < a)%R ->
  selection_function p sel d = Some f -> pairs_by (A := XR) p d f (Fin kk) n = Ok (s, map Fin os) ->
  Forall single rs -> In v rs -> In w rs -> v <> w -> (forall q, count_occ Nat.eq_dec s q <= m) ->
  exists r, corr_at corr j i = Some (Fin r) /\ (r * r <= INR m)%R.
Proof. exact (mult_bound p d mi ma re al sel wgt lags corr c rows j i rs ts os kk a v w f n s m). Qed.
Print Assumptions C84_multiplicity.

(** ** C85: with alpha large against the offsets the correlation is close to the one without weights *)
Theorem C85_wide (p : platform) (d : @dstruct XR) (mi ma re al : option xr) (sel wgt : string)
  (lags : list xr) (corr : @py_corr XR) (c : @correlator XR) (rows : list (list xr)) (j i : nat) (rs ts os : list R) (kk a D : R)
  (f : @cor_it XR -> meth (@cor_it XR) unit) (n : nat) (s : list nat) :
  accepted d -> autocorrelation (A := XR) p d mi ma re al sel wgt = Ok (lags, corr, c) ->
  data_2d d = Ok rows -> nth_error rows j = Some (map Fin rs) -> nth_error lags i = Some (Fin kk) ->
  timeseries d = map Fin ts -> opt_or (A := XR) al (median_time d) = Fin a -> (0 < a)%R ->
  selection_function p sel d = Some f -> pairs_by (A := XR) p d f (Fin kk) n = Ok (s, map Fin os) ->
  (0 < sq_dev32 rs)%R -> (forall q, q < length s -> (nth q os 0 <= D)%R) ->
  let B := (rsum_n (length s) (fun q => Rabs (dev rs q * dev rs (nth q s 0%nat))) / sq_dev32 rs)%R in
  let u := (rsum_n (length s) (fun q => dev rs q * dev rs (nth q s 0%nat)) / sq_dev32 rs)%R in
  exists r, corr_at corr j i = Some (Fin r) /\
    (Rabs (r - u) <= (if String.eqb wgt "fractional" then D / a else (D / a) * (D / a)) * B)%R.
Proof. exact (wide p d mi ma re al sel wgt lags corr c rows j i rs ts os kk a D f n s). Qed.
Print Assumptions C85_wide.

(** with alpha small against the offsets that are not zero, only the pairs at the exact lag count *)
Theorem C85_narrow (p : platform) (d : @dstruct XR) (mi ma re al : option xr) (sel wgt : string)
  (lags : list xr) (corr : @py_corr XR) (c : @correlator XR) (rows : list (list xr)) (j i : nat) (rs ts os : list R) (kk a dl : R)
  (f : @cor_it XR -> meth (@cor_it XR) unit) (n : nat) (s : list nat) :
  accepted d -> autocorrelation (A := XR) p d mi ma re al sel wgt = Ok (lags, corr, c) ->
  data_2d d = Ok rows -> nth_error rows j = Some (map Fin rs) -> nth_error lags i = Some (Fin kk) ->
  timeseries d = map Fin ts -> opt_or (A := XR) al (median_time d) = Fin a -> (0 < a)%R ->
  selection_function p sel d = Some f -> pairs_by (A := XR) p d f (Fin kk) n = Ok (s, map Fin os) ->
  (0 < sq_dev32 rs)%R -> (0 < dl)%R -> (forall q, q < length s -> (nth q os 0 = 0 \/ dl <= nth q os 0)%R) ->
  let B := (rsum_n (length s) (fun q => Rabs (dev rs q * dev rs (nth q s 0%nat))) / sq_dev32 rs)%R in
  let u := (rsum_n (length s) (fun q => if Req_EM_T (nth q os 0) 0 then dev rs q * dev rs (nth q s 0%nat) else 0) / sq_dev32 rs)%R in
  exists r, corr_at corr j i = Some (Fin r) /\
    (Rabs (r - u) <= (if String.eqb wgt "fractional" then a / dl else 2 * ((a / dl) * (a / dl))) * B)%R.
Proof. exact (narrow p d mi ma re al sel wgt lags corr c rows j i rs ts os kk a dl f n s). Qed.
Print Assumptions C85_narrow.

(** ** C86: time offsets of the natural selection *)
Theorem C86_offsets (p : platform) (d : @dstruct XR) (kk : R) (n : nat) (s : list nat) (os ts : list R) (g : R) :
  accepted d -> times_ok (A := XR) d -> p_abs p = AbsFloat -> timeseries d = map Fin ts ->
  pairs_by (A := XR) p d (naturalSelectionFunctionIdx (A := XR) p d) (Fin kk) n = Ok (s, map Fin os) ->
  (0 <= g)%R -> (forall q, S q < length ts -> (nth (S q) ts 0 - nth q ts 0 <= g)%R) ->
  forall q, q < length s ->
  (nth 0 ts 0 <= nth q ts 0 + kk -> nth q os 0 <= g / 2)%R /\
  (nth q ts 0 + kk < nth 0 ts 0 -> nth q os 0 = nth 0 ts 0 - (nth q ts 0 + kk) /\ nth (nth q s 0%nat) ts 0 = nth 0 ts 0)%R.
Proof. exact (natural_offsets p d kk n s os ts g). Qed.
Print Assumptions C86_offsets.

(** so the weights change the correlation at a lag that is not negative by at most a half of the largest gap over alpha (or its square) *)
Theorem C86_weights_matter (p : platform) (d : @dstruct XR) (mi ma re al : option xr) (wgt : string)
  (lags : list xr) (corr : @py_corr XR) (c : @correlator XR) (rows : list (list xr)) (j i : nat) (rs ts : list R) (kk a g : R) :
  accepted d -> times_ok (A := XR) d -> p_abs p = AbsFloat -> autocorrelation (A := XR) p d mi ma re al "natural" wgt = Ok (lags, corr, c) ->
  data_2d d = Ok rows -> nth_error rows j = Some (map Fin rs) -> nth_error lags i = Some (Fin kk) -> (0 <= kk)%R ->
  timeseries d = map Fin ts -> opt_or (A := XR) al (median_time d) = Fin a -> (0 < a)%R -> (0 < sq_dev32 rs)%R ->
  (0 <= g)%R -> (forall q, S q < length ts -> (nth (S q) ts 0 - nth q ts 0 <= g)%R) ->
  exists s r, length s <= length ts /\ (forall x, In x s -> x < length ts) /\
    (forall q, q < length s -> (Rabs (nth (nth q s 0%nat) ts 0 - (nth q ts 0 + kk)) <= g / 2)%R) /\
    corr_at corr j i = Some (Fin r) /\
    (Rabs (r - rsum_n (length s) (fun q => dev rs q * dev rs (nth q s 0%nat)) / sq_dev32 rs) <=
      (if String.eqb wgt "fractional" then g / 2 / a else (g / 2 / a) * (g / 2 / a)) *
      (rsum_n (length s) (fun q => Rabs (dev rs q * dev rs (nth q s 0%nat))) / sq_dev32 rs))%R.
Proof. exact (natural_wide p d mi ma re al wgt lags corr c rows j i rs ts kk a g). Qed.
Print Assumptions C86_weights_matter.

(** ** C87: the number of pairs does not grow with the lag, *)
Theorem C87_fewer {A : Num} (HA : arith A) (p p' : platform) (d : dstruct) (kk kk' : num) (n n' : nat) (it it' : cor_it) :
  accepted d -> times_ok d -> nle kk kk' = true ->
  naturalSelectionFunctionIdx p d (CorrelationIterator kk n) = (it, Ok tt) ->
  naturalSelectionFunctionIdx p' d (CorrelationIterator kk' n') = (it', Ok tt) ->
  length (selection it') <= length (selection it).
Proof. exact (@count_mono A (arith_laws A HA) (arith_laws2 A HA) p p' d kk kk' n n' it it'). Qed.
Print Assumptions C87_fewer.

(** all points have a partner at the lags up to zero, *)
Theorem C87_all {A : Num} (HA : arith A) (p : platform) (d : dstruct) (kk : num) (n : nat) (it : cor_it) :
  accepted d -> times_ok d -> nle kk nzero = true ->
  naturalSelectionFunctionIdx p d (CorrelationIterator kk n) = (it, Ok tt) ->
  length (selection it) = length (timeseries d).
Proof.
  intros Ha Ht Hk E. rewrite (@count_all A (arith_laws A HA) (arith_laws2 A HA) p d kk n it Ha Ht Hk E).
  destruct (accepted_times d Ha) as [ts [data [er [N [-> [_ [_ [_ [_ H]]]]]]]]]. exact H.
Qed.
Print Assumptions C87_all.

(** none at lags beyond the last of the times from the first, and the correlation there is zero over the sum of squares *)
Theorem C87_none {A : Num} (HA : arith A) (p : platform) (d : dstruct) (kk back : num) (n : nat) (it : cor_it) :
  accepted d -> times_ok d ->
  nth_error (normalised_timeseries d) (length (normalised_timeseries d) - 1) = Some back -> nlt back kk = true ->
  naturalSelectionFunctionIdx p d (CorrelationIterator kk n) = (it, Ok tt) -> selection it = [].
Proof. exact (@count_none A (arith_laws A HA) (arith_laws2 A HA) p d kk back n it). Qed.
Print Assumptions C87_none.
Theorem C87_beyond {A : Num} (HA : arith A) (p : platform) (d : dstruct) (mi ma re al : option num) (wgt : string)
  (lags : list num) (corr : py_corr) (c : correlator) (rows : list (list num)) (j i : nat) (row : list num) (kk back : num) :
  accepted d -> times_ok d -> autocorrelation p d mi ma re al "natural" wgt = Ok (lags, corr, c) ->
  data_2d d = Ok rows -> nth_error rows j = Some row -> nth_error lags i = Some kk ->
  nth_error (normalised_timeseries d) (length (normalised_timeseries d) - 1) = Some back -> nlt back kk = true ->
  corr_at corr j i = Some (nmul nzero (ndiv none_ (sum_sq32 row))).
Proof. exact (value_none A HA p d mi ma re al wgt lags corr c rows j i row kk back). Qed.
Print Assumptions C87_beyond.

(** ** Cases: times 0, 1, 2 with values 1, 2, 4; at lag -2 every point is paired with the first, with offsets 2, 1, 0 *)
Definition first_lags : list xr := map (fun i => Fin ((INR i - INR 2) * 1)) (seq 0 5).
Example C84_85_86_case : exists (d : @dstruct XR) corr c,
  accepted d /\ times_ok (A := XR) d /\ autocorrelation (A := XR) clang d None None None None "natural" "fractional" = Ok (first_lags, corr, c) /\
  data_2d d = Ok [map Fin [1; 2; 4]%R] /\ timeseries d = map Fin [0; 1; 2]%R /\ nth_error first_lags 0 = Some (Fin (-2)) /\
  nth_error first_lags 3 = Some (Fin 1) /\ opt_or (A := XR) None (median_time d) = Fin 1 /\
  pairs_by (A := XR) clang d (naturalSelectionFunctionIdx (A := XR) clang d) (Fin (-2)) 1 = Ok ([0; 0; 0], map Fin [2; 1; 0]%R) /\
  (forall q, count_occ Nat.eq_dec [0; 0; 0] q <= 3) /\ Forall single [1; 2; 4]%R /\ (0 < sq_dev32 [1; 2; 4])%R.
Proof.
  destruct (three_call 1 2 4 clang "fractional") as [d [corr [c [Ha [Ht [Hd [E Hal]]]]]]]; [reflexivity|left; reflexivity|].
  exists d, corr, c.
  assert (Ht' : timeseries d = map Fin [0; 1; 2]%R).
  { rewrite Ht. unfold grid. cbn [seq map INR]. repeat f_equal; ring. }
  assert (Hok : times_ok (A := XR) d).
  { destruct (accepted_times d Ha) as [tx [data [er [N [Ed [_ [Ent _]]]]]]].
    assert (Etx : tx = map Fin (grid 0 1 3)) by (rewrite <- Ht, Ed; reflexivity). rewrite Etx, rel_times_Fin in Ent.
    refine (proj1 (times_exact d (grid 0 1 3) Ent Ht _)). rewrite Ht. apply grid_increasing. lra. }
  assert (Hl : nth_error first_lags 0 = Some (Fin (-2))) by (unfold first_lags; cbn [nth_error map seq INR]; do 2 f_equal; ring).
  assert (HP : pairs_by (A := XR) clang d (naturalSelectionFunctionIdx (A := XR) clang d) (Fin (-2)) 1 = Ok ([0; 0; 0], map Fin [2; 1; 0]%R)).
  { destruct (call_pairs clang d None None None None "natural" "fractional" _ corr c _ 0 0 [1; 2; 4]%R [0; 1; 2]%R (-2) Ha E Hd eq_refl Hl Ht')
      as [f [s [os [Hf [HP HL]]]]]. cbn [length] in HP. injection Hf as <-. rewrite HP.
    destruct (natural_pairs_run clang d (Fin (-2)) 1 s (map Fin os) Ha HP) as [it [Hrun Hsel]].
    assert (Hlen : length s = 3).
    { rewrite <- Hsel. rewrite (C87_all (A := XR) arith_exact clang d (Fin (-2)) 1 it Ha Hok); [rewrite Ht'; reflexivity| |exact Hrun].
      cbn. apply Rleb_true. lra. }
    assert (O : forall q, q < 3 -> nth q os 0%R = (2 - nth q [0; 1; 2] 0)%R /\ nth (nth q s 0) [0; 1; 2]%R 0%R = 0%R).
    { intros q Hq. destruct (C86_offsets clang d (-2) 1 s os [0; 1; 2]%R 1 Ha Hok eq_refl Ht' HP ltac:(lra)) with (q := q) as [O1 O2].
      - intros [|[|q']] Hq'; cbn [nth length] in *; try lra. exfalso; lia.
      - lia.
      - destruct q as [|[|[|]]]; cbn [nth] in *; try lia.
        + destruct O2 as [-> ->]; [lra|]; split; lra.
        + destruct O2 as [-> ->]; [lra|]; split; lra.
        + specialize (O1 ltac:(lra)). destruct (pairs_exact clang d "natural" _ (-2) 1 s (map Fin os) [0; 1; 2]%R Ha Ht' eq_refl HP) as [_ [_ [L2 Eo]]].
          apply (f_equal (fun l => nth_error l 2)) in Eo. rewrite Hlen in Eo. rewrite Hlen in HL. destruct os as [|o0 [|o1 [|o2 [|]]]]; try discriminate HL.
          cbn [seq map nth_error nth] in Eo, O1 |- *. injection Eo as Eo. unfold off_of, dist in Eo. cbn [p_abs clang] in Eo.
          assert (L : nth 2 s 0 < 3) by (apply L2, nth_In; lia). destruct (nth 2 s 0) as [|[|[|]]]; cbn [nth] in *; try lia;
            rewrite Eo in *; first [rewrite Rabs_right in * by lra | rewrite Rabs_left1 in * by lra]; split; lra. }
    rewrite Hlen in HL. destruct os as [|o0 [|o1 [|o2 [|]]]]; try discriminate HL. destruct s as [|s0 [|s1 [|s2 [|]]]]; try discriminate Hlen.
    pose proof (O 0 ltac:(lia)) as [A0 B0]. pose proof (O 1 ltac:(lia)) as [A1 B1]. pose proof (O 2 ltac:(lia)) as [A2 B2].
    cbn [nth] in A0, A1, A2, B0, B1, B2.
    destruct (pairs_exact clang d "natural" _ (-2) 1 _ _ [0; 1; 2]%R Ha Ht' eq_refl HP) as [_ [_ [L2 _]]].
    assert (Z0 : forall x, In x [s0; s1; s2] -> nth x [0; 1; 2]%R 0%R = 0%R -> x = 0).
    { intros x Hx Hz. apply L2 in Hx. cbn [length] in Hx. destruct x as [|[|[|]]]; cbn [nth] in Hz; [reflexivity|lra|lra|lia]. }
    assert (E0 : o0 = 2%R) by lra. assert (E1 : o1 = 1%R) by lra. assert (E2 : o2 = 0%R) by lra. clear A0 A1 A2. subst o0 o1 o2.
    rewrite (Z0 s0), (Z0 s1), (Z0 s2) by (assumption || (cbn; tauto)). reflexivity. }
  split; [exact Ha|]. split; [exact Hok|]. split; [exact E|]. split; [exact Hd|]. split; [exact Ht'|]. split; [exact Hl|].
  split; [unfold first_lags; cbn [nth_error map seq INR]; do 2 f_equal; ring|]. split; [exact Hal|]. split; [exact HP|].
  assert (Hs : Forall single [1; 2; 4]%R) by (repeat constructor; apply (single_int 1) || apply (single_int 2) || apply (single_int 4); lia).
  split; [|split; [exact Hs|rewrite (sq_dev_single _ Hs); apply (sq_dev_pos _ 1 2); cbn; auto; lra]].
  intros q. cbn [count_occ]. destruct (Nat.eq_dec 0 q); lia.
Qed.

(** times 1.5, 2, 5, 9: the number of pairs at the lags -1, 1, 7 and 8 *)
Example C87_case : accepted example_ds /\ times_ok example_ds /\
  map (fun k => length (selection (fst (naturalSelectionFunctionIdx clang example_ds (CorrelationIterator (fl k) 1))))) [-1; 1; 7; 8]%Z = [4; 3; 2; 0] /\
  ok_with (autocorrelation clang example_ds (Some (fl 8)) (Some (fl 8)) (Some (fl 1)) (Some (fl 1)) "natural" "fractional")
    (fun r => sames (fst (fst r)) (ints [0; 8]%Z) && match corr_at (snd (fst r)) 0 1 with Some v => same v (fl 0) | None => false end) = true /\
  nlt (nth 3 (normalised_timeseries example_ds) nzero) (fl 8) = true.
Proof.
  split; [exact (proj1 example_ok)|]. split; [exact (proj1 (proj2 example_ok))|]. split; [vm_compute; reflexivity|].
  split; vm_compute; reflexivity.
Qed.
