(** Theorems: time reversal, sums and quadratic forms of the correlations of evenly sampled data, unusual alpha (C78, C79, C80). *)
From Coq Require Import String.
From Coq Require Import ZArith Reals List Bool Arith Lia Lra.
From Flocq Require Import Core BinarySingleNaN.
From Verif Require Import Num Mem MemFacts XR B64 Spec SpecR DataStructure Correlator Sacf Api Examples ConstrFacts GridVals GridCall ValThms GridSums InfFacts AlphaFacts B64Facts Laws
  Props01_Construction.
Import ListNotations.
Local Open Scope list_scope.

(** ** C78: reversed data *)
Theorem C78_reversed (p p' : platform) (d d' : @dstruct XR) (mi ma re al mi' ma' re' al' : option xr) (wgt wgt' : string)
  (lags lags' : list xr) (corr corr' : @py_corr XR) (c c' : @correlator XR) (rows rows' : list (list xr)) (j j' i i' : nat) (rs : list R)
  (t0 t0' dd a a' : R) (M m : nat) :
  accepted d -> autocorrelation (A := XR) p d mi ma re al "natural" wgt = Ok (lags, corr, c) -> data_2d d = Ok rows ->
  accepted d' -> autocorrelation (A := XR) p' d' mi' ma' re' al' "natural" wgt' = Ok (lags', corr', c') -> data_2d d' = Ok rows' ->
  nth_error rows j = Some (map Fin rs) -> nth_error rows' j' = Some (map Fin (rev rs)) ->
  timeseries d = map Fin (grid t0 dd M) -> timeseries d' = map Fin (grid t0' dd M) -> (0 < dd)%R ->
  opt_or (A := XR) al (median_time d) = Fin a -> (0 < a)%R -> opt_or (A := XR) al' (median_time d') = Fin a' -> (0 < a')%R ->
  nth_error lags i = Some (Fin (INR m * dd)) -> nth_error lags' i' = Some (Fin (INR m * dd)) ->
  corr_at corr' j' i' = corr_at corr j i.
Proof. exact (call_reversed p p' d d' mi ma re al mi' ma' re' al' wgt wgt' lags corr c lags' corr' c' rows rows' j j' i i' rs t0 t0' dd a a' M m). Qed.
Print Assumptions C78_reversed.

(** a call with all defaults on three values at the times 0, 1, 2 *)
Lemma three_call (x y z : R) (p : platform) (wgt : string) : p_checked p = false -> known_weight wgt ->
  exists (d : @dstruct XR) corr c, accepted d /\ timeseries d = map Fin (grid 0 1 3) /\ data_2d d = Ok [map Fin [x; y; z]] /\
    autocorrelation (A := XR) p d None None None None "natural" wgt = Ok (map (fun i => Fin ((INR i - INR 2) * 1)) (seq 0 5), corr, c) /\
    opt_or (A := XR) None (median_time d) = Fin 1.
Proof.
  intros Hp Hw. destruct (one_dataset (A := XR) (map Fin (grid 0 1 3)) (map Fin [x; y; z]) None) as [_ [_ H]].
  destruct H as [d [Ed [Ht [Hd _]]]]; [discriminate|discriminate|reflexivity|]. exists d.
  assert (Ha : accepted d) by (left; eauto).
  assert (Hb : (INR (3 - 1) * 1 <= dbl_max)%R).
  { unfold dbl_max. cbn [Nat.sub INR]. assert (bpow radix2 (-52) <= 1)%R by (change 1%R with (bpow radix2 0); apply bpow_le; lia).
    assert (bpow radix2 1 <= bpow radix2 1023)%R by (apply bpow_le; lia). change (bpow radix2 1) with 2%R in H0. nra. }
  assert (Hi : (2 * Z.of_nat 3 + 1 <= INT_MAX)%Z) by (unfold INT_MAX; cbn; lia).
  destruct (grid_call p d wgt 0 1 3 [map Fin [x; y; z]] Ha Ht ltac:(lia) ltac:(lra) Hb Hi Hp Hw) as [corr [c [E _]]].
  - intros _. cbn [Nat.sub INR]. unfold INT_MAX. cbn. lra.
  - exact Hd.
  - exists corr, c. split; [exact Ha|]. split; [exact Ht|]. split; [exact Hd|]. split; [exact E|].
    destruct (grid_defaults d 0 1 3 Ha Ht ltac:(lia) ltac:(lra) Hb Hi) as [_ [_ [_ [_ [_ [Hm _]]]]]].
    cbn [opt_or]. rewrite Hm. cbn [Nat.sub INR]. f_equal. lra.
Qed.

(** values 1, 2, 4 with one compiler and weight, values 4, 2, 1 with the others; lag 1 *)
Example C78_case : exists (d d' : @dstruct XR) corr c corr' c', let lags := map (fun i => Fin ((INR i - INR 2) * 1)) (seq 0 5) in
  accepted d /\ autocorrelation (A := XR) gcc d None None None None "natural" "fractional" = Ok (lags, corr, c) /\ data_2d d = Ok [map Fin [1; 2; 4]%R] /\
  accepted d' /\ autocorrelation (A := XR) clang d' None None None None "natural" "gaussian" = Ok (lags, corr', c') /\
  data_2d d' = Ok [map Fin (rev [1; 2; 4]%R)] /\ timeseries d = map Fin (grid 0 1 3) /\ timeseries d' = map Fin (grid 0 1 3) /\
  opt_or (A := XR) None (median_time d) = Fin 1 /\ opt_or (A := XR) None (median_time d') = Fin 1 /\ nth_error lags 3 = Some (Fin (INR 1 * 1)).
Proof.
  destruct (three_call 1 2 4 gcc "fractional") as [d [corr [c [H1 [H2 [H3 [H4 H5]]]]]]]; [reflexivity|left; reflexivity|].
  destruct (three_call 4 2 1 clang "gaussian") as [d' [corr' [c' [K1 [K2 [K3 [K4 K5]]]]]]]; [reflexivity|right; right; reflexivity|].
  exists d, d', corr, c, corr', c'. cbv zeta. repeat (split; [assumption|]).
  cbn [nth_error map seq]. do 2 f_equal. cbn [INR]. ring.
Qed.

(** not at negative lags: lag -1 of 1, 3, 8 and of 8, 3, 1 (lag 1 agrees) *)
Theorem C78_negative_lags_refuted : exists d d' : @dstruct BB,
  SACF_1d (ints [0; 1; 2]%Z) (ints [1; 3; 8]%Z) None = Ok d /\ SACF_1d (ints [0; 1; 2]%Z) (rev (ints [1; 3; 8]%Z)) None = Ok d' /\
  ok_with (autocorrelation clang d None None None None "natural" "fractional") (fun x =>
    ok_with (autocorrelation clang d' None None None None "natural" "fractional") (fun y =>
      sames (fst (fst x)) (ints [-2; -1; 0; 1; 2]%Z) && sames (fst (fst y)) (ints [-2; -1; 0; 1; 2]%Z) &&
      match corr_at (snd (fst x)) 0 1, corr_at (snd (fst y)) 0 1, corr_at (snd (fst x)) 0 3, corr_at (snd (fst y)) 0 3 with
      | Some u, Some v, Some u', Some v' => nlt u v && same u' v'
      | _, _, _, _ => false
      end)) = true.
Proof.
  assert (K : forall t v, ok_with (SACF_1d (A := BB) t v None) (fun _ => true) = true ->
    SACF_1d t v None = Ok (match SACF_1d t v None with Ok d => d | _ => example_ds end)).
  { intros t0 v H. destruct (ok_with_ok _ _ H) as [d [E _]]. rewrite E. reflexivity. }
  eexists _, _. split; [apply K; vm_compute; reflexivity|]. split; [apply K; vm_compute; reflexivity|]. vm_compute. reflexivity.
Qed.
Print Assumptions C78_negative_lags_refuted.

(** ** C79: the correlations at the non-negative multiples of the sampling step *)
Theorem C79_sum (p : platform) (d : @dstruct XR) (mi ma re al : option xr) (wgt : string) (lags : list xr) (corr : @py_corr XR) (c : @correlator XR)
  (rows : list (list xr)) (j : nat) (rs : list R) (t0 dd a : R) (M : nat) (v : nat -> R) :
  accepted d -> autocorrelation (A := XR) p d mi ma re al "natural" wgt = Ok (lags, corr, c) -> data_2d d = Ok rows ->
  nth_error rows j = Some (map Fin rs) -> timeseries d = map Fin (grid t0 dd M) -> (0 < dd)%R ->
  opt_or (A := XR) al (median_time d) = Fin a -> (0 < a)%R ->
  (forall m, m < M -> exists i, nth_error lags i = Some (Fin (INR m * dd)) /\ corr_at corr j i = Some (Fin (v m))) ->
  0 < M -> (v 0%nat + 2 * rsum_n (M - 1) (fun m => v (S m)) = 0)%R.
Proof. intros H1 H2 H3 H4 H5 H6 H7 H8 H9. exact (call_sum p d mi ma re al wgt lags corr c rows j rs t0 dd a M H1 H2 H3 H4 H5 H6 H7 H8 v H9). Qed.
Print Assumptions C79_sum.

Theorem C79_positive (p : platform) (d : @dstruct XR) (mi ma re al : option xr) (wgt : string) (lags : list xr) (corr : @py_corr XR) (c : @correlator XR)
  (rows : list (list xr)) (j : nat) (rs : list R) (t0 dd a : R) (M : nat) (v : nat -> R) (n : nat) (b : nat -> R) :
  accepted d -> autocorrelation (A := XR) p d mi ma re al "natural" wgt = Ok (lags, corr, c) -> data_2d d = Ok rows ->
  nth_error rows j = Some (map Fin rs) -> timeseries d = map Fin (grid t0 dd M) -> (0 < dd)%R ->
  opt_or (A := XR) al (median_time d) = Fin a -> (0 < a)%R ->
  (forall m, m < M -> exists i, nth_error lags i = Some (Fin (INR m * dd)) /\ corr_at corr j i = Some (Fin (v m))) ->
  n <= M -> (0 <= rsum_n n (fun i => rsum_n n (fun k => b i * b k * v (Nat.max i k - Nat.min i k)%nat)))%R.
Proof. intros H1 H2 H3 H4 H5 H6 H7 H8 H9. exact (call_psd p d mi ma re al wgt lags corr c rows j rs t0 dd a M H1 H2 H3 H4 H5 H6 H7 H8 v H9 n b). Qed.
Print Assumptions C79_positive.

(** values 1, 2, 4 at the times 0, 1, 2: correlations 1, -1/42, -10/21 *)
Example C79_case : exists (d : @dstruct XR) corr c, let lags := map (fun i => Fin ((INR i - INR 2) * 1)) (seq 0 5) in
  let v := fun m => match m with 0 => 1 | 1 => -1/42 | _ => -10/21 end%R in
  accepted d /\ autocorrelation (A := XR) gcc d None None None None "natural" "fractional" = Ok (lags, corr, c) /\ data_2d d = Ok [map Fin [1; 2; 4]%R] /\
  timeseries d = map Fin (grid 0 1 3) /\ opt_or (A := XR) None (median_time d) = Fin 1 /\
  (forall m, m < 3 -> exists i, nth_error lags i = Some (Fin (INR m * 1)) /\ corr_at corr 0 i = Some (Fin (v m))).
Proof.
  destruct (three_call 1 2 4 gcc "fractional") as [d [corr [c [H1 [H2 [H3 [H4 H5]]]]]]]; [reflexivity|left; reflexivity|].
  exists d, corr, c. cbv zeta. repeat (split; [assumption|]). intros m Hm. exists (2 + m)%nat.
  assert (HL : nth_error (map (fun i => Fin ((INR i - INR 2) * 1)) (seq 0 5)) (2 + m) = Some (Fin (INR m * 1))).
  { destruct m as [|[|[|m]]]; try lia; cbn [nth_error map seq Nat.add]; do 2 f_equal; cbn [INR]; ring. }
  split; [exact HL|].
  destruct (grid_value_pos gcc d None None None None "fractional" _ corr c _ 0 (2 + m) [1; 2; 4]%R 0 1 1 3 m H1 H4 H3 eq_refl HL H2 Rlt_0_1 H5 Rlt_0_1) as [_ [_ ->]].
  f_equal. rewrite sq_dev_single by (repeat constructor; apply (single_int 1) || apply (single_int 2) || apply (single_int 4); lia).
  assert (EN : sq_dev [1; 2; 4]%R = (14 / 3)%R) by (unfold sq_dev, rmean, rsum; cbn; lra).
  rewrite EN. cbn [xdiv]. destruct (Reqb_spec (14 / 3) 0) as [C|_]; [lra|]. f_equal.
  unfold rsum_n, dev, rmean, rsum. destruct m as [|[|[|m]]]; try lia; cbn; lra.
Qed.

(** ** C80: unusual alpha *)
Theorem C80_nan {A : Num} (HA : arith A) (p : platform) (d : dstruct) (mi ma re al : option num) (sel wgt : string) (lags : list num) (corr : py_corr)
  (c : correlator) (rows : list (list num)) (j i : nat) (row : list num) (kk : num) (f : cor_it -> meth cor_it unit) (n : nat) (s : list nat) (offs : list num) :
  accepted d -> autocorrelation p d mi ma re al sel wgt = Ok (lags, corr, c) -> data_2d d = Ok rows ->
  nth_error rows j = Some row -> nth_error lags i = Some kk -> selection_function p sel d = Some f -> pairs_by p d f kk n = Ok (s, offs) ->
  (wgt = "gaussian"%string -> forall x : num, nisnan x = true -> nisnan (nexp x) = true) ->
  nisnan (opt_or al (median_time d)) = true -> s <> [] -> exists v, corr_at corr j i = Some v /\ nisnan v = true.
Proof. exact (call_nan_alpha A HA p d mi ma re al sel wgt lags corr c rows j i row kk f n s offs). Qed.
Print Assumptions C80_nan.

Theorem C80_zero {A : Num} (HA : arith A) (p : platform) (d : dstruct) (mi ma re al : option num) (sel wgt : string) (lags : list num) (corr : py_corr)
  (c : correlator) (rows : list (list num)) (j i : nat) (row : list num) (kk : num) (f : cor_it -> meth cor_it unit) (n : nat) (s : list nat) (offs : list num) (o : num) :
  accepted d -> autocorrelation p d mi ma re al sel wgt = Ok (lags, corr, c) -> data_2d d = Ok rows ->
  nth_error rows j = Some row -> nth_error lags i = Some kk -> selection_function p sel d = Some f -> pairs_by p d f kk n = Ok (s, offs) ->
  (wgt = "gaussian"%string -> forall x : num, nisnan x = true -> nisnan (nexp x) = true) ->
  neqb (opt_or al (median_time d)) nzero = true -> In o offs -> neqb o nzero = true -> exists v, corr_at corr j i = Some v /\ nisnan v = true.
Proof. intros H1 H2 H3 H4 H5 H6 H7. exact (call_zero_alpha A HA p d mi ma re al sel wgt lags corr c rows j i row kk f n s offs H1 H2 H3 H4 H5 H6 H7 o). Qed.
Print Assumptions C80_zero.

Theorem C80_infinite {A : Num} (HA : arith A) (p : platform) (d : dstruct) (mi ma re al : option num) (sel wgt : string) (lags : list num) (corr : py_corr)
  (c : correlator) (rows : list (list num)) (j i : nat) (row : list num) (kk : num) (f : cor_it -> meth cor_it unit) (n : nat) (s : list nat) (offs : list num) :
  accepted d -> autocorrelation p d mi ma re al sel wgt = Ok (lags, corr, c) -> data_2d d = Ok rows ->
  nth_error rows j = Some row -> nth_error lags i = Some kk -> selection_function p sel d = Some f -> pairs_by p d f kk n = Ok (s, offs) ->
  (wgt = "gaussian"%string -> (forall x : num, neqb x nzero = true -> neqb (nexp x) none_ = true) /\ forall o, In o offs -> finite (nmul o o)) ->
  (forall o, In o offs -> finite o) -> nisnan (opt_or al (median_time d)) = false -> ~ finite (opt_or al (median_time d)) ->
  let x := fun q => nsub (nth q row nzero) (mean row) in
  corr_at corr j i = Some (nmul (fold_left (fun acc q => nadd acc (nmul (x q) (x (nth q s 0)))) (seq 0 (length s)) nzero) (ndiv none_ (sum_sq32 row))).
Proof.
  intros H1 H2 H3 H4 H5 H6 H7 H8 H9 H10 H11. apply (call_inf_alpha A HA p d mi ma re al sel wgt lags corr c rows j i row kk f n s offs H1 H2 H3 H4 H5 H6 H7 H8 H9).
  split; [exact H10|]. unfold finite in H11. destruct (nfloor (opt_or al (median_time d))); [exfalso; apply H11; discriminate|reflexivity].
Qed.
Print Assumptions C80_infinite.

Theorem C80_opposite {A : Num} (HA : arith A) (p : platform) (d : dstruct) (mi ma re al : option num) (sel : string) (lags : list num) (corr : py_corr)
  (c : correlator) (rows : list (list num)) (j i : nat) (row : list num) (kk : num) (f : cor_it -> meth cor_it unit) (n : nat) (s : list nat) (offs : list num) (o : num) :
  accepted d -> autocorrelation p d mi ma re al sel "fractional" = Ok (lags, corr, c) -> data_2d d = Ok rows ->
  nth_error rows j = Some row -> nth_error lags i = Some kk -> selection_function p sel d = Some f -> pairs_by p d f kk n = Ok (s, offs) ->
  finite (opt_or al (median_time d)) -> neqb (opt_or al (median_time d)) nzero = false ->
  In o offs -> neqb o (nneg (opt_or al (median_time d))) = true -> exists v, corr_at corr j i = Some v /\ ~ finite v.
Proof.
  intros H1 H2 H3 H4 H5 H6 H7. exact (call_opposite_alpha A HA p d mi ma re al sel "fractional" lags corr c rows j i row kk f n s offs H1 H2 H3 H4 H5 H6 H7 o eq_refl).
Qed.
Print Assumptions C80_opposite.

(** times 0, 1.5, 2, 5 (lag 2: pairs 0-2 with offset 0, 1-3 with offset 1.5 and 2-3 with offset 1), values 1, -1, 4, 0 *)
Example C80_case :
  let d := SACF_1d (fl 0 :: half 3 :: ints [2; 5]%Z) (ints [1; -1; 4; 0]%Z) None in
  let call := fun al wgt => do d <- d; returned (autocorrelation clang d (Some (fl 2)) (Some (fl 2)) (Some (fl 1)) (Some al) "natural" wgt) in
  let value := fun al wgt (test : b64 -> bool) => match call al wgt with Ok (l, Flat [_; v]) => sames l (ints [0; 2]%Z) && test v | _ => false end in
  ok_with (do d <- d; pairs_by clang d (naturalSelectionFunctionIdx clang d) (fl 2) 1)
    (fun so => match fst so with [2; 3; 3] => sames (snd so) [fl 0; half 3; fl 1] | _ => false end) = true /\
  value B754_nan "fractional"%string is_nan = true /\ value (fl 0) "fractional_squared"%string is_nan = true /\
  value (nofZ (2 ^ 1024)) "fractional"%string (fun v => same v (nmul (fl (-1)) (ndiv (fl 1) (fl 14)))) = true /\
  value (fl (-1)) "fractional"%string (fun v => negb (is_finite v)) = true /\ value (nneg (half 3)) "fractional"%string (fun v => negb (is_finite v)) = true /\
  value (fl (-1)) "fractional_squared"%string (fun v => is_finite v) = true.
Proof. repeat split; vm_compute; reflexivity. Qed.
