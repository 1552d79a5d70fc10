(** Theorems: the number of lags (C103) and the number of digits in a file (C104). *)
From Coq Require Import String SpecFloat.
From Coq Require Import ZArith Reals List Bool Arith Ascii Lia Lra.
From Flocq Require Import Core BinarySingleNaN.
From Verif Require Import Num Mem XR B64 Spec SpecR DataStructure Correlator Sacf Api Examples ValThms LagNumber LagNumber64
  FileReader SpecFile FileExamples FileVals SpecDigits DigitFacts.
Import ListNotations.
Local Open Scope list_scope.

(** ** C103: n points give at least 2n-1 lags, and exactly as many only if they are evenly spaced *)
Theorem C103_least (p : platform) (d : @dstruct XR) (ts : list R) (al : option xr) (sel wgt : string)
  (lags : list xr) (corr : @py_corr XR) (c : @correlator XR) :
  accepted d -> timeseries d = map Fin ts -> increasing (A := XR) (timeseries d) -> 2 <= length ts ->
  (forall x y, In x ts -> In y ts -> (x - y < dbl_max)%R) ->
  autocorrelation (A := XR) p d None None None al sel wgt = Ok (lags, corr, c) ->
  2 * length ts - 1 <= length lags /\
  (length lags = 2 * length ts - 1 <-> exists t0 dd, ts = grid t0 dd (length ts)).
Proof. intros Ha Et Hi Hn Hm. exact (lag_number d ts Ha Et Hi Hn Hm p al sel wgt lags corr c). Qed.
Print Assumptions C103_least.

(** the same in binary64 for time stamps that are multiples of a power of two, as integers are *)
Theorem C103_least_binary64 (exp64 : b64 -> b64) (p : platform) (d : @dstruct (B64 exp64)) (g : Z) (al : option b64) (sel wgt : string)
  (lags : list b64) (corr : @py_corr (B64 exp64)) (c : @correlator (B64 exp64)) :
  (-1073 <= g <= 960)%Z -> accepted d -> (forall t : b64, In t (timeseries d) -> fixed_point g 50 t) ->
  2 <= length (timeseries d) -> increasing (timeseries d) ->
  autocorrelation (A := B64 exp64) p d None None None al sel wgt = Ok (lags, corr, c) ->
  2 * length (timeseries d) - 1 <= length lags /\
  (length lags = 2 * length (timeseries d) - 1 <-> exists t0 dd, map B2R (timeseries d) = grid t0 dd (length (timeseries d))).
Proof. exact (lag_number64 exp64 d p g al sel wgt lags corr c). Qed.
Print Assumptions C103_least_binary64.

(** no bound by the number of points: times 0, 1, N give 2N+1 lags *)
Theorem C103_three_points {A : Num} (HA : arith A) (p : platform) (N : nat) (v : list num) (wgt : string) :
  2 <= N -> (2 * Z.of_nat N + 3 <= INT_MAX)%Z -> length v = 3 -> p_checked p = false -> known_weight wgt ->
  exists d lags corr c, SACF_1d [nofZ 0; nofZ 1; nofZ (Z.of_nat N)] v None = Ok d /\
    autocorrelation p d None None None None "natural" wgt = Ok (lags, corr, c) /\ length lags = 2 * N + 1.
Proof.
  destruct HA as [exp64|].
  - exact (three_binary64 exp64 N v p wgt).
  - intros HN HI Hv Hp Hw. destruct (three_exact N v p wgt HN HI Hv Hp Hw) as (d & lags & corr & c & E & K). exists d, lags, corr, c. split; [|exact K].
    rewrite <- E. cbn [map]. rewrite INR_IZR_INZ. reflexivity.
Qed.
Print Assumptions C103_three_points.

Example C103_case : accepted exact_ds /\ timeseries exact_ds = map Fin (grid 0 1 3) /\ increasing (A := XR) (timeseries exact_ds) /\
  (forall x y, In x (grid 0 1 3) -> In y (grid 0 1 3) -> (x - y < dbl_max)%R).
Proof.
  destruct exact_ds_ok as (H1 & H2 & _). split; [exact H1|]. split; [exact H2|]. split.
  - rewrite H2. assert (S : forall i j x y, (i < j)%nat -> nth_error (map Fin (grid 0 1 3)) i = Some x -> nth_error (map Fin (grid 0 1 3)) j = Some y -> @nlt XR x y = true).
    { intros [|[|[|i]]] [|[|[|j]]] x y Hij Hx Hy; try lia; cbn in Hx, Hy; try (destruct i; discriminate); try (destruct j; discriminate);
        injection Hx as <-; injection Hy as <-; apply GridVals.nlt_Fin; lra. }
    split; [|exact S]. intros i j x y Hij Hx Hy. destruct (Nat.eq_dec i j) as [->|].
    + rewrite Hx in Hy. injection Hy as <-. rewrite nth_error_map in Hx. destruct (nth_error _ j) as [r|]; [|discriminate]. injection Hx as <-. apply GridVals.nle_Fin. lra.
    + assert (K : @nlt XR x y = true) by (eapply S; [|exact Hx|exact Hy]; lia). rewrite nth_error_map in Hx, Hy.
      destruct (nth_error _ i) as [r|]; [|discriminate]. destruct (nth_error _ j) as [s|]; [|discriminate]. injection Hx as <-. injection Hy as <-.
      apply GridVals.nlt_Fin in K. apply GridVals.nle_Fin. lra.
  - assert (HD : (4 < dbl_max)%R).
    { unfold dbl_max. assert (bpow radix2 (-52) <= 1)%R by (change 1%R with (bpow radix2 0); apply bpow_le; lia).
      assert (4 < bpow radix2 1023)%R by (change 4%R with (bpow radix2 2); apply bpow_lt; lia).
      apply Rlt_le_trans with (1 * bpow radix2 1023)%R; [lra|]. apply Rmult_le_compat_r; [lra|lra]. }
    intros x y Hx Hy. unfold grid in Hx, Hy. cbn in Hx, Hy. intuition subst; lra.
Qed.
(** evenly spaced: 5 lags; times 0, 1, 3: 7 lags; times 0, 2, 5: 7 lags *)
Example C103_case_binary64 :
  let n t := ok_with (SACF_1d (ints t) (ints [1; 2; 4]%Z) None) (fun d => ok_with (autocorrelation gcc d None None None None "natural" "fractional") (fun r => length (fst (fst r)) =? 5)) in
  let m t k := ok_with (SACF_1d (ints t) (ints [1; 2; 4]%Z) None) (fun d => ok_with (autocorrelation gcc d None None None None "natural" "fractional") (fun r => length (fst (fst r)) =? k)) in
  n [0; 1; 2]%Z = true /\ m [0; 1; 3]%Z 7 = true /\ m [0; 2; 5]%Z 7 = true.
Proof. vm_compute. auto. Qed.

(** ** C104: a file written with 17 significant digits is read back exactly *)
Theorem C104_seventeen_digits exp64 (n : nat) (ls : list line) (ts vs es : list b64) :
  n = 2 \/ n = 3 -> Forall line_ok ls -> all_of n ls -> Forall (fun l => Forall in_range (literals_of l)) ls -> ts <> [] ->
  Forall2 (written 17) (column 0 ls) ts -> Forall2 (written 17) (column 1 ls) vs -> (n = 3 -> Forall2 (written 17) (column 2 ls) es) ->
  exists d, ds_file (A := B64 exp64) (Some (text_of_lines ls)) = Ok d /\ timeseries d = ts /\ data_2d d = Ok [vs] /\
    err_2d d = Ok (if n =? 3 then [es] else []).
Proof. exact (read_17 exp64 n ls ts vs es). Qed.
Print Assumptions C104_seventeen_digits.

(** time stamps with at most 15 significant digits that rise in the file rise in the data structure *)
Theorem C104_fifteen_digits exp64 (n : nat) (ls : list line) :
  n = 2 \/ n = 3 -> Forall line_ok ls -> all_of n ls -> Forall (fun l => Forall in_range (literals_of l)) ls -> column 0 ls <> [] ->
  let times := map literal_real (column 0 ls) in
  Forall (short 15) times -> Forall zero_or_normal times ->
  (forall i j a b, i < j -> nth_error times i = Some a -> nth_error times j = Some b -> (a < b)%R) ->
  exists d, ds_file (A := B64 exp64) (Some (text_of_lines ls)) = Ok d /\ length (timeseries d) = length times /\ increasing (timeseries d).
Proof. exact (read_15 exp64 n ls). Qed.
Print Assumptions C104_fifteen_digits.

(** 16 digits are not enough for the first ... *)
Definition lit_frac (ds : list nat) : literal := {| l_sign := NoSign; l_int := [0]; l_frac := Some ds; l_exp := None |}.
Definition row2 (a b : literal) : line := Row {| r_fields := [([], a); (txt " ", b)]; r_tail := [] |}.
Lemma real_is l m s : (if negative (l_sign l) then - mantissa l else mantissa l)%Z = m -> scale l = s -> literal_real l = (IZR m * powerRZ 10 s)%R.
Proof. unfold literal_real. intros -> ->. reflexivity. Qed.
(** 0.1 + 0.2 as a double *)
Definition sum_3 : b64 := @B754_finite 53 1024 false 5404319552844596 (-54) eq_refl.
Lemma sum_3_R : B2R sum_3 = (5404319552844596 * / 18014398509481984)%R.
Proof. reflexivity. Qed.

Theorem C104_sixteen_refuted : exists (a l : literal) (x : b64),
  Forall line_ok [row2 a l] /\ written 16 l x /\
  ok_with (ds_file (A := BB) (Some (text_of_lines [row2 a l]))) (fun d => ok_with (data_2d d) (fun r => negb (sames2 r [[x]]))) = true.
Proof.
  exists (whole [0]), (lit_frac (3 :: repeat 0 15)), sum_3. split; [apply lines_okb_ok; vm_compute; reflexivity|]. split; [|vm_compute; reflexivity].
  split; [reflexivity|]. split; [reflexivity|]. right. split; [vm_compute; discriminate|]. rewrite (real_is _ 3000000000000000%Z (-16)%Z) by (vm_compute; reflexivity). change (scale _) with (-16)%Z. rewrite sum_3_R. cbn [powerRZ]. change (Pos.to_nat 16) with 16. apply Rabs_le. lra.
Qed.
Print Assumptions C104_sixteen_refuted.

(** ... and too many for the second: the stamps become equal, and a Correlator cannot be made *)
Definition nine : list nat := [9; 0; 0; 7; 1; 9; 9; 2; 5; 4; 7; 4; 0; 9; 9].
Theorem C104_sixteen_times_refuted : exists (a b l : literal),
  Forall line_ok [row2 a l; row2 b l] /\ short 16 (literal_real a) /\ short 16 (literal_real b) /\ (literal_real a < literal_real b)%R /\
  exists d, ds_file (A := BB) (Some (text_of_lines [row2 a l; row2 b l])) = Ok d /\ length (timeseries d) = 2 /\ new_Correlator d = UB BadConversion.
Proof.
  exists (whole (nine ++ [2])), (whole (nine ++ [3])), (whole [1]). split; [apply lines_okb_ok; vm_compute; reflexivity|].
  assert (Ea : literal_real (whole (nine ++ [2])) = 9007199254740992%R) by (rewrite (real_is _ 9007199254740992%Z 0%Z) by (vm_compute; reflexivity); cbn; ring).
  assert (Eb : literal_real (whole (nine ++ [3])) = 9007199254740993%R) by (rewrite (real_is _ 9007199254740993%Z 0%Z) by (vm_compute; reflexivity); cbn; ring).
  split; [rewrite Ea; exists 9007199254740992%Z, 0%Z; split; [reflexivity|cbn; ring]|].
  split; [rewrite Eb; exists 9007199254740993%Z, 0%Z; split; [reflexivity|cbn; ring]|]. split; [lra|].
  destruct (ok_with_ok (ds_file (A := BB) (Some (text_of_lines [row2 (whole (nine ++ [2])) (whole [1]); row2 (whole (nine ++ [3])) (whole [1])])))
    (fun d => (length (timeseries d) =? 2) && match undefined (new_Correlator d) with Some BadConversion => true | _ => false end)) as (d & E & H); [vm_compute; reflexivity|].
  apply andb_prop in H as [H1 H2]. exists d. split; [exact E|]. split; [apply Nat.eqb_eq, H1|].
  destruct (new_Correlator d) as [c|e|u|]; cbn [undefined] in H2; try discriminate H2. destruct u; try discriminate H2. reflexivity.
Qed.
Print Assumptions C104_sixteen_times_refuted.

(** "0.30000000000000004 1" *)
Example C104_case :
  let ls := [comment_line; row2 (lit_frac (3 :: repeat 0 15 ++ [4])) (lit_frac (5 :: repeat 0 16))] in
  Forall line_ok ls /\ all_of 2 ls /\ Forall (fun l => Forall in_range (literals_of l)) ls /\
  Forall2 (written 17) (column 0 ls) [sum_3] /\ Forall2 (written 17) (column 1 ls) [half 1] /\
  Forall (short 15) (map literal_real (column 0 [row2 lit_1_5 (whole [2])])) /\ Forall zero_or_normal (map literal_real (column 0 [row2 lit_1_5 (whole [2])])).
Proof.
  cbv zeta. destruct (lines_okb_ok [comment_line; row2 (lit_frac (3 :: repeat 0 15 ++ [4])) (lit_frac (5 :: repeat 0 16))]) as [H1 H2]; [vm_compute; reflexivity|].
  split; [exact H1|]. split; [repeat (apply Forall_cons; [cbn; lia|]); apply Forall_nil|]. split.
  { eapply Forall_impl; [|exact H2]. intros l Hl. eapply Forall_impl; [|exact Hl]. intros x. apply (fits_in_range (fun x => x)). }
  assert (E5 : B2R (half 1) = (/ 2)%R).
  { rewrite <- SF2R_B2SF. replace (B2SF (half 1)) with (S754_finite false 4503599627370496%positive (-53)%Z) by (vm_compute; reflexivity). unfold SF2R, Defs.F2R. cbn. lra. }
  split; [|split; [|split]].
  - change (column 0 _) with [lit_frac (3 :: repeat 0 15 ++ [4])]. apply Forall2_cons; [|apply Forall2_nil]. split; [reflexivity|]. split; [reflexivity|]. right.
    split; [vm_compute; discriminate|]. rewrite (real_is _ 30000000000000004%Z (-17)%Z) by (vm_compute; reflexivity). change (scale _) with (-17)%Z. rewrite sum_3_R.
    cbn [powerRZ]. change (Pos.to_nat 17) with 17. apply Rabs_le. lra.
  - change (column 1 _) with [lit_frac (5 :: repeat 0 16)]. apply Forall2_cons; [|apply Forall2_nil]. split; [vm_compute; reflexivity|]. split; [vm_compute; reflexivity|]. right.
    split; [vm_compute; discriminate|]. rewrite (real_is _ 50000000000000000%Z (-17)%Z) by (vm_compute; reflexivity). change (scale _) with (-17)%Z. rewrite E5.
    cbn [powerRZ]. change (Pos.to_nat 17) with 17. apply Rabs_le. lra.
  - change (column 0 _) with [lit_1_5]. apply Forall_cons; [|apply Forall_nil]. exists 150%Z, (-2)%Z. split; [reflexivity|]. reflexivity.
  - change (column 0 _) with [lit_1_5]. apply Forall_cons; [|apply Forall_nil]. right. apply Rle_trans with 1%R; [change 1%R with (bpow radix2 0); apply bpow_le; lia|].
    rewrite (real_is _ 150%Z (-2)%Z) by (vm_compute; reflexivity). change (scale _) with (-2)%Z. cbn [powerRZ]. change (Pos.to_nat 2) with 2. apply Rle_trans with (IZR 1); [lra|]. rewrite Rabs_pos_eq; lra.
Qed.
