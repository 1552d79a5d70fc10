(** Consequences of the value formulas. *)
From Coq Require Import String.
From Coq Require Import ZArith Reals List Bool Arith Lia Lra.
From Coq Require Import SpecFloat.
From Flocq Require Import Core BinarySingleNaN.
From Verif Require Import Num Mem MemFacts XR B64 Spec SpecR DataStructure DSFacts Correlator Sacf Api CorrFacts LoopFacts MainFacts
  Laws B64Facts Laws2 WeightFacts ConstrFacts SelFacts SelThms TimeFacts GridFacts SafeFacts DefaultFacts ValFacts ExactFacts GridVals NanFacts GridCall.
Import ListNotations.
Local Open Scope list_scope.
Local Open Scope R_scope.

(** ** lag zero *)
Lemma proper_weight A (HA : arith A) wgt (a : num) : proper_alpha wgt a ->
  exists w, weight_function wgt = Some w /\ forall dq, neqb dq nzero = true -> neqb (w a dq) none_ = true.
Proof.
  intros H. pose proof (arith_laws A HA) as L1. pose proof (arith_laws2 A HA) as L2. pose proof (arith_laws3 A HA) as L3.
  destruct H as [[[->| ->] H]|[-> [G H]]]; eexists; (split; [reflexivity|]); intros dq Hq.
  - apply frac_zero; assumption.
  - apply sq_zero; assumption.
  - apply gauss_zero; assumption.
Qed.

Lemma zero_lag_proper A (HA : arith A) p d mi ma re al wgt lags corr c rows j i row kk :
  accepted d -> times_ok d -> increasing (normalised_timeseries d) ->
  autocorrelation p d mi ma re al "natural" wgt = Ok (lags, corr, c) ->
  data_2d d = Ok rows -> nth_error rows j = Some row -> nth_error lags i = Some kk -> neqb kk nzero = true ->
  proper_alpha wgt (opt_or al (median_time d)) ->
  corr_at corr j i = Some (nmul (sum (map (fun x => nmul (nsub x (mean row)) (nsub x (mean row))) row)) (ndiv none_ (sum_sq32 row))).
Proof.
  intros Ha Ht Hi E Hd Hj Hl Hk Hp. destruct (proper_weight A HA wgt _ Hp) as [w [Hw Hone]].
  pose proof (arith_laws A HA) as L1. pose proof (arith_laws2 A HA) as L2. pose proof (arith_laws4 A HA) as L4.
  exact (zero_lag p d mi ma re al wgt lags corr c rows j i row kk w Ha Ht Hi E Hd Hj Hl Hk Hw Hone).
Qed.

Lemma zero_lag_one p d mi ma re al wgt lags corr c rows j i (rs ts : list R) (a v w : R) :
  accepted d -> autocorrelation (A := XR) p d mi ma re al "natural" wgt = Ok (lags, corr, c) ->
  data_2d d = Ok rows -> nth_error rows j = Some (map Fin rs) -> nth_error lags i = Some (Fin 0) ->
  timeseries d = map Fin ts -> increasing (A := XR) (timeseries d) -> opt_or al (median_time d) = Fin a -> 0 < a ->
  Forall single rs -> In v rs -> In w rs -> v <> w ->
  corr_at corr j i = Some (Fin 1).
Proof.
  intros Ha E Hd Hj Hi Ht Hinc Hal Hpos Hs Hv Hw Hne.
  rewrite (zero_lag_value p d mi ma re al wgt lags corr c rows j i rs ts a Ha E Hd Hj Hi Ht Hinc Hal Hpos).
  rewrite sq_dev_single by exact Hs. rewrite xdiv_self by (apply (sq_dev_pos rs v w); assumption). reflexivity.
Qed.

Lemma zero_lag_b64 exp64 p (d : @dstruct (B64 exp64)) mi ma re al wgt lags corr c rows j i row kk :
  accepted d -> times_ok d -> increasing (normalised_timeseries d) ->
  autocorrelation p d mi ma re al "natural" wgt = Ok (lags, corr, c) ->
  data_2d d = Ok rows -> nth_error rows j = Some row -> nth_error lags i = Some kk -> neqb kk nzero = true ->
  proper_alpha wgt (opt_or al (median_time d)) ->
  (forall x, In x row -> nisnan x = false /\ nf32 x = x) ->
  let P : b64 := sum_sq32 row in
  is_finite P = true -> bpow radix2 (-1000) <= B2R P <= bpow radix2 1000 ->
  exists v : b64, corr_at corr j i = Some v /\ is_finite v = true /\ 1 - bpow radix2 (-53) <= B2R v <= 1.
Proof.
  intros Ha Ht Hi E Hd Hj Hl Hk Hp Hx P HP HB.
  pose proof (zero_lag_proper (B64 exp64) (arith_binary64 exp64) p d mi ma re al wgt lags corr c rows j i row kk Ha Ht Hi E Hd Hj Hl Hk Hp) as HV.
  assert (EP : @sum (B64 exp64) (map (fun x => nmul (nsub x (mean row)) (nsub x (mean row))) row) = P).
  { unfold P, sum_sq32. f_equal.
    assert (Ev : valid row = row).
    { unfold valid. clear -Hx. induction row as [|x row IH]; [reflexivity|]. cbn [filter]. rewrite (proj1 (Hx x (or_introl Logic.eq_refl))). cbn [negb].
      f_equal. apply IH. intros y Hy. apply Hx. right. exact Hy. }
    rewrite Ev. apply map_ext_in. intros x H. rewrite (proj2 (Hx x H)). reflexivity. }
  rewrite EP in HV. destruct (self_quotient P HP HB) as [v [Hv Hr]]. exists (Bmult mode_NE P (Bdiv mode_NE (b64_ofZ 1) P)). split; [exact HV|].
  revert Hv.
  destruct (Bmult mode_NE P (Bdiv mode_NE (b64_ofZ 1) P)) as [s|s| |s m e b]; cbn [toE is_finite]; try destruct s; intros Hv; try discriminate;
    (split; [reflexivity|]); injection Hv as <-; exact Hr.
Qed.

(** ** constant rows *)
Lemma rsum_const (rs : list R) u : (forall x, In x rs -> x = u) -> rsum rs = INR (length rs) * u.
Proof.
  induction rs as [|x rs IH]; intros H; [cbn; ring|]. change (rsum (x :: rs)) with (x + rsum rs).
  rewrite IH by (intros y Hy; apply H; right; exact Hy). rewrite (H x) by (left; reflexivity). cbn [length]. rewrite S_INR. ring.
Qed.

Lemma rmean_const (rs : list R) u : rs <> [] -> (forall x, In x rs -> x = u) -> rmean rs = u.
Proof.
  intros Hn H. unfold rmean. rewrite (rsum_const rs u H). assert (0 < INR (length rs)) by (apply lt_0_INR; destruct rs; [congruence|cbn; lia]). field. lra.
Qed.

Lemma constant_value p d mi ma re al sel wgt lags corr c rows j i (rs ts : list R) (kk a u : R) :
  accepted d -> autocorrelation (A := XR) p d mi ma re al sel wgt = Ok (lags, corr, c) ->
  data_2d d = Ok rows -> nth_error rows j = Some (map Fin rs) -> nth_error lags i = Some (Fin kk) ->
  timeseries d = map Fin ts -> opt_or al (median_time d) = Fin a -> 0 < a ->
  (forall x, In x rs -> x = u) ->
  (single u -> corr_at corr j i = Some NaN) /\ (~ single u -> corr_at corr j i = Some (Fin 0)).
Proof.
  intros Ha E Hd Hj Hi Ht Hal Hpos Hu.
  destruct (exact_value p d mi ma re al _ wgt lags corr c rows j i rs ts kk a Ha E Hd Hj Hi Ht Hal Hpos)
    as [sf [sidx [Sv [Hs [_ [En [HS [Hn [HL [K1 [K2 HV]]]]]]]]]]].
  pose proof (rmean_const rs u Hn Hu) as Hm.
  assert (HZ : rsum_n (length sidx) (fun q => rweight wgt a (dist p (nth (nth q sidx 0%nat) ts 0 - (nth q ts 0 + kk))) * dev rs q * dev rs (nth q sidx 0%nat)) = 0).
  { rewrite (rsum_n_ext _ _ (fun q => 0 * dev rs q)).
    - rewrite rsum_n_scal. ring.
    - intros q Hq. assert (Hlen : (q < length rs)%nat) by lia. unfold dev at 1. rewrite Hm, (Hu (nth q rs 0)) by (apply nth_In; exact Hlen). ring. }
  rewrite HZ in HV. rewrite HV. unfold sq_dev32. rewrite Hm.
  assert (HD : rsum (map (fun v => (f32R v - u) * (f32R v - u)) rs) = INR (length rs) * ((f32R u - u) * (f32R u - u))).
  { rewrite <- (map_length (fun v => (f32R v - u) * (f32R v - u)) rs). apply rsum_const. intros x Hx. apply in_map_iff in Hx.
    destruct Hx as [y [<- Hy]]. rewrite (Hu y Hy). reflexivity. }
  rewrite HD. assert (HI : 0 < INR (length rs)) by (apply lt_0_INR; destruct rs; [congruence|cbn; lia]). unfold single. split; intros Hsu.
  - rewrite Hsu. replace (INR (length rs) * ((u - u) * (u - u))) with 0 by ring. apply f_equal. change (xdiv (@nzero XR) (@nzero XR) = NaN). cbn. unfold xinf_sign, Reqb. destruct (Req_EM_T 0 0); [|congruence]. destruct (Rltb_spec 0 0); [lra|reflexivity].
  - assert (0 < (f32R u - u) * (f32R u - u)) by (apply Rlt_0_sqr; lra).
    assert (0 < INR (length rs) * ((f32R u - u) * (f32R u - u))) by (apply Rmult_lt_0_compat; assumption).
    cbn. unfold Reqb. destruct (Req_EM_T (INR (length rs) * ((f32R u - u) * (f32R u - u))) 0); [lra|]. do 2 f_equal. field. lra.
Qed.

(** ** a concrete data structure in exact arithmetic *)
Lemma single_int z : (Z.abs z <= 2 ^ 24)%Z -> single (IZR z).
Proof.
  intros H. unfold single, f32R. apply round_generic; [apply valid_rnd_N|].
  destruct (Z.eq_dec (Z.abs z) (2 ^ 24)) as [Hz|Hz].
  - assert (Hb : generic_format radix2 (FLT_exp (-149) 24) (bpow radix2 24)) by (apply generic_format_bpow; unfold FLT_exp; lia).
    destruct (Z.abs_eq_or_opp z) as [Ha|Ha]; rewrite Ha in Hz.
    + rewrite Hz. exact Hb.
    + replace (IZR z) with (- bpow radix2 24); [apply generic_format_opp; exact Hb|]. change (bpow radix2 24) with (IZR (2 ^ 24)). rewrite <- opp_IZR. f_equal. lia.
  - apply generic_format_FLT. exists (Float radix2 z 0); [unfold F2R; cbn; ring|cbn [Fnum]; change (radix2 ^ 24)%Z with (2 ^ 24)%Z; lia|cbn [Fexp]; lia].
Qed.

Definition exact_ds : @dstruct XR :=
  match SACF_1d (A := XR) (map Fin (grid 0 1 3)) (map Fin [1; 2; 4]) None with Ok d => d | _ => @Build_dstruct XR [] [] [] [] nzero nzero [] [] 0 0 end.

Lemma exact_ds_ok : accepted exact_ds /\ timeseries exact_ds = map Fin (grid 0 1 3) /\ data_2d exact_ds = Ok [map Fin [1; 2; 4]].
Proof.
  destruct (one_dataset (A := XR) (map Fin (grid 0 1 3)) (map Fin [1; 2; 4]) None) as [_ [_ H]].
  destruct H as [d [E [H1 [H2 _]]]]; [discriminate|discriminate|reflexivity|].
  unfold exact_ds. rewrite E. split; [left; eauto|]. split; [exact H1|exact H2].
Qed.

Lemma exact_ds_call p wgt : p_checked p = false -> known_weight wgt ->
  exists corr c, autocorrelation p exact_ds None None None None "natural" wgt =
     Ok (map (fun i => Fin ((INR i - INR 2) * 1)) (seq 0 5), corr, c) /\ median_time exact_ds = Fin (INR 2 / 2 * 1).
Proof.
  intros Hp Hw. destruct exact_ds_ok as [Ha [Ht Hd]].
  assert (Hb : INR (3 - 1) * 1 <= dbl_max).
  { unfold dbl_max. cbn [Nat.sub INR]. assert (bpow radix2 (-52) <= 1) by (change 1 with (bpow radix2 0); apply bpow_le; lia).
    assert (bpow radix2 1 <= bpow radix2 1023) by (apply bpow_le; lia). change (bpow radix2 1) with 2 in H0. nra. }
  assert (Hi : (2 * Z.of_nat 3 + 1 <= INT_MAX)%Z) by (unfold INT_MAX; cbn; lia).
  destruct (grid_call p exact_ds wgt 0 1 3 [map Fin [1; 2; 4]] Ha Ht ltac:(lia) ltac:(lra) Hb Hi Hp Hw) as [corr [c [E _]]].
  - intros _. cbn [Nat.sub INR]. unfold INT_MAX. cbn. lra.
  - exact Hd.
  - destruct (grid_defaults exact_ds 0 1 3 Ha Ht ltac:(lia) ltac:(lra) Hb Hi) as [_ [_ [_ [_ [_ [Hm _]]]]]].
    exists corr, c. split; [exact E|exact Hm].
Qed.
