(** Lemmas behind the theorems about median time, lag resolution and means. *)
From Coq Require Import ZArith Reals List Bool Arith Lia Lra.
From Flocq Require Import Core Mult_error BinarySingleNaN.
From Verif Require Import Num Mem MemFacts XR B64 Laws B64Facts Laws2 Spec SpecR DataStructure DSFacts Correlator Sacf Api
  CorrFacts LoopFacts MainFacts ConstrFacts.
Import ListNotations.

(** ** Median *)
(** half of the sum of two ordered numbers lies between them *)
Definition half_ok (A : Num) : Prop := forall a b : @num A,
  nle a b = true -> finite a -> finite b -> finite (nadd a b) ->
  nle a (ndiv (nadd a b) ntwo) = true /\ nle (ndiv (nadd a b) ntwo) b = true.

Lemma half_exact : half_ok XR.
Proof.
  intros a b H Ha Hb _. destruct a as [a| | |]; try (exfalso; apply Ha; reflexivity).
  destruct b as [b| | |]; try (exfalso; apply Hb; reflexivity).
  cbn in *. apply Rleb_true in H. destruct (Reqb_spec 2 0) as [E|_]; [lra|]. cbn. rewrite !Rleb_true. lra.
Qed.

Lemma half_b64 e : half_ok (B64 e).
Proof.
  intros a b H Ha Hb Hs. cbn in a, b. rewrite finite_nfin, fin_toE in Ha, Hb, Hs.
  cbn [num nadd ndiv nle B64 ntwo nofZ] in *. rewrite !Bleb_toE in *. unfold ntwo. cbn [nofZ B64].
  destruct (is_finite a) eqn:Fa; [|destruct a as [s|[|]| |s m x Hx]; discriminate].
  destruct (is_finite b) eqn:Fb; [|destruct b as [s|[|]| |s m x Hx]; discriminate].
  rewrite toE_plus in Hs. rewrite !toE_div by (rewrite toE_ofZ_small by (cbn; lia); intros E; injection E; lra).
  rewrite toE_plus, toE_ofZ_small by (cbn; lia).
  rewrite !toE_finite in * by assumption. cbn [xadd xle] in *. apply Rleb_true in H.
  set (x := B2R a) in *. set (y := B2R b) in *.
  assert (Ed : forall z, is_finite z = true -> toE z = rndE (Fin ((B2R z + B2R z) / 2))).
  { intros z Fz. replace ((B2R z + B2R z) / 2)%R with (B2R z) by lra. rewrite <- (toE_finite z Fz).
    symmetry. apply rndE_toE. }
  destruct (rndE (Fin (x + y))) as [s| | |] eqn:E; try discriminate.
  cbn [xdiv]. destruct (Reqb_spec 2 0) as [E2|_]; [lra|].
  assert (Hmid : (x + x <= s /\ s <= y + y)%R).
  { assert (Hg : forall z : b64, rnd (B2R z + B2R z) = (B2R z + B2R z)%R).
    { intros z. apply round_generic; auto with typeclass_instances.
      replace (B2R z + B2R z)%R with (B2R z * bpow radix2 1)%R by (cbn; lra).
      apply mult_bpow_pos_exact_FLT; [apply (generic_format_B2R 53 1024)|lia]. }
    unfold rndE in E. destruct (Rltb (Rabs (rnd (x + y))) big).
    - injection E as <-. unfold x, y in *. split; [rewrite <- (Hg a)|rewrite <- (Hg b)]; apply rnd_le; lra.
    - destruct (Rltb (x + y) 0); discriminate. }
  split.
  - change (xle (Fin x) (rndE (Fin (s / 2))) = true). unfold x in *. rewrite <- (toE_finite a Fa), (Ed a Fa). apply xle_Fin_rndE. lra.
  - change (xle (rndE (Fin (s / 2))) (Fin y) = true). unfold y in *. rewrite <- (toE_finite b Fb), (Ed b Fb). apply xle_Fin_rndE. lra.
Qed.

Lemma half_arith A : arith A -> half_ok A.
Proof. intros [e|]; [apply half_b64|apply half_exact]. Qed.

Lemma filter_firstn {X} (f : X -> bool) l n :
  (forall i x, i < n -> nth_error l i = Some x -> f x = true) -> n <= length l -> n <= length (filter f l).
Proof.
  revert l. induction n as [|n IH]; intros l H Hl; [lia|]. destruct l as [|x l]; [cbn in Hl; lia|].
  cbn. rewrite (H 0 x) by (try lia; reflexivity). cbn. apply le_n_S. apply IH.
  - intros i y Hi Hy. apply (H (S i) y); [lia|exact Hy].
  - cbn in Hl. lia.
Qed.

Lemma filter_app_length {X} (f : X -> bool) l1 l2 : length (filter f (l1 ++ l2)) = length (filter f l1) + length (filter f l2).
Proof. rewrite filter_app, app_length. reflexivity. Qed.

Lemma filter_skipn {X} (f : X -> bool) l n :
  (forall i x, n <= i -> nth_error l i = Some x -> f x = true) -> length l - n <= length (filter f l).
Proof.
  intros H. rewrite <- (firstn_skipn n l) at 2. rewrite filter_app_length.
  assert (Hs : length (skipn n l) <= length (filter f (skipn n l))).
  { apply filter_firstn; [|lia]. intros i x _ Hx. rewrite nth_error_skipn in Hx. apply (H (n + i)); [lia|exact Hx]. }
  rewrite skipn_length in Hs. lia.
Qed.

Section Median.
Context {A : Num} {L : NumLaws A}.
Hypothesis Hhalf : half_ok A.

Lemma middle_median (l : list num) :
  l <> [] -> ordered l -> (forall x, In x l -> finite x) ->
  (Nat.Even (length l) -> forall a b, nth_error l (length l / 2 - 1) = Some a -> nth_error l (length l / 2) = Some b -> finite (nadd a b)) ->
  is_median (middle l nzero) l.
Proof.
  intros Hne Ho Hf Hs. unfold middle.
  assert (H0 : 0 < length l) by (destruct l; [congruence|cbn; lia]).
  pose proof (Nat.div_mod (length l) 2 ltac:(lia)) as Hdm.
  set (h := length l / 2) in *. pose proof (Nat.mod_upper_bound (length l) 2 ltac:(lia)) as Hm.
  destruct (Nat.eqb_spec (length l mod 2) 0) as [Hev|Hod].
  - assert (Eh : length l = 2 * h) by lia.
    pose proof (nth_error_nth_eq l (h - 1) nzero ltac:(lia)) as Ea.
    pose proof (nth_error_nth_eq l h nzero ltac:(lia)) as Eb.
    set (a := nth (h - 1) l nzero) in *. set (b := nth h l nzero) in *.
    assert (Hab : nle a b = true) by (apply (Ho (h - 1) h); [lia|exact Ea|exact Eb]).
    destruct (Hhalf a b Hab) as [Hl Hr].
    + apply Hf. eapply nth_error_In. exact Ea.
    + apply Hf. eapply nth_error_In. exact Eb.
    + apply Hs with (a := a) (b := b); [exists h; exact Eh|exact Ea|exact Eb].
    + split.
      * assert (h <= length (filter (fun x => nle x (ndiv (nadd a b) ntwo)) l)); [|lia].
        apply filter_firstn; [|lia]. intros i x Hi Hx. eapply l_le_trans; [|exact Hl]. apply (Ho i (h - 1)); [lia|exact Hx|exact Ea].
      * assert (length l - h <= length (filter (fun x => nle (ndiv (nadd a b) ntwo) x) l)); [|lia].
        apply filter_skipn. intros i x Hi Hx. eapply l_le_trans; [exact Hr|]. apply (Ho h i); [lia|exact Eb|exact Hx].
  - pose proof (nth_error_nth_eq l h nzero ltac:(lia)) as Ea. set (a := nth h l nzero) in *. split.
    + assert (S h <= length (filter (fun x => nle x a) l)); [|lia].
      apply filter_firstn; [|lia]. intros i x Hi Hx. apply (Ho i h); [lia|exact Hx|exact Ea].
    + assert (length l - h <= length (filter (fun x => nle a x) l)); [|lia].
      apply filter_skipn. intros i x Hi Hx. apply (Ho h i); [lia|exact Ea|exact Hx].
Qed.

End Median.

Lemma median_time_median A : arith A -> forall d : dstruct, accepted d ->
  ordered (timeseries d) -> (forall x, In x (timeseries d) -> finite x) ->
  let nt := normalised_timeseries d in let n := length nt in
  (forall x, In x nt -> finite x) ->
  (Nat.Odd n -> nth_error nt (n / 2) = Some (median_time d)) /\
  (Nat.Even n -> exists a b, nth_error nt (n / 2 - 1) = Some a /\ nth_error nt (n / 2) = Some b /\
      median_time d = ndiv (nadd a b) ntwo) /\
  ((Nat.Even n -> forall a b, nth_error nt (n / 2 - 1) = Some a -> nth_error nt (n / 2) = Some b -> finite (nadd a b)) ->
   is_median (median_time d) nt).
Proof.
  intros HA d Ha Ho Hf nt n Hnf. pose proof (arith_laws A HA) as L.
  destruct (accepted_setUp d Ha) as [ts [data [er [N [-> [H1 _]]]]]].
  unfold timeseries, normalised_timeseries, median_time in *. subst nt n. cbn [t norm_t the_ds t_median] in *.
  assert (Hne : rel_times ts <> []) by (apply rel_times_nil; exact H1).
  assert (H0 : 0 < length (rel_times ts)) by (destruct (rel_times ts); [congruence|cbn; lia]).
  pose proof (Nat.div_mod (length (rel_times ts)) 2 ltac:(lia)) as Hdm.
  pose proof (Nat.mod_upper_bound (length (rel_times ts)) 2 ltac:(lia)) as Hm.
  split; [|split].
  - intros [q Hq]. unfold middle. destruct (Nat.eqb_spec (length (rel_times ts) mod 2) 0); [lia|].
    apply nth_error_nth_eq. lia.
  - intros [q Hq]. unfold middle. destruct (Nat.eqb_spec (length (rel_times ts) mod 2) 0); [|lia].
    eexists. eexists. split; [apply (nth_error_nth_eq _ _ nzero); lia|]. split; [apply (nth_error_nth_eq _ _ nzero); lia|]. reflexivity.
  - apply middle_median; try assumption.
    + apply half_arith. exact HA.
    + apply rel_times_ordered; assumption.
Qed.

(** ** Lag resolution *)
Section LagResolution.
Context {A : Num} {L : NumLaws A}.
Hypothesis Hdm : nisnan (ndblmax (Num := A)) = false.

Lemma findMinDiff_ordered (nt : list num) :
  ordered nt -> (forall x, In x nt -> finite x) -> 2 <= length nt ->
  nth_error nt 0 = Some nzero -> (forall x, In x nt -> nle x ndblmax = true) ->
  (exists i a b, nth_error nt i = Some a /\ nth_error nt (S i) = Some b /\ neqb (findMinDiff nt) (nsub b a) = true) /\
  (forall i a b, nth_error nt i = Some a -> nth_error nt (S i) = Some b -> nle (findMinDiff nt) (nsub b a) = true) /\
  (nlt nzero (findMinDiff nt) = true <-> increasing nt).
Proof.
  intros Ho Hf Hlen H0 Hmax.
  assert (F : forall z q, nth_error nt q = Some z -> nfin z = true).
  { intros z q Hz. apply finite_nfin, Hf. eapply nth_error_In. exact Hz. }
  destruct (findMinDiff_loop_spec nt ndblmax Hdm) as [S1 [S2 S3]]. fold (findMinDiff nt) in S1, S2, S3.
  assert (D : forall i a b, nth_error nt i = Some a -> nth_error nt (S i) = Some b ->
            nisnan (nsub b a) = false /\ nle (nsub b a) ndblmax = true /\ nle (findMinDiff nt) (nsub b a) = true).
  { intros i a b Ha Hb.
    assert (Hn : nisnan (nsub b a) = false) by (apply l_sub_fin; eauto).
    split; [exact Hn|]. split; [|eapply S2; eauto].
    assert (Ha0 : nle nzero a = true) by (eapply (Ho 0 i); eauto; lia).
    assert (Hb0 : nisnan (nsub b nzero) = false) by (apply l_sub_fin; [eauto|apply l_fin_Z0]).
    pose proof (l_sub_anti nzero a b Ha0 Hb0 Hn) as Hle.
    assert (Hbn : nisnan b = false) by (apply l_fin_nan; eauto).
    pose proof (l_sub_0_r b Hbn) as Heq. apply eq_le in Heq. destruct Heq as [Heq _].
    eapply l_le_trans; [exact Hle|]. eapply l_le_trans; [exact Heq|]. apply Hmax. eapply nth_error_In. exact Hb. }
  assert (Hatt : exists i a b, nth_error nt i = Some a /\ nth_error nt (S i) = Some b /\ neqb (findMinDiff nt) (nsub b a) = true).
  { destruct S3 as [E|[i [a [b [Ha [Hb [E _]]]]]]].
    - destruct (nth_error_Some_ex nt 0 ltac:(lia)) as [a Ha]. destruct (nth_error_Some_ex nt 1 ltac:(lia)) as [b Hb].
      exists 0, a, b. split; [exact Ha|]. split; [exact Hb|]. destruct (D _ _ _ Ha Hb) as [_ [D2 D3]].
      rewrite l_eq, D3. rewrite E, D2. reflexivity.
    - exists i, a, b. split; [exact Ha|]. split; [exact Hb|]. rewrite E. apply eq_refl_num. apply (D _ _ _ Ha Hb). }
  split; [exact Hatt|]. split; [intros i a b Ha Hb; apply (D _ _ _ Ha Hb)|].
  split.
  - intros Hpos. split; [exact Ho|].
    assert (Hadj : forall i a b, nth_error nt i = Some a -> nth_error nt (S i) = Some b -> nlt a b = true).
    { intros i a b Ha Hb. destruct (D _ _ _ Ha Hb) as [D1 [_ D3]].
      pose proof (lt_le_trans _ _ _ Hpos D3) as Hp.
      assert (Hle : nle a b = true) by (eapply (Ho i (S i)); eauto).
      rewrite l_lt, Hle. cbn. destruct (nle b a) eqn:E; [|reflexivity]. exfalso.
      assert (Haa : nisnan (nsub a a) = false) by (apply l_sub_fin; eauto).
      pose proof (l_sub_mono b a a E D1 Haa) as Hz. rewrite l_sub_self in Hz by eauto.
      rewrite (lt_nle _ _ Hp) in Hz. discriminate. }
    intros i j a b Hij Ha Hb.
    destruct (nth_error_Some_ex nt (S i)) as [x Hx].
    { assert (j < length nt) by (apply nth_error_Some; congruence). lia. }
    eapply lt_le_trans; [eapply Hadj; eauto|]. eapply (Ho (S i) j); eauto.
  - intros [_ Hinc]. destruct Hatt as [i [a [b [Ha [Hb E]]]]]. apply eq_le in E. destruct E as [_ E].
    eapply lt_le_trans; [|exact E]. apply l_sub_pos; [|apply (D _ _ _ Ha Hb)]. eapply (Hinc i (S i)); eauto.
Qed.

End LagResolution.

Lemma lag_resolution_min A : arith A -> forall (d : dstruct) (c : correlator),
  accepted d -> new_Correlator d = Ok c ->
  let nt := normalised_timeseries d in
  ordered (timeseries d) -> (forall x, In x (timeseries d) -> finite x) ->
  2 <= length nt -> (forall x, In x nt -> finite x /\ nle x ndblmax = true) ->
  (exists i a b, nth_error nt i = Some a /\ nth_error nt (S i) = Some b /\ neqb (lag_resolution c) (nsub b a) = true) /\
  (forall i a b, nth_error nt i = Some a -> nth_error nt (S i) = Some b -> nle (lag_resolution c) (nsub b a) = true) /\
  (nlt nzero (lag_resolution c) = true <-> increasing nt).
Proof.
  intros HA d c Ha Hc nt Ho Hf Hlen Hnt. pose proof (arith_laws A HA) as L.
  destruct (normalised_times d Ha Ho Hf) as [_ [H0 [_ [Hor _]]]].
  destruct (new_Correlator_accepted d c Ha Hc) as [ts [data [er [N [n [-> [H1 [H2 [H3 [H4 ->]]]]]]]]]].
  apply findMinDiff_ordered; try assumption.
  - apply dblmax_nan. exact HA.
  - intros x Hx. apply Hnt. exact Hx.
  - intros x Hx. apply Hnt. exact Hx.
Qed.

Lemma lag_resolution_single {A : Num} (d : dstruct) (c : correlator) :
  accepted d -> new_Correlator d = Ok c -> length (timeseries d) = 1 -> lag_resolution c = ndblmax.
Proof.
  intros Ha Hc Hl. destruct (new_Correlator_accepted d c Ha Hc) as [ts [data [er [N [n [-> [H1 [H2 [H3 [H4 ->]]]]]]]]]].
  unfold timeseries in Hl. cbn in *. destruct ts as [|x [|y ts]]; try discriminate. reflexivity.
Qed.

(** ** Exact means *)
Local Open Scope R_scope.

Lemma valid_cells row : valid (A := XR) (map cell row) = map Fin (present row).
Proof. induction row as [|[r|] row IH]; cbn; [reflexivity| |]; [f_equal|]; exact IH. Qed.

Lemma sum_Fin_acc l a : fold_left xadd (map Fin l) (Fin a) = Fin (a + rsum l).
Proof.
  revert a. induction l as [|x l IH]; intros a; cbn; [f_equal; lra|]. rewrite IH. f_equal. unfold rsum. lra.
Qed.

Lemma sum_Fin l : sum (A := XR) (map Fin l) = Fin (rsum l).
Proof. unfold sum, nzero. cbn. rewrite sum_Fin_acc. f_equal. lra. Qed.

Lemma mean_exact row : present row <> [] -> mean (A := XR) (map cell row) = Fin (rmean (present row)).
Proof.
  intros H. unfold mean. rewrite valid_cells, sum_Fin, map_length. cbn. rewrite <- INR_IZR_INZ.
  destruct (Reqb_spec (INR (length (present row))) 0) as [E|_]; [|reflexivity].
  exfalso. destruct (present row) as [|x l] eqn:Ex; [congruence|]. cbn [length] in E.
  pose proof (lt_0_INR (S (length l)) ltac:(lia)). lra.
Qed.

Lemma mean_data_exact (d : @dstruct XR) (rows : list (list xr)) (j : nat) (row : list (option R)) :
  accepted d -> data_2d d = Ok rows -> nth_error rows j = Some (map cell row) -> present row <> [] ->
  nth_error (mean_data d) j = Some (Fin (rmean (present row))).
Proof.
  intros H E Ej Hn. destruct (mean_data_rows (A := XR) d H) as [r1 [E1 [_ [_ [Hm _]]]]].
  rewrite E in E1. injection E1 as <-.
  change (@nth_error (list (@num XR)) rows j = Some (map cell row)) in Ej. rewrite Hm, nth_error_map, Ej. cbn [option_map]. rewrite mean_exact by exact Hn. reflexivity.
Qed.

Lemma rsum_shift l a : rsum (map (fun x => x - a) l) = rsum l - INR (length l) * a.
Proof.
  induction l as [|x l IH]; [cbn; lra|].
  change (x - a + rsum (map (fun x => x - a) l) = x + rsum l - INR (S (length l)) * a).
  rewrite S_INR, IH. lra.
Qed.

Lemma rsum_centred l : l <> [] -> rsum (map (fun x => x - rmean l) l) = 0.
Proof.
  intros H. rewrite rsum_shift. unfold rmean. field.
  destruct l as [|x l]; [congruence|]. pose proof (lt_0_INR (length (x :: l)) ltac:(cbn; lia)). lra.
Qed.

Lemma valid_cells_sub row m : valid (A := XR) (map (fun x => xsub x (Fin m)) (map cell row)) = map Fin (map (fun x => x - m) (present row)).
Proof. induction row as [|[r|] row IH]; cbn; [reflexivity| |]; [f_equal|]; exact IH. Qed.

Lemma centred_exact row : present row <> [] ->
  let zs := map (fun x => x - rmean (present row)) (present row) in
  valid (A := XR) (map (fun x => xsub x (mean (A := XR) (map cell row))) (map cell row)) = map Fin zs /\ rsum zs = 0.
Proof.
  intros H. cbv zeta. rewrite mean_exact by exact H. split; [apply (valid_cells_sub row)|apply rsum_centred; exact H].
Qed.

Lemma missing_stays A : arith A -> forall (row : list num) (i : nat) (x : num),
  nth_error row i = Some x -> nisnan x = true ->
  exists y, nth_error (map (fun x => nsub x (mean row)) row) i = Some y /\ nisnan y = true.
Proof.
  intros HA row i x Hx Hn. pose proof (arith_laws A HA) as L. exists (nsub x (mean row)).
  split; [rewrite nth_error_map, Hx; reflexivity|]. apply l_nan_sub. rewrite Hn. reflexivity.
Qed.
