(** Shifting and scaling of the times, in exact arithmetic. *)
From Coq Require Import String.
From Coq Require Import ZArith Reals List Bool Arith Lia Lra.
From Flocq Require Import Core.
From Verif Require Import Num Mem MemFacts XR B64 Spec SpecR DataStructure DSFacts Correlator Sacf Api CorrFacts LoopFacts MainFacts
  Laws Laws2 ConstrFacts SelFacts SelThms FastFacts TimeFacts WeightFacts ValFacts ExactFacts StateFacts RelFacts GridCall AffineFacts.
Import ListNotations.
Local Open Scope list_scope.
Local Open Scope R_scope.
Local Existing Instance XR.

(** ** Shift *)
Lemma rel_times_shift (ts : list R) s : rel_times (A := XR) (map Fin (map (fun x => x + s) ts)) = rel_times (A := XR) (map Fin ts).
Proof.
  destruct ts as [|t0 ts]; [reflexivity|]. unfold rel_times. cbn [map]. f_equal; [cbn; f_equal; ring|].
  rewrite !map_map. apply map_ext. intros x. cbn. f_equal. ring.
Qed.

Lemma shift_call p (d d' : @dstruct XR) rows mi ma re al sel wgt (ts : list R) (s : R) :
  accepted d -> accepted d' -> timeseries d = map Fin ts -> timeseries d' = map Fin (map (fun x => x + s) ts) ->
  data_2d d = Ok rows -> data_2d d' = Ok rows ->
  normalised_timeseries d' = normalised_timeseries d /\ median_time d' = median_time d /\
  visible (autocorrelation (A := XR) p d' mi ma re al sel wgt) = visible (autocorrelation (A := XR) p d mi ma re al sel wgt).
Proof.
  intros Ha Ha' Ht Ht' Hr Hr'.
  destruct (accepted_values d Ha) as [ts0 [data [er [N [-> [G1 [G2 [G3 G4]]]]]]]].
  destruct (accepted_values d' Ha') as [ts0' [data' [er' [N' [-> [G1' [G2' [G3' G4']]]]]]]].
  cbn in Ht, Ht'. subst ts0 ts0'. cbn [normalised_timeseries norm_t median_time t_median the_ds].
  rewrite rel_times_shift. split; [reflexivity|]. split; [reflexivity|].
  rewrite !visible_core by assumption.
  assert (Ec : acf_core (A := XR) p (map Fin (map (fun x => x + s) ts)) mi ma re al sel wgt = acf_core (A := XR) p (map Fin ts) mi ma re al sel wgt).
  { unfold acf_core, named_acf, acf_at. rewrite rel_times_shift. reflexivity. }
  rewrite Ec. rewrite Hr in G4. injection G4 as G4. rewrite Hr' in G4'. injection G4' as G4'. change (@num XR) with xr in *. rewrite <- G4, <- G4'. reflexivity.
Qed.

(** ** Scale *)
Section Scale.
Variable c : R.
Hypothesis Hc : 0 < c.
Notation s := (sc c).

Lemma sc_sub x y : s (xsub x y) = xsub (s x) (s y).
Proof.
  unfold xsub. rewrite sc_add by exact Hc. f_equal. unfold sc.
  destruct y; cbn; rewrite ?(inf_pos _ c Hc); try reflexivity. f_equal. ring.
Qed.
Lemma sc_neg x : s (xneg x) = xneg (s x).
Proof. unfold sc. destruct x; cbn; rewrite ?(inf_pos _ c Hc); try reflexivity. f_equal. ring. Qed.
Lemma sc_abs x : s (xabs x) = xabs (s x).
Proof.
  unfold sc. destruct x; cbn; rewrite ?(inf_pos _ c Hc); try reflexivity. f_equal. rewrite Rabs_mult, (Rabs_pos_eq c); lra.
Qed.
Lemma sc_lt x y : xlt (s x) (s y) = xlt x y.
Proof.
  unfold sc. destruct x as [x| | |], y as [y| | |]; cbn; rewrite ?(inf_pos _ c Hc); try reflexivity. unfold Rltb.
  destruct (Rlt_dec (c * x) (c * y)) as [H|H], (Rlt_dec x y) as [H'|H']; try reflexivity; exfalso; nra.
Qed.
Lemma sc_le x y : xle (s x) (s y) = xle x y.
Proof.
  unfold sc. destruct x as [x| | |], y as [y| | |]; cbn; rewrite ?(inf_pos _ c Hc); try reflexivity. unfold Rleb.
  destruct (Rle_dec (c * x) (c * y)) as [H|H], (Rle_dec x y) as [H'|H']; try reflexivity; exfalso; nra.
Qed.
Lemma sc_eqb x y : xeqb (s x) (s y) = xeqb x y.
Proof.
  unfold sc. destruct x as [x| | |], y as [y| | |]; cbn; rewrite ?(inf_pos _ c Hc); try reflexivity. unfold Reqb.
  destruct (Req_EM_T (c * x) (c * y)) as [H|H], (Req_EM_T x y) as [H'|H']; try reflexivity; exfalso.
  - apply H'. apply (Rmult_eq_reg_l c); [exact H|lra].
  - apply H. rewrite H'. reflexivity.
Qed.
Lemma pos_lt k y : 0 < k -> Rltb (k * y) 0 = Rltb y 0.
Proof.
  intros Hk. assert (K : k * y < 0 <-> y < 0) by (split; intros; nra).
  unfold Rltb. destruct (Rlt_dec (k * y) 0), (Rlt_dec y 0); try reflexivity; tauto.
Qed.
Lemma sc_div k x y : 0 < k -> xdiv (sc k x) (sc k y) = xdiv x y.
Proof.
  intros Hk. unfold sc. destruct x as [x| | |], y as [y| | |]; cbn; rewrite ?(inf_pos _ k Hk); try reflexivity.
  - unfold Reqb. destruct (Req_EM_T (k * y) 0) as [E|E], (Req_EM_T y 0) as [F|F].
    + apply inf_scale. exact Hk.
    + elim F. exact (pos_zero k y Hk E).
    + elim E. rewrite F. ring.
    + f_equal. field. split; [exact F|lra].
  - cbn. rewrite pos_lt by exact Hk. reflexivity.
  - cbn. rewrite pos_lt by exact Hk. reflexivity.
Qed.

Lemma sc_eqb0 x : xeqb (s x) (Fin 0) = xeqb x (Fin 0).
Proof. rewrite <- (sc_eqb x (Fin 0)). f_equal. symmetry. apply (sc_zero c). Qed.
Lemma sc_lt0 x : xlt (Fin 0) (s x) = xlt (Fin 0) x.
Proof. rewrite <- (sc_lt (Fin 0) x). f_equal. symmetry. apply (sc_zero c). Qed.

(** *** lags *)
Lemma lag_list_scale fuel maxl r kk pos :
  lag_list (A := XR) fuel (s maxl) (s r) (s kk) pos =
  (map s (fst (lag_list (A := XR) fuel maxl r kk pos)), snd (lag_list (A := XR) fuel maxl r kk pos)).
Proof.
  revert kk pos. induction fuel as [|fuel IH]; intros kk pos; [reflexivity|]. cbn [lag_list].
  change (@nle XR) with xle. change (@neqb XR) with xeqb. change (@nlt XR) with xlt. change (@nadd XR) with xadd.
  rewrite sc_le. destruct (xle kk maxl); [|reflexivity].
  change (@num XR) with xr. change (@nzero XR) with (Fin 0). rewrite sc_eqb0, sc_lt0.
  rewrite <- sc_add by exact Hc. destruct (xlt (Fin 0) kk && negb (if xeqb kk (Fin 0) then true else pos)); rewrite IH; cbn [fst snd map]; [|reflexivity].
  change (Fin 0) with (@nzero XR). rewrite (sc_zero c). reflexivity.
Qed.

(** *** selection *)
Lemma nth_error_scale l i : nth_error (map s l) i = option_map s (nth_error l i).
Proof. apply nth_error_map. Qed.

Lemma lget_scale l i : lget (map s l) i = do x <- lget l i; Ok (s x).
Proof. unfold lget. rewrite nth_error_scale. destruct (nth_error l i); reflexivity. Qed.
Lemma lat_scale l i : lat (map s l) i = do x <- lat l i; Ok (s x).
Proof. unfold lat. rewrite nth_error_scale. destruct (nth_error l i); reflexivity. Qed.
Lemma lback_scale l : lback (map s l) = do x <- lback l; Ok (s x).
Proof. unfold lback. destruct l as [|x l]; [reflexivity|]. cbn [map length].
  rewrite map_length. apply (lget_scale (x :: l)). Qed.

Lemma lower_bound_loop_scale fuel l v first len : lower_bound_loop (A := XR) fuel (map s l) (s v) first len = lower_bound_loop (A := XR) fuel l v first len.
Proof.
  revert first len. induction fuel as [|fuel IH]; intros first len; [reflexivity|]. cbn [lower_bound_loop].
  destruct (len =? 0); [reflexivity|]. change (@num XR) with xr. rewrite lget_scale. destruct (lget l (first + len / 2)) as [m|e|u|]; cbn [bind]; try reflexivity.
  change (@nlt XR) with xlt. rewrite sc_lt. destruct (xlt m v); apply IH.
Qed.
Lemma lower_bound_scale l v : lower_bound (A := XR) (map s l) (s v) = lower_bound (A := XR) l v.
Proof. unfold lower_bound. rewrite map_length. apply lower_bound_loop_scale. Qed.

Variable p : platform.
Hypothesis Hp : p_abs p = AbsFloat.

Lemma cabs_scale x : cabs (A := XR) p (s x) = do y <- cabs (A := XR) p x; Ok (s y).
Proof. unfold cabs. rewrite Hp. cbn [bind nabs XR]. rewrite sc_abs. reflexivity. Qed.

Lemma natural_index_scale nt x : natural_index (A := XR) p (map s nt) (s x) = natural_index (A := XR) p nt x.
Proof.
  unfold natural_index. change (@num XR) with xr. rewrite lower_bound_scale. destruct (lower_bound (A := XR) nt x) as [idx|e|u|]; cbn [bind]; try reflexivity.
  destruct (idx =? 0); [reflexivity|]. rewrite !lat_scale.
  destruct (lat nt (idx - 1)) as [a|e|u|]; cbn [bind]; try reflexivity.
  change (@nsub XR) with xsub. rewrite <- sc_sub, cabs_scale. destruct (cabs (A := XR) p (xsub x a)) as [da|e|u|]; cbn [bind]; try reflexivity.
  destruct (lat nt idx) as [b|e|u|]; cbn [bind]; try reflexivity.
  rewrite <- sc_sub, cabs_scale. destruct (cabs (A := XR) p (xsub x b)) as [db|e|u|]; cbn [bind]; try reflexivity.
  change (@nlt XR) with xlt. rewrite sc_lt. reflexivity.
Qed.

Lemma shifted_scale (beyond beyond' : xr -> bool) nt kk : (forall x, beyond' (s x) = beyond x) ->
  shifted (A := XR) beyond' (map s nt) (s kk) = map s (shifted (A := XR) beyond nt kk).
Proof.
  intros H. induction nt as [|x nt IH]; [reflexivity|]. cbn [map shifted]. change (@nadd XR) with xadd.
  rewrite <- sc_add by exact Hc. rewrite H. destruct (beyond (xadd x kk)); [reflexivity|]. cbn [map]. rewrite IH. reflexivity.
Qed.

Definition sc_sel (r : res (list nat * list xr)) : res (list nat * list xr) := do x <- r; Ok (fst x, map s (snd x)).

Lemma mapM_scale {Y} (f g : xr -> res Y) l : (forall x, f (s x) = g x) -> mapM f (map s l) = mapM g l.
Proof. intros H. induction l as [|x l IH]; [reflexivity|]. cbn [map mapM]. rewrite H, IH. reflexivity. Qed.

Lemma natural_sel_scale nt kk : natural_sel (A := XR) p (map s nt) (s kk) = sc_sel (natural_sel (A := XR) p nt kk).
Proof.
  unfold natural_sel, sc_sel. change (@num XR) with xr. rewrite lback_scale. destruct (lback nt) as [back|e|u|]; cbn [bind]; try reflexivity.
  change (@nlt XR) with xlt. rewrite (shifted_scale (fun x => xlt back x)) by (intros x; apply sc_lt).
  rewrite (mapM_scale _ (natural_index (A := XR) p nt)) by (intros x; apply natural_index_scale).
  destruct (mapM _ _) as [l|e|u|]; reflexivity.
Qed.

Lemma fast_sel_scale nt kk : fast_sel (A := XR) p (map s nt) (s kk) = sc_sel (fast_sel (A := XR) p nt kk).
Proof.
  unfold fast_sel, sc_sel. change (@num XR) with xr. rewrite lback_scale. destruct (lback nt) as [back|e|u|]; cbn [bind]; try reflexivity.
  change (@nle XR) with xle. rewrite (shifted_scale (fun x => xle back x)) by (intros x; apply sc_le).
  match goal with |- context [map s ?Q] => destruct Q as [|x S] end; [reflexivity|]. cbn [map].
  rewrite lower_bound_scale. destruct (lower_bound (A := XR) nt x) as [idx|e|u|]; cbn [bind]; try reflexivity.
  rewrite !lat_scale. destruct (lat nt (idx + 1)) as [b|e|u|]; cbn [bind]; try reflexivity.
  change (@nsub XR) with xsub. rewrite <- sc_sub, cabs_scale. destruct (cabs (A := XR) p (xsub x b)) as [db|e|u|]; cbn [bind]; try reflexivity.
  destruct (lat nt idx) as [a|e|u|]; cbn [bind]; try reflexivity.
  rewrite <- sc_sub, cabs_scale. destruct (cabs (A := XR) p (xsub x a)) as [da|e|u|]; cbn [bind fst snd]; try reflexivity.
  change (@nlt XR) with xlt. rewrite sc_lt. cbn [length map]. rewrite map_length. reflexivity.
Qed.

Lemma cons_scale y (r : res (list xr)) :
  (do bs <- (do x <- r; Ok (map s x)); Ok (s y :: bs)) = (do x <- (do bs <- r; Ok (y :: bs)); Ok (map s x)).
Proof. destruct r; reflexivity. Qed.

Lemma deltas_scale nt sel S : deltas (A := XR) p (map s nt) sel (map s S) = do x <- deltas (A := XR) p nt sel S; Ok (map s x).
Proof.
  unfold deltas. revert S. induction sel as [|i sel IH]; intros S; [reflexivity|]. destruct S as [|x S]; [reflexivity|].
  cbn [map combine mapM]. change (@num XR) with xr. rewrite IH. unfold delta_of at 1 3. cbn [fst snd]. change (@num XR) with xr. rewrite lat_scale.
  destruct (lat nt i) as [a|e|u|]; cbn [bind]; try reflexivity. destruct (p_checked p); cbn [bind]; [reflexivity|].
  change (@nsub XR) with xsub. rewrite <- sc_sub, cabs_scale. destruct (cabs (A := XR) p (xsub a x)) as [y|e|u|]; cbn [bind]; try reflexivity.
  exact (cons_scale y _).
Qed.

(** *** weights *)
Lemma sc_mul x y : xmul (s x) (s y) = sc (c * c) (xmul x y).
Proof. rewrite sc_r, sc_l, sc_sc. reflexivity. Qed.

Lemma gauss_scale (T a x : xr) :
  xdiv (xneg (xmul (s x) (s x))) (xmul (xmul T (s a)) (s a)) = xdiv (xneg (xmul x x)) (xmul (xmul T a) a).
Proof.
  assert (Hcc : 0 < c * c) by (apply Rmult_lt_0_compat; exact Hc).
  rewrite sc_mul, mul_both.
  replace (xneg (sc (c * c) (xmul x x))) with (sc (c * c) (xneg (xmul x x))); [apply sc_div; exact Hcc|].
  unfold sc. destruct (xmul x x); cbn; rewrite ?(inf_pos _ _ Hcc); try reflexivity. f_equal. ring.
Qed.

Lemma weight_scale wgt a w w' : weight_named (A := XR) wgt a = Some w -> weight_named (A := XR) wgt (s a) = Some w' ->
  forall x, w' (s x) = w x.
Proof.
  unfold weight_named. intros H H' x.
  destruct (String.eqb wgt "gaussian").
  { injection H as <-. injection H' as <-. unfold gaussianWeightFunction. cbn [nexp ndiv nneg nmul XR]. f_equal.
    apply (gauss_scale (@ntwo XR) a x). }
  destruct (String.eqb wgt "fractional").
  { injection H as <-. injection H' as <-. unfold fractionWeightFunction. cbn [ndiv nadd XR]. rewrite sc_div by exact Hc. reflexivity. }
  destruct (String.eqb wgt "fractional_squared"); [|discriminate].
  injection H as <-. injection H' as <-. unfold fractionSquaredWeightFunction. cbn [ndiv nadd nmul XR]. rewrite sc_div by exact Hc. reflexivity.
Qed.

Lemma rel_times_scale ts : rel_times (A := XR) (map s ts) = map s (rel_times (A := XR) ts).
Proof.
  destruct ts as [|t0 ts]; [reflexivity|]. unfold rel_times. cbn [map]. f_equal; [symmetry; apply sc_sub|].
  rewrite !map_map. apply map_ext. intros x. symmetry. apply sc_sub.
Qed.

Lemma named_acf_scale sel wgt a ts kk : named_acf (A := XR) sel wgt (s a) p (map s ts) (s kk) = named_acf (A := XR) sel wgt a p ts kk.
Proof.
  unfold named_acf. destruct (sel_named sel) as [sf|] eqn:Es; [|reflexivity].
  assert (Hs : forall nt kk, sf p (map s nt) (s kk) = sc_sel (sf p nt kk)).
  { unfold sel_named in Es. destruct (String.eqb sel "fast"); [injection Es as <-; intros; apply fast_sel_scale|].
    destruct (String.eqb sel "natural"); [injection Es as <-; intros; apply natural_sel_scale|discriminate]. }
  assert (Hw : (weight_named (A := XR) wgt a = None /\ weight_named (A := XR) wgt (s a) = None) \/
    exists w w', weight_named (A := XR) wgt a = Some w /\ weight_named (A := XR) wgt (s a) = Some w').
  { unfold weight_named. destruct (String.eqb wgt "gaussian"); [right; eauto|]. destruct (String.eqb wgt "fractional"); [right; eauto|].
    destruct (String.eqb wgt "fractional_squared"); [right; eauto|left; auto]. }
  unfold acf_at. rewrite rel_times_scale.
  destruct Hw as [[-> ->]|[w [w' [Hw Hw']]]].
  - rewrite Hs. destruct (sf p (rel_times (A := XR) ts) kk) as [sS|e|u|]; cbn [sc_sel bind fst snd]; try reflexivity.
    rewrite deltas_scale. destruct (deltas _ _ _ _) as [l|e|u|]; reflexivity.
  - rewrite Hw, Hw', Hs. destruct (sf p (rel_times (A := XR) ts) kk) as [sS|e|u|]; cbn [sc_sel bind fst snd]; try reflexivity.
    rewrite deltas_scale. destruct (deltas _ _ _ _) as [l|e|u|]; cbn [bind]; try reflexivity.
    rewrite map_map. rewrite (map_ext _ w) by (intros x; exact (weight_scale wgt a w w' Hw Hw' x)). reflexivity.
Qed.

(** *** the default resolution *)
Lemma findMinDiff_scale_loop (l : list xr) dd : findMinDiff_loop (A := XR) (map s l) (s dd) = s (findMinDiff_loop (A := XR) l dd).
Proof.
  revert dd. induction l as [|x l IH]; intros dd; [reflexivity|]. destruct l as [|y l]; [reflexivity|].
  cbn [map findMinDiff_loop] in *. change (@nsub XR) with xsub. change (@nlt XR) with xlt. rewrite <- sc_sub, sc_lt.
  destruct (xlt (xsub y x) dd); apply IH.
Qed.

Lemma findMinDiff_scale (l : list R) : (2 <= length l)%nat ->
  (forall x y, In x l -> In y l -> x - y < dbl_max /\ c * (x - y) < dbl_max) ->
  findMinDiff (A := XR) (map s (map Fin l)) = s (findMinDiff (A := XR) (map Fin l)).
Proof.
  intros Hl H. unfold findMinDiff. destruct l as [|x [|y l]]; cbn in Hl; try lia.
  destruct (H y x (or_intror (or_introl eq_refl)) (or_introl eq_refl)) as [H1 H2].
  cbn [map findMinDiff_loop]. change (@nsub XR) with xsub. change (@nlt XR) with xlt. rewrite <- sc_sub.
  change (@ndblmax XR) with (Fin dbl_max). cbn [xsub xneg xadd sc xmul xlt].
  replace (Rltb (y + - x) dbl_max) with true by (symmetry; unfold Rltb; destruct (Rlt_dec (y + - x) dbl_max); [reflexivity|lra]).
  replace (Rltb (c * (y + - x)) dbl_max) with true by (symmetry; unfold Rltb; destruct (Rlt_dec (c * (y + - x)) dbl_max); [reflexivity|lra]).
  change (Fin (c * (y + - x))) with (s (Fin (y + - x))). change (Fin (c * y)) with (s (Fin y)). apply (findMinDiff_scale_loop (Fin y :: map Fin l)).
Qed.

Lemma allot_scale nt : findMinDiff (A := XR) (map s nt) = s (findMinDiff (A := XR) nt) -> allot (A := XR) (map s nt) = allot (A := XR) nt.
Proof.
  intros H. unfold allot. change (@num XR) with xr. rewrite H, lback_scale. destruct (lback nt) as [m|e|u|]; cbn [bind]; try reflexivity.
  change (@nsub XR) with xsub. change (@nneg XR) with xneg. change (@ndiv XR) with xdiv.
  rewrite <- sc_neg, <- sc_sub, sc_div by exact Hc. reflexivity.
Qed.

Lemma run_room_scale {X} (f g : xr -> res X) l n : (forall x, f (s x) = g x) -> run_room (A := XR) f (map s l) n = run_room (A := XR) g l n.
Proof.
  intros H. revert n. induction l as [|x l IH]; intros n; [reflexivity|]. cbn [map run_room]. rewrite H.
  destruct (g x); cbn [bind]; try reflexivity. destruct n; [reflexivity|]. rewrite IH. reflexivity.
Qed.

Lemma last_scale l : last (map s l) (@nzero XR) = s (last l (@nzero XR)).
Proof. rewrite <- (sc_zero c) at 1. induction l as [|x [|y l] IH]; [reflexivity|reflexivity|]. exact IH. Qed.
Lemma nth_scale i l : nth i (map s l) (@nzero XR) = s (nth i l (@nzero XR)).
Proof. rewrite <- (map_nth s). f_equal. symmetry. apply (sc_zero c). Qed.
Lemma middle_scale l : middle (A := XR) (map s l) (@nzero XR) = s (middle (A := XR) l (@nzero XR)).
Proof.
  unfold middle. change (@num XR) with xr. rewrite map_length, !nth_scale.
  destruct (length l mod 2 =? 0); [|reflexivity]. cbn [nadd ndiv XR]. rewrite <- sc_add by exact Hc.
  set (z := xadd _ _). clearbody z. unfold sc. destruct z as [z| | |]; cbn; rewrite ?(inf_pos _ c Hc); cbn; try reflexivity.
  - unfold Reqb. destruct (Req_EM_T 2 0); [lra|]. f_equal. field.
  - assert (E : Rltb 2 0 = false) by (unfold Rltb; destruct (Rlt_dec 2 0); [lra|reflexivity]). rewrite ?E. cbn. rewrite ?(inf_pos _ c Hc), ?E. reflexivity.
  - assert (E : Rltb 2 0 = false) by (unfold Rltb; destruct (Rlt_dec 2 0); [lra|reflexivity]). rewrite ?E. cbn. rewrite ?(inf_pos _ c Hc), ?E. reflexivity.
Qed.

Lemma opt_scale o x : opt_or (option_map s o) (s x) = s (opt_or o x).
Proof. destruct o; reflexivity. Qed.

Lemma core_scale {X} (l : list xr) (b : bool) (r : res X) :
  match map s l, b with [], false => Throw PyUnboundLocalError | _, _ => do Fs <- r; Ok (map s l, Fs) end =
  do gF <- match l, b with [], false => Throw PyUnboundLocalError | _, _ => do Fs <- r; Ok (l, Fs) end; Ok (map s (fst gF), snd gF).
Proof. destruct l, b, r; reflexivity. Qed.

Lemma acf_core_scale ts mi ma re al sel wgt :
  findMinDiff (A := XR) (map s (rel_times (A := XR) ts)) = s (findMinDiff (A := XR) (rel_times (A := XR) ts)) ->
  acf_core (A := XR) p (map s ts) (option_map s mi) (option_map s ma) (option_map s re) (option_map s al) sel wgt =
  do gF <- acf_core (A := XR) p ts mi ma re al sel wgt; Ok (map s (fst gF), snd gF).
Proof.
  intros H. unfold acf_core. change (@num XR) with xr. rewrite rel_times_scale, allot_scale by exact H.
  destruct (allot (A := XR) (rel_times (A := XR) ts)) as [n|e|u|]; cbn [bind]; try reflexivity. cbv zeta.
  rewrite H, last_scale, middle_scale. change (@nneg XR) with xneg. rewrite <- sc_neg, !opt_scale, lag_list_scale.
  cbn [fst].
  rewrite (run_room_scale _ (named_acf (A := XR) sel wgt (opt_or (A := XR) al (middle (A := XR) (rel_times (A := XR) ts) (@nzero XR))) p ts)) by (intros x; apply named_acf_scale).
  exact (core_scale _ _ _).
Qed.

Lemma scale_call (d d' : @dstruct XR) rows mi ma re al sel wgt (ts : list R) :
  accepted d -> accepted d' -> timeseries d = map Fin ts -> timeseries d' = map Fin (map (fun x => c * x) ts) ->
  data_2d d = Ok rows -> data_2d d' = Ok rows -> (2 <= length ts)%nat ->
  (forall x y, In x ts -> In y ts -> x - y < dbl_max /\ c * (x - y) < dbl_max) ->
  same_outcome (fun x y => fst y = map s (fst x) /\ snd y = snd x)
    (visible (autocorrelation (A := XR) p d mi ma re al sel wgt))
    (visible (autocorrelation (A := XR) p d' (option_map s mi) (option_map s ma) (option_map s re) (option_map s al) sel wgt)).
Proof.
  intros Ha Ha' Ht Ht' Hr Hr' Hl Hb.
  destruct (accepted_values d Ha) as [ts0 [data [er [N [-> [G1 [G2 [G3 G4]]]]]]]].
  destruct (accepted_values d' Ha') as [ts0' [data' [er' [N' [-> [G1' [G2' [G3' G4']]]]]]]].
  cbn in Ht, Ht'. subst ts0 ts0'. rewrite !visible_core by assumption.
  replace (map Fin (map (fun x => c * x) ts)) with (map s (map Fin ts)) in * by (rewrite !map_map; reflexivity).
  rewrite Hr in G4. injection G4 as G4. rewrite Hr' in G4'. injection G4' as G4'. change (@num XR) with xr in *. rewrite <- G4, <- G4'.
  rewrite acf_core_scale.
  - destruct (acf_core (A := XR) p (map Fin ts) mi ma re al sel wgt) as [[g Fs]|e|u|]; cbn [bind same_outcome fst snd]; auto.
  - destruct ts as [|t0 ts]; [cbn in Hl; lia|].
    assert (E : rel_times (A := XR) (map Fin (t0 :: ts)) = map Fin (map (fun x => x - t0) (t0 :: ts))).
    { unfold rel_times. cbn [map]. f_equal. rewrite !map_map. reflexivity. }
    rewrite E. apply findMinDiff_scale; [rewrite map_length; exact Hl|].
    intros x y Hx Hy. apply in_map_iff in Hx. apply in_map_iff in Hy. destruct Hx as [x0 [<- Hx]], Hy as [y0 [<- Hy]].
    replace (x0 - t0 - (y0 - t0)) with (x0 - y0) by ring. apply Hb; assumption.
Qed.
End Scale.
