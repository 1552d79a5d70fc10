(** Values in exact arithmetic. *)
From Coq Require Import String.
From Coq Require Import ZArith Reals List Bool Arith Lia Lra.
From Flocq Require Import Core.
From Verif Require Import Num Mem MemFacts XR B64 Spec SpecR DataStructure DSFacts Correlator Sacf Api CorrFacts LoopFacts MainFacts
  Laws Laws2 ConstrFacts SelFacts SelThms FastFacts TimeFacts WeightFacts ValFacts.
Import ListNotations.
Local Open Scope list_scope.
Local Open Scope R_scope.

(** ** Sums *)
Lemma rsum_app l m : rsum (l ++ m) = rsum l + rsum m.
Proof.
  induction l as [|x l IH]; [cbn [app]; change (rsum nil) with 0; lra|]. cbn [app].
  change (rsum (x :: l ++ m)) with (x + rsum (l ++ m)). change (rsum (x :: l)) with (x + rsum l). rewrite IH. lra.
Qed.

Lemma rsum_n_0 f : rsum_n 0 f = 0.
Proof. reflexivity. Qed.
Lemma rsum_n_S n f : rsum_n (S n) f = rsum_n n f + f n.
Proof. unfold rsum_n. rewrite seq_S, map_app, rsum_app. cbn. lra. Qed.
Lemma rsum_n_first n f : rsum_n (S n) f = f 0%nat + rsum_n n (fun i => f (S i)).
Proof. unfold rsum_n. cbn [seq map]. rewrite <- seq_shift, map_map. reflexivity. Qed.
Lemma rsum_n_ext n f g : (forall i, (i < n)%nat -> f i = g i) -> rsum_n n f = rsum_n n g.
Proof.
  intros H. unfold rsum_n. f_equal. apply map_ext_in. intros i Hi. apply in_seq in Hi. apply H. lia.
Qed.
Lemma rsum_n_scal n c f : rsum_n n (fun i => c * f i) = c * rsum_n n f.
Proof. induction n as [|n IH]; [rewrite !rsum_n_0; lra|]. rewrite !rsum_n_S, IH. lra. Qed.
Lemma rsum_n_plus n f g : rsum_n n (fun i => f i + g i) = rsum_n n f + rsum_n n g.
Proof. induction n as [|n IH]; [rewrite !rsum_n_0; lra|]. rewrite !rsum_n_S, IH. lra. Qed.
Lemma rsum_n_split m n f : rsum_n (m + n) f = rsum_n m f + rsum_n n (fun i => f (m + i)%nat).
Proof.
  induction n as [|n IH]; [rewrite Nat.add_0_r, rsum_n_0; lra|].
  rewrite Nat.add_succ_r, !rsum_n_S, IH. lra.
Qed.
Lemma rsum_n_le n f g : (forall i, (i < n)%nat -> f i <= g i) -> rsum_n n f <= rsum_n n g.
Proof.
  induction n as [|n IH]; intros H; [rewrite !rsum_n_0; lra|]. rewrite !rsum_n_S.
  pose proof (IH (fun i Hi => H i (Nat.lt_lt_succ_r _ _ Hi))). pose proof (H n (Nat.lt_succ_diag_r n)). lra.
Qed.
Lemma rsum_n_nonneg n f : (forall i, (i < n)%nat -> 0 <= f i) -> 0 <= rsum_n n f.
Proof.
  intros H. replace 0 with (rsum_n n (fun _ => 0)); [apply rsum_n_le; exact H|].
  induction n as [|n IH]; [reflexivity|]. rewrite rsum_n_S, IH; [lra|]. intros; apply H; lia.
Qed.
Lemma rsum_list f (rs : list R) : rsum (map f rs) = rsum_n (length rs) (fun i => f (nth i rs 0)).
Proof.
  induction rs as [|x rs IH]; [reflexivity|]. cbn [length]. rewrite rsum_n_first. cbn [map nth].
  change (rsum (f x :: map f rs)) with (f x + rsum (map f rs)). rewrite IH. reflexivity.
Qed.

Lemma sq_dev_n rs : sq_dev rs = rsum_n (length rs) (fun i => dev rs i * dev rs i).
Proof. unfold sq_dev. rewrite rsum_list. reflexivity. Qed.

(** ** Rows without missing values *)
Lemma cells_complete rs : map Fin rs = map cell (map Some rs).
Proof. rewrite map_map. reflexivity. Qed.
Lemma present_complete rs : present (map Some rs) = rs.
Proof. induction rs as [|r rs IH]; [reflexivity|]. cbn. f_equal. exact IH. Qed.
Lemma valid_complete rs : valid (A := XR) (map Fin rs) = map Fin rs.
Proof. rewrite cells_complete, valid_cells, present_complete, map_map. reflexivity. Qed.
Lemma mean_complete rs : rs <> [] -> mean (A := XR) (map Fin rs) = Fin (rmean rs).
Proof. intros H. rewrite cells_complete, mean_exact; rewrite present_complete; [reflexivity|exact H]. Qed.

Lemma norm_complete rs : rs <> [] -> @norm_of XR (map Fin rs) = Fin (sq_dev32 rs).
Proof.
  intros H. rewrite norm_of_sum_sq. unfold sum_sq32. rewrite valid_complete, mean_complete by exact H.
  rewrite map_map. unfold sq_dev32. rewrite <- sum_Fin, map_map. reflexivity.
Qed.

Lemma centred_complete rs : rs <> [] -> @centred XR (map Fin rs) = map Fin (map (fun v => v - rmean rs) rs).
Proof. intros H. unfold centred. rewrite mean_complete by exact H. rewrite !map_map. reflexivity. Qed.

Lemma nth_Fin (l : list R) q : nth q (map Fin l) (@nzero XR) = Fin (nth q l 0).
Proof. change (@nzero XR) with (Fin 0). apply map_nth. Qed.

Lemma nth_dev rs q : (q < length rs)%nat -> nth q (map (fun v => v - rmean rs) rs) 0 = dev rs q.
Proof. intros H. unfold dev. apply nth_error_nth. rewrite nth_error_map, (nth_error_nth' rs 0 H). reflexivity. Qed.

Lemma pair_sum_exact (xs ws : list R) sel acc : length sel = length ws ->
  @pair_sum XR (map Fin xs) 0 sel (map Fin ws) (Fin acc) =
  Fin (acc + rsum_n (length sel) (fun q => nth q ws 0 * nth q xs 0 * nth (nth q sel 0%nat) xs 0)).
Proof.
  intros Hl. rewrite pair_sum_fold by (rewrite map_length; exact Hl). generalize (length sel) as n. clear Hl.
  induction n as [|n IH]; [rewrite rsum_n_0, Rplus_0_r; reflexivity|].
  rewrite seq_S, fold_left_app, IH. cbn [fold_left Nat.add]. rewrite !nth_Fin, rsum_n_S.
  match goal with |- nadd (Fin ?x) _ = Fin ?z => change (Fin (x + nth n ws 0 * nth n xs 0 * nth (nth n sel 0%nat) xs 0) = Fin z) end.
  f_equal. lra.
Qed.

Lemma quot_exact P D : @nmul XR (Fin P) (@ndiv XR (@none_ XR) (Fin D)) = xdiv (Fin P) (Fin D).
Proof.
  unfold none_. cbn. destruct (Reqb_spec D 0) as [E|E].
  - unfold xinf_sign at 1. destruct (Reqb_spec 1 0); [lra|]. destruct (Rltb_spec 1 0); [lra|]. reflexivity.
  - cbn. f_equal. field. exact E.
Qed.

Lemma corr_value_exact rs sel ws : rs <> [] -> length sel = length ws -> (length sel <= length rs)%nat ->
  (forall s, In s sel -> (s < length rs)%nat) ->
  @corr_value XR (@centred XR (map Fin rs)) sel (map Fin ws) (@norm_of XR (map Fin rs)) =
  xdiv (Fin (rsum_n (length sel) (fun q => nth q ws 0 * dev rs q * dev rs (nth q sel 0%nat)))) (Fin (sq_dev32 rs)).
Proof.
  intros Hn Hl Hle Hs. unfold corr_value. rewrite centred_complete, norm_complete by exact Hn.
  change (@nzero XR) with (Fin 0). rewrite pair_sum_exact by exact Hl. rewrite quot_exact, Rplus_0_l.
  do 2 f_equal. apply rsum_n_ext. intros q Hq. rewrite !nth_dev; [reflexivity| |lia].
  apply Hs. apply nth_In. exact Hq.
Qed.

(** ** Distances and weights *)
Lemma cabs_exact p r y : @cabs XR p (Fin r) = Ok y -> y = Fin (dist p r).
Proof.
  unfold cabs, dist. destruct (p_abs p).
  - intros E. injection E as <-. reflexivity.
  - intros E. apply bind_Ok in E. destruct E as [z [Hz E]]. destruct (z =? INT_MIN)%Z; [discriminate|]. injection E as <-.
    cbn in Hz. unfold to_int in Hz. destruct (in_int (Ztrunc r)); [|discriminate]. injection Hz as <-. reflexivity.
Qed.

Lemma dist_pos p r : 0 <= dist p r.
Proof. unfold dist. destruct (p_abs p); [apply Rabs_pos|]. apply IZR_le. lia. Qed.
Lemma dist_0 p : dist p 0 = 0.
Proof. unfold dist. destruct (p_abs p); [apply Rabs_R0|]. rewrite (Ztrunc_IZR 0). reflexivity. Qed.

Lemma rweight_0 wgt a : 0 < a -> rweight wgt a 0 = 1.
Proof.
  intros Ha. unfold rweight. replace (0 / a) with 0 by (field; lra). destruct (String.eqb _ _); [field|].
  destruct (String.eqb _ _); [field|]. replace (- (0 * 0) / (2 * a * a)) with 0 by (field; lra). apply exp_0.
Qed.

Lemma weight_exact wgt w a x : weight_named (A := XR) wgt (Fin a) = Some w -> 0 < a -> 0 <= x -> w (Fin x) = Fin (rweight wgt a x).
Proof.
  intros Hw Ha Hx. unfold weight_named in Hw. unfold rweight.
  destruct (String.eqb_spec wgt "gaussian"); [subst; injection Hw as <-; apply gauss_value; exact Ha|].
  destruct (String.eqb_spec wgt "fractional"); [injection Hw as <-; apply frac_value; assumption|].
  destruct (String.eqb_spec wgt "fractional_squared"); [injection Hw as <-; apply sq_value; assumption|discriminate].
Qed.

(** ** Shifted times, for both selections *)
Lemma sel_shifted {A : Num} sel sf p (nt : list num) kk sidx S : sel_named sel = Some sf -> sf p nt kk = Ok (sidx, S) ->
  forall q s, nth_error S q = Some s -> exists x, nth_error nt q = Some x /\ s = nadd x kk.
Proof.
  intros Hs E q s Hq. unfold sel_named in Hs.
  destruct (String.eqb sel "fast"); [|destruct (String.eqb sel "natural"); [|discriminate]]; injection Hs as <-.
  - unfold fast_sel in E. apply bind_Ok in E. destruct E as [back [_ E]]. cbv zeta in E.
    assert (HS : S = shifted (fun s => nle back s) nt kk).
    { destruct (shifted (fun s => nle back s) nt kk); [injection E as _ <-; reflexivity|].
      repeat (apply bind_Ok in E; destruct E as [? [_ E]]). injection E as _ <-. reflexivity. }
    rewrite HS in Hq. apply shifted_nth in Hq. destruct Hq as [x [Hq1 [Hq2 _]]]. eauto.
  - unfold natural_sel in E. apply bind_Ok in E. destruct E as [back [_ E]]. cbv zeta in E.
    apply bind_Ok in E. destruct E as [sl [_ E]]. injection E as _ <-. apply shifted_nth in Hq. destruct Hq as [x [Hq1 [Hq2 _]]]. eauto.
Qed.

Lemma sel_named_ok {A : Num} sel sf : sel_named sel = Some sf -> sel_ok sf.
Proof.
  unfold sel_named. destruct (String.eqb sel "fast"); [intros E; injection E as <-; exact fast_sel_ok|].
  destruct (String.eqb sel "natural"); [intros E; injection E as <-; exact natural_sel_ok|discriminate].
Qed.

Lemma rel_times_Fin (ts : list R) : rel_times (A := XR) (map Fin ts) = map Fin (map (fun x => x - nth 0 ts 0) ts).
Proof. destruct ts as [|t0 ts]; [reflexivity|]. unfold rel_times. cbn [map nth]. f_equal. rewrite !map_map. reflexivity. Qed.

Lemma deltas_exact p (nt : list R) kk sidx S dts : (forall s, In s sidx -> (s < length nt)%nat) ->
  (forall q s, nth_error S q = Some s -> exists x, nth_error (map Fin nt) q = Some x /\ s = xadd x (Fin kk)) ->
  length sidx = length S -> @deltas XR p (map Fin nt) sidx S = Ok dts ->
  length dts = length sidx /\
  forall q, (q < length sidx)%nat -> nth_error dts q = Some (Fin (dist p (nth (nth q sidx 0%nat) nt 0 - (nth q nt 0 + kk)))).
Proof.
  intros Hs HS Hl E. unfold deltas in E. destruct (mapM_Ok_inv _ _ _ E) as [H1 H2]. rewrite combine_length in H1.
  split; [etransitivity; [exact H1|]; rewrite Hl; apply Nat.min_id|]. intros q Hq.
  destruct (nth_error_Some_ex S q ltac:(rewrite <- Hl; exact Hq)) as [s Es]. destruct (nth_error_Some_ex sidx q Hq) as [v Ev].
  destruct (H2 q (v, s)) as [b [Hb Hd]].
  { apply nth_error_combine; assumption. }
  rewrite Hb. f_equal. rewrite (nth_error_nth sidx q 0%nat Ev).
  destruct (HS q s Es) as [x [Hx ->]]. rewrite nth_error_map in Hx.
  destruct (nth_error nt q) as [r|] eqn:Er; [|discriminate]. injection Hx as <-.
  rewrite (nth_error_nth nt q 0 Er). unfold delta_of in Hd. cbn [fst snd] in Hd.
  assert (Hv : (v < length nt)%nat) by (apply Hs; eapply nth_error_In; exact Ev).
  rewrite (@lat_ok (@num XR) (map Fin nt) v (Fin 0)) in Hd by (rewrite map_length; exact Hv). cbn [bind] in Hd.
  change (@num XR) with xr in Hd. rewrite map_nth in Hd. destruct (p_checked p); [discriminate|]. cbn [bind] in Hd. apply cabs_exact in Hd. exact Hd.
Qed.

(** ** One value, exactly *)
Lemma exact_value p d mi ma re al sel wgt lags corr c rows j i (rs ts : list R) (kk a : R) :
  accepted d -> autocorrelation (A := XR) p d mi ma re al sel wgt = Ok (lags, corr, c) ->
  data_2d d = Ok rows -> nth_error rows j = Some (map Fin rs) -> nth_error lags i = Some (Fin kk) ->
  timeseries d = map Fin ts -> opt_or al (median_time d) = Fin a -> 0 < a ->
  exists sf sidx S,
    sel_named sel = Some sf /\ weight_named (A := XR) wgt (Fin a) <> None /\
    normalised_timeseries d = map Fin (map (fun x => x - nth 0 ts 0) ts) /\
    sf p (normalised_timeseries d) (Fin kk) = Ok (sidx, S) /\
    rs <> [] /\ length rs = length ts /\ (length sidx <= length ts)%nat /\ (forall s, In s sidx -> (s < length ts)%nat) /\
    corr_at corr j i = Some (xdiv (Fin (rsum_n (length sidx) (fun q =>
        rweight wgt a (dist p (nth (nth q sidx 0%nat) ts 0 - (nth q ts 0 + kk))) * dev rs q * dev rs (nth q sidx 0%nat))))
      (Fin (sq_dev32 rs))).
Proof.
  intros Ha E Hd Hj Hi Ht Hal Hpos.
  destruct (call_value p d mi ma re al sel wgt lags corr c rows j i _ _ Ha E Hd Hj Hi) as [sf [w [sidx [S [dts [Hs [Hw [HS [HD [HV HL]]]]]]]]]].
  rewrite Hal in Hw. destruct (accepted_times d Ha) as [tx [data [er [N [Ed [Hnil [Ent [_ [_ _]]]]]]]]].
  assert (Etx : tx = map Fin ts) by (rewrite <- Ht, Ed; reflexivity). rewrite Etx, rel_times_Fin in Ent.
  assert (Hts : ts <> []) by (intros ->; apply Hnil; exact Etx).
  assert (Hlen : length rs = length ts).
  { rewrite Ent, !map_length in HL. exact HL. }
  assert (H0 : (0 < length (normalised_timeseries d))%nat).
  { rewrite Ent, !map_length. destruct ts; [congruence|cbn; lia]. }
  destruct (sel_named_ok sel sf Hs p _ _ sidx S H0 HS) as [K1 [K2 K3]].
  rewrite Ent, !map_length in K2, K3.
  assert (Hrs : rs <> []) by (intros ->; destruct ts; [congruence|discriminate]).
  exists sf, sidx, S. split; [exact Hs|]. split; [congruence|]. split; [exact Ent|]. split; [exact HS|].
  split; [exact Hrs|]. split; [exact Hlen|]. split; [exact K2|]. split; [exact K3|]. rewrite HV. f_equal.
  rewrite Ent in HS, HD.
  destruct (deltas_exact p (map (fun x => x - nth 0 ts 0) ts) kk sidx S dts) as [D1 D2].
  { intros s Hin. rewrite map_length. apply K3. exact Hin. }
  { exact (sel_shifted sel sf p _ _ sidx S Hs HS). }
  { exact K1. }
  { exact HD. }
  set (ws := map (fun q => rweight wgt a (dist p (nth (nth q sidx 0%nat) ts 0 - (nth q ts 0 + kk)))) (seq 0 (length sidx))).
  assert (Hws : length ws = length sidx) by (unfold ws; rewrite map_length, seq_length; reflexivity).
  assert (Ew : map w dts = map Fin ws).
  { apply list_ext. intros q. rewrite !nth_error_map. unfold ws. rewrite nth_error_map, nth_error_seq.
    destruct (Nat.ltb_spec q (length sidx)) as [Hq|Hq].
    - rewrite D2 by exact Hq. cbn [option_map Nat.add]. f_equal. rewrite (weight_exact wgt w a) by (auto using dist_pos). do 3 f_equal.
      assert (Hn : forall s, (s < length ts)%nat -> nth s (map (fun x => x - nth 0 ts 0) ts) 0 = nth s ts 0 - nth 0 ts 0).
      { intros s Hs1. apply nth_error_nth. rewrite nth_error_map, (nth_error_nth' ts 0 Hs1). reflexivity. }
      rewrite (Hn q) by (clear - Hq K2; lia). rewrite Hn by (apply K3; apply nth_In; exact Hq). ring.
    - replace (nth_error dts q) with (@None xr); [reflexivity|]. symmetry. apply nth_error_None. change (@length (@num XR) dts <= q)%nat. rewrite D1. exact Hq. }
  rewrite Ew. rewrite corr_value_exact; [|exact Hrs|congruence|lia|intros s Hin; rewrite Hlen; apply K3; exact Hin].
  do 2 f_equal. apply rsum_n_ext. intros q Hq. do 2 f_equal. unfold ws. apply nth_error_nth. rewrite nth_error_map, nth_error_seq.
  destruct (Nat.ltb_spec q (length sidx)); [reflexivity|lia].
Qed.
