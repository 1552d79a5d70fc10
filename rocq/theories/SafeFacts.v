(** When a call returns, and when it leaves its buffers. *)
From Coq Require Import String.
From Coq Require Import ZArith Reals List Bool Arith Lia Lra.
From Flocq Require Import Core.
From Verif Require Import Num Mem MemFacts XR B64 Laws B64Facts Laws2 Spec SpecR DataStructure DSFacts Correlator Sacf Api
  CorrFacts LoopFacts MainFacts ConstrFacts SelFacts SelThms GridFacts.
Import ListNotations.
Local Open Scope list_scope.

(** ** No endless loops *)
Section NoDiverge.
Context {A : Num}.

Lemma bind_no_diverge {X Y} (r : res X) (f : X -> res Y) : r <> Diverge -> (forall x, r = Ok x -> f x <> Diverge) -> bind r f <> Diverge.
Proof. intros H1 H2. destruct r; cbn; try discriminate; [apply H2; reflexivity|congruence]. Qed.

Lemma mapM_no_diverge {X Y} (f : X -> res Y) l : (forall x, f x <> Diverge) -> mapM f l <> Diverge.
Proof.
  intros H. induction l as [|x l IH]; cbn; [discriminate|].
  apply bind_no_diverge; [apply H|]. intros. apply bind_no_diverge; [exact IH|]. discriminate.
Qed.

Lemma lat_no_diverge {X} (l : list X) i : lat l i <> Diverge.
Proof. unfold lat. destruct (nth_error l i); discriminate. Qed.

Lemma lback_no_diverge {X} (l : list X) : lback l <> Diverge.
Proof. unfold lback, lget. destruct l; [discriminate|]. destruct (nth_error _ _); discriminate. Qed.

Lemma cabs_no_diverge p x : cabs p x <> Diverge.
Proof. destruct (cabs_outcome p x) as [[y ->]| ->]; discriminate. Qed.

Lemma lower_bound_no_diverge l v : lower_bound l v <> Diverge.
Proof. destruct (lower_bound_split l v) as [i [-> _]]. discriminate. Qed.

Lemma natural_index_no_diverge p nt s : natural_index p nt s <> Diverge.
Proof.
  unfold natural_index. apply bind_no_diverge; [apply lower_bound_no_diverge|]. intros i _.
  destruct (i =? 0); [discriminate|].
  repeat (apply bind_no_diverge; [first [apply lat_no_diverge|apply cabs_no_diverge]|intros]). discriminate.
Qed.

Lemma natural_sel_no_diverge p nt kk : natural_sel p nt kk <> Diverge.
Proof.
  unfold natural_sel. apply bind_no_diverge; [apply lback_no_diverge|]. intros.
  apply bind_no_diverge; [apply mapM_no_diverge; intros; apply natural_index_no_diverge|]. discriminate.
Qed.

Lemma fast_sel_no_diverge p nt kk : fast_sel p nt kk <> Diverge.
Proof.
  unfold fast_sel. apply bind_no_diverge; [apply lback_no_diverge|]. intros b _.
  destruct (shifted _ nt kk); [discriminate|].
  repeat (apply bind_no_diverge;
    [first [apply lat_no_diverge|apply cabs_no_diverge|apply lower_bound_no_diverge]|intros]). discriminate.
Qed.

Lemma sel_named_no_diverge name sf p nt kk : sel_named name = Some sf -> sf p nt kk <> Diverge.
Proof.
  unfold sel_named. destruct (String.eqb name "fast"); [intros E; injection E as <-; apply fast_sel_no_diverge|].
  destruct (String.eqb name "natural"); [intros E; injection E as <-; apply natural_sel_no_diverge|discriminate].
Qed.

Lemma deltas_no_diverge p nt sel S : deltas p nt sel S <> Diverge.
Proof.
  unfold deltas. apply mapM_no_diverge. intros x. unfold delta_of.
  apply bind_no_diverge; [apply lat_no_diverge|]. intros. destruct (p_checked p); [discriminate|apply cabs_no_diverge].
Qed.

Lemma named_acf_no_diverge sel wgt al p ts kk : named_acf sel wgt al p ts kk <> Diverge.
Proof.
  unfold named_acf. destruct (sel_named sel) as [sf|] eqn:E; [|discriminate].
  destruct (weight_named wgt al); [unfold acf_at|];
    (apply bind_no_diverge; [eapply sel_named_no_diverge; exact E|]; intros;
     apply bind_no_diverge; [apply deltas_no_diverge|]; discriminate).
Qed.

Lemma run_room_no_diverge {X} (f : num -> res X) ks room : (forall kk, f kk <> Diverge) -> run_room f ks room <> Diverge.
Proof.
  intros H. revert room. induction ks as [|kk ks IH]; intros room; cbn; [discriminate|].
  apply bind_no_diverge; [apply H|]. intros. destruct room; [discriminate|].
  apply bind_no_diverge; [apply IH|]. discriminate.
Qed.

Lemma allot_no_diverge nt : allot nt <> Diverge.
Proof.
  unfold allot. apply bind_no_diverge; [apply lback_no_diverge|]. intros.
  apply bind_no_diverge. { unfold to_int. destruct (nfloor _); [destruct (in_int z)|]; discriminate. }
  intros. apply bind_no_diverge. { unfold int_add. destruct (in_int _); discriminate. }
  intros z _. destruct (z <? 0)%Z; discriminate.
Qed.

Lemma acf_core_no_diverge p ts mi ma re al sel wgt : acf_core p ts mi ma re al sel wgt <> Diverge.
Proof.
  unfold acf_core. apply bind_no_diverge; [apply allot_no_diverge|]. intros n _. cbv zeta.
  assert (K : forall ks, (do Fs <- run_room (named_acf sel wgt (opt_or al (middle (rel_times ts) nzero)) p ts) ks n; Ok (ks, Fs)) <> Diverge).
  { intros ks. apply bind_no_diverge; [apply run_room_no_diverge; intros; apply named_acf_no_diverge|]. discriminate. }
  destruct (fst (lag_list _ _ _ _ _)); [destruct (_ && _); [apply K|discriminate]|apply K].
Qed.

(** C16, first half *)
Lemma autocorrelation_terminates p d mi ma re al sel wgt : accepted d ->
  autocorrelation p d mi ma re al sel wgt <> Diverge.
Proof.
  intros Ha. destruct (accepted_setUp d Ha) as [ts [data [er [N [-> [H1 [H2 [H3 [H4 H5]]]]]]]]].
  rewrite auto_core by assumption. apply bind_no_diverge; [apply acf_core_no_diverge|]. intros.
  apply bind_no_diverge; [apply allot_no_diverge|]. discriminate.
Qed.

(** C11, C15: a call that returns has computed the whole grid, and it fits *)
Lemma returned_grid p d c0 mi ma re al sel wgt r : accepted d -> new_Correlator d = Ok c0 ->
  autocorrelation p d mi ma re al sel wgt = Ok r ->
  lag_grid (opt_or mi (min_lag c0)) (opt_or re (lag_resolution c0)) (opt_or ma (max_lag c0)) (fst (fst r)) /\
  length (fst (fst r)) <= length (lag_timeseries c0).
Proof.
  intros Ha Hn E. destruct (new_Correlator_accepted d c0 Ha Hn) as [ts [data [er [N [n [-> [H1 [H4 [H5 [Hal ->]]]]]]]]]].
  rewrite auto_core in E by assumption. apply bind_Ok in E. destruct E as [[g Fs] [E E2]].
  apply bind_Ok in E2. destruct E2 as [n' [_ E2]]. injection E2 as <-. cbn [fst snd].
  unfold acf_core in E. rewrite Hal in E. cbn [bind] in E. cbv zeta in E.
  cbn [min_lag lag_resolution max_lag the_corr lag_timeseries timeseries_].
  set (Lg := lag_list _ _ _ _ _) in *.
  assert (E2 : (do Fs <- run_room (named_acf sel wgt (opt_or al (middle (rel_times ts) nzero)) p ts) (fst Lg) n; Ok (fst Lg, Fs)) = Ok (g, Fs)).
  { destruct (fst Lg); [destruct (_ && _); [exact E|discriminate]|exact E]. }
  apply bind_Ok in E2. destruct E2 as [Fs' [E2 E3]]. injection E3 as <- ->.
  pose proof (run_room_length _ _ _ _ E2) as Hl. rewrite repeat_length. split; [|exact Hl].
  apply lag_list_grid. fold Lg. destruct (snd Lg) eqn:Es; [reflexivity|]. apply lag_list_long in Es. fold Lg in Es. lia.
Qed.

Lemma allotted d c0 : accepted d -> new_Correlator d = Ok c0 ->
  exists q, nfloor (ndiv (nsub (max_lag c0) (min_lag c0)) (lag_resolution c0)) = Some q /\
    Z.of_nat (length (lag_timeseries c0)) = (q + 3)%Z.
Proof.
  intros Ha Hn. destruct (new_Correlator_accepted d c0 Ha Hn) as [ts [data [er [N [n [-> [H1 [H4 [H5 [Hal ->]]]]]]]]]].
  cbn [min_lag lag_resolution max_lag the_corr lag_timeseries timeseries_]. rewrite repeat_length.
  unfold allot in Hal. rewrite (lback_ok _ nzero (rel_times_nil ts H1)) in Hal. cbn [bind] in Hal.
  unfold to_int in Hal. destruct (nfloor _) as [q|] eqn:Eq; [|discriminate]. exists q. split; [reflexivity|].
  destruct (in_int q); [|discriminate]. cbn [bind] in Hal. unfold int_add in Hal.
  destruct (in_int (q + 3)); [|discriminate]. cbn [bind] in Hal.
  destruct (Z.ltb_spec (q + 3) 0); [discriminate|]. injection Hal as <-. lia.
Qed.

End NoDiverge.

(** ** Calls that can only fail by leaving the buffers *)
Section Safe.
Context {A : Num} {L : NumLaws A} {L2 : NumLaws2 A}.

Lemma cabs_safe p x : (p_abs p = AbsInt -> exists z, ntrunc x = Some z /\ (Z.abs z <= INT_MAX)%Z) -> exists y, cabs p x = Ok y.
Proof.
  intros H. unfold cabs. destruct (p_abs p); [eauto|]. destruct H as [z [-> Hz]]; [reflexivity|].
  unfold to_int, in_int. assert (Ei : ((INT_MIN <=? z) && (z <=? INT_MAX))%Z = true) by (unfold INT_MIN, INT_MAX in *; lia).
  rewrite Ei. cbn [bind]. destruct (Z.eqb_spec z INT_MIN); [unfold INT_MIN, INT_MAX in *; lia|eauto].
Qed.

Definition near p (nt : list num) kk : Prop :=
  p_abs p = AbsInt -> forall x y, In x nt -> In y nt -> exists z, ntrunc (nsub (nadd x kk) y) = Some z /\ (Z.abs z <= INT_MAX)%Z.

Lemma shifted_map beyond nt kk s : In s (shifted beyond nt kk) -> exists x, In x nt /\ s = nadd x kk.
Proof.
  induction nt as [|a nt IH]; cbn; [intros []|]. destruct (beyond _); [intros []|].
  intros [<-|H]; [eauto|]. destruct (IH H) as [x [Hx E]]. eauto.
Qed.

Lemma natural_sel_safe p nt kk : near p nt kk -> nt <> [] -> exists sS, natural_sel p nt kk = Ok sS.
Proof.
  intros Hp H. unfold natural_sel. rewrite (lback_ok nt nzero H). cbn [bind].
  destruct (mapM_total (natural_index p nt) (shifted (fun s => nlt (last nt nzero) s) nt kk)) as [ys ->]; cbn [bind]; [|eauto].
  intros s Hs. pose proof (shifted_In _ _ _ _ Hs) as Hb. cbv beta in Hb. destruct (shifted_map _ _ _ _ Hs) as [x [Hx ->]].
  unfold natural_index. destruct (lower_bound_split nt (nadd x kk)) as [i [-> Hi]]. cbn [bind].
  pose proof (split_inside nt _ i (last nt nzero) (lback_ok nt nzero H) Hb Hi) as Hlt.
  destruct (Nat.eqb_spec i 0) as [->|Hn]; [eauto|].
  rewrite (lat_ok nt (i - 1) nzero), (lat_ok nt i nzero) by lia. cbn [bind].
  destruct (cabs_safe p (nsub (nadd x kk) (nth (i - 1) nt nzero))) as [da ->].
  { intros E. apply Hp; [exact E|exact Hx|apply nth_In; lia]. }
  cbn [bind]. destruct (cabs_safe p (nsub (nadd x kk) (nth i nt nzero))) as [db ->].
  { intros E. apply Hp; [exact E|exact Hx|apply nth_In; lia]. }
  cbn [bind]. eauto.
Qed.

Lemma deltas_safe p nt kk sel S : p_checked p = false -> near p nt kk ->
  (forall s, In s sel -> s < length nt) -> (forall s, In s S -> exists x, In x nt /\ s = nadd x kk) ->
  exists dts, deltas p nt sel S = Ok dts.
Proof.
  intros Hc Hp Hs HS. unfold deltas. apply mapM_total. intros [s x] Hin. unfold delta_of. cbn [fst snd].
  assert (s < length nt) by (apply Hs; eapply in_combine_l; exact Hin).
  rewrite (lat_ok nt s nzero) by assumption. rewrite Hc. cbn [bind]. apply cabs_safe.
  intros E. destruct (HS x ltac:(eapply in_combine_r; exact Hin)) as [y [Hy ->]].
  destruct (Hp E y (nth s nt nzero) Hy ltac:(apply nth_In; assumption)) as [z [Ez Hz]].
  exists (- z)%Z. rewrite l_trunc_sub, Ez. split; [reflexivity|lia].
Qed.

Lemma natural_acf_safe wgt al p ts kk : ts <> [] -> p_checked p = false -> known_weight wgt -> near p (rel_times ts) kk ->
  exists F, named_acf "natural" wgt al p ts kk = Ok F.
Proof.
  intros Ht Hc Hw Hn. unfold named_acf. cbn [sel_named String.eqb].
  assert (Hnil := rel_times_nil ts Ht). set (nt := rel_times ts) in *.
  change (sel_named "natural") with (Some (@natural_sel A)). cbv iota beta.
  destruct (natural_sel_safe p nt kk Hn Hnil) as [[sel S] E].
  assert (HD : exists dts, deltas p nt sel S = Ok dts).
  { apply (deltas_safe p nt kk); [exact Hc|exact Hn| |].
    - destruct (natural_sel_ok p nt kk sel S) as [_ [_ K]]; [destruct nt; [congruence|cbn; lia]|exact E|exact K].
    - unfold natural_sel in E. rewrite (lback_ok nt nzero Hnil) in E. cbn [bind] in E. apply bind_Ok in E.
      destruct E as [? [_ E]]. injection E as _ <-. intros s. apply shifted_map. }
  destruct HD as [dts HD].
  assert (exists w, weight_named wgt al = Some w) as [w ->].
  { destruct Hw as [->|[->| ->]]; unfold weight_named; cbn; eauto. }
  unfold acf_at. fold nt. rewrite E. cbn [bind fst snd]. rewrite HD. cbn [bind]. eauto.
Qed.

Lemma run_room_safe {X} (f : num -> res X) ks room : (forall i kk, i <= room -> nth_error ks i = Some kk -> exists v, f kk = Ok v) ->
  (length ks <= room -> exists vs, run_room f ks room = Ok vs) /\ (room < length ks -> run_room f ks room = UB OobWrite).
Proof.
  revert room. induction ks as [|kk ks IH]; intros room H; cbn [run_room length].
  - split; [eauto|lia].
  - destruct (H 0 kk ltac:(lia) eq_refl) as [v ->]. cbn [bind]. destruct room as [|room].
    + split; [lia|reflexivity].
    + destruct (IH room) as [I1 I2]. { intros i x Hi Hx. apply (H (S i)); [lia|exact Hx]. }
      split; [intros Hl; destruct I1 as [vs ->]; [lia|]; cbn; eauto|intros Hl; rewrite I2 by lia; reflexivity].
Qed.

(** entries of a list with zero added come from the same place, or one before *)
Lemma with_zero_nth l i x : nth_error (with_zero l) i = Some x ->
  x = nzero \/ nth_error l i = Some x \/ (0 < i /\ nth_error l (i - 1) = Some x).
Proof.
  revert i. induction l as [|a l IH]; intros i H; cbn in H; [destruct i; discriminate|].
  destruct (neqb a nzero); [auto|]. destruct (nlt nzero a).
  - destruct i as [|i]; cbn in H; [left; congruence|]. right. right. split; [lia|].
    replace (S i - 1) with i by lia. exact H.
  - destruct i as [|i]; cbn in H; [auto|]. destruct (IH i H) as [K|[K|[K1 K]]]; [auto|auto|].
    right. right. split; [lia|]. replace (S i - 1) with i by lia. destruct i; [lia|]. cbn. replace (S i - 1) with i in K by lia. exact K.
Qed.

(** C15 *)
Lemma natural_call_outcome p d c0 mi ma re al wgt : accepted d -> new_Correlator d = Ok c0 ->
  p_checked p = false -> known_weight wgt ->
  let a := opt_or mi (min_lag c0) in let r := opt_or re (lag_resolution c0) in let b := opt_or ma (max_lag c0) in
  let room := length (lag_timeseries c0) in
  abs_defined p d nzero ->
  (forall n, n <= room -> (forall j, j <= n -> nle (steps a r j) b = true) -> abs_defined p d (steps a r n)) ->
  let call := autocorrelation p d mi ma re al "natural" wgt in
  ((exists x, call = Ok x) <-> (exists g, lag_grid a r b g /\ length g <= room /\ (g <> [] \/ wgt = "fractional"%string))) /\
  ((~ exists g, lag_grid a r b g /\ length g <= room) -> call = UB OobWrite).
Proof.
  intros Ha Hn Hc Hw. cbv zeta. intros Hz Hs.
  split; [split|].
  - intros [x E]. exists (fst (fst x)). destruct (returned_grid p d c0 mi ma re al _ wgt x Ha Hn E) as [K1 K2].
    split; [exact K1|]. split; [exact K2|]. destruct (fst (fst x)) eqn:Ex; [|left; discriminate]. right.
    destruct (new_Correlator_accepted d c0 Ha Hn) as [ts [data [er [N [n [-> [H1 [H4 [H5 [Hal ->]]]]]]]]]].
    rewrite auto_core in E by assumption. apply bind_Ok in E. destruct E as [[g Fs] [E E2]].
    apply bind_Ok in E2. destruct E2 as [n' [_ E2]]. injection E2 as <-. cbn [fst snd] in Ex. subst g.
    unfold acf_core in E. rewrite Hal in E. cbn [bind] in E. cbv zeta in E.
    destruct (fst (lag_list _ _ _ _ _)) as [|y l].
    + destruct (String.eqb_spec wgt "fractional") as [H|H]; [exact H|discriminate].
    + apply bind_Ok in E. destruct E as [? [_ E]]. discriminate.
  - intros [g [Hg [Hl He]]].
    destruct (new_Correlator_accepted d c0 Ha Hn) as [ts [data [er [N [n [-> [H1 [H4 [H5 [Hal ->]]]]]]]]]].
    rewrite auto_core by assumption. unfold acf_core. rewrite Hal. cbn [bind]. cbv zeta.
    cbn [min_lag lag_resolution max_lag the_corr lag_timeseries timeseries_] in *. rewrite repeat_length in *.
    rewrite (grid_lag_list (S n) _ _ _ g Hg ltac:(lia)). cbn [fst].
    destruct (run_room_safe (named_acf "natural" wgt (opt_or al (middle (rel_times ts) nzero)) p ts) g n) as [R1 _].
    { intros i kk Hi Hk. apply natural_acf_safe; [exact H1|exact Hc|exact Hw|].
      destruct Hg as [m [[G1 G2] ->]]. destruct (with_zero_nth _ _ _ Hk) as [->|[K|[K0 K]]]; [exact Hz| |].
      - rewrite nth_steps in K. destruct (Nat.ltb_spec i m); [|discriminate]. injection K as <-. apply Hs; [lia|intros; apply G1; lia].
      - rewrite nth_steps in K. destruct (Nat.ltb_spec (i - 1) m); [|discriminate]. injection K as <-. apply Hs; [lia|intros; apply G1; lia]. }
    destruct (R1 Hl) as [Fs E]. rewrite E. cbn [bind].
    destruct g as [|x g].
    + destruct He as [He| ->]; [congruence|]. cbn. eauto.
    + cbn [bind]. eauto.
  - intros Hno.
    destruct (new_Correlator_accepted d c0 Ha Hn) as [ts [data [er [N [n [-> [H1 [H4 [H5 [Hal ->]]]]]]]]]].
    rewrite auto_core by assumption. unfold acf_core. rewrite Hal. cbn [bind]. cbv zeta.
    cbn [min_lag lag_resolution max_lag the_corr lag_timeseries timeseries_] in *. rewrite repeat_length in *.
    set (b := opt_or ma (last (rel_times ts) nzero)) in *.
    set (r := opt_or re (findMinDiff (rel_times ts))) in *.
    set (a := opt_or mi (nneg (last (rel_times ts) nzero))) in *.
    assert (Hlong : n < length (fst (lag_list (S n) b r a false))).
    { destruct (snd (lag_list (S n) b r a false)) eqn:Es.
      - destruct (Nat.le_gt_cases (length (fst (lag_list (S n) b r a false))) n) as [K|K]; [|exact K]. exfalso. apply Hno.
        exists (fst (lag_list (S n) b r a false)). split; [apply lag_list_grid; exact Es|exact K].
      - apply lag_list_long in Es. lia. }
    destruct (lag_list_spec (S n) b r a false) as [m [G1 [G2 [G3 G4]]]].
    destruct (run_room_safe (named_acf "natural" wgt (opt_or al (middle (rel_times ts) nzero)) p ts) (fst (lag_list (S n) b r a false)) n) as [_ R2].
    { intros i kk Hi Hk. apply natural_acf_safe; [exact H1|exact Hc|exact Hw|]. rewrite G4 in Hk.
      destruct (with_zero_nth _ _ _ Hk) as [->|[K|[K0 K]]]; [exact Hz| |].
      - rewrite nth_steps in K. destruct (Nat.ltb_spec i m); [|discriminate]. injection K as <-. apply Hs; [lia|intros; apply G1; lia].
      - rewrite nth_steps in K. destruct (Nat.ltb_spec (i - 1) m); [|discriminate]. injection K as <-. apply Hs; [lia|intros; apply G1; lia]. }
    rewrite (R2 Hlong). destruct (fst (lag_list (S n) b r a false)); [cbn in Hlong; lia|]. reflexivity.
Qed.

Lemma stuck_no_grid a r b g : nle a b = true -> nle (nadd a r) a = true -> ~ lag_grid a r b g.
Proof.
  intros Hab Hr [n [[H1 H2] _]]. destruct (steps_stuck a r b Hr Hab n) as [K _].
  rewrite (l_le_trans _ _ _ K Hab) in H2. discriminate.
Qed.

(** C16, second half *)
Lemma stuck_call p d c0 mi ma re al wgt : accepted d -> new_Correlator d = Ok c0 ->
  p_checked p = false -> known_weight wgt ->
  let a := opt_or mi (min_lag c0) in let r := opt_or re (lag_resolution c0) in let b := opt_or ma (max_lag c0) in
  abs_defined p d nzero ->
  (forall n, n <= length (lag_timeseries c0) -> (forall j, j <= n -> nle (steps a r j) b = true) -> abs_defined p d (steps a r n)) ->
  nle a b = true -> nle (nadd a r) a = true ->
  autocorrelation p d mi ma re al "natural" wgt = UB OobWrite.
Proof.
  intros Ha Hn Hc Hw a r b Hz Hs Hab Hr. apply (natural_call_outcome p d c0 mi ma re al wgt Ha Hn Hc Hw Hz Hs).
  intros [g [Hg _]]. exact (stuck_no_grid a r b g Hab Hr Hg).
Qed.

(** the default resolution, for two or more points *)
Lemma default_resolution d c0 : accepted d -> times_ok d -> new_Correlator d = Ok c0 -> nle nzero ndblmax = true ->
  nle nzero (lag_resolution c0) = true /\
  (length (normalised_timeseries d) = 1 \/ nle (lag_resolution c0) (max_lag c0) = true).
Proof.
  intros Ha Ht Hn Hdm.
  destruct (times_ok_norm d Ha Ht) as [Ko [Kf [K0 Kp]]].
  destruct (default_lags d c0 Ha Hn) as [_ [Hb _]]. destruct (back_In _ _ Hb) as [Bin Bnth].
  assert (Er : lag_resolution c0 = findMinDiff (normalised_timeseries d)).
  { destruct (new_Correlator_accepted d c0 Ha Hn) as [ts [data [er [N [n [-> [H1 [H4 [H5 [Hal ->]]]]]]]]]]. reflexivity. }
  rewrite Er. set (nt := normalised_timeseries d) in *.
  destruct (l_le_nan _ _ Hdm) as [_ Ndm].
  destruct (findMinDiff_loop_spec nt ndblmax Ndm) as [S1 [S2 S3]]. fold (findMinDiff nt) in S1, S2, S3. split.
  - destruct S3 as [E|[i [x [y [Hx [Hy [E _]]]]]]]; [rewrite E; exact Hdm|]. rewrite E.
    apply sub_nonneg; [apply Kf; eapply nth_error_In; exact Hx|]. apply (Ko i (S i)); [lia|assumption..].
  - destruct (Nat.eq_dec (length nt) 1) as [E1|E1]; [left; exact E1|right].
    assert (H2 : 1 < length nt). { assert (0 < length nt) by (apply nth_error_Some; rewrite K0; discriminate). lia. }
    destruct (nth_error_Some_ex nt 1 H2) as [y Hy].
    assert (Fy : nfin y = true) by (apply Kf; eapply nth_error_In; exact Hy).
    apply (l_le_trans _ (nsub y nzero)); [eapply (S2 0); [exact K0|exact Hy|apply l_sub_fin; [exact Fy|apply l_fin_Z0]]|].
    apply (l_le_trans _ y); [apply (eq_le _ _ (l_sub_0_r y (l_fin_nan _ Fy)))|].
    apply (Ko 1 (length nt - 1)); [lia|assumption..].
Qed.

(** C13: the default grid meets zero *)
Lemma default_zero d c0 g : accepted d -> times_ok d -> new_Correlator d = Ok c0 -> nle nzero ndblmax = true ->
  lag_grid (min_lag c0) (lag_resolution c0) (max_lag c0) g ->
  exists i x, nth_error g i = Some x /\ neqb x nzero = true.
Proof.
  intros Ha Ht Hn Hdm Hg.
  destruct (times_ok_norm d Ha Ht) as [Ko [Kf [K0 Kp]]].
  destruct (default_lags d c0 Ha Hn) as [_ [Hb [Hm _]]]. destruct (back_In _ _ Hb) as [Bin Bnth].
  assert (Bp : nle nzero (max_lag c0) = true) by (apply Kp; exact Bin).
  assert (Ap : nle (min_lag c0) nzero = true).
  { rewrite Hm. apply (l_le_trans _ (nneg nzero)); [apply l_neg_anti; exact Bp|]. apply (eq_le _ _ l_neg_0). }
  destruct (default_resolution d c0 Ha Ht Hn Hdm) as [R0 R1].
  assert (Hx : exists x, In x g /\ neqb x nzero = true).
  { apply (grid_zero _ _ _ _ Hg). destruct R1 as [R1|R1].
    - rewrite R1 in Bnth. change (1 - 1) with 0 in Bnth. rewrite K0 in Bnth. injection Bnth as Eb.
      exists 0. split; [intros j Hj; replace j with 0 by lia; exact (l_le_trans _ _ _ Ap Bp)|].
      cbn. rewrite Hm, <- Eb. apply (eq_le _ _ l_neg_0).
    - apply (grid_crosses _ _ _ g Hg); [exact Ap|exact Bp| |exact R1].
      apply (l_fin_between nzero _ (max_lag c0)); [exact R0|exact R1|apply l_fin_Z0|]. apply Kf. exact Bin. }
  destruct Hx as [x [Hx H0]]. apply In_nth_error in Hx. destruct Hx as [i Hi]. eauto.
Qed.

End Safe.

Lemma dblmax_pos A : arith A -> @nle A nzero ndblmax = true.
Proof.
  intros [e|]; [reflexivity|]. apply Rleb_true. apply Rmult_le_pos; [|apply Rlt_le, bpow_gt_0].
  assert (bpow radix2 (-52) < 1)%R by (change 1%R with (bpow radix2 0); apply bpow_lt; lia). lra.
Qed.

(** C20: in a checked build only an empty list of lags is ever returned *)
Lemma checked_empty A (HA : arith A) p (d : @dstruct A) mi ma re al wgt r : accepted d -> times_ok d -> p_checked p = true ->
  autocorrelation p d mi ma re al "natural" wgt = Ok r -> fst (fst r) = [].
Proof.
  intros Ha Ht Hc E. pose proof (arith_laws A HA) as L1. pose proof (arith_laws2 A HA) as L2.
  assert (exists c0, new_Correlator d = Ok c0) as [c0 Hn].
  { unfold autocorrelation in E. apply bind_Ok in E. destruct E as [c0 [E _]]. eauto. }
  pose proof (proj1 (returned_grid p d c0 mi ma re al _ wgt r Ha Hn E)) as Hg.
  destruct (times_ok_norm d Ha Ht) as [Ko [Kf [K0 Kp]]].
  assert (Hpos : forall kk, In kk (fst (fst r)) -> nlt nzero (nadd nzero kk) = true).
  { intros kk Hk. destruct (checked_build_lags p d mi ma re al _ wgt r Ha Hc E kk Hk) as [back [y [Hb [Hy Hl]]]].
    cbn in Hl. rewrite K0 in Hy. injection Hy as <-. exact (le_lt_trans _ _ _ (Kp back (proj1 (back_In _ _ Hb))) Hl). }
  destruct (fst (fst r)) as [|kk g] eqn:Eg; [reflexivity|exfalso].
  assert (Hz : exists x, In x (kk :: g) /\ neqb x nzero = true).
  { apply (grid_zero _ _ _ _ Hg). destruct Hg as [n [[G1 G2] Hg]].
    pose proof (Hpos kk (or_introl eq_refl)) as Hk.
    assert (Hin : In kk (with_zero (map (steps (opt_or mi (min_lag c0)) (opt_or re (lag_resolution c0))) (seq 0 n)))) by (rewrite <- Hg; left; reflexivity).
    assert (Hle : nle nzero kk = true).
    { destruct (nisnan kk) eqn:Nk.
      - apply lt_nan in Hk. destruct Hk as [_ Hk]. rewrite l_nan_add in Hk; [discriminate|]. rewrite Nk. apply orb_true_r.
      - apply lt_le. exact (lt_le_trans _ _ _ Hk (proj1 (eq_le _ _ (l_add_0_l kk Nk)))). }
    assert (Hall : forall x, In x (map (steps (opt_or mi (min_lag c0)) (opt_or re (lag_resolution c0))) (seq 0 n)) -> nle nzero x = true ->
      exists m, (forall j, j <= m -> nle (steps (opt_or mi (min_lag c0)) (opt_or re (lag_resolution c0)) j) (opt_or ma (max_lag c0)) = true) /\
        nle nzero (steps (opt_or mi (min_lag c0)) (opt_or re (lag_resolution c0)) m) = true).
    { intros x Hx Hp. apply in_map_iff in Hx. destruct Hx as [m [<- Hm]]. apply in_seq in Hm. exists m. split; [|exact Hp].
      intros j Hj. apply G1. lia. }
    destruct (with_zero_In _ _ Hin) as [K|[_ [y [Hy1 Hy2]]]]; [exact (Hall kk K Hle)|].
    exact (Hall y Hy1 (lt_le _ _ Hy2)). }
  destruct Hz as [x [Hx Hx0]]. pose proof (Hpos x Hx) as C. destruct (eq_le _ _ Hx0) as [X1 X2].
  destruct (l_le_nan _ _ X1) as [Nx _].
  rewrite (le_nlt _ _ (l_le_trans _ _ _ (proj1 (eq_le _ _ (l_add_0_l x Nx))) X1)) in C. discriminate.
Qed.
