(** Calls with the fast selection. *)
From Coq Require Import String.
From Coq Require Import ZArith Reals List Bool Arith Lia Lra.
From Flocq Require Import Core.
From Verif Require Import Num Mem MemFacts XR B64 Spec SpecR DataStructure DSFacts Correlator Sacf Api CorrFacts LoopFacts MainFacts
  Laws B64Facts Laws2 WeightFacts ConstrFacts SelFacts SelThms FastFacts TimeFacts GridFacts SafeFacts DefaultFacts ValFacts ExactFacts GridVals.
Import ListNotations.
Local Open Scope list_scope.

Section Generic.
Context {A : Num} {L : NumLaws A} {L2 : NumLaws2 A}.

Lemma fast_sel_shift p nt kk sel S : fast_sel p nt kk = Ok (sel, S) -> forall s, In s S -> exists x, In x nt /\ s = nadd x kk.
Proof.
  unfold fast_sel. intros E. apply bind_Ok in E. destruct E as [back [_ E]].
  destruct (shifted _ nt kk) as [|s0 S0] eqn:ES; [injection E as _ <-; intros s []|].
  repeat (let y := fresh in let H := fresh in apply bind_Ok in E; destruct E as [y [H E]]).
  injection E as _ <-. intros s Hs. eapply shifted_map. rewrite ES. exact Hs.
Qed.

Lemma in_last_gap_dec (nt : list num) kk : in_last_gap nt kk \/ ~ in_last_gap nt kk.
Proof.
  unfold in_last_gap. destruct (nth_error nt (length nt - 1)) as [back|]; [|right; intros [b [H _]]; discriminate].
  destruct (nle back (nadd nzero kk)) eqn:Eb; [right; intros [b [H [H' _]]]; injection H as <-; congruence|].
  destruct (Nat.eq_dec (length nt) 1) as [E1|E1]; [left; exists back; auto|].
  destruct (nth_error nt (length nt - 2)) as [y|]; [|right; intros [b [_ [_ [H|[y [H _]]]]]]; [auto|discriminate]].
  destruct (nlt y (nadd nzero kk)) eqn:Ey; [left; exists back; eauto 6|right]. intros [b [_ [_ [H|[z [H H']]]]]]; [auto|]. injection H as <-. congruence.
Qed.

(** the outcome at one lag *)
Lemma fast_acf_outcome wgt al p ts kk : ts <> [] -> p_checked p = false -> known_weight wgt -> near p (rel_times ts) kk ->
  let nt := rel_times ts in
  nth_error nt 0 = Some nzero -> ordered nt -> (forall x, In x nt -> nfin x = true) ->
  (in_last_gap nt kk -> named_acf "fast" wgt al p ts kk = Throw OutOfRange) /\
  (~ in_last_gap nt kk -> exists F, named_acf "fast" wgt al p ts kk = Ok F).
Proof.
  intros Ht Hc Hw Hn nt H0 Ho Hf. assert (Hnil := rel_times_nil ts Ht). fold nt in Hnil, Hn.
  unfold named_acf. change (sel_named "fast") with (Some (@fast_sel A)). cbv iota beta.
  assert (exists w, weight_named wgt al = Some w) as [w ->].
  { destruct Hw as [->|[->| ->]]; unfold weight_named; cbn; eauto. }
  destruct (fast_sel_cases p nt kk Hnil Ho Hf) as [x0 [m [H0' [Hm HX]]]]. cbv zeta in HX.
  rewrite H0 in H0'. injection H0' as <-.
  assert (Hlast : nth_error nt (length nt - 1) = Some (last nt nzero)) by (apply (back_In nt); apply lback_ok; exact Hnil).
  assert (HOK : forall sel S, fast_sel p nt kk = Ok (sel, S) -> exists F, acf_at fast_sel w p ts kk = Ok F).
  { intros sel S E. destruct (fast_sel_ok p nt kk sel S) as [_ [_ K]]; [destruct nt; [congruence|cbn; lia]|exact E|].
    destruct (deltas_safe p nt kk sel S Hc Hn K (fast_sel_shift p nt kk sel S E)) as [dts HD].
    unfold acf_at. fold nt. rewrite E. cbn [bind fst snd]. rewrite HD. cbn [bind]. eauto. }
  destruct HX as [[-> [Hb E]]|[Hm0 [Hb [Hlt [Hsp HX]]]]].
  - split; [|intros _; eapply HOK; exact E]. intros [back [B1 [B2 _]]]. rewrite Hlast in B1. injection B1 as <-. congruence.
  - set (idx := length (filter (fun x => nlt x (nadd nzero kk)) nt)) in *.
    assert (Hiff : idx + 1 = length nt <-> in_last_gap nt kk).
    { split.
      - intros E. exists (last nt nzero). split; [exact Hlast|]. split; [exact Hb|].
        destruct (Nat.eq_dec (length nt) 1) as [E1|E1]; [auto|right].
        destruct (nth_error_Some_ex nt (length nt - 2)) as [y Hy]; [lia|]. exists y. split; [exact Hy|].
        apply (split_below nt _ idx (length nt - 2)); [exact Ho|exact Hsp|lia|exact Hy].
      - intros [back [_ [_ [E|[y [Hy Hl]]]]]]; [lia|].
        assert (length nt - 2 < length nt) by (apply nth_error_Some; congruence).
        destruct (Nat.lt_ge_cases (length nt - 2) idx) as [H1|H1]; [lia|].
        rewrite (split_above nt _ idx (length nt - 2) y Ho Hsp H1 Hy) in Hl. discriminate. }
    destruct HX as [[E1 E]|[E1 [E|[Ep E]]]].
    + split; [intros _|intros H; exfalso; apply H, Hiff; exact E1]. unfold acf_at. fold nt. rewrite E. reflexivity.
    + split; [intros H; apply Hiff in H; lia|]. intros _. eapply HOK. exact E.
    + exfalso. destruct (mapM_total (fun x => cabs p (nsub (nadd nzero kk) x)) nt) as [ys Hys].
      { intros x Hx. apply cabs_safe. intros Hp. apply Hn; [exact Hp|eapply nth_error_In; exact H0|exact Hx]. }
      assert (Hcab : forall i, i < length nt -> exists y, cabs p (nsub (nadd nzero kk) (nth i nt nzero)) = Ok y).
      { intros i Hi. apply cabs_safe. intros Hp. apply Hn; [exact Hp|eapply nth_error_In; exact H0|apply nth_In; exact Hi]. }
      unfold fast_sel in E. rewrite (lback_ok nt nzero Hnil) in E. cbn [bind] in E.
      destruct (shifted _ nt kk) as [|s S] eqn:ES; [discriminate|].
      assert (Hs : s = nadd nzero kk).
      { destruct nt as [|x1 nt']; [discriminate|]. injection H0 as ->. cbn [shifted] in ES.
        destruct (nle _ _); [discriminate|]. injection ES as <- _. reflexivity. }
      subst s. destruct (lower_bound_split nt (nadd nzero kk)) as [i [Ei Hi]]. rewrite Ei in E. cbn [bind] in E.
      assert (Eidx : i = idx) by (apply (split_count nt _ i Ho Hi)). subst i.
      rewrite (lat_ok nt (idx + 1) nzero) in E by lia. cbn [bind] in E. destruct (Hcab (idx + 1) ltac:(lia)) as [y1 Hy1]. rewrite Hy1 in E. cbn [bind] in E.
      rewrite (lat_ok nt idx nzero) in E by lia. cbn [bind] in E. destruct (Hcab idx ltac:(lia)) as [y2 Hy2]. rewrite Hy2 in E. cbn [bind] in E. discriminate.
Qed.

Lemma run_room_throw {X} (f : num -> res X) ks room e :
  (forall kk, In kk ks -> (exists v, f kk = Ok v) \/ f kk = Throw e) -> (exists kk, In kk ks /\ f kk = Throw e) -> length ks <= room ->
  run_room f ks room = Throw e.
Proof.
  revert room. induction ks as [|k ks IH]; intros room H [kk [Hin Hk]] Hl; [destruct Hin|]. cbn [run_room].
  destruct (f k) as [v|e'|u|] eqn:Ek.
  - cbn [bind]. destruct room as [|room]; [cbn in Hl; lia|]. destruct Hin as [->|Hin]; [congruence|].
    rewrite IH; [reflexivity|intros; apply H; right; assumption|eauto|cbn in Hl; lia].
  - destruct (H k (or_introl eq_refl)) as [[v Hv]|Hv]; cbn [bind]; congruence.
  - destruct (H k (or_introl eq_refl)) as [[v Hv]|Hv]; cbn [bind]; congruence.
  - destruct (H k (or_introl eq_refl)) as [[v Hv]|Hv]; cbn [bind]; congruence.
Qed.

Lemma fast_call_outcome p d c0 mi ma re al wgt g : accepted d -> times_ok d -> new_Correlator d = Ok c0 ->
  p_checked p = false -> known_weight wgt ->
  lag_grid (opt_or mi (min_lag c0)) (opt_or re (lag_resolution c0)) (opt_or ma (max_lag c0)) g ->
  g <> [] -> length g <= length (lag_timeseries c0) -> (forall kk, In kk g -> abs_defined p d kk) ->
  let call := autocorrelation p d mi ma re al "fast" wgt in
  ((exists kk, In kk g /\ in_last_gap (normalised_timeseries d) kk) -> call = Throw OutOfRange) /\
  ((forall kk, In kk g -> ~ in_last_gap (normalised_timeseries d) kk) -> exists r, call = Ok r).
Proof.
  intros Ha Ht Hn Hc Hw Hg Hne Hl Habs call. destruct (times_ok_norm d Ha Ht) as [Ko [Kf [K0 Kp]]]. subst call.
  destruct (new_Correlator_accepted d c0 Ha Hn) as [ts [data [er [N [n [-> [H1 [H4 [H5 [Hal ->]]]]]]]]]].
  rewrite auto_core by assumption. unfold acf_core. rewrite Hal. cbn [bind]. cbv zeta.
  cbn [min_lag lag_resolution max_lag the_corr lag_timeseries timeseries_ normalised_timeseries norm_t the_ds] in *. rewrite repeat_length in Hl.
  rewrite (grid_lag_list (S n) _ _ _ g Hg ltac:(lia)). cbn [fst].
  assert (HO : forall kk, In kk g -> (in_last_gap (rel_times ts) kk -> named_acf "fast" wgt (opt_or al (middle (rel_times ts) nzero)) p ts kk = Throw OutOfRange) /\
                (~ in_last_gap (rel_times ts) kk -> exists F, named_acf "fast" wgt (opt_or al (middle (rel_times ts) nzero)) p ts kk = Ok F)).
  { intros kk Hk. apply fast_acf_outcome; try assumption. apply Habs. exact Hk. }
  destruct g as [|k0 g']; [congruence|]. set (g := k0 :: g') in *. split.
  - intros [kk [Hk Hgap]]. rewrite (run_room_throw _ g n OutOfRange); [reflexivity| | |exact Hl].
    + intros k Hk'. destruct (HO k Hk') as [O1 O2]. destruct (in_last_gap_dec (rel_times ts) k) as [G|G]; [right|left]; auto.
    + exists kk. split; [exact Hk|]. apply HO; assumption.
  - intros Hno. destruct (run_room_safe (named_acf "fast" wgt (opt_or al (middle (rel_times ts) nzero)) p ts) g n) as [R1 _].
    { intros i kk Hi Hk. apply nth_error_In in Hk. apply HO; [exact Hk|apply Hno; exact Hk]. }
    destruct (R1 Hl) as [Fs E]. rewrite E. cbn [bind]. unfold g. eauto.
Qed.

End Generic.

(** ** exact arithmetic *)
Local Open Scope R_scope.

Lemma gap_Fin (nt : list (@num XR)) (T y k : R) : (2 <= length nt)%nat -> nth_error nt (length nt - 1) = Some (Fin T) ->
  nth_error nt (length nt - 2) = Some (Fin y) -> (in_last_gap (A := XR) nt (Fin k) <-> y < k < T).
Proof.
  intros H2 HT Hy. unfold in_last_gap. change (@nadd XR (@nzero XR) (Fin k)) with (Fin (0 + k)). rewrite Rplus_0_l. split.
  - intros [b [Hb [H1 [H|[z [Hz H3]]]]]]; [lia|]. rewrite HT in Hb. injection Hb as <-. rewrite Hy in Hz. injection Hz as <-.
    apply nlt_Fin in H3. split; [exact H3|]. apply Rnot_le_lt. intros C. apply nle_Fin in C. congruence.
  - intros [H3 H4]. exists (Fin T). split; [exact HT|]. split.
    + apply not_true_iff_false. intros C. apply nle_Fin in C. lra.
    + right. exists (Fin y). split; [exact Hy|]. apply nlt_Fin. exact H3.
Qed.

Lemma fast_default_exact p (d : @dstruct XR) (c0 : @correlator XR) wgt (T y r : R) :
  accepted d -> times_ok d -> new_Correlator d = Ok c0 -> p_checked p = false -> known_weight wgt ->
  (p_abs p = AbsInt -> nle (nadd (max_lag c0) (max_lag c0)) (nofZ INT_MAX) = true) ->
  (2 <= length (normalised_timeseries d))%nat ->
  max_lag c0 = Fin T -> lag_resolution c0 = Fin r ->
  nth_error (normalised_timeseries d) (length (normalised_timeseries d) - 2) = Some (Fin y) ->
  let call := autocorrelation p d None None None None "fast" wgt in
  let regular := T - y = r /\ exists n : Z, 2 * T = IZR n * r in
  (regular -> exists x, call = Ok x) /\ (~ regular -> call = Throw OutOfRange).
Proof.
  intros Ha Ht Hn Hc Hw Hs H2 ET Er Hy call regular.
  destruct (times_ok_norm d Ha Ht) as [Ko [Kf [K0 Kp]]].
  destruct (default_lags d c0 Ha Hn) as [_ [Hb [Hm _]]]. destruct (back_In _ _ Hb) as [Bin Bnth].
  destruct (default_resolution d c0 Ha Ht Hn (dblmax_pos _ arith_exact)) as [R0 RT].
  destruct RT as [RT|RT]; [lia|]. rewrite ET in *. rewrite Er in *.
  pose proof (Kp _ (nth_error_In _ _ Hy)) as Yp. change (@nle XR (Fin 0) (Fin y) = true) in Yp. apply nle_Fin in Yp.
  change (@nle XR (Fin 0) (Fin r) = true) in R0. apply nle_Fin in R0. apply nle_Fin in RT.
  assert (Rp : 0 < r).
  { destruct R0 as [R0|R0]; [exact R0|exfalso]. destruct (allotted d c0 Ha Hn) as [q [Hq _]]. rewrite Hm, Er, ET, <- R0 in Hq.
    cbn in Hq. destruct (Reqb_spec 0 0); [|congruence]. unfold xinf_sign in Hq. destruct (Reqb _ _); [discriminate|].
    destruct (Rltb _ _); discriminate. }
  assert (Hgap : r <= T - y).
  { assert (Er' : lag_resolution c0 = findMinDiff (normalised_timeseries d)).
    { destruct (new_Correlator_accepted d c0 Ha Hn) as [ts [data [er [N [n [-> [H1 [H4 [H5 [Hal ->]]]]]]]]]]. reflexivity. }
    destruct (findMinDiff_loop_spec (normalised_timeseries d) (@ndblmax XR) eq_refl) as [_ [S2 _]].
    fold (findMinDiff (normalised_timeseries d)) in S2. rewrite <- Er', Er in S2.
    assert (Bn' : nth_error (normalised_timeseries d) (S (length (normalised_timeseries d) - 2)) = Some (Fin T)).
    { replace (S (length (normalised_timeseries d) - 2)) with (length (normalised_timeseries d) - 1)%nat by lia. exact Bnth. }
    specialize (S2 _ _ _ Hy Bn' eq_refl). change (@nle XR (Fin r) (Fin (T + - y)) = true) in S2. apply nle_Fin in S2. lra. }
  destruct (default_fits_exact d c0 Ha Ht Hn) as [g [Hg Hl]].
  destruct (default_zero d c0 g Ha Ht Hn (dblmax_pos _ arith_exact) Hg) as [iz [z [Hz Hz0]]].
  assert (Hne : g <> []) by (intros ->; destruct iz; discriminate).
  assert (Habs : forall kk, In kk g -> abs_defined p d kk).
  { intros kk Hk. destruct (grid_bounds _ _ _ _ kk Hg Hk) as [G1 G2].
    apply (@abs_defined_range XR arith_exact _ _ p d c0); try assumption; [rewrite ET; exact Hs|].
    destruct G2 as [G2|[-> G2]]; [exact G2|]. apply lt_le in G2. rewrite Hm in G2. change (@nle XR (Fin 0) (Fin (- T)) = true) in G2.
    apply nle_Fin in G2. lra. }
  pose proof (fast_call_outcome p d c0 None None None None wgt g Ha Ht Hn Hc Hw Hg Hne Hl Habs) as [C1 C2]. fold call in C1, C2.
  rewrite Hm, ET, Er in Hg. change (@nneg XR (Fin T)) with (Fin (- T)) in Hg.
  destruct Hg as [n [[G1 G2] Eg]]. rewrite steps_exact in G2. apply not_true_iff_false in G2.
  assert (G2' : T < - T + INR n * r) by (apply Rnot_le_lt; intros C; apply G2; apply nle_Fin; exact C). clear G2.
  assert (G1' : forall i, (i < n)%nat -> - T + INR i * r <= T).
  { intros i Hi. specialize (G1 i Hi). rewrite steps_exact in G1. apply nle_Fin in G1. exact G1. }
  split.
  - intros [E1 [k Ek]]. apply C2. intros kk Hk Hgp. rewrite Eg in Hk. destruct (with_zero_In _ _ Hk) as [Hk'|[-> _]].
    + apply in_map_iff in Hk'. destruct Hk' as [i [<- Hi]]. rewrite steps_exact in Hgp.
      apply (gap_Fin _ T y _ H2 Bnth Hy) in Hgp. destruct Hgp as [P1 P2].
      assert (Q1 : IZR (k - 1) * r < IZR (Z.of_nat i) * r) by (rewrite minus_IZR, <- INR_IZR_INZ; lra).
      assert (Q2 : IZR (Z.of_nat i) * r < IZR k * r) by (rewrite <- INR_IZR_INZ; lra).
      apply Rmult_lt_reg_r in Q1; [|exact Rp]. apply Rmult_lt_reg_r in Q2; [|exact Rp]. apply lt_IZR in Q1. apply lt_IZR in Q2. lia.
    + apply (gap_Fin _ T y _ H2 Bnth Hy) in Hgp. lra.
  - intros Hnr. apply C1.
    assert (Hin : forall i, (i < n)%nat -> y < - T + INR i * r < T -> exists kk, In kk g /\ in_last_gap (normalised_timeseries d) kk).
    { intros i Hi Hk. exists (Fin (- T + INR i * r)). split; [|apply (gap_Fin _ T y _ H2 Bnth Hy); exact Hk].
      rewrite Eg. apply In_with_zero. apply in_map_iff. exists i. split; [apply steps_exact|apply in_seq; lia]. }
    assert (Hn0 : (2 <= n)%nat).
    { destruct n as [|[|n]]; [cbn in G2'; lra|cbn in G2'; lra|lia]. }
    assert (Hlast : - T + INR (n - 1) * r <= T) by (apply G1'; lia).
    rewrite minus_INR in Hlast by lia. cbn [INR] in Hlast.
    destruct (Rle_lt_or_eq_dec _ _ Hlast) as [Hlt|Heq].
    + apply (Hin (n - 1)%nat); [lia|]. rewrite minus_INR by lia. cbn [INR]. lra.
    + apply (Hin (n - 2)%nat); [lia|]. rewrite minus_INR by lia. cbn [INR]. split; [|lra].
      assert (r <> T - y). { intros C. apply Hnr. split; [lra|]. exists (Z.of_nat (n - 1)). rewrite <- INR_IZR_INZ, minus_INR by lia. cbn [INR]. lra. }
      lra.
Qed.

Lemma dist_opp p r : dist p (- r) = dist p r.
Proof. unfold dist. destruct (p_abs p); [apply Rabs_Ropp|]. rewrite Ztrunc_opp, Z.abs_opp. reflexivity. Qed.

(** ** an evenly sampled grid at lag [m * dd] *)
Lemma grid_sel_fast p dd M m sidx Sv : 0 < dd -> (0 < M)%nat -> fast_sel (A := XR) p (map Fin (grid 0 dd M)) (Fin (INR m * dd)) = Ok (sidx, Sv) ->
  sidx = fast_pattern m (M - 1 - m).
Proof.
  intros Hd HM E.
  destruct (fast_sel_cases (A := XR) p (map Fin (grid 0 dd M)) (Fin (INR m * dd))) as [x0 [k [H0 [[Hk1 [Hk2 Hk3]] HX]]]].
  { destruct M; [lia|discriminate]. }
  { exact (proj1 (grid_increasing 0 dd M Hd)). }
  { apply nfin_all. }
  assert (Hat : forall i, (i < M)%nat -> @nth_error (@num XR) (map Fin (grid 0 dd M)) i = Some (Fin (INR i * dd))).
  { intros i Hi. change (@nth_error xr (map Fin (grid 0 dd M)) i = Some (Fin (INR i * dd))). rewrite nth_error_map, grid_nth by exact Hi. cbn [option_map]. rewrite Rplus_0_l. reflexivity. }
  assert (Hlen : length (map Fin (grid 0 dd M)) = M) by (rewrite map_length; apply grid_length).
  change (@length (@num XR) (map Fin (grid 0 dd M)) = M) in Hlen.
  assert (Hlast : @last (@num XR) (map Fin (grid 0 dd M)) (@nzero XR) = Fin (INR (M - 1) * dd)).
  { rewrite last_nth. apply nth_error_nth. rewrite Hlen. apply Hat. lia. }
  rewrite Hlast in *. rewrite Hlen in *. cbv zeta in HX. rewrite (Hat 0%nat HM) in H0. injection H0 as <-.
  assert (Ek : k = (M - 1 - m)%nat).
  { destruct (Nat.lt_trichotomy k (M - 1 - m)) as [H|[H|H]]; [|exact H|].
    - exfalso. specialize (Hk3 _ (Hat k ltac:(lia))). change (@nle XR (Fin (INR (M - 1) * dd)) (Fin (INR k * dd + INR m * dd)) = true) in Hk3.
      apply nle_Fin in Hk3. rewrite <- Rmult_plus_distr_r, <- plus_INR in Hk3. apply Rmult_le_reg_r in Hk3; [|exact Hd].
      apply INR_le in Hk3. lia.
    - exfalso. specialize (Hk2 (M - 1 - m)%nat _ H (Hat (M - 1 - m)%nat ltac:(lia))). cbv beta in Hk2.
      change (@nle XR (Fin (INR (M - 1) * dd)) (Fin (INR (M - 1 - m) * dd + INR m * dd)) = false) in Hk2.
      apply not_true_iff_false in Hk2. apply Hk2. apply nle_Fin. rewrite <- Rmult_plus_distr_r, <- plus_INR.
      apply Rmult_le_compat_r; [lra|]. apply le_INR. lia. }
  subst k.
  destruct HX as [[Hz [_ E']]|[Hz [_ [Hlt [Hsp HX]]]]].
  - rewrite E' in E. injection E as <- _. rewrite Hz. reflexivity.
  - destruct HX as [[_ E']|[_ [E'|[_ E']]]]; rewrite E' in E; [discriminate| |discriminate]. apply (f_equal (fun z => match z with Ok (s, _) => s | _ => [] end)) in E. rewrite <- E. f_equal.
    assert (E0 : @nadd XR (Fin (INR 0 * dd)) (Fin (INR m * dd)) = Fin (INR m * dd)).
    { change (Fin (INR 0 * dd + INR m * dd) = Fin (INR m * dd)). f_equal. cbn [INR]. ring. }
    change (@nadd XR (Fin (0 * dd)) (Fin (INR m * dd))) with (@nadd XR (Fin (INR 0 * dd)) (Fin (INR m * dd))) in *.
    rewrite E0 in *.
    set (q := length (filter (fun x : @num XR => nlt x (Fin (INR m * dd))) (map Fin (grid 0 dd M)))) in *.
    destruct (Nat.lt_trichotomy q m) as [H|[H|H]]; [|exact H|]; exfalso.
    + pose proof (split_above (A := XR) _ _ q q _ (proj1 (grid_increasing 0 dd M Hd)) Hsp (le_n q) (Hat q ltac:(lia))) as C.
      apply nlt_Fin_false in C. apply Rmult_le_reg_r in C; [|exact Hd]. apply INR_le in C. lia.
    + pose proof (split_below (A := XR) _ _ q m _ (proj1 (grid_increasing 0 dd M Hd)) Hsp H (Hat m ltac:(lia))) as C.
      apply nlt_Fin in C. lra.
Qed.

Lemma grid_value_fast p d mi ma re al wgt lags corr c rows j i (rs : list R) (t0 dd a : R) (M m : nat) :
  accepted d -> autocorrelation (A := XR) p d mi ma re al "fast" wgt = Ok (lags, corr, c) ->
  data_2d d = Ok rows -> nth_error rows j = Some (map Fin rs) -> nth_error lags i = Some (Fin (INR m * dd)) ->
  timeseries d = map Fin (grid t0 dd M) -> 0 < dd -> opt_or al (median_time d) = Fin a -> 0 < a ->
  corr_at corr j i = Some (xdiv (Fin (rsum_n (M - 1 - m) (fun q =>
      if (q + m <? M - 1 - m)%nat then dev rs q * dev rs (q + m)
      else rweight wgt a (dist p (INR (q + m) * dd)) * dev rs q * dev rs 0))) (Fin (sq_dev32 rs))).
Proof.
  intros Ha E Hd Hj Hi Ht Hdd Hal Hpos.
  destruct (exact_value p d mi ma re al _ wgt lags corr c rows j i rs _ _ a Ha E Hd Hj Hi Ht Hal Hpos)
    as [sf [sidx [Sv [Hs [_ [En [HS [Hn [HL [K1 [K2 HV]]]]]]]]]]].
  rewrite grid_rel in En. rewrite grid_length in HL, K1, K2. injection Hs as <-. rewrite En in HS.
  assert (HM : (0 < M)%nat) by (rewrite <- HL; destruct rs; [congruence|cbn; lia]).
  pose proof (grid_sel_fast p dd M m sidx Sv Hdd HM HS) as Es.
  rewrite HV. do 3 f_equal.
  assert (El : length sidx = (M - 1 - m)%nat) by (rewrite Es; unfold fast_pattern; rewrite map_length, seq_length; reflexivity). rewrite El.
  apply rsum_n_ext. intros q Hq.
  assert (Eq : nth q sidx 0%nat = if (q + m <? M - 1 - m)%nat then (q + m)%nat else 0%nat).
  { apply nth_error_nth. rewrite Es. unfold fast_pattern. rewrite nth_error_map, nth_error_seq.
    destruct (Nat.ltb_spec q (M - 1 - m)); [|lia]. cbn [option_map Nat.add]. rewrite (Nat.add_comm m q). reflexivity. }
  rewrite Eq. destruct (Nat.ltb_spec (q + m) (M - 1 - m)) as [H|H].
  - rewrite !grid_nth0 by lia. replace (t0 + INR (q + m) * dd - (t0 + INR q * dd + INR m * dd)) with 0 by (rewrite plus_INR; ring).
    rewrite dist_0, rweight_0 by exact Hpos. ring.
  - rewrite !grid_nth0 by lia.
    replace (t0 + INR 0 * dd - (t0 + INR q * dd + INR m * dd)) with (- (INR (q + m) * dd)) by (rewrite plus_INR; cbn [INR]; ring).
    rewrite dist_opp. reflexivity.
Qed.

Lemma grid_value_fast_half p d mi ma re al wgt lags corr c rows j i (rs : list R) (t0 dd a : R) (M m : nat) :
  accepted d -> autocorrelation (A := XR) p d mi ma re al "fast" wgt = Ok (lags, corr, c) ->
  data_2d d = Ok rows -> nth_error rows j = Some (map Fin rs) -> nth_error lags i = Some (Fin (INR m * dd)) ->
  timeseries d = map Fin (grid t0 dd M) -> 0 < dd -> opt_or al (median_time d) = Fin a -> 0 < a -> (M - 1 <= 2 * m)%nat ->
  corr_at corr j i = Some (xdiv (Fin (dev rs 0 * rsum_n (M - 1 - m) (fun q => rweight wgt a (dist p (INR (q + m) * dd)) * dev rs q))) (Fin (sq_dev32 rs))).
Proof.
  intros Ha E Hd Hj Hi Ht Hdd Hal Hpos Hm. rewrite (grid_value_fast p d mi ma re al wgt lags corr c rows j i rs t0 dd a M m) by assumption.
  do 3 f_equal. rewrite <- rsum_n_scal. apply rsum_n_ext. intros q Hq. destruct (Nat.ltb_spec (q + m) (M - 1 - m)); [lia|]. ring.
Qed.
