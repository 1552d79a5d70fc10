(** Selection of indices: lower_bound, natural selection, time offsets. *)
From Coq Require Import ZArith Reals List Bool Arith Lia.
From Verif Require Import Num Mem MemFacts XR B64 Laws B64Facts Laws2 Spec SpecR DataStructure DSFacts Correlator Sacf Api
  CorrFacts LoopFacts MainFacts ConstrFacts.
Import ListNotations.

Section Generic.
Context {A : Num}.

(** ** lower_bound: between an entry below [val] and one not below it *)
Definition split_at (l : list num) (val : num) (i : nat) : Prop :=
  i <= length l /\
  (i = 0 \/ exists a, nth_error l (i - 1) = Some a /\ nlt a val = true) /\
  (i = length l \/ exists b, nth_error l i = Some b /\ nlt b val = false).

Lemma lower_bound_loop_split fuel l val first len :
  first + len <= length l -> len < fuel ->
  (first = 0 \/ exists a, nth_error l (first - 1) = Some a /\ nlt a val = true) ->
  (first + len = length l \/ exists b, nth_error l (first + len) = Some b /\ nlt b val = false) ->
  exists i, lower_bound_loop fuel l val first len = Ok i /\ split_at l val i.
Proof.
  revert first len. induction fuel as [|fuel IH]; intros first len H1 H2 H3 H4; [lia|].
  cbn [lower_bound_loop]. destruct (Nat.eqb_spec len 0) as [->|Hn].
  - rewrite Nat.add_0_r in H4. exists first. split; [reflexivity|]. unfold split_at. split; [lia|auto].
  - pose proof (Nat.div_lt len 2 ltac:(lia) ltac:(lia)) as Hh. set (half := len / 2) in *.
    assert (Hm : first + half < length l) by lia.
    destruct (nth_error_Some_ex l (first + half) Hm) as [m Em]. unfold lget. rewrite Em. cbn [bind].
    destruct (nlt m val) eqn:E.
    + apply IH; try lia.
      * right. exists m. replace (S (first + half) - 1) with (first + half) by lia. auto.
      * replace (S (first + half) + (len - half - 1)) with (first + len) by lia. exact H4.
    + apply IH; try lia; [exact H3|]. right. exists m. auto.
Qed.

Lemma lower_bound_split l val : exists i, lower_bound l val = Ok i /\ split_at l val i.
Proof.
  unfold lower_bound. apply lower_bound_loop_split; try lia; auto.
Qed.

(** not past the end if the last entry is not below *)
Lemma split_inside l val i back : lback l = Ok back -> nlt back val = false -> split_at l val i -> i < length l.
Proof.
  intros Hb Hn [H1 [H2 H3]]. unfold lback in Hb. destruct l as [|a l]; [discriminate|].
  destruct (Nat.eq_dec i (length (a :: l))) as [E|E]; [|lia]. exfalso.
  destruct H2 as [->|[x [Hx Hl]]]; [cbn in E; lia|].
  unfold lget in Hb. rewrite <- E in Hb. rewrite Hx in Hb. injection Hb as ->. congruence.
Qed.

(** ** shifted times *)
Lemma shifted_cut beyond ts kk :
  exists m, cut_at (fun x => beyond (nadd x kk)) ts m /\ shifted beyond ts kk = map (fun x => nadd x kk) (firstn m ts).
Proof.
  induction ts as [|a ts [m [[H1 [H2 H3]] H4]]].
  - exists 0. split; [|reflexivity]. split; [cbn; lia|]. split; [intros; lia|]. intros x Hx. discriminate.
  - cbn [shifted]. destruct (beyond (nadd a kk)) eqn:E.
    + exists 0. split; [|reflexivity]. split; [lia|]. split; [intros; lia|]. intros x Hx. injection Hx as <-. exact E.
    + exists (S m). split; [|cbn; rewrite H4; reflexivity]. split; [cbn; lia|]. split.
      * intros [|i] x Hi Hx; [injection Hx as <-; exact E|]. apply (H2 i); [lia|exact Hx].
      * intros x Hx. apply H3. exact Hx.
Qed.

Lemma cut_at_unique beyond l m m' : cut_at beyond l m -> cut_at beyond l m' -> m = m'.
Proof.
  intros [H1 [H2 H3]] [H1' [H2' H3']].
  destruct (Nat.lt_trichotomy m m') as [H|[H|H]]; [|exact H|]; exfalso.
  - destruct (nth_error_Some_ex l m ltac:(lia)) as [x Hx]. specialize (H3 x Hx). rewrite (H2' m x H Hx) in H3. discriminate.
  - destruct (nth_error_Some_ex l m' ltac:(lia)) as [x Hx]. specialize (H3' x Hx). rewrite (H2 m' x H Hx) in H3'. discriminate.
Qed.

(** ** cabs *)
Lemma cabs_outcome p x : (exists y, cabs p x = Ok y) \/ cabs p x = UB BadConversion.
Proof.
  unfold cabs. destruct (p_abs p); [left; eauto|]. unfold to_int. destruct (ntrunc x) as [z|]; cbn; [|auto].
  destruct (in_int z); cbn; [|auto]. destruct (z =? INT_MIN)%Z; eauto.
Qed.

Lemma cabs_float p x : p_abs p = AbsFloat -> cabs p x = Ok (nabs x).
Proof. intros H. unfold cabs. rewrite H. reflexivity. Qed.

Lemma natural_index_outcome p nt s back : lback nt = Ok back -> nlt back s = false ->
  (exists i, natural_index p nt s = Ok i) \/ natural_index p nt s = UB BadConversion.
Proof.
  intros Hb Hs. unfold natural_index. destruct (lower_bound_split nt s) as [i [-> Hi]]. cbn [bind].
  pose proof (split_inside nt s i back Hb Hs Hi) as Hlt.
  destruct (Nat.eqb_spec i 0) as [->|Hn]; [left; eauto|].
  rewrite (lat_ok nt (i - 1) nzero) by lia. cbn [bind].
  destruct (cabs_outcome p (nsub s (nth (i - 1) nt nzero))) as [[da ->]| ->]; cbn [bind]; [|auto].
  rewrite (lat_ok nt i nzero) by lia. cbn [bind].
  destruct (cabs_outcome p (nsub s (nth i nt nzero))) as [[db ->]| ->]; cbn [bind]; [|auto].
  left. eauto.
Qed.

Lemma natural_index_float p nt s back : p_abs p = AbsFloat -> lback nt = Ok back -> nlt back s = false ->
  exists i, natural_index p nt s = Ok i.
Proof.
  intros Hp Hb Hs. unfold natural_index. destruct (lower_bound_split nt s) as [i [-> Hi]]. cbn [bind].
  pose proof (split_inside nt s i back Hb Hs Hi) as Hlt.
  destruct (Nat.eqb_spec i 0) as [->|Hn]; [eauto|].
  rewrite (lat_ok nt (i - 1) nzero), (lat_ok nt i nzero) by lia. cbn [bind].
  rewrite !cabs_float by exact Hp. cbn [bind]. eauto.
Qed.

Lemma mapM_outcome {X Y} (f : X -> res Y) l u :
  (forall x, In x l -> (exists y, f x = Ok y) \/ f x = UB u) ->
  (exists ys, mapM f l = Ok ys) \/ mapM f l = UB u.
Proof.
  induction l as [|x l IH]; cbn; intros H; [left; eauto|].
  destruct (H x (or_introl eq_refl)) as [[y ->]| ->]; cbn; [|auto].
  destruct IH as [[ys ->]| ->]; [auto| |]; cbn; eauto.
Qed.

Lemma mapM_total {X Y} (f : X -> res Y) l : (forall x, In x l -> exists y, f x = Ok y) -> exists ys, mapM f l = Ok ys.
Proof.
  induction l as [|x l IH]; cbn; intros H; [eauto|].
  destruct (H x (or_introl eq_refl)) as [y ->]. cbn. destruct IH as [ys ->]; [auto|]. cbn. eauto.
Qed.

Lemma shifted_In beyond ts kk s : In s (shifted beyond ts kk) -> beyond s = false.
Proof.
  induction ts as [|a ts IH]; cbn; [intros []|]. destruct (beyond (nadd a kk)) eqn:E; [intros []|].
  intros [<-|H]; [exact E|exact (IH H)].
Qed.

Lemma natural_sel_outcome p nt kk : nt <> [] ->
  (exists sS, natural_sel p nt kk = Ok sS) \/ natural_sel p nt kk = UB BadConversion.
Proof.
  intros H. unfold natural_sel. rewrite (lback_ok nt nzero H). cbn [bind].
  destruct (mapM_outcome (natural_index p nt) (shifted (fun s => nlt (last nt nzero) s) nt kk) BadConversion) as [[ys ->]| ->];
    cbn [bind]; [|eauto|auto].
  intros s Hs. apply (natural_index_outcome p nt s (last nt nzero)); [apply lback_ok; exact H|].
  exact (shifted_In _ _ _ _ Hs).
Qed.

Lemma natural_sel_float p nt kk : p_abs p = AbsFloat -> nt <> [] -> exists sS, natural_sel p nt kk = Ok sS.
Proof.
  intros Hp H. unfold natural_sel. rewrite (lback_ok nt nzero H). cbn [bind].
  destruct (mapM_total (natural_index p nt) (shifted (fun s => nlt (last nt nzero) s) nt kk)) as [ys ->]; cbn [bind]; [|eauto].
  intros s Hs. apply (natural_index_float p nt s (last nt nzero)); [exact Hp|apply lback_ok; exact H|].
  exact (shifted_In _ _ _ _ Hs).
Qed.

Lemma accepted_times d : accepted d -> exists ts data er N, d = the_ds ts data er N /\ ts <> [] /\
  normalised_timeseries d = rel_times ts /\ norm_t d = rel_times ts /\ rel_times ts <> [] /\
  length (rel_times ts) = length ts.
Proof.
  intros Ha. destruct (accepted_setUp d Ha) as [ts [data [er [N [-> [H1 _]]]]]].
  exists ts, data, er, N. repeat split; try exact H1; try (apply rel_times_nil; exact H1).
  unfold rel_times. destruct ts; [congruence|apply map_length].
Qed.

(** C17 *)
Lemma natural_selection_count p d kk n : accepted d ->
  let nt := normalised_timeseries d in
  exists back m, lback nt = Ok back /\ cut_at (fun x => nlt back (nadd x kk)) nt m /\
  let run := naturalSelectionFunctionIdx p d (CorrelationIterator kk n) in
  (snd run = Ok tt \/ snd run = UB BadConversion) /\
  (p_abs p = AbsFloat -> snd run = Ok tt) /\
  (snd run = Ok tt -> length (vlive (selection_indices (fst run))) = m /\
     forall s, In s (vlive (selection_indices (fst run))) -> s < length nt).
Proof.
  intros Ha. destruct (accepted_times d Ha) as [ts [data [er [N [-> [H1 [-> [Ent [Hnil Hlen]]]]]]]]].
  set (nt := rel_times ts) in *. set (d := the_ds ts data er N) in *. cbv zeta.
  destruct (shifted_cut (fun s => nlt (last nt nzero) s) nt kk) as [m [Hm HS]].
  exists (last nt nzero), m. split; [apply lback_ok; exact Hnil|]. split; [exact Hm|].
  pose proof (natural_closed p d kk n) as HC. rewrite Ent in HC.
  destruct (natural_sel_outcome p nt kk Hnil) as [[[sel S] E]|E]; rewrite E in HC.
  - destruct HC as [it [-> Hsel]]. cbn [fst snd]. split; [auto|]. split; [auto|]. intros _.
    destruct Hsel as [_ [_ [_ [-> _]]]].
    destruct (natural_sel_ok p nt kk sel S) as [K1 [K2 K3]]; [destruct nt; [congruence|cbn; lia]|exact E|].
    split; [|exact K3]. rewrite K1. unfold natural_sel in E. rewrite (lback_ok nt nzero Hnil) in E. cbn [bind] in E.
    apply bind_Ok in E. destruct E as [sel' [_ E]]. injection E as _ <-. rewrite HS, map_length.
    apply firstn_length_le. apply Hm.
  - destruct (naturalSelectionFunctionIdx p d (CorrelationIterator kk n)) as [it r]. cbn [fst snd] in *.
    destruct r; try contradiction. cbn in HC. subst u. split; [auto|]. split; [|discriminate].
    intros Hp. destruct (natural_sel_float p nt kk Hp Hnil) as [sS E']. congruence.
Qed.

(** what the iterator holds after a successful natural selection *)
Lemma natural_run_inv p d kk n it : accepted d ->
  naturalSelectionFunctionIdx p d (CorrelationIterator kk n) = (it, Ok tt) ->
  exists m back, lback (normalised_timeseries d) = Ok back /\
    cut_at (fun x => nlt back (nadd x kk)) (normalised_timeseries d) m /\
    natural_sel p (norm_t d) kk =
      Ok (vlive (selection_indices it), map (fun x => nadd x kk) (firstn m (normalised_timeseries d))) /\
    length (vlive (selection_indices it)) = m /\
    selected it kk n (vlive (selection_indices it)) (map (fun x => nadd x kk) (firstn m (normalised_timeseries d))) /\
    forall i s, nth_error (vlive (selection_indices it)) i = Some s ->
      exists x, nth_error (normalised_timeseries d) i = Some x /\ nlt back (nadd x kk) = false /\
                natural_index p (normalised_timeseries d) (nadd x kk) = Ok s.
Proof.
  intros Ha Hrun. destruct (accepted_times d Ha) as [ts [data [er [N [-> [H1 [-> [Ent [Hnil Hlen]]]]]]]]].
  set (nt := rel_times ts) in *. set (d := the_ds ts data er N) in *.
  destruct (shifted_cut (fun s => nlt (last nt nzero) s) nt kk) as [m [Hm HS]].
  exists m, (last nt nzero). split; [apply lback_ok; exact Hnil|]. split; [exact Hm|].
  pose proof (natural_closed p d kk n) as HC. rewrite Hrun in HC. rewrite Ent in *.
  destruct (natural_sel_outcome p nt kk Hnil) as [[[sel S] E]|E]; rewrite E in HC; [|contradiction].
  destruct HC as [it' [E' Hsel]]. injection E' as <-.
  assert (ES : S = map (fun x => nadd x kk) (firstn m nt)).
  { pose proof E as E2. unfold natural_sel in E2. rewrite (lback_ok nt nzero Hnil) in E2. cbn [bind] in E2.
    apply bind_Ok in E2. destruct E2 as [sel' [_ E2]]. injection E2 as _ <-. exact HS. }
  assert (Esel : vlive (selection_indices it) = sel) by apply Hsel.
  rewrite Esel, E, <- ES. split; [reflexivity|].
  destruct (natural_sel_ok p nt kk sel S) as [K1 [K2 K3]]; [destruct nt; [congruence|cbn; lia]|exact E|].
  split. { rewrite K1, ES, map_length. apply firstn_length_le. apply Hm. }
  split; [exact Hsel|].
  intros i s Hi. pose proof E as E2. unfold natural_sel in E2. rewrite (lback_ok nt nzero Hnil) in E2. cbn [bind] in E2.
  apply bind_Ok in E2. destruct E2 as [sel' [E2 E3]]. injection E3 as -> ES'.
  destruct (mapM_Ok_inv _ _ _ E2) as [Hl Hn].
  assert (Hi' : i < length S). { rewrite <- ES', <- Hl. apply nth_error_Some. congruence. }
  assert (Hi2 : i < length (firstn m nt)) by (rewrite ES, map_length in Hi'; exact Hi').
  destruct (nth_error_Some_ex (firstn m nt) i Hi2) as [x Hx].
  assert (HSx : nth_error S i = Some (nadd x kk)) by (rewrite ES, nth_error_map, Hx; reflexivity).
  assert (Hxn : nth_error nt i = Some x).
  { rewrite nth_error_firstn in Hx. destruct (i <? m); [exact Hx|discriminate]. }
  exists x. split; [exact Hxn|]. rewrite <- ES' in HSx. split.
  - apply (shifted_In (fun s => nlt (last nt nzero) s) nt kk). eapply nth_error_In. exact HSx.
  - destruct (Hn _ _ HSx) as [b [Hb1 Hb2]]. congruence.
Qed.

End Generic.

(** ** Ordered times *)
Section Ordered.
Context {A : Num} {L : NumLaws A} {L2 : NumLaws2 A}.

Lemma split_below l val i j x : ordered l -> split_at l val i -> j < i -> nth_error l j = Some x -> nlt x val = true.
Proof.
  intros Ho [_ [H2 _]] Hj Hx. destruct H2 as [->|[a [Ha Hl]]]; [lia|].
  apply (le_lt_trans x a val); [|exact Hl]. apply (Ho j (i - 1)); [lia|assumption|assumption].
Qed.

Lemma split_above l val i j x : ordered l -> split_at l val i -> i <= j -> nth_error l j = Some x -> nlt x val = false.
Proof.
  intros Ho [H1 [_ H3]] Hj Hx. destruct H3 as [->|[b [Hb Hl]]].
  - assert (j < length l) by (apply nth_error_Some; congruence). lia.
  - destruct (nlt x val) eqn:E; [|reflexivity]. rewrite <- Hl. symmetry. apply (le_lt_trans b x val); [|exact E].
    apply (Ho i j); assumption.
Qed.

(** a selected index is the insertion point or the one before *)
Lemma natural_index_cases p nt s idx : natural_index p nt s = Ok idx ->
  exists i, split_at nt s i /\
    ((i = 0 /\ idx = 0) \/
     (0 < i /\ exists a b da db, nth_error nt (i - 1) = Some a /\ nth_error nt i = Some b /\
        cabs p (nsub s a) = Ok da /\ cabs p (nsub s b) = Ok db /\ idx = if nlt da db then i - 1 else i)).
Proof.
  unfold natural_index. destruct (lower_bound_split nt s) as [i [-> Hi]]. cbn [bind]. intros H. exists i. split; [exact Hi|].
  destruct (Nat.eqb_spec i 0) as [->|Hn]; [injection H as <-; auto|]. right. split; [lia|].
  apply bind_Ok in H. destruct H as [a [Ha H]]. apply bind_Ok in H. destruct H as [da [Hda H]].
  apply bind_Ok in H. destruct H as [b [Hb H]]. apply bind_Ok in H. destruct H as [db [Hdb H]].
  injection H as <-. unfold lat in Ha, Hb.
  destruct (nth_error nt (i - 1)) as [a'|]; [|discriminate]. destruct (nth_error nt i) as [b'|]; [|discriminate].
  injection Ha as ->. injection Hb as ->. exists a, b, da, db. auto.
Qed.

(** distances *)
Lemma sub_nonneg a s : nfin a = true -> nle a s = true -> nle nzero (nsub s a) = true.
Proof.
  intros Hf H. pose proof (l_le_nan _ _ H) as [Ha Hs].
  rewrite <- (l_sub_self a Hf). apply l_sub_mono; [exact H| |apply l_sub_fin_nan; assumption].
  apply l_sub_fin; assumption.
Qed.
Lemma sub_nonpos a s : nfin a = true -> nle s a = true -> nle (nsub s a) nzero = true.
Proof.
  intros Hf H. pose proof (l_le_nan _ _ H) as [Hs Ha].
  rewrite <- (l_sub_self a Hf). apply l_sub_mono; [exact H|apply l_sub_fin_nan; assumption|].
  apply l_sub_fin; assumption.
Qed.

Lemma abs_le_pos x y : nle nzero x = true -> nle x y = true -> nle (nabs x) (nabs y) = true.
Proof.
  intros H1 H2. pose proof (eq_le _ _ (l_abs_pos x H1)) as [K1 _].
  pose proof (eq_le _ _ (l_abs_pos y (l_le_trans _ _ _ H1 H2))) as [_ K2].
  exact (l_le_trans _ _ _ K1 (l_le_trans _ _ _ H2 K2)).
Qed.
Lemma abs_le_neg x y : nle x nzero = true -> nle y x = true -> nle (nabs x) (nabs y) = true.
Proof.
  intros H1 H2. pose proof (eq_le _ _ (l_abs_neg x H1)) as [K1 _].
  pose proof (eq_le _ _ (l_abs_neg y (l_le_trans _ _ _ H2 H1))) as [_ K2].
  exact (l_le_trans _ _ _ K1 (l_le_trans _ _ _ (l_neg_anti _ _ H2) K2)).
Qed.

(** points further away on the same side *)
Lemma further_left s a z : nfin a = true -> nfin z = true -> nle z a = true -> nle a s = true ->
  nle (nabs (nsub s a)) (nabs (nsub s z)) = true.
Proof.
  intros Fa Fz H1 H2. pose proof (l_le_nan _ _ H2) as [_ Hs]. apply abs_le_pos; [apply sub_nonneg; assumption|].
  apply l_sub_anti; [exact H1| |]; apply l_sub_fin_nan; assumption.
Qed.
Lemma further_right s a z : nfin a = true -> nfin z = true -> nle a z = true -> nle s a = true ->
  nle (nabs (nsub s a)) (nabs (nsub s z)) = true.
Proof.
  intros Fa Fz H1 H2. pose proof (l_le_nan _ _ H2) as [Hs _]. apply abs_le_neg; [apply sub_nonpos; assumption|].
  apply l_sub_anti; [exact H1| |]; apply l_sub_fin_nan; assumption.
Qed.

Lemma natural_index_nearest p nt s idx : p_abs p = AbsFloat -> ordered nt -> (forall x, In x nt -> nfin x = true) ->
  nisnan s = false -> natural_index p nt s = Ok idx -> nt <> [] ->
  (forall back, lback nt = Ok back -> nlt back s = false) ->
  exists y, nth_error nt idx = Some y /\ forall z, In z nt -> nle (nabs (nsub s y)) (nabs (nsub s z)) = true.
Proof.
  intros Hp Ho Hf Hs Hi Hnil Hback. destruct (natural_index_cases p nt s idx Hi) as [i [Hsp Hc]].
  pose proof (lback_ok nt nzero Hnil) as Hb.
  pose proof (split_inside nt s i _ Hb (Hback _ Hb) Hsp) as Hlt.
  assert (Hfn : forall j x, nth_error nt j = Some x -> nfin x = true) by (intros j x Hx; apply Hf; eapply nth_error_In; exact Hx).
  assert (Hle_r : forall j x, i <= j -> nth_error nt j = Some x -> nle s x = true).
  { intros j x Hj Hx. apply nlt_le; [apply l_fin_nan; eapply Hfn; exact Hx|exact Hs|].
    eapply split_above; eassumption. }
  assert (Hle_l : forall j x, j < i -> nth_error nt j = Some x -> nle x s = true).
  { intros j x Hj Hx. apply lt_le. eapply split_below; eassumption. }
  destruct Hc as [[-> ->]|[H0 [a [b [da [db [Ha [Hb' [Hda [Hdb ->]]]]]]]]]].
  - destruct (nth_error_Some_ex nt 0 Hlt) as [y Hy]. exists y. split; [exact Hy|]. intros z Hz.
    apply In_nth_error in Hz. destruct Hz as [j Hz].
    apply further_right; [eapply Hfn; exact Hy|eapply Hfn; exact Hz| |eapply Hle_r; [|exact Hy]; lia].
    apply (Ho 0 j); [lia|assumption|assumption].
  - rewrite cabs_float in Hda, Hdb by exact Hp. injection Hda as <-. injection Hdb as <-.
    assert (Na : nisnan (nabs (nsub s a)) = false) by (rewrite l_abs_nan; apply l_sub_fin_nan; [eapply Hfn; exact Ha|exact Hs]).
    assert (Nb : nisnan (nabs (nsub s b)) = false) by (rewrite l_abs_nan; apply l_sub_fin_nan; [eapply Hfn; exact Hb'|exact Hs]).
    assert (HA : forall j z, j < i -> nth_error nt j = Some z -> nle (nabs (nsub s a)) (nabs (nsub s z)) = true).
    { intros j z Hj Hz. apply further_left; [eapply Hfn; exact Ha|eapply Hfn; exact Hz| |eapply Hle_l; [|exact Ha]; lia].
      apply (Ho j (i - 1)); [lia|assumption|assumption]. }
    assert (HB : forall j z, i <= j -> nth_error nt j = Some z -> nle (nabs (nsub s b)) (nabs (nsub s z)) = true).
    { intros j z Hj Hz. apply further_right; [eapply Hfn; exact Hb'|eapply Hfn; exact Hz| |eapply Hle_r; [|exact Hb']; lia].
      apply (Ho i j); assumption. }
    destruct (nlt (nabs (nsub s a)) (nabs (nsub s b))) eqn:E.
    + exists a. split; [exact Ha|]. intros z Hz. apply In_nth_error in Hz. destruct Hz as [j Hz].
      destruct (Nat.lt_ge_cases j i) as [Hj|Hj]; [exact (HA j z Hj Hz)|].
      exact (l_le_trans _ _ _ (lt_le _ _ E) (HB j z Hj Hz)).
    + exists b. split; [exact Hb'|]. intros z Hz. apply In_nth_error in Hz. destruct Hz as [j Hz].
      destruct (Nat.lt_ge_cases j i) as [Hj|Hj]; [|exact (HB j z Hj Hz)].
      exact (l_le_trans _ _ _ (nlt_le _ _ Na Nb E) (HA j z Hj Hz)).
Qed.

(** the insertion point is monotone *)
Lemma split_mono l s1 s2 i1 i2 : ordered l -> nle s1 s2 = true -> split_at l s1 i1 -> split_at l s2 i2 -> i1 <= i2.
Proof.
  intros Ho H12 H1 H2. destruct (Nat.le_gt_cases i1 i2) as [H|H]; [exact H|]. exfalso.
  destruct (nth_error_Some_ex l i2) as [x Hx]; [destruct H1; lia|].
  pose proof (split_below l s1 i1 i2 x Ho H1 H Hx) as K1.
  pose proof (split_above l s2 i2 i2 x Ho H2 ltac:(lia) Hx) as K2.
  rewrite (lt_le_trans _ _ _ K1 H12) in K2. discriminate.
Qed.

(** the comparison of the two distances, for both meanings of abs *)
Lemma closer_left_mono p s1 s2 a b da1 db1 da2 db2 :
  nfin a = true -> nfin b = true ->
  nle a s1 = true -> nle s1 s2 = true -> nle s2 b = true ->
  cabs p (nsub s1 a) = Ok da1 -> cabs p (nsub s1 b) = Ok db1 ->
  cabs p (nsub s2 a) = Ok da2 -> cabs p (nsub s2 b) = Ok db2 ->
  nlt da2 db2 = true -> nlt da1 db1 = true.
Proof.
  intros Fa Fb H1 H2 H3 E1 E2 E3 E4 Hlt.
  pose proof (l_le_nan _ _ H2) as [N1 N2].
  assert (P1 : nle nzero (nsub s1 a) = true) by (apply sub_nonneg; assumption).
  assert (P2 : nle (nsub s2 b) nzero = true) by (apply sub_nonpos; assumption).
  assert (P3 : nle (nsub s1 a) (nsub s2 a) = true) by (apply l_sub_mono; [exact H2| |]; apply l_sub_fin_nan; assumption).
  assert (P4 : nle (nsub s1 b) (nsub s2 b) = true) by (apply l_sub_mono; [exact H2| |]; apply l_sub_fin_nan; assumption).
  unfold cabs in *. destruct (p_abs p).
  - injection E1 as <-. injection E2 as <-. injection E3 as <-. injection E4 as <-.
    apply (le_lt_trans _ (nabs (nsub s2 a))); [apply abs_le_pos; assumption|].
    apply (lt_le_trans _ (nabs (nsub s2 b))); [exact Hlt|]. apply abs_le_neg; assumption.
  - assert (INV : forall x y, (do z <- to_int (ntrunc x); if (z =? INT_MIN)%Z then UB BadConversion else Ok (nofZ (Z.abs z))) = Ok y ->
       exists z, ntrunc x = Some z /\ y = nofZ (Z.abs z) /\ in_int (Z.abs z) = true).
    { intros x y E. apply bind_Ok in E. destruct E as [z [Ez E]]. unfold to_int in Ez.
      destruct (ntrunc x) as [z'|]; [|discriminate]. destruct (in_int z') eqn:Ein; [|discriminate].
      injection Ez as ->. destruct (Z.eqb_spec z INT_MIN); [discriminate|]. injection E as <-.
      exists z. split; [reflexivity|]. split; [reflexivity|].
      revert Ein. unfold in_int, INT_MIN, INT_MAX in *. rewrite !andb_true_iff, !Z.leb_le. lia. }
    destruct (INV _ _ E1) as [z1 [T1 [-> I1]]]. destruct (INV _ _ E2) as [z2 [T2 [-> I2]]].
    destruct (INV _ _ E3) as [z3 [T3 [-> I3]]]. destruct (INV _ _ E4) as [z4 [T4 [-> I4]]].
    rewrite ofZ_lt in * by assumption.
    pose proof (trunc_nonneg _ _ P1 T1). pose proof (l_trunc_mono _ _ _ _ P3 T1 T3).
    pose proof (trunc_nonpos _ _ P2 T4). pose proof (l_trunc_mono _ _ _ _ P4 T2 T4).
    apply Z.ltb_lt in Hlt. apply Z.ltb_lt. lia.
Qed.

Lemma natural_index_mono p nt s1 s2 i1 i2 : ordered nt -> (forall x, In x nt -> nfin x = true) ->
  nle s1 s2 = true -> natural_index p nt s1 = Ok i1 -> natural_index p nt s2 = Ok i2 -> i1 <= i2.
Proof.
  intros Ho Hf H12 E1 E2. pose proof (l_le_nan _ _ H12) as [N1 N2].
  destruct (natural_index_cases p nt s1 i1 E1) as [j1 [S1 C1]].
  destruct (natural_index_cases p nt s2 i2 E2) as [j2 [S2 C2]].
  pose proof (split_mono nt s1 s2 j1 j2 Ho H12 S1 S2) as Hj.
  destruct C1 as [[-> ->]|[H1 [a [b [da [db [Ha [Hb [Hda [Hdb ->]]]]]]]]]]; [lia|].
  destruct C2 as [[-> ->]|[H2 [a' [b' [da' [db' [Ha' [Hb' [Hda' [Hdb' ->]]]]]]]]]]; [lia|].
  destruct (Nat.eq_dec j1 j2) as [->|Hne]; [|destruct (nlt da db), (nlt da' db'); lia].
  rewrite Ha in Ha'. injection Ha' as <-. rewrite Hb in Hb'. injection Hb' as <-.
  destruct (nlt da' db') eqn:E'; [|destruct (nlt da db); lia].
  assert (Fa : nfin a = true) by (apply Hf; eapply nth_error_In; exact Ha).
  assert (Fb : nfin b = true) by (apply Hf; eapply nth_error_In; exact Hb).
  rewrite (closer_left_mono p s1 s2 a b da db da' db'); try assumption; [lia| |].
  - apply lt_le. eapply split_below; [exact Ho|exact S1| |exact Ha]. lia.
  - apply nlt_le; [apply l_fin_nan; exact Fb|exact N2|]. eapply split_above; [exact Ho|exact S2| |exact Hb]. lia.
Qed.

Lemma natural_index_nan p nt s i : nisnan s = true -> natural_index p nt s = Ok i -> i = 0.
Proof.
  intros Hs E. destruct (natural_index_cases p nt s i E) as [j [[_ [Sp _]] C]].
  destruct C as [[_ H]|[H _]]; [exact H|].
  destruct Sp as [->|[a [_ Ha]]]; [lia|]. apply lt_nan in Ha. destruct Ha as [_ Ha]. congruence.
Qed.

(** which points are retained, for ordered finite times *)
Lemma cut_ordered nt kk back m : ordered nt -> (forall x, In x nt -> nfin x = true) -> nisnan kk = false ->
  nisnan back = false -> cut_at (fun x => nlt back (nadd x kk)) nt m ->
  forall i x, nth_error nt i = Some x -> (i < m <-> nle (nadd x kk) back = true).
Proof.
  intros Ho Hf Hk Hb [H1 [H2 H3]] i x Hx.
  assert (N : forall j y, nth_error nt j = Some y -> nisnan (nadd y kk) = false).
  { intros j y Hy. apply l_add_fin_nan; [apply Hf; eapply nth_error_In; exact Hy|exact Hk]. }
  split.
  - intros Hi. apply nlt_le; [exact Hb|eapply N; exact Hx|]. apply (H2 i); assumption.
  - intros Hle. destruct (Nat.lt_ge_cases i m) as [Hi|Hi]; [exact Hi|]. exfalso.
    assert (Hil : i < length nt) by (apply nth_error_Some; congruence).
    destruct (nth_error_Some_ex nt m ltac:(lia)) as [y Hy]. specialize (H3 y Hy). cbn beta in H3.
    assert (Hyx : nle (nadd y kk) (nadd x kk) = true).
    { apply l_add_mono; [apply (Ho m i); assumption|eapply N; exact Hy|eapply N; exact Hx]. }
    rewrite (le_nlt _ _ (l_le_trans _ _ _ Hyx Hle)) in H3. discriminate.
Qed.

End Ordered.
