(** The fast selection function. *)
From Coq Require Import String.
From Coq Require Import ZArith Reals List Bool Arith Lia.
From Verif Require Import Num Mem MemFacts XR B64 Laws B64Facts Laws2 Spec SpecR DataStructure DSFacts Correlator Sacf Api
  CorrFacts LoopFacts MainFacts ConstrFacts SelFacts SelThms.
Import ListNotations.

Section Fast.
Context {A : Num} {L : NumLaws A} {L2 : NumLaws2 A}.

Lemma filter_all {X} (f : X -> bool) l : (forall x, In x l -> f x = true) -> filter f l = l.
Proof.
  induction l as [|a l IH]; cbn; intros H; [reflexivity|]. rewrite (H a (or_introl eq_refl)), IH by auto. reflexivity.
Qed.
Lemma filter_none {X} (f : X -> bool) l : (forall x, In x l -> f x = false) -> filter f l = [].
Proof.
  induction l as [|a l IH]; cbn; intros H; [reflexivity|]. rewrite (H a (or_introl eq_refl)), IH by auto. reflexivity.
Qed.

(** the insertion point counts the entries below *)
Lemma split_count l val i : ordered l -> split_at l val i -> i = length (filter (fun x => nlt x val) l).
Proof.
  intros Ho Hs. destruct Hs as [H1 H2]. pose proof (conj H1 H2) as Hs.
  rewrite <- (firstn_skipn i l), filter_app, app_length.
  assert (E1 : filter (fun x => nlt x val) (firstn i l) = firstn i l).
  { apply filter_all. intros x Hx. apply In_nth_error in Hx. destruct Hx as [j Hj].
    rewrite nth_error_firstn in Hj. destruct (Nat.ltb_spec j i); [|discriminate].
    eapply split_below; eassumption. }
  assert (E2 : filter (fun x => nlt x val) (skipn i l) = []).
  { apply filter_none. intros x Hx. apply In_nth_error in Hx. destruct Hx as [j Hj].
    rewrite nth_error_skipn in Hj. apply (split_above l val i (i + j) x Ho Hs); [lia|exact Hj]. }
  rewrite E1, E2, firstn_length_le by exact H1. cbn. lia.
Qed.

(** the point after the insertion point is never closer *)
Lemma fast_no_step p s a b da db : nfin a = true -> nfin b = true -> nle a b = true -> nlt a s = false ->
  cabs p (nsub s b) = Ok db -> cabs p (nsub s a) = Ok da -> nlt db da = false.
Proof.
  intros Fa Fb Hab Hs Edb Eda. destruct (nisnan s) eqn:Ns.
  - unfold cabs in *. destruct (p_abs p).
    + injection Edb as <-. injection Eda as <-. destruct (nlt (nabs (nsub s b)) (nabs (nsub s a))) eqn:E; [|reflexivity].
      apply lt_nan in E. destruct E as [E _]. rewrite l_abs_nan in E.
      rewrite l_nan_sub in E; [discriminate|]. rewrite Ns. reflexivity.
    + apply bind_Ok in Edb. destruct Edb as [z [Ez _]]. unfold to_int in Ez.
      destruct (ntrunc (nsub s b)) as [z'|] eqn:E; [|discriminate].
      apply l_fin_trunc in E. apply l_fin_nan in E. rewrite l_nan_sub in E; [discriminate|]. rewrite Ns. reflexivity.
  - assert (Hsa : nle s a = true) by (apply nlt_le; [apply l_fin_nan; exact Fa|exact Ns|exact Hs]).
    unfold cabs in *. destruct (p_abs p).
    + injection Edb as <-. injection Eda as <-. apply le_nlt. apply further_right; assumption.
    + apply bind_Ok in Edb. destruct Edb as [z [Ez Edb]]. apply bind_Ok in Eda. destruct Eda as [z' [Ez' Eda]].
      unfold to_int in Ez, Ez'.
      destruct (ntrunc (nsub s b)) as [y|] eqn:E; [|discriminate]. destruct (ntrunc (nsub s a)) as [y'|] eqn:E'; [|discriminate].
      destruct (in_int y) eqn:I; [|discriminate]. destruct (in_int y') eqn:I'; [|discriminate].
      injection Ez as <-. injection Ez' as <-.
      destruct (Z.eqb_spec y INT_MIN); [discriminate|]. destruct (Z.eqb_spec y' INT_MIN); [discriminate|].
      injection Edb as <-. injection Eda as <-.
      pose proof (trunc_nonpos _ _ (sub_nonpos a s Fa Hsa) E') as P1.
      assert (P2 : (y <= y')%Z).
      { apply (l_trunc_mono (nsub s b) (nsub s a)); [|exact E|exact E'].
        apply l_sub_anti; [exact Hab| |]; apply l_sub_fin_nan; assumption. }
      revert I I'. unfold in_int, INT_MIN, INT_MAX in *. rewrite !andb_true_iff, !Z.leb_le. intros I I'.
      rewrite ofZ_lt by (unfold in_int, INT_MIN, INT_MAX; apply andb_true_intro; rewrite !Z.leb_le; lia).
      apply Z.ltb_ge. lia.
Qed.

Definition fast_pattern (idx m : nat) : list nat :=
  map (fun i => if idx + i <? m then idx + i else 0) (seq 0 m).

Lemma fast_list_pattern idx m : fast_list idx m = fast_pattern idx m.
Proof.
  unfold fast_list, fast_pattern. apply map_ext. intros i.
  destruct (Nat.ltb_spec i (m - idx)), (Nat.ltb_spec (idx + i) m); try reflexivity; lia.
Qed.

Lemma fast_sel_cases p nt kk : nt <> [] -> ordered nt -> (forall x, In x nt -> nfin x = true) ->
  exists x0 m, nth_error nt 0 = Some x0 /\ cut_at (fun x => nle (last nt nzero) (nadd x kk)) nt m /\
  let s0 := nadd x0 kk in let idx := length (filter (fun x => nlt x s0) nt) in
  (m = 0 /\ nle (last nt nzero) s0 = true /\ fast_sel p nt kk = Ok ([], [])) \/
  (0 < m /\ nle (last nt nzero) s0 = false /\ idx < length nt /\ split_at nt s0 idx /\
    ((idx + 1 = length nt /\ fast_sel p nt kk = Throw OutOfRange) \/
     (idx + 1 < length nt /\
       (fast_sel p nt kk = Ok (fast_pattern idx m, map (fun x => nadd x kk) (firstn m nt)) \/
        (p_abs p = AbsInt /\ fast_sel p nt kk = UB BadConversion))))).
Proof.
  intros Hnil Ho Hf. destruct (shifted_cut (fun s => nle (last nt nzero) s) nt kk) as [m [Hm HS]].
  destruct nt as [|x0 nt'] eqn:Ent; [congruence|]. rewrite <- Ent in *. exists x0, m.
  assert (H0 : nth_error nt 0 = Some x0) by (rewrite Ent; reflexivity).
  split; [exact H0|]. split; [exact Hm|]. cbv zeta.
  destruct Hm as [M1 [M2 M3]]. unfold fast_sel. rewrite (lback_ok nt nzero Hnil). cbn [bind]. rewrite HS.
  destruct (Nat.eq_dec m 0) as [->|Hm0].
  - left. split; [reflexivity|]. split; [apply M3; exact H0|]. reflexivity.
  - right. split; [lia|]. assert (Hb0 : nle (last nt nzero) (nadd x0 kk) = false) by (apply (M2 0); [lia|exact H0]).
    split; [exact Hb0|].
    destruct (lower_bound_split nt (nadd x0 kk)) as [i [Ei Hi]].
    rewrite <- (split_count nt _ i Ho Hi).
    assert (Hlt : i < length nt).
    { apply (split_inside nt (nadd x0 kk) i (last nt nzero)); [apply lback_ok; exact Hnil| |exact Hi].
      destruct (nlt (last nt nzero) (nadd x0 kk)) eqn:E; [|reflexivity]. apply lt_le in E. congruence. }
    split; [exact Hlt|]. split; [exact Hi|].
    assert (EF : firstn m nt = x0 :: firstn (m - 1) nt').
    { rewrite Ent. destruct m; [lia|]. cbn. rewrite Nat.sub_0_r. reflexivity. }
    assert (Hfl : length (map (fun x => nadd x kk) (firstn m nt)) = m) by (rewrite map_length; apply firstn_length_le; exact M1).
    destruct (map (fun x => nadd x kk) (firstn m nt)) as [|s S] eqn:ES; [cbn in Hfl; lia|].
    assert (Es : s = nadd x0 kk) by (rewrite EF in ES; cbn in ES; congruence).
    subst s. rewrite Ei. cbn [bind].
    destruct (Nat.eq_dec (i + 1) (length nt)) as [E1|E1].
    + left. split; [exact E1|]. rewrite lat_oob by lia. reflexivity.
    + right. split; [lia|]. rewrite (lat_ok nt (i + 1) nzero) by lia. cbn [bind].
      assert (Hb : nth_error nt (i + 1) = Some (nth (i + 1) nt nzero)) by (apply nth_error_nth_eq; lia).
      assert (Hai : nth_error nt i = Some (nth i nt nzero)) by (apply nth_error_nth_eq; lia).
      destruct (cabs p (nsub (nadd x0 kk) (nth (i + 1) nt nzero))) as [db| | |] eqn:Edb.
      2-4: right; destruct (cabs_outcome p (nsub (nadd x0 kk) (nth (i + 1) nt nzero))) as [[y Ey]|Ey]; try congruence;
           (split; [destruct (p_abs p) eqn:Ep; [rewrite cabs_float in Ey by exact Ep; discriminate|reflexivity]|cbn; congruence]).
      cbn [bind]. rewrite (lat_ok nt i nzero) by lia. cbn [bind].
      destruct (cabs p (nsub (nadd x0 kk) (nth i nt nzero))) as [da| | |] eqn:Eda.
      2-4: right; destruct (cabs_outcome p (nsub (nadd x0 kk) (nth i nt nzero))) as [[y Ey]|Ey]; try congruence;
           (split; [destruct (p_abs p) eqn:Ep; [rewrite cabs_float in Ey by exact Ep; discriminate|reflexivity]|cbn; congruence]).
      left. cbn [bind]. rewrite (fun H1 H2 H3 H4 => fast_no_step p (nadd x0 kk) _ _ _ _ H1 H2 H3 H4 Edb Eda).
      * rewrite Hfl, fast_list_pattern. reflexivity.
      * apply Hf. eapply nth_error_In. exact Hai.
      * apply Hf. eapply nth_error_In. exact Hb.
      * apply (Ho i (i + 1)); [lia|assumption|assumption].
      * apply (split_above nt _ i i); [exact Ho|exact Hi|lia|exact Hai].
Qed.

(** C39 *)
Lemma fast_selection p d kk n : accepted d -> times_ok d ->
  let nt := normalised_timeseries d in
  exists back m, lback nt = Ok back /\ cut_at (fun x => nle back (nadd x kk)) nt m /\
  let s0 := nadd nzero kk in let idx := length (filter (fun x => nlt x s0) nt) in
  let run := fastSelectionFunctionIdx p d (CorrelationIterator kk n) in
  (snd run = Throw OutOfRange <->
     nle back s0 = false /\
     (length nt = 1 \/ exists y, nth_error nt (length nt - 2) = Some y /\ nlt y s0 = true)) /\
  (snd run = Ok tt \/ snd run = Throw OutOfRange \/ (p_abs p = AbsInt /\ snd run = UB BadConversion)) /\
  (snd run = Ok tt -> selection (fst run) = map (fun i => if idx + i <? m then idx + i else 0) (seq 0 m)).
Proof.
  intros Ha Ht. destruct (times_ok_norm d Ha Ht) as [Ko [Kf [K0 _]]].
  pose proof (fast_closed p d kk n) as HC. change (norm_t d) with (normalised_timeseries d) in HC.
  set (nt := normalised_timeseries d) in *. cbv zeta.
  assert (Hnil : nt <> []) by (intros E; rewrite E in K0; discriminate).
  destruct (fast_sel_cases p nt kk Hnil Ko Kf) as [x0 [m [H0 [Hm HX]]]]. cbv zeta in HX.
  rewrite K0 in H0. injection H0 as <-.
  exists (last nt nzero), m. split; [apply lback_ok; exact Hnil|]. split; [exact Hm|].
  assert (HO : forall (r : res unit), r = Ok tt \/ r <> Ok tt) by (intros [[]| | |]; auto; right; discriminate).
  destruct HX as [[-> [Hb E]]|[Hm0 [Hb [Hlt [Hsp HX]]]]].
  - rewrite E in HC. destruct HC as [it [-> Hsel]]. cbn [fst snd].
    split; [split; [discriminate|intros [H _]; congruence]|]. split; [auto|]. intros _. apply Hsel.
  - set (idx := length (filter (fun x => nlt x (nadd nzero kk)) nt)) in *.
    assert (Hiff : idx + 1 = length nt <-> length nt = 1 \/ exists y, nth_error nt (length nt - 2) = Some y /\ nlt y (nadd nzero kk) = true).
    { split.
      - intros E. destruct (Nat.eq_dec (length nt) 1) as [E1|E1]; [auto|right].
        destruct (nth_error_Some_ex nt (length nt - 2)) as [y Hy]; [lia|]. exists y. split; [exact Hy|].
        apply (split_below nt _ idx (length nt - 2)); [exact Ko|exact Hsp|lia|exact Hy].
      - intros [E|[y [Hy Hl]]]; [lia|].
        assert (length nt - 2 < length nt) by (apply nth_error_Some; congruence).
        destruct (Nat.lt_ge_cases (length nt - 2) idx) as [H1|H1]; [lia|].
        rewrite (split_above nt _ idx (length nt - 2) y Ko Hsp H1 Hy) in Hl. discriminate. }
    destruct HX as [[E1 E]|[E1 [E|[Ep E]]]]; rewrite E in HC.
    + destruct (fastSelectionFunctionIdx p d (CorrelationIterator kk n)) as [it r]. cbn [fst snd] in *.
      destruct r; try contradiction. cbn in HC. subst e.
      split; [split; [intros _; split; [exact Hb|apply Hiff; exact E1]|reflexivity]|]. split; [auto|discriminate].
    + destruct HC as [it [-> Hsel]]. cbn [fst snd].
      split; [split; [discriminate|intros [_ H]; apply Hiff in H; lia]|]. split; [auto|]. intros _. apply Hsel.
    + destruct (fastSelectionFunctionIdx p d (CorrelationIterator kk n)) as [it r]. cbn [fst snd] in *.
      destruct r; try contradiction. cbn in HC. subst u.
      split; [split; [discriminate|intros [_ H]; apply Hiff in H; lia]|]. split; [auto|discriminate].
Qed.

(** with anchor 0 every retained point is paired with itself *)
Lemma pattern_0 m : map (fun i => if 0 + i <? m then 0 + i else 0) (seq 0 m) = seq 0 m.
Proof.
  rewrite <- (map_id (seq 0 m)) at 2. apply map_ext_in. intros i Hi. apply in_seq in Hi.
  cbn [Nat.add]. destruct (Nat.ltb_spec i m); [reflexivity|lia].
Qed.

Lemma fast_anchor_0 nt kk : nle kk nzero = true -> (forall y, In y nt -> nle nzero y = true) ->
  filter (fun x => nlt x (nadd nzero kk)) nt = [].
Proof.
  intros Hk Kp. pose proof (l_le_nan _ _ Hk) as [Nk _].
  assert (Hs0 : nle (nadd nzero kk) kk = true) by (apply (eq_le _ _ (l_add_0_l kk Nk))).
  apply filter_none. intros x Hx. apply le_nlt.
  exact (l_le_trans _ _ _ Hs0 (l_le_trans _ _ _ Hk (Kp x Hx))).
Qed.

(** C40: negative lags *)
Lemma fast_negative p d kk n it : accepted d -> times_ok d -> increasing (normalised_timeseries d) ->
  nlt kk nzero = true -> fastSelectionFunctionIdx p d (CorrelationIterator kk n) = (it, Ok tt) ->
  let M := length (normalised_timeseries d) in
  (selection it = seq 0 M \/ selection it = seq 0 (M - 1)) /\
  (forall back, lback (normalised_timeseries d) = Ok back -> nlt (nadd back kk) back = true -> selection it = seq 0 M).
Proof.
  intros Ha Ht Hinc Hk Hrun M. destruct (times_ok_norm d Ha Ht) as [Ko [Kf [K0 Kp]]].
  destruct (fast_selection p d kk n Ha Ht) as [back [m [Hb [Hm [H1 [H2 H3]]]]]]. rewrite Hrun in H3. cbn [fst snd] in H3.
  specialize (H3 eq_refl). subst M. set (nt := normalised_timeseries d) in *.
  pose proof (lt_nan _ _ Hk) as [Nk _].
  rewrite fast_anchor_0 in H3 by (try assumption; apply lt_le; exact Hk). cbn [length] in H3. rewrite pattern_0 in H3.
  destruct (back_In nt back Hb) as [Bin Bnth].
  destruct Hm as [M1 [M2 M3]].
  assert (HM : length nt - 1 <= m).
  { destruct (Nat.le_gt_cases (length nt - 1) m) as [H|H]; [exact H|]. exfalso.
    destruct (nth_error_Some_ex nt m ltac:(lia)) as [x Hx]. specialize (M3 x Hx). cbn beta in M3.
    assert (Fx : nfin x = true) by (apply Kf; eapply nth_error_In; exact Hx).
    assert (Hxk : nle (nadd x kk) x = true).
    { apply (l_le_trans _ (nadd x nzero)); [|apply (eq_le _ _ (l_add_0_r x (l_fin_nan _ Fx)))].
      apply l_add_mono_r; [apply lt_le; exact Hk|apply l_add_fin_nan; assumption|apply l_add_fin; [exact Fx|apply l_fin_Z0]]. }
    assert (Hxb : nlt x back = true) by (apply (proj2 Hinc m (length nt - 1)); [lia|assumption|assumption]).
    pose proof (le_lt_trans _ _ _ (l_le_trans _ _ _ M3 Hxk) Hxb) as C. rewrite lt_irrefl in C. discriminate. }
  split.
  - rewrite H3. destruct (Nat.eq_dec m (length nt)) as [->|Hne]; [left; reflexivity|right].
    replace m with (length nt - 1) by lia. reflexivity.
  - intros back' Hb' Hl. rewrite Hb in Hb'. injection Hb' as <-. rewrite H3. f_equal.
    destruct (Nat.eq_dec m (length nt)) as [E|Hne]; [exact E|]. exfalso.
    replace (length nt - 1) with m in Bnth by lia. specialize (M3 back Bnth). cbn beta in M3.
    rewrite (lt_nle _ _ Hl) in M3. discriminate.
Qed.

(** C41: lag zero *)
Lemma fast_zero p d kk n it : accepted d -> times_ok d -> increasing (normalised_timeseries d) ->
  neqb kk nzero = true -> fastSelectionFunctionIdx p d (CorrelationIterator kk n) = (it, Ok tt) ->
  selection it = seq 0 (length (normalised_timeseries d) - 1).
Proof.
  intros Ha Ht Hinc Hk Hrun. destruct (times_ok_norm d Ha Ht) as [Ko [Kf [K0 Kp]]].
  destruct (fast_selection p d kk n Ha Ht) as [back [m [Hb [Hm [H1 [H2 H3]]]]]]. rewrite Hrun in H3. cbn [fst snd] in H3.
  specialize (H3 eq_refl). set (nt := normalised_timeseries d) in *.
  destruct (eq_le _ _ Hk) as [Hk1 Hk2]. pose proof (l_le_nan _ _ Hk1) as [Nk _].
  rewrite fast_anchor_0 in H3 by assumption. cbn [length] in H3. rewrite pattern_0 in H3.
  rewrite H3. f_equal. destruct (back_In nt back Hb) as [Bin Bnth]. destruct Hm as [M1 [M2 M3]].
  assert (HE : forall x, In x nt -> neqb (nadd x kk) x = true).
  { intros x Hx. pose proof (Kf x Hx) as Fx. destruct (eq_le _ _ (l_add_0_r x (l_fin_nan _ Fx))) as [E1 E2].
    rewrite l_eq. apply andb_true_intro. split.
    - apply (l_le_trans _ (nadd x nzero)); [|exact E1]. apply l_add_mono_r; [exact Hk1|apply l_add_fin_nan; assumption|].
      apply l_add_fin; [exact Fx|apply l_fin_Z0].
    - apply (l_le_trans _ (nadd x nzero)); [exact E2|]. apply l_add_mono_r; [exact Hk2| |apply l_add_fin_nan; assumption].
      apply l_add_fin; [exact Fx|apply l_fin_Z0]. }
  assert (HM : length nt - 1 <= m).
  { destruct (Nat.le_gt_cases (length nt - 1) m) as [H|H]; [exact H|]. exfalso.
    destruct (nth_error_Some_ex nt m ltac:(lia)) as [x Hx]. specialize (M3 x Hx). cbn beta in M3.
    assert (Hxb : nlt x back = true) by (apply (proj2 Hinc m (length nt - 1)); [lia|assumption|assumption]).
    destruct (eq_le _ _ (HE x (nth_error_In _ _ Hx))) as [E1 E2].
    pose proof (le_lt_trans _ _ _ (l_le_trans _ _ _ M3 E1) Hxb) as C. rewrite lt_irrefl in C. discriminate. }
  destruct (Nat.eq_dec m (length nt)) as [E|Hne]; [|lia]. exfalso.
  assert (Hl : 0 < length nt) by (destruct nt; [discriminate|cbn; lia]).
  specialize (M2 (length nt - 1) back ltac:(lia) Bnth). cbn beta in M2.
  destruct (eq_le _ _ (HE back Bin)) as [_ E2]. congruence.
Qed.

End Fast.
