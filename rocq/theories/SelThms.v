(** Selection functions and time offsets, at the level of the API. *)
From Coq Require Import String.
From Coq Require Import ZArith Reals List Bool Arith Lia.
From Verif Require Import Num Mem MemFacts XR B64 Laws B64Facts Laws2 Spec SpecR DataStructure DSFacts Correlator Sacf Api
  CorrFacts LoopFacts MainFacts ConstrFacts SelFacts.
Import ListNotations.

Lemma nth_error_combine {X Y} (l : list X) (m : list Y) i x y :
  nth_error l i = Some x -> nth_error m i = Some y -> nth_error (combine l m) i = Some (x, y).
Proof.
  revert i m. induction l as [|a l IH]; intros [|i] [|b m] H1 H2; cbn in *; try discriminate; [congruence|].
  apply IH; assumption.
Qed.

Section Sel.
Context {A : Num} {L : NumLaws A} {L2 : NumLaws2 A}.

Lemma times_ok_norm d : accepted d -> times_ok d ->
  ordered (normalised_timeseries d) /\ (forall x, In x (normalised_timeseries d) -> nfin x = true) /\
  nth_error (normalised_timeseries d) 0 = Some nzero /\
  (forall y, In y (normalised_timeseries d) -> nle nzero y = true).
Proof.
  intros Ha [H1 [H2 H3]]. destruct (normalised_times d Ha H1 H2) as [_ [K0 [_ [Ko Kp]]]].
  split; [exact Ko|]. split; [|split; [exact K0|exact Kp]]. intros x Hx. apply finite_nfin. apply H3. exact Hx.
Qed.

Lemma back_In {X} (l : list X) b : lback l = Ok b -> In b l /\ nth_error l (length l - 1) = Some b.
Proof.
  unfold lback, lget. destruct l as [|a l]; [discriminate|].
  destruct (nth_error (a :: l) (length (a :: l) - 1)) as [x|] eqn:E; [|discriminate].
  intros H. injection H as ->. split; [eapply nth_error_In; exact E|reflexivity].
Qed.

Lemma lback_nth {X} (l : list X) b : nth_error l (length l - 1) = Some b -> lback l = Ok b.
Proof. intros H. unfold lback, lget. rewrite H. destruct l; [discriminate|reflexivity]. Qed.

(** C17: retained points of ordered times *)
Lemma natural_retained d kk back m : accepted d -> times_ok d -> nisnan kk = false ->
  lback (normalised_timeseries d) = Ok back ->
  cut_at (fun x => nlt back (nadd x kk)) (normalised_timeseries d) m ->
  forall i x, nth_error (normalised_timeseries d) i = Some x -> (i < m <-> nle (nadd x kk) back = true).
Proof.
  intros Ha Ht Hk Hb Hm. destruct (times_ok_norm d Ha Ht) as [Ko [Kf _]].
  apply cut_ordered; try assumption. apply l_fin_nan, Kf. apply (back_In _ _ Hb).
Qed.

(** C18 *)
Lemma natural_nearest p d kk n it : accepted d -> times_ok d -> p_abs p = AbsFloat -> nisnan kk = false ->
  naturalSelectionFunctionIdx p d (CorrelationIterator kk n) = (it, Ok tt) ->
  let nt := normalised_timeseries d in
  forall i s, nth_error (selection it) i = Some s ->
  exists x y, nth_error nt i = Some x /\ nth_error nt s = Some y /\
    forall z, In z nt -> nle (nabs (nsub (nadd x kk) y)) (nabs (nsub (nadd x kk) z)) = true.
Proof.
  intros Ha Ht Hp Hk Hrun nt i s Hi. subst nt. destruct (times_ok_norm d Ha Ht) as [Ko [Kf _]].
  destruct (natural_run_inv p d kk n it Ha Hrun) as [m [back [Hb [_ [_ [_ [_ Hn]]]]]]].
  destruct (Hn i s Hi) as [x [Hx [Hbx Hidx]]].
  destruct (fun H1 H2 H3 => natural_index_nearest p _ _ _ Hp Ko Kf H1 Hidx H2 H3) as [y [Hy Hy2]].
  - apply l_add_fin_nan; [apply Kf; eapply nth_error_In; exact Hx|exact Hk].
  - intros E. rewrite E in Hx. destruct i; discriminate.
  - intros b' Hb'. rewrite Hb in Hb'. injection Hb' as <-. exact Hbx.
  - exists x, y. auto.
Qed.

(** C19 *)
Lemma natural_monotone p d kk n it : accepted d -> times_ok d ->
  naturalSelectionFunctionIdx p d (CorrelationIterator kk n) = (it, Ok tt) ->
  forall i j s s', i <= j -> nth_error (selection it) i = Some s -> nth_error (selection it) j = Some s' -> s <= s'.
Proof.
  intros Ha Ht Hrun i j s s' Hij Hi Hj. destruct (times_ok_norm d Ha Ht) as [Ko [Kf _]].
  destruct (natural_run_inv p d kk n it Ha Hrun) as [m [back [Hb [_ [_ [_ [_ Hn]]]]]]].
  destruct (Hn i s Hi) as [x [Hx [Hbx Hix]]]. destruct (Hn j s' Hj) as [y [Hy [Hby Hiy]]].
  destruct (nisnan kk) eqn:Hk.
  - rewrite (natural_index_nan p _ _ s) with (2 := Hix); [lia|].
    apply l_nan_add. rewrite Hk. apply orb_true_r.
  - apply (natural_index_mono p _ (nadd x kk) (nadd y kk) s s' Ko Kf); [|exact Hix|exact Hiy].
    apply l_add_mono; [apply (Ko i j); assumption| |]; apply l_add_fin_nan; try exact Hk; apply Kf; eapply nth_error_In; eassumption.
Qed.

End Sel.

Section Offsets.
Context {A : Num}.

Definition chosen p (fast : bool) d kk n : meth cor_it unit :=
  if fast then fastSelectionFunctionIdx p d (CorrelationIterator kk n)
  else naturalSelectionFunctionIdx p d (CorrelationIterator kk n).

Definition beyond_of (fast : bool) (back s : num) : bool := if fast then nle back s else nlt back s.

(** what any successful selection leaves *)
Lemma chosen_inv p fast d kk n it : accepted d -> chosen p fast d kk n = (it, Ok tt) ->
  exists m back, lback (normalised_timeseries d) = Ok back /\
    cut_at (fun x => beyond_of fast back (nadd x kk)) (normalised_timeseries d) m /\
    length (selection it) = m /\
    (forall s, In s (selection it) -> s < length (normalised_timeseries d)) /\
    (if fast then fast_sel else natural_sel) p (norm_t d) kk =
      Ok (selection it, map (fun x => nadd x kk) (firstn m (normalised_timeseries d))) /\
    selected it kk n (selection it) (map (fun x => nadd x kk) (firstn m (normalised_timeseries d))).
Proof.
  intros Ha Hrun. destruct (accepted_times d Ha) as [ts [data [er [N [-> [H1 [-> [Ent [Hnil Hlen]]]]]]]]].
  set (nt := rel_times ts) in *. set (d := the_ds ts data er N) in *. rewrite Ent.
  destruct (shifted_cut (beyond_of fast (last nt nzero)) nt kk) as [m [Hm HS]].
  exists m, (last nt nzero). split; [apply lback_ok; exact Hnil|]. split; [exact Hm|].
  assert (H0 : 0 < length nt) by (destruct nt; [congruence|cbn; lia]).
  destruct fast; cbn [chosen beyond_of] in *.
  - pose proof (fast_closed p d kk n) as HC. rewrite Hrun, Ent in HC.
    destruct (fast_sel p nt kk) as [[sel S]|e|u|] eqn:E; try contradiction.
    destruct HC as [it' [E' Hsel]]. injection E' as <-.
    assert (Esel : selection it = sel) by apply Hsel. rewrite Esel.
    assert (ES : S = map (fun x => nadd x kk) (firstn m nt)).
    { rewrite <- HS. unfold fast_sel in E. rewrite (lback_ok nt nzero Hnil) in E. cbn [bind] in E.
      change (shifted (beyond_of true (last nt nzero)) nt kk) with (shifted (fun s => nle (last nt nzero) s) nt kk).
      destruct (shifted (fun s => nle (last nt nzero) s) nt kk); [injection E as _ <-; reflexivity|].
      repeat (apply bind_Ok in E; destruct E as [? [_ E]]). injection E as _ <-. reflexivity. }
    rewrite <- ES. destruct (fast_sel_ok p nt kk sel S H0 E) as [K1 [K2 K3]].
    split; [rewrite K1, ES, map_length; apply firstn_length_le; apply Hm|]. auto.
  - pose proof (natural_closed p d kk n) as HC. rewrite Hrun, Ent in HC.
    destruct (natural_sel p nt kk) as [[sel S]|e|u|] eqn:E; try contradiction.
    destruct HC as [it' [E' Hsel]]. injection E' as <-.
    assert (Esel : selection it = sel) by apply Hsel. rewrite Esel.
    assert (ES : S = map (fun x => nadd x kk) (firstn m nt)).
    { rewrite <- HS. unfold natural_sel in E. rewrite (lback_ok nt nzero Hnil) in E. cbn [bind] in E.
      apply bind_Ok in E; destruct E as [? [_ E]]. injection E as _ <-. reflexivity. }
    rewrite <- ES. destruct (natural_sel_ok p nt kk sel S H0 E) as [K1 [K2 K3]].
    split; [rewrite K1, ES, map_length; apply firstn_length_le; apply Hm|]. auto.
Qed.

Lemma deltas_float p nt sel S : p_abs p = AbsFloat -> p_checked p = false ->
  (forall s, In s sel -> s < length nt) ->
  deltas p nt sel S = Ok (map (fun xs => nabs (nsub (nth (fst xs) nt nzero) (snd xs))) (combine sel S)).
Proof.
  intros Hp Hc Hs. unfold deltas. apply mapM_Ok_map. intros [s x] Hin. unfold delta_of. cbn [fst snd].
  rewrite (lat_ok nt s nzero) by (apply Hs; eapply in_combine_l; exact Hin). rewrite Hc. cbn [bind].
  apply cabs_float. exact Hp.
Qed.

(** C20 *)
Lemma offsets_after_selection p fast d kk n it : accepted d -> chosen p fast d kk n = (it, Ok tt) ->
  (p_checked p = true -> selection it <> [] -> snd (deltaT p d it) = UB StaleRead) /\
  (p_checked p = false -> p_abs p = AbsFloat ->
     exists it', deltaT p d it = (it', Ok tt) /\ length (offsets it') = length (selection it) /\
     forall i s x y, nth_error (selection it) i = Some s ->
       nth_error (normalised_timeseries d) i = Some x -> nth_error (normalised_timeseries d) s = Some y ->
       nth_error (offsets it') i = Some (nabs (nsub y (nadd x kk)))) /\
  (p_checked p = false -> p_abs p = AbsInt -> snd (deltaT p d it) = Ok tt \/ snd (deltaT p d it) = UB BadConversion).
Proof.
  intros Ha Hrun. destruct (chosen_inv p fast d kk n it Ha Hrun) as [m [back [Hb [Hm [Hl [Hr [Hs Hsel]]]]]]].
  set (nt := normalised_timeseries d) in *. set (S := map (fun x => nadd x kk) (firstn m nt)) in *.
  assert (HlS : length (selection it) = length S).
  { unfold S. rewrite map_length, firstn_length_le by apply Hm. exact Hl. }
  pose proof (deltaT_closed p d it kk n (selection it) S Hsel HlS) as HD. change (norm_t d) with nt in HD.
  split; [|split].
  - intros Hc Hne. destruct (selection it) as [|s sel] eqn:Esel; [congruence|].
    destruct S as [|x S'] eqn:ES; [discriminate|].
    unfold deltas in HD. cbn [combine mapM] in HD. unfold delta_of at 1 in HD. cbn [fst snd] in HD.
    rewrite (lat_ok nt s nzero) in HD by (apply Hr; left; reflexivity). rewrite Hc in HD. cbn [bind] in HD.
    destruct (snd (deltaT p d it)); cbn in HD; try contradiction. congruence.
  - intros Hc Hp. rewrite (deltas_float p nt _ S Hp Hc Hr) in HD.
    destruct HD as [it' [E Ho]]. exists it'. split; [exact E|].
    assert (Eo : offsets it' = map (fun xs => nabs (nsub (nth (fst xs) nt nzero) (snd xs))) (combine (selection it) S)) by apply Ho.
    rewrite Eo, map_length, combine_length, <- HlS, Nat.min_id. split; [reflexivity|].
    intros i s x y Hi Hx Hy. rewrite nth_error_map.
    assert (HSi : nth_error S i = Some (nadd x kk)).
    { unfold S. rewrite nth_error_map, nth_error_firstn.
      assert (i < m) by (rewrite <- Hl; apply nth_error_Some; congruence).
      destruct (Nat.ltb_spec i m); [|lia]. rewrite Hx. reflexivity. }
    assert (Hc2 : nth_error (combine (selection it) S) i = Some (s, nadd x kk)).
    { apply nth_error_combine; assumption. }
    rewrite Hc2. cbn [option_map fst snd]. rewrite (nth_error_nth nt s nzero Hy). reflexivity.
  - intros Hc Hp.
    destruct (mapM_outcome (delta_of p nt) (combine (selection it) S) BadConversion) as [[ys E]|E].
    + intros [s x] Hin. unfold delta_of. cbn [fst snd].
      rewrite (lat_ok nt s nzero) by (apply Hr; eapply in_combine_l; exact Hin). rewrite Hc. cbn [bind].
      apply cabs_outcome.
    + unfold deltas in HD. rewrite E in HD. destruct HD as [it' [E' _]]. rewrite E'. left. reflexivity.
    + unfold deltas in HD. rewrite E in HD. right. destruct (snd (deltaT p d it)); cbn in HD; try contradiction. congruence.
Qed.

(** a checked build never completes a lag with retained points *)
Lemma run_room_In {X} (f : num -> res X) ks room vs kk : run_room f ks room = Ok vs -> In kk ks -> exists v, f kk = Ok v.
Proof.
  intros H Hin. apply run_room_mapM in H. destruct (mapM_Ok_inv _ _ _ H) as [_ Hn].
  apply In_nth_error in Hin. destruct Hin as [i Hi]. destruct (Hn i kk Hi) as [b [_ Hb]]. eauto.
Qed.

Lemma acf_core_lag p ts mi ma re al sel wgt g Fs kk :
  acf_core p ts mi ma re al sel wgt = Ok (g, Fs) -> In kk g ->
  exists F, named_acf sel wgt (opt_or al (middle (rel_times ts) nzero)) p ts kk = Ok F.
Proof.
  intros E Hin. unfold acf_core in E. apply bind_Ok in E. destruct E as [n [_ E]]. cbv zeta in E.
  set (Lg := fst (lag_list _ _ _ _ _)) in *.
  assert (E2 : (do Fs <- run_room (named_acf sel wgt (opt_or al (middle (rel_times ts) nzero)) p ts) Lg n; Ok (Lg, Fs)) = Ok (g, Fs)).
  { destruct Lg; [destruct (_ && _); [exact E|discriminate]|exact E]. }
  apply bind_Ok in E2. destruct E2 as [Fs' [E2 E3]]. injection E3 as -> ->.
  eapply run_room_In; eassumption.
Qed.

Lemma checked_deltas p nt sel S : p_checked p = true -> (forall s, In s sel -> s < length nt) -> length sel = length S ->
  deltas p nt sel S = match sel with [] => Ok [] | _ => UB StaleRead end.
Proof.
  intros Hc Hr Hl. destruct sel as [|s sel]; [reflexivity|]. destruct S as [|x S]; [discriminate|].
  unfold deltas. cbn [combine mapM]. unfold delta_of at 1. cbn [fst snd].
  rewrite (lat_ok nt s nzero) by (apply Hr; left; reflexivity). rewrite Hc. reflexivity.
Qed.

Lemma checked_build_lags p d mi ma re al sel wgt r : accepted d -> p_checked p = true ->
  autocorrelation p d mi ma re al sel wgt = Ok r ->
  forall kk, In kk (fst (fst r)) -> exists back x, lback (normalised_timeseries d) = Ok back /\
    nth_error (normalised_timeseries d) 0 = Some x /\
    (if String.eqb sel "fast" then nle back (nadd x kk) else nlt back (nadd x kk)) = true.
Proof.
  intros Ha Hc E kk Hin. destruct (accepted_setUp d Ha) as [ts [data [er [N [-> [H1 [H2 [H3 [H4 H5]]]]]]]]].
  rewrite auto_core in E by assumption. apply bind_Ok in E. destruct E as [[g Fs] [E E2]].
  apply bind_Ok in E2. destruct E2 as [n [_ E2]]. injection E2 as <-. cbn [fst] in Hin.
  destruct (acf_core_lag _ _ _ _ _ _ _ _ _ _ kk E Hin) as [F HF].
  assert (Hnil : rel_times ts <> []) by (apply rel_times_nil; exact H1).
  set (nt := rel_times ts) in *. change (normalised_timeseries (the_ds ts data er N)) with nt.
  assert (H0 : 0 < length nt) by (destruct nt; [congruence|cbn; lia]).
  exists (last nt nzero), (nth 0 nt nzero). split; [apply lback_ok; exact Hnil|].
  split; [apply nth_error_nth_eq; exact H0|].
  assert (HS : exists sf S, (String.eqb sel "fast" = true /\ sf = fast_sel /\ S = shifted (fun s => nle (last nt nzero) s) nt kk \/
                             String.eqb sel "fast" = false /\ sf = natural_sel /\ S = shifted (fun s => nlt (last nt nzero) s) nt kk) /\
              exists sl dts, sf p nt kk = Ok (sl, S) /\ deltas p nt sl S = Ok dts).
  { unfold named_acf in HF. destruct (sel_named sel) as [sf|] eqn:Esf; [|discriminate].
    assert (HX : exists sS dts, sf p nt kk = Ok sS /\ deltas p nt (fst sS) (snd sS) = Ok dts).
    { destruct (weight_named wgt _); unfold acf_at in HF; fold nt in HF;
        apply bind_Ok in HF; destruct HF as [sS [K1 HF]]; apply bind_Ok in HF; destruct HF as [dts [K2 _]]; eauto. }
    destruct HX as [[sl S] [dts [K1 K2]]]. cbn [fst snd] in K2. exists sf, S. split; [|eauto].
    unfold sel_named in Esf. destruct (String.eqb sel "fast"); [|destruct (String.eqb sel "natural"); [|discriminate]];
      injection Esf as <-; [left|right]; (split; [reflexivity|]); (split; [reflexivity|]).
    - unfold fast_sel in K1. rewrite (lback_ok nt nzero Hnil) in K1. cbn [bind] in K1.
      destruct (shifted (fun s => nle (last nt nzero) s) nt kk); [injection K1 as _ <-; reflexivity|].
      repeat (apply bind_Ok in K1; destruct K1 as [? [_ K1]]). injection K1 as _ <-. reflexivity.
    - unfold natural_sel in K1. rewrite (lback_ok nt nzero Hnil) in K1. cbn [bind] in K1.
      apply bind_Ok in K1; destruct K1 as [? [_ K1]]. injection K1 as _ <-. reflexivity. }
  destruct HS as [sf [S [HsfS [sl [dts [K1 K2]]]]]].
  assert (Hok : sel_ok sf) by (destruct HsfS as [[_ [-> _]]|[_ [-> _]]]; [exact fast_sel_ok|exact natural_sel_ok]).
  destruct (Hok p nt kk sl S H0 K1) as [J1 [J2 J3]].
  rewrite (checked_deltas p nt sl S Hc J3 J1) in K2. destruct sl; [|discriminate].
  destruct S as [|s0 S0]; [|discriminate].
  destruct nt as [|x0 nt'] eqn:Ent; [congruence|]. cbn [nth]. destruct HsfS as [[-> [_ Hsh]]|[-> [_ Hsh]]]; cbn [shifted] in Hsh.
  - destruct (nle (last (x0 :: nt') nzero) (nadd x0 kk)); [reflexivity|discriminate].
  - destruct (nlt (last (x0 :: nt') nzero) (nadd x0 kk)); [reflexivity|discriminate].
Qed.

End Offsets.
