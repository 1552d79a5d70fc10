(** Two calls on the same data with different lag settings. *)
From Coq Require Import String.
From Coq Require Import ZArith List Bool Arith Lia.
From Verif Require Import Num Mem MemFacts Spec SpecExt DataStructure Correlator Sacf Api Laws DSFacts CorrFacts LoopFacts MainFacts RelFacts SafeFacts.
Import ListNotations.
Local Open Scope list_scope.

Section Crop.
Context {A : Num}.

Lemma core_run p ts mi ma re al sel wgt g Fs : acf_core p ts mi ma re al sel wgt = Ok (g, Fs) ->
  exists n, allot (rel_times ts) = Ok n /\
    g = fst (lag_list (S n) (opt_or ma (last (rel_times ts) nzero)) (opt_or re (findMinDiff (rel_times ts))) (opt_or mi (nneg (last (rel_times ts) nzero))) false) /\
    run_room (named_acf sel wgt (opt_or al (middle (rel_times ts) nzero)) p ts) g n = Ok Fs.
Proof.
  intros E. unfold acf_core in E. apply bind_Ok in E. destruct E as [n [E0 E]]. cbv zeta in E. exists n. split; [exact E0|].
  set (L := fst _) in *. destruct L, (String.eqb sel "natural" && String.eqb wgt "fractional"); try discriminate;
    apply bind_Ok in E; destruct E as [Fs0 [E1 E2]]; injection E2 as <- <-; auto.
Qed.

Lemma mapM_nth {X Y} (f : X -> res Y) l ys i x : mapM f l = Ok ys -> nth_error l i = Some x -> exists y, f x = Ok y /\ nth_error ys i = Some y.
Proof.
  revert ys i. induction l as [|a l IH]; intros ys i H Hi; [destruct i; discriminate|]. cbn [mapM] in H.
  apply bind_Ok in H. destruct H as [y [H1 H]]. apply bind_Ok in H. destruct H as [ys' [H2 H3]]. injection H3 as <-.
  destruct i as [|i]; cbn in Hi; [injection Hi as ->; eauto|]. exact (IH ys' i H2 Hi).
Qed.

Lemma corr_at_pack (Fs : list row_fun) rows j i : rows <> [] ->
  corr_at (pack (map (fun row => map (fun F => F row) Fs) rows)) j i =
  match nth_error rows j with Some row => match nth_error Fs i with Some F => Some (F row) | None => None end | None => None end.
Proof.
  intros H. unfold corr_at. rewrite rows_of_pack by (destruct rows; [congruence|discriminate]). rewrite nth_error_map.
  destruct (nth_error rows j) as [row|]; cbn; [|reflexivity]. rewrite nth_error_map. unfold row_fun in *. destruct (nth_error Fs i); reflexivity.
Qed.

Lemma same_lag p d mi ma re mi' ma' re' al sel wgt lags corr lags' corr' i i' x j : accepted d ->
  visible (autocorrelation p d mi ma re al sel wgt) = Ok (lags, corr) ->
  visible (autocorrelation p d mi' ma' re' al sel wgt) = Ok (lags', corr') ->
  nth_error lags i = Some x -> nth_error lags' i' = Some x -> corr_at corr j i = corr_at corr' j i'.
Proof.
  intros Ha E E' Hi Hi'. destruct (accepted_values d Ha) as [ts [data [er [N [-> [G1 [G2 [G3 G4]]]]]]]].
  rewrite visible_core in E, E' by assumption. apply bind_Ok in E, E'. destruct E as [[g Fs] [E1 E2]], E' as [[g' Fs'] [E1' E2']].
  injection E2 as <- <-. injection E2' as <- <-. cbn [fst snd] in *.
  destruct (core_run _ _ _ _ _ _ _ _ _ _ E1) as [n [_ [_ R]]]. destruct (core_run _ _ _ _ _ _ _ _ _ _ E1') as [n' [_ [_ R']]].
  apply run_room_mapM in R, R'. destruct (mapM_nth _ _ _ _ _ R Hi) as [F [Q1 Q2]]. destruct (mapM_nth _ _ _ _ _ R' Hi') as [F' [Q1' Q2']].
  rewrite Q1 in Q1'. injection Q1' as <-. rewrite !corr_at_pack by (apply recut_nil; exact G3). rewrite Q2, Q2'. reflexivity.
Qed.

Lemma lag_list_prefix {L1 : NumLaws A} maxl maxl' r : nle maxl' maxl = true -> forall fuel kk pos,
  exists n, fst (lag_list fuel maxl' r kk pos) = firstn n (fst (lag_list fuel maxl r kk pos)) /\
    (snd (lag_list fuel maxl r kk pos) = true -> snd (lag_list fuel maxl' r kk pos) = true).
Proof.
  intros Hm. induction fuel as [|fuel IH]; intros kk pos; [exists 0; auto|]. cbn [lag_list]. destruct (nle kk maxl') eqn:E.
  - rewrite (l_le_trans _ _ _ E Hm). cbv zeta. destruct (nlt nzero kk && negb (if neqb kk nzero then true else pos)).
    + destruct (IH (nadd kk r) true) as [n [H1 H2]]. exists (S (S n)). cbn [fst snd firstn]. rewrite H1. auto.
    + destruct (IH (nadd kk r) (if neqb kk nzero then true else pos)) as [n [H1 H2]]. exists (S n). cbn [fst snd firstn]. rewrite H1. auto.
  - exists 0. auto.
Qed.

Lemma run_room_firstn {X} (f : num -> res X) ks room vs n : run_room f ks room = Ok vs -> run_room f (firstn n ks) room = Ok (firstn n vs).
Proof.
  revert ks room vs. induction n as [|n IH]; intros ks room vs H; [reflexivity|]. destruct ks as [|k ks]; [cbn in *; injection H as <-; reflexivity|].
  cbn [firstn run_room] in *. apply bind_Ok in H. destruct H as [v [H1 H]]. rewrite H1. cbn [bind]. destruct room as [|room]; [discriminate|].
  apply bind_Ok in H. destruct H as [vs' [H2 H3]]. injection H3 as <-. rewrite (IH ks room vs' H2). reflexivity.
Qed.

Lemma lag_list_done {L1 : NumLaws A} (f : num -> res row_fun) maxl r kk n Fs :
  run_room f (fst (lag_list (S n) maxl r kk false)) n = Ok Fs -> snd (lag_list (S n) maxl r kk false) = true.
Proof.
  intros H. apply run_room_length in H. destruct (snd (lag_list (S n) maxl r kk false)) eqn:E; [reflexivity|].
  apply lag_list_long in E. lia.
Qed.

Lemma smaller_max {L1 : NumLaws A} p d c0 mi ma re al sel wgt lags corr y : accepted d -> new_Correlator d = Ok c0 ->
  visible (autocorrelation p d mi ma re al sel wgt) = Ok (lags, corr) ->
  nle y (opt_or ma (max_lag c0)) = true -> nle (opt_or mi (min_lag c0)) y = true ->
  exists n, visible (autocorrelation p d mi (Some y) re al sel wgt) = Ok (firstn n lags, crop n corr) /\
    lag_grid (opt_or mi (min_lag c0)) (opt_or re (lag_resolution c0)) y (firstn n lags).
Proof.
  intros Ha E0 E Hy Hy'. destruct (accepted_values d Ha) as [ts [data [er [N [-> [G1 [G2 [G3 G4]]]]]]]].
  rewrite new_Correlator_closed in E0 by assumption. apply bind_Ok in E0. destruct E0 as [n0 [A0 E0]]. injection E0 as <-.
  cbn [max_lag min_lag lag_resolution the_corr] in *.
  rewrite visible_core in E |- * by assumption. apply bind_Ok in E. destruct E as [[g Fs] [E1 E2]]. injection E2 as <- <-. cbn [fst snd] in *.
  destruct (core_run _ _ _ _ _ _ _ _ _ _ E1) as [n [A1 [Eg R]]]. rewrite A0 in A1. injection A1 as <-.
  set (r := opt_or re (findMinDiff (rel_times ts))) in *. set (a := opt_or mi (nneg (last (rel_times ts) nzero))) in *.
  destruct (lag_list_prefix _ y r Hy (S n0) a false) as [m [P1 P2]]. fold a r in Eg. rewrite <- Eg in P1.
  assert (D : snd (lag_list (S n0) y r a false) = true).
  { apply P2. apply (lag_list_done (named_acf sel wgt (opt_or al (middle (rel_times ts) nzero)) p ts) _ _ _ _ Fs). rewrite <- Eg. exact R. }
  exists m. split.
  - unfold acf_core. rewrite A0. cbn [bind]. cbv zeta. cbn [opt_or]. fold r a. rewrite P1.
    assert (NE : firstn m g <> []). { rewrite <- P1. cbn [lag_list]. rewrite Hy'. cbv zeta. destruct (nlt nzero a && _); discriminate. }
    destruct (firstn m g) as [|k ks] eqn:Ek; [congruence|]. rewrite <- Ek. rewrite (run_room_firstn _ _ _ _ m R). cbn [bind fst snd].
    f_equal. f_equal. clear. destruct (recut N (length ts) data) as [|row [|row' rows]]; cbn; [reflexivity|rewrite firstn_map; reflexivity|].
    rewrite !firstn_map. do 3 f_equal. rewrite map_map. apply map_ext. intros x. rewrite firstn_map. reflexivity.
  - rewrite <- P1. apply lag_list_grid. exact D.
Qed.
End Crop.
