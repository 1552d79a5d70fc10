(** Using an iterator by hand, twice, and after an exception. *)
From Coq Require Import String.
From Coq Require Import ZArith Reals List Bool Arith Lia Lra.
From Flocq Require Import Core BinarySingleNaN.
From Verif Require Import Num Mem MemFacts XR B64 Laws B64Facts Laws2 Spec DataStructure DSFacts Correlator Sacf Api CorrFacts LoopFacts MainFacts SelFacts
  SelThms ValFacts RelFacts ItFacts.
Import ListNotations.

Section ItThms.
Context {A : Num}.

Lemma weights_run p c it o : is_weights o -> exists w, run_it_op p c it o = (getWeights w it, Ok tt).
Proof. intros [-> | [-> | ->]]; eexists; reflexivity. Qed.

Lemma lat_cases {X} (l : list X) i : (exists x, lat l i = Ok x) \/ lat l i = Throw OutOfRange.
Proof. unfold lat. destruct (nth_error l i) as [x|]; [left; exists x; reflexivity|right; reflexivity]. Qed.

Lemma run_it_cons p c it o os : run_it p c it (o :: os) =
  mbind (run_it_op p c it o) (fun it1 _ => run_it p c it1 os).
Proof. cbn [run_it]. destruct (run_it_op p c it o) as [it1 [u|e|u|]]; reflexivity. Qed.

Lemma run_it_one p c it o : run_it p c it [o] = run_it_op p c it o.
Proof. cbn [run_it]. destruct (run_it_op p c it o) as [it1 [[]|e|u|]]; reflexivity. Qed.

Lemma mbind_Ok_inv {S R Q} (x : meth S R) (f : S -> R -> meth S Q) s q : mbind x f = (s, Ok q) ->
  exists s1 r, x = (s1, Ok r) /\ f s1 r = (s, Ok q).
Proof. destruct x as [s1 [r|e|u|]]; cbn; intros H; try discriminate. exists s1, r. auto. Qed.

Lemma natural_sel_len p nt kk sel S : natural_sel p nt kk = Ok (sel, S) -> length sel = length S.
Proof.
  unfold natural_sel. intros H. apply bind_Ok in H. destruct H as [b [_ H]]. apply bind_Ok in H. destruct H as [s [H1 H]].
  injection H as <- <-. apply mapM_Ok_inv in H1. apply H1.
Qed.

Lemma delta_unchecked p nt sel S dts : deltas p nt sel S = Ok dts -> sel <> [] -> length sel = length S -> p_checked p = false.
Proof.
  unfold deltas. destruct sel as [|x sel]; [congruence|]. destruct S as [|s S]; [discriminate|]. cbn [combine mapM].
  intros H _ _. apply bind_Ok in H. destruct H as [d [H _]]. unfold delta_of in H. apply bind_Ok in H. destruct H as [a [_ H]].
  destruct (p_checked p); [discriminate|reflexivity].
Qed.

(** natural selection and offsets of a fresh iterator *)
Lemma fresh_two p c kk n it : run_it p c (CorrelationIterator kk n) [NaturalSelection; DeltaT] = (it, Ok tt) ->
  exists sel S w dts, natural_sel p (norm_t (ds c)) kk = Ok (sel, S) /\ deltas p (norm_t (ds c)) sel S = Ok dts /\
    vwf w /\ vlive w = S /\ length (vbuf w) = length S /\
    it = {| k := kk; correlation := repeat nzero n; shifted_timeseries := vclear w; selection_indices := pushes sel vempty;
            delta_t := pushes dts vempty; weights := vempty |}.
Proof.
  rewrite run_it_cons. intros H. apply mbind_Ok_inv in H. destruct H as [it1 [[] [E1 H]]]. rewrite run_it_cons in H.
  cbn [run_it_op] in E1.
  pose proof (natural_any p (ds c) (CorrelationIterator kk n) vempty vwf_empty eq_refl vwf_empty) as HN.
  change (k (CorrelationIterator kk n)) with kk in HN.
  destruct (natural_sel p (norm_t (ds c)) kk) as [[sel S]|e|u|] eqn:EN; try (rewrite E1 in HN; contradiction).
  destruct HN as [w [Hw [Hl [Hb E2]]]]. rewrite E1 in E2. injection E2 as E2. clear E1.
  apply mbind_Ok_inv in H. destruct H as [it2 [[] [E3 H]]]. cbn [run_it] in H. injection H as ->.
  cbn [run_it_op] in E3. unfold deltaT in E3.
  assert (Hsel : vlive (selection_indices it1) = sel).
  { rewrite E2. cbn [selection_indices set_shifted set_selection CorrelationIterator]. apply (pushes_live sel vempty vwf_empty). }
  assert (Hsh : shifted_timeseries it1 = vclear w) by (rewrite E2; reflexivity).
  pose proof (natural_sel_len _ _ _ _ _ EN) as HL.
  pose proof (deltaT_loop_closed p (norm_t (ds c)) w sel 0 it1 Hw Hsh ltac:(rewrite Hl; cbn; lia)) as HD.
  rewrite skipn_O, Hl in HD. rewrite Hsel in E3.
  destruct (deltas p (norm_t (ds c)) sel S) as [dts|e|u|] eqn:ED;
    try (destruct (deltaT_loop p (norm_t (ds c)) sel 0 it1) as [it' r]; cbn [snd] in HD; destruct r; cbn in *; try contradiction; discriminate).
  rewrite HD in E3. cbn [mbind] in E3. injection E3 as E3.
  exists sel, S, w, dts. split; [reflexivity|]. split; [exact ED|]. split; [exact Hw|]. split; [exact Hl|].
  split; [rewrite Hb; cbn; reflexivity|]. rewrite <- E3, E2. reflexivity.
Qed.

Lemma run_it_app p c it os os' : run_it p c it (os ++ os') = mbind (run_it p c it os) (fun it1 _ => run_it p c it1 os').
Proof.
  revert it. induction os as [|o os IH]; intros it; [reflexivity|].
  rewrite <- app_comm_cons, !run_it_cons. destruct (run_it_op p c it o) as [it1 [u|e|u|]]; cbn [mbind]; try reflexivity. apply IH.
Qed.

(** weights and sum leave selection and stored times *)
Lemma tail_state p c it o it' : is_weights o -> N_datasets (ds c) <= length (correlation it) ->
  run_it p c it [o; FindCorrelation] = (it', Ok tt) ->
  selection_indices it' = selection_indices it /\ shifted_timeseries it' = shifted_timeseries it /\ k it' = k it.
Proof.
  intros Ho Hn. destruct (weights_run p c it o Ho) as [w Ew]. rewrite run_it_cons, Ew. cbn [mbind]. rewrite run_it_one.
  cbn [run_it_op]. unfold findCorrelation. intros E.
  destruct (find_corr p c (N_datasets (ds c)) 0 (getWeights w it)) as [_ [H1 [H2 _]]]; [cbn [correlation getWeights set_delta set_weights]; lia|].
  assert (Hk : forall n j it0, k (fst (findCorrelation_loop p c n j it0)) = k it0).
  { clear. induction n as [|n IH]; intros j it0; cbn [findCorrelation_loop]; [reflexivity|]. unfold mlift.
    destruct (lget (correlation it0) j); try reflexivity. cbn [mbind]. destruct (lset (correlation it0) j _); try reflexivity. cbn [mbind].
    destruct (snd (findCorrelation_sum _ _ _ _ _ _ _)); try reflexivity. cbn [mbind].
    destruct (lget (Nvec c) j); try reflexivity. cbn [mbind]. destruct (lset _ j _); try reflexivity. cbn [mbind]. rewrite IH. reflexivity. }
  specialize (Hk (N_datasets (ds c)) 0 (getWeights w it)). rewrite E in *. cbn [fst] in *. rewrite H1, H2, Hk. repeat split.
Qed.

Lemma deltaT_loop_app p nt a b i it :
  deltaT_loop p nt (a ++ b) i it = mbind (deltaT_loop p nt a i it) (fun it1 _ => deltaT_loop p nt b (i + length a) it1).
Proof.
  revert i it. induction a as [|x a IH]; intros i it; cbn [app deltaT_loop length]; [rewrite Nat.add_0_r; reflexivity|].
  unfold mlift. destruct (lat nt x); cbn [mbind]; try reflexivity. destruct (vget p (shifted_timeseries it) i); cbn [mbind]; try reflexivity.
  destruct (cabs p _); cbn [mbind]; try reflexivity. rewrite IH. replace (S i + length a) with (i + S (length a)) by lia. reflexivity.
Qed.

(** once more with the same lag *)
Lemma reuse p c kk n o it : is_weights o -> N_datasets (ds c) <= n -> 0 < length (norm_t (ds c)) ->
  run_it p c (CorrelationIterator kk n) [NaturalSelection; DeltaT; o; FindCorrelation] = (it, Ok tt) ->
  selection it <> [] -> snd (run_it p c it [NaturalSelection; DeltaT]) = UB OobRead.
Proof.
  intros Ho Hn Hpos E Hne. change [NaturalSelection; DeltaT; o; FindCorrelation] with ([NaturalSelection; DeltaT] ++ [o; FindCorrelation]) in E.
  rewrite run_it_app in E. apply mbind_Ok_inv in E. destruct E as [it1 [[] [E1 E]]].
  destruct (fresh_two p c kk n it1 E1) as [sel [S [w [dts [EN [ED [Hw [Hl [Hb ->]]]]]]]]].
  apply tail_state in E; [|exact Ho|cbn [correlation]; rewrite repeat_length; exact Hn]. destruct E as [T1 [T2 T3]].
  cbn [selection_indices shifted_timeseries k] in T1, T2, T3.
  destruct (pushes_live sel vempty vwf_empty) as [P1 [P2 P3]].
  assert (Hs : selection it = sel) by (unfold selection; rewrite T1; exact P2). rewrite Hs in Hne.
  pose proof (natural_sel_len _ _ _ _ _ EN) as HL.
  pose proof (natural_sel_ok p _ kk sel S Hpos EN) as [_ [_ Hr]].
  pose proof (delta_unchecked _ _ _ _ _ ED Hne HL) as Hp.
  rewrite run_it_cons. cbn [run_it_op].
  pose proof (natural_any p (ds c) it w Hw T2 ltac:(rewrite T1; exact P1)) as HN2. rewrite T3, EN in HN2.
  destruct HN2 as [w' [Hw' [Hl' [Hb' ->]]]]. cbn [mbind]. rewrite run_it_one. cbn [run_it_op]. unfold deltaT.
  set (it2 := set_shifted _ _).
  assert (Hsel2 : vlive (selection_indices it2) = sel ++ sel).
  { change (selection_indices it2) with (pushes sel (selection_indices it)). rewrite T1.
    destruct (pushes_live sel (pushes sel vempty) P1) as [_ [Q _]]. rewrite Q, P2. reflexivity. }
  rewrite Hsel2, deltaT_loop_app.
  pose proof (deltaT_loop_closed p (norm_t (ds c)) w' sel 0 it2 Hw' eq_refl ltac:(rewrite Hl'; cbn; lia)) as HD.
  rewrite skipn_O, Hl', ED in HD. rewrite HD. cbn [mbind].
  destruct sel as [|x sel]; [congruence|]. cbn [deltaT_loop]. unfold mlift.
  rewrite (lat_ok _ x nzero) by (apply Hr; left; reflexivity). cbn [mbind].
  change (shifted_timeseries (set_delta it2 (pushes dts (delta_t it2)))) with (vclear w').
  unfold vget. cbn [vsize vclear vbuf Nat.ltb Nat.leb]. rewrite Hp, lget_oob by (rewrite Hb', Hb; cbn [length] in *; lia).
  reflexivity.
Qed.

(** once more with another lag *)
Lemma reuse_other p c kk kk' n o it it' : p_abs p = AbsFloat -> is_weights o -> N_datasets (ds c) <= n -> 0 < length (norm_t (ds c)) ->
  run_it p c (CorrelationIterator kk n) [NaturalSelection; DeltaT; o; FindCorrelation] = (it, Ok tt) ->
  selection it <> [] -> run_it p c it [SetK kk'; NaturalSelection] = (it', Ok tt) ->
  length (selection it) < length (selection it') ->
  run_it_op p c it' DeltaT = (fst (run_it_op p c it' DeltaT), UB OobRead).
Proof.
  intros Ha Ho Hn Hpos E Hne E' Hlt. change [NaturalSelection; DeltaT; o; FindCorrelation] with ([NaturalSelection; DeltaT] ++ [o; FindCorrelation]) in E.
  rewrite run_it_app in E. apply mbind_Ok_inv in E. destruct E as [it1 [[] [E1 E]]].
  destruct (fresh_two p c kk n it1 E1) as [sel [S [w [dts [EN [ED [Hw [Hl [Hb ->]]]]]]]]].
  apply tail_state in E; [|exact Ho|cbn [correlation]; rewrite repeat_length; exact Hn]. destruct E as [T1 [T2 T3]].
  cbn [selection_indices shifted_timeseries k] in T1, T2, T3.
  destruct (pushes_live sel vempty vwf_empty) as [P1 [P2 P3]].
  assert (Hs : selection it = sel) by (unfold selection; rewrite T1; exact P2). rewrite Hs in *.
  pose proof (natural_sel_len _ _ _ _ _ EN) as HL.
  pose proof (natural_sel_ok p _ kk sel S Hpos EN) as [_ [_ Hr]].
  pose proof (delta_unchecked _ _ _ _ _ ED Hne HL) as Hp.
  rewrite run_it_cons in E'. cbn [run_it_op mbind] in E'. rewrite run_it_one in E'. cbn [run_it_op] in E'.
  pose proof (natural_any p (ds c) (set_k it kk') w Hw T2 ltac:(cbn [set_k selection_indices]; rewrite T1; exact P1)) as HN2.
  change (k (set_k it kk')) with kk' in HN2.
  destruct (natural_sel p (norm_t (ds c)) kk') as [[sel' S']|e|u|] eqn:EN'; try (rewrite E' in HN2; contradiction).
  destruct HN2 as [w' [Hw' [Hl' [Hb' E2]]]]. rewrite E' in E2. injection E2 as E2.
  pose proof (natural_sel_len _ _ _ _ _ EN') as HL'.
  pose proof (natural_sel_ok p _ kk' sel' S' Hpos EN') as [_ [_ Hr']].
  assert (Hsel2 : selection it' = sel ++ sel').
  { rewrite E2. change (vlive (pushes sel' (selection_indices it)) = sel ++ sel'). rewrite T1.
    destruct (pushes_live sel' (pushes sel vempty) P1) as [_ [Q _]]. rewrite Q, P2. reflexivity. }
  assert (HU : snd (deltaT p (ds c) it') = UB OobRead).
  { apply deltaT_short; try assumption.
    - rewrite E2. reflexivity.
    - rewrite Hsel2. rewrite E2. change (length (vbuf w') < length (sel ++ sel')). rewrite Hb', Hb, app_length.
      rewrite Hsel2, app_length in Hlt. destruct sel as [|x sel]; [congruence|]. cbn [length] in *. lia.
    - rewrite Hsel2. intros s Hin. apply in_app_or in Hin. destruct Hin as [Hin|Hin]; [apply Hr; exact Hin|apply Hr'; exact Hin]. }
  cbn [run_it_op]. destruct (deltaT p (ds c) it') as [it2 r]. cbn [fst snd] in *. rewrite HU. reflexivity.
Qed.

(** offsets taken twice *)
Lemma twice p c kk n o it : is_weights o -> N_datasets (ds c) <= n -> 0 < length (norm_t (ds c)) -> 0 < N_datasets (ds c) ->
  run_it p c (CorrelationIterator kk n) [NaturalSelection; DeltaT] = (it, Ok tt) -> selection it <> [] ->
  snd (run_it p c it [DeltaT; o; FindCorrelation]) = UB OobRead \/
  snd (run_it p c it [DeltaT; o; FindCorrelation]) = Throw OutOfRange.
Proof.
  intros Ho Hn Hpos HN E Hne. destruct (fresh_two p c kk n it E) as [sel [S [w [dts [EN [ED [Hw [Hl [Hb Hit]]]]]]]]].
  destruct (pushes_live sel vempty vwf_empty) as [P1 [P2 P3]]. destruct (pushes_live dts vempty vwf_empty) as [D1 [D2 D3]].
  assert (Hs : selection it = sel) by (unfold selection; rewrite Hit; exact P2). rewrite Hs in Hne.
  pose proof (natural_sel_len _ _ _ _ _ EN) as HL.
  pose proof (delta_unchecked _ _ _ _ _ ED Hne HL) as Hp.
  assert (Hdl : length dts = length sel).
  { destruct (mapM_Ok_inv _ _ _ ED) as [Hdl _]. rewrite Hdl, combine_length. lia. }
  rewrite run_it_cons. cbn [run_it_op]. unfold deltaT.
  pose proof (deltaT_loop_closed p (norm_t (ds c)) w sel 0 it Hw ltac:(rewrite Hit; reflexivity) ltac:(rewrite Hl; cbn; lia)) as HD.
  rewrite skipn_O, Hl, ED in HD. change (vlive (selection_indices it)) with (selection it). rewrite Hs, HD. cbn [mbind].
  set (it2 := set_shifted _ _). destruct (weights_run p c it2 o Ho) as [wf Ew]. rewrite run_it_cons, Ew. cbn [mbind]. rewrite run_it_one.
  cbn [run_it_op]. unfold findCorrelation. destruct (N_datasets (ds c)) as [|N'] eqn:EN'; [lia|]. cbn [findCorrelation_loop]. unfold mlift.
  assert (Hc : correlation (getWeights wf it2) = repeat nzero n) by (unfold it2; rewrite Hit; reflexivity).
  rewrite Hc. rewrite (lget_ok _ 0 nzero) by (rewrite repeat_length; lia). cbn [mbind].
  rewrite lset_ok by (rewrite repeat_length; lia). cbn [mbind].
  set (sum := findCorrelation_sum _ _ _ _ _ _ _).
  assert (HW : vlive (weights (getWeights wf it2)) = map wf (dts ++ dts)).
  { unfold it2. rewrite Hit. cbn [getWeights weights set_weights set_delta set_shifted delta_t].
    destruct (pushes_live dts (pushes dts vempty) D1) as [Q1 [Q2 Q3]]. rewrite Q2, D2. 
    destruct (vpush_fold_live wf (dts ++ dts) vempty vwf_empty) as [_ [Q4 _]]. cbn [vlive vempty vsize firstn app] in Q4 |- *. exact Q4. }
  assert (HS : selection_indices (getWeights wf it2) = pushes sel vempty) by (unfold it2; rewrite Hit; reflexivity).
  assert (Hbuf : length (vbuf (pushes sel vempty)) = length sel).
  { clear. assert (G : forall (l : list nat) v, vwf v -> length (vbuf v) = vsize v -> length (vbuf (pushes l v)) = vsize v + length l).
    { induction l as [|x l IH]; intros v Hv Hz; [cbn; lia|]. change (pushes (x :: l) v) with (pushes l (vpush v x)). rewrite IH; [cbn; lia|apply vwf_push; exact Hv|].
      rewrite vpush_length by exact Hv. cbn [vsize vpush]. lia. }
    rewrite G; [reflexivity|apply vwf_empty|reflexivity]. }
  assert (G : snd sum = UB OobRead \/ snd sum = Throw OutOfRange).
  { unfold sum. rewrite HW, HS. generalize (nth 0 (repeat nzero n) nzero).
    assert (HLen : length sel < 0 + length (map wf (dts ++ dts))).
    { rewrite map_length, app_length, Hdl. destruct sel; [congruence|cbn; lia]. }
    assert (forall ws i acc, i <= length sel -> length sel < i + length ws ->
      snd (findCorrelation_sum p (ds c) (pushes sel vempty) 0 ws i acc) = UB OobRead \/
      snd (findCorrelation_sum p (ds c) (pushes sel vempty) 0 ws i acc) = Throw OutOfRange) as G.
    { clear - Hp Hbuf P1 P2 P3. induction ws as [|a ws IH]; intros i acc Hi Hlt; cbn [length] in Hlt; [lia|].
      cbn [findCorrelation_sum]. unfold mlift. 
      destruct (lat_cases (norm_data (ds c)) (getVectorIndex (M_datapoints (ds c)) i 0)) as [[x ->]| ->]; cbn [mbind snd]; [|right; reflexivity].
      destruct (Nat.lt_ge_cases i (length sel)) as [H|H].
      - destruct (nth_error_Some_ex sel i H) as [s Es]. rewrite (vget_live p _ i s P1) by (rewrite P2; exact Es). cbn [mbind].
        destruct (lat_cases (norm_data (ds c)) (getVectorIndex (M_datapoints (ds c)) s 0)) as [[y ->]| ->]; cbn [mbind snd]; [|right; reflexivity].
        apply IH; lia.
      - left. unfold vget. rewrite P3. cbn [vsize vempty Nat.add]. destruct (Nat.ltb_spec i (length sel)); [lia|].
        rewrite Hp, lget_oob by (rewrite Hbuf; lia). reflexivity. }
    intros acc. apply G; [lia|exact HLen]. }
  destruct sum as [s r]. cbn [fst snd] in *. destruct G as [-> | ->]; [left|right]; reflexivity.
Qed.

(** weights taken twice *)
Lemma weights_twice p c it o o' : is_weights o -> is_weights o' ->
  snd (run_it p c it [o; o']) = Ok tt /\
  let a := fst (run_it_op p c it o) in let b := fst (run_it p c it [o; o']) in
  vlive (weights b) = vlive (weights a) /\ offsets b = [] /\ selection b = selection a /\ correlation b = correlation a.
Proof.
  intros Ho Ho'. destruct (weights_run p c it o Ho) as [w Ew]. rewrite run_it_cons, Ew. cbn [mbind fst]. rewrite run_it_one.
  destruct (weights_run p c (getWeights w it) o' Ho') as [w' ->]. cbn [fst snd]. repeat split.
Qed.

(** ** After an exception *)
Lemma mapM_app {X Y} (f : X -> res Y) (a b : list X) l : mapM f (a ++ b) = Ok l ->
  exists la lb, mapM f a = Ok la /\ mapM f b = Ok lb /\ l = la ++ lb.
Proof.
  revert l. induction a as [|x a IH]; intros l H; cbn [app mapM] in *; [exists [], l; auto|].
  apply bind_Ok in H. destruct H as [y [Hy H]]. apply bind_Ok in H. destruct H as [l' [Hl H]]. injection H as <-.
  destruct (IH l' Hl) as [la [lb [H1 [H2 ->]]]]. exists (y :: la), lb. rewrite Hy, H1. cbn. auto.
Qed.

Lemma natural_gen p d it it' : vwf (shifted_timeseries it) -> vwf (selection_indices it) ->
  naturalSelectionFunctionIdx p d it = (it', Ok tt) ->
  exists back sel, lback (norm_t d) = Ok back /\
    mapM (natural_index p (norm_t d)) (vlive (shifted_timeseries it) ++ shifted (fun s => nlt back s) (norm_t d) (k it)) = Ok sel /\
    selection it' = selection it ++ sel.
Proof.
  intros Hv Hs. unfold naturalSelectionFunctionIdx, mlift. intros E. apply mbind_Ok_inv in E. destruct E as [it0 [back [E0 E]]].
  injection E0 as -> Eb. exists back.
  destruct (natural_shift_live (norm_t d) back (k it0) (shifted_timeseries it0) Hv) as [Hw [Hl Hz]].
  set (w := natural_shift (norm_t d) back (k it0) (shifted_timeseries it0)) in *. set (it1 := set_shifted it0 w) in *.
  pose proof (natural_loop_closed p (norm_t d) (vlive w) (vsize w) 0 it1 Hw eq_refl) as HL.
  specialize (HL ltac:(cbn; unfold vlive; rewrite firstn_length_le by exact Hw; reflexivity)). rewrite skipn_O in HL.
  change (vsize (shifted_timeseries it1)) with (vsize w) in E. rewrite Hl in HL.
  destruct (mapM (natural_index p (norm_t d)) (vlive (shifted_timeseries it0) ++ shifted (fun s => nlt back s) (norm_t d) (k it0))) as [sel|e|u|];
    try (destruct (natural_loop p (norm_t d) (vsize w) 0 it1) as [it2 r]; cbn [snd] in HL; subst r; discriminate).
  rewrite HL in E. cbn [mbind] in E. injection E as <-. exists sel. split; [exact Eb|]. split; [reflexivity|].
  change (vlive (pushes sel (selection_indices it0)) = selection it0 ++ sel). apply pushes_live. exact Hs.
Qed.

Lemma fast_throw p d kk n it e : fastSelectionFunctionIdx p d (CorrelationIterator kk n) = (it, Throw e) ->
  vwf (shifted_timeseries it) /\ (norm_t d <> [] -> vlive (shifted_timeseries it) <> []) /\ selection_indices it = vempty /\ k it = kk.
Proof.
  unfold fastSelectionFunctionIdx, mlift. cbn [k CorrelationIterator shifted_timeseries].
  destruct (lback (norm_t d)) as [back|e'|u|] eqn:Eb; cbn [mbind]; try discriminate.
  2:{ intros H. injection H as <- <-. split; [apply vwf_empty|]. split; [|split; reflexivity].
      intros Hne. rewrite (lback_ok _ nzero Hne) in Eb. discriminate. }
  destruct (fast_shift_live (norm_t d) back kk vempty vwf_empty) as [Hw [Hl Hz]].
  set (w := fast_shift (norm_t d) back kk vempty) in *. set (it1 := set_shifted (CorrelationIterator kk n) w).
  change (shifted_timeseries it1) with w. change (selection_indices it1) with (@vempty nat).
  destruct (Nat.eqb_spec (vsize w) 0) as [E0|E0]; [discriminate|].
  assert (Hne : vlive w <> []).
  { intros H. apply (f_equal (@length _)) in H. unfold vlive in H. rewrite firstn_length_le in H by exact Hw. cbn in H. lia. }
  assert (F : forall e', mbind (it1, Throw e') (fun it3 (_ : unit) => (set_shifted it3 (vclear (shifted_timeseries it3)), Ok tt)) = (it, Throw e) ->
    vwf (shifted_timeseries it) /\ (norm_t d <> [] -> vlive (shifted_timeseries it) <> []) /\ selection_indices it = vempty /\ k it = kk).
  { intros e' H. cbn [mbind] in H. injection H as <- _. split; [exact Hw|]. split; [intros _; exact Hne|]. split; reflexivity. }
  destruct (vget p w 0) as [s|e'|u|]; cbn [mbind]; try discriminate; try apply F.
  destruct (lower_bound (norm_t d) s) as [idx|e'|u|]; cbn [mbind]; try discriminate; try apply F.
  destruct (lat (norm_t d) (idx + 1)) as [b|e'|u|]; cbn [mbind]; try discriminate; try apply F.
  destruct (cabs p (nsub s b)) as [db|e'|u|]; cbn [mbind]; try discriminate; try apply F.
  destruct (lat (norm_t d) idx) as [a|e'|u|]; cbn [mbind]; try discriminate; try apply F.
  destruct (cabs p (nsub s a)) as [da|e'|u|]; cbn [mbind]; try discriminate; try apply F.
  cbn [selection_indices set_selection].
  set (idx' := if nlt db da then idx + 1 else idx).
  destruct (vresize_wf 0 (@vempty nat) (vsize w) vwf_empty) as [R1 R2].
  destruct (fast_fill_closed idx' (vsize w) (vsize w - idx') 0 (vresize 0 vempty (vsize w)) R1 R2 ltac:(lia)) as [v' [E [W1 [W2 _]]]].
  rewrite E. cbn [mbind]. discriminate.
Qed.

Lemma after_exception p d kk n it e it' : norm_t d <> [] ->
  fastSelectionFunctionIdx p d (CorrelationIterator kk n) = (it, Throw e) ->
  naturalSelectionFunctionIdx p d it = (it', Ok tt) ->
  exists it1 l, naturalSelectionFunctionIdx p d (CorrelationIterator kk n) = (it1, Ok tt) /\
    l <> [] /\ selection it' = l ++ selection it1.
Proof.
  intros Hnt E1 E2. destruct (fast_throw p d kk n it e E1) as [F1 [F2 [F3 F4]]]. specialize (F2 Hnt).
  destruct (natural_gen p d it it' F1 ltac:(rewrite F3; apply vwf_empty) E2) as [back [sel [Hb [HM HS]]]].
  apply mapM_app in HM. destruct HM as [la [lb [M1 [M2 ->]]]].
  pose proof (natural_closed p d kk n) as HC. unfold natural_sel in HC. rewrite Hb in HC. cbn [bind] in HC.
  rewrite F4 in M2. rewrite M2 in HC. cbn [bind] in HC. destruct HC as [it1 [Ei Hi]].
  exists it1, la. split; [exact Ei|]. split.
  - intros ->. apply mapM_Ok_inv in M1. destruct M1 as [M1 _]. destruct (vlive (shifted_timeseries it)); [congruence|discriminate].
  - rewrite HS. unfold selection at 1. rewrite F3. cbn [vlive vempty firstn vsize app]. f_equal. symmetry. apply Hi.
Qed.

(** ** The steps by hand *)
Lemma hand_closed p c (sf : sel_fun) (m : meth cor_it unit) (w : num -> num) kk cs : wf_ds (ds c) -> length (Nvec c) = N_datasets (ds c) ->
  sel_ok sf ->
  match sf p (norm_t (ds c)) kk with
  | Ok (sel, sh) => exists it, m = (it, Ok tt) /\ selected it kk (N_datasets (ds c)) sel sh
  | r => same_failure r (snd m)
  end ->
  lag_values sf w p c kk = Ok cs ->
  exists it, mbind m (fun it1 _ => mbind (deltaT p (ds c) it1) (fun it2 _ => findCorrelation p c (getWeights w it2))) = (it, Ok tt) /\
    correlation it = cs.
Proof.
  intros Hds HN Hok Hm HV. unfold lag_values in HV. apply bind_Ok in HV. destruct HV as [[sel sh] [H1 HV]].
  apply bind_Ok in HV. destruct HV as [dts [ED HV]]. cbn [fst snd] in *. injection HV as <-.
  pose proof (Hok p (norm_t (ds c)) kk sel sh) as Hok'. rewrite H1 in Hm, Hok'. destruct Hm as [it [-> Hit]]. cbn [mbind].
  destruct Hds as [HM [Hnt Hnd]]. destruct (Hok' ltac:(lia) eq_refl) as [Hl1 [Hl2 Hl3]].
  pose proof (deltaT_closed p (ds c) it kk _ sel sh Hit Hl1) as HD. rewrite ED in HD. destruct HD as [it2 [-> H2]]. cbn [mbind].
  apply (getWeights_closed w) in H2. destruct H2 as [Hk [Hc [Hsw [Hsl [Hww Hwl]]]]].
  assert (Hdl : length dts = length sel).
  { unfold deltas in ED. apply mapM_Ok_inv in ED. destruct ED as [ED _]. rewrite ED, combine_length. lia. }
  unfold findCorrelation.
  destruct (findCorrelation_loop_closed p c (N_datasets (ds c)) 0 (getWeights w it2) kk sel (map w dts))
    as [it4 [E [Hk4 Hc4]]]; try assumption; try reflexivity; try lia.
  { split; [exact HM|split; assumption]. }
  { rewrite map_length. exact Hdl. }
  { intros s Hs. rewrite <- Hnt. apply Hl3. exact Hs. }
  exists it4. split; [exact E|exact Hc4].
Qed.

Lemma by_hand p d mi ma re al sel wgt lags corr c i kk : accepted d ->
  autocorrelation p d mi ma re al sel wgt = Ok (lags, corr, c) -> nth_error lags i = Some kk ->
  exists o o' it, selection_op sel = Some o /\ weights_op wgt = Some o' /\
    run_it p c (CorrelationIterator kk (N_datasets d)) [o; DeltaT; o'; FindCorrelation] = (it, Ok tt) /\
    length (correlation it) = N_datasets d /\ (forall j, corr_at corr j i = nth_error (correlation it) j).
Proof.
  intros Ha E Hi. destruct (accepted_setUp d Ha) as [ts [data [er [N [-> [H1 [_ [_ [H2 H3]]]]]]]]].
  rewrite auto_core in E by assumption. apply bind_Ok in E. destruct E as [[g Fs] [EC E]]. apply bind_Ok in E. destruct E as [n [En E]].
  cbn [fst snd] in E. injection E as <- <- <-.
  set (rows0 := recut N (length ts) data) in *. set (rows := map (fun row => map (fun F => F row) Fs) rows0) in *.
  set (c := final_corr ts data er N n mi ma re al g rows).
  set (c1 := set_up_correlation (the_corr ts data er N n) mi ma re al).
  destruct (set_up_fields (the_corr ts data er N n) mi ma re al) as [F1 [F2 [F3 [F4 [F5 [F6 [F7 [F8 F9]]]]]]]]. fold c1 in F1, F2, F3, F4, F5, F6, F7, F8, F9.
  assert (Hds : ds c = the_ds ts data er N) by exact F1.
  assert (HNv : Nvec c = Nvec (the_corr ts data er N n)) by (unfold c, final_corr; cbn [Nvec set_data]; fold c1; exact F2).
  assert (Hal : alpha c = opt_or al (middle (rel_times ts) nzero)) by (unfold c, final_corr; cbn [alpha set_data]; fold c1; rewrite F9; reflexivity).
  (* the function of this lag *)
  assert (HF : exists F, named_acf sel wgt (alpha c) p ts kk = Ok F /\ nth_error Fs i = Some F).
  { rewrite Hal. destruct (acf_core_nth _ _ _ _ _ _ _ _ _ _ _ _ EC Hi) as [F [K1 K2]]. exists F. auto. }
  destruct HF as [F [HF Hnth]].
  assert (HV : named_values p c sel wgt kk = Ok (map F rows0)).
  { rewrite (named_values_acf sel wgt p ts data er N n c kk) by assumption. rewrite HF. reflexivity. }
  assert (Hr : ready (the_corr ts data er N n)) by (apply the_corr_ready; assumption). destruct Hr as [R1 [R2 _]].
  assert (Hwf : wf_ds (ds c)) by (rewrite Hds; exact R1).
  assert (HNl : length (Nvec c) = N_datasets (ds c)) by (rewrite HNv, Hds; exact R2).
  unfold named_values in HV. destruct (sel_named sel) as [sf|] eqn:Es; [|discriminate].
  destruct (weight_named wgt (alpha c)) as [w|] eqn:Ew; [|apply bind_Ok in HV; destruct HV as [x [_ HV]]; apply bind_Ok in HV; destruct HV as [y [_ HV]]; discriminate].
  assert (exists o', weights_op wgt = Some o' /\ forall it, run_it_op p c it o' = (getWeights w it, Ok tt)) as [o' [Eo' Ro']].
  { unfold weight_named in Ew. unfold weights_op.
    destruct (String.eqb_spec wgt "gaussian"); [subst; injection Ew as <-; eexists; split; reflexivity|].
    destruct (String.eqb_spec wgt "fractional"); [subst; injection Ew as <-; eexists; split; reflexivity|].
    destruct (String.eqb_spec wgt "fractional_squared"); [subst; injection Ew as <-; eexists; split; reflexivity|discriminate]. }
  assert (exists o, selection_op sel = Some o /\ sel_ok sf /\
     match sf p (norm_t (ds c)) kk with
     | Ok (sl, Sv) => exists it, run_it_op p c (CorrelationIterator kk (N_datasets (ds c))) o = (it, Ok tt) /\ selected it kk (N_datasets (ds c)) sl Sv
     | q => same_failure q (snd (run_it_op p c (CorrelationIterator kk (N_datasets (ds c))) o))
     end) as [o [Eo [Hok Hrun]]].
  { unfold sel_named in Es. unfold selection_op.
    destruct (String.eqb_spec sel "fast"); destruct (String.eqb_spec sel "natural"); subst; try discriminate; injection Es as <-;
      eexists; (split; [reflexivity|]).
    - split; [exact fast_sel_ok|]. exact (fast_closed p (ds c) kk (N_datasets (ds c))).
    - split; [exact natural_sel_ok|]. exact (natural_closed p (ds c) kk (N_datasets (ds c))). }
  destruct (hand_closed p c sf _ w kk (map F rows0) Hwf HNl Hok Hrun HV) as [it [Eit Hc]].
  exists o, o', it. split; [exact Eo|]. split; [exact Eo'|]. rewrite Hds in Eit. split.
  - rewrite run_it_cons. change (N_datasets (the_ds ts data er N)) with (N_datasets (the_ds ts data er N)) in Eit.
    rewrite <- Eit. destruct (run_it_op p c (CorrelationIterator kk (N_datasets (the_ds ts data er N))) o) as [i1 [u|e|u|]]; cbn [mbind]; try reflexivity.
    rewrite run_it_cons. cbn [run_it_op]. rewrite Hds. destruct (deltaT p (the_ds ts data er N) i1) as [i2 [u'|e|u'|]]; cbn [mbind]; try reflexivity.
    rewrite run_it_cons, Ro'. cbn [mbind]. rewrite run_it_one. reflexivity.
  - split; [rewrite Hc, map_length; unfold rows0; rewrite recut_length; reflexivity|].
    intros j. unfold corr_at. rewrite ValFacts.rows_of_pack.
    rewrite Hc. unfold rows. rewrite !nth_error_map. destruct (nth_error rows0 j) as [row|]; cbn [option_map]; [|reflexivity].
    unfold row_fun in *. rewrite nth_error_map, Hnth. reflexivity.
Qed.

End ItThms.

Lemma trunc_below {A : Num} (HA : arith A) (x : num) z : ntrunc x = Some z -> in_int z = true -> nle nzero x = true -> nle (nofZ z) x = true.
Proof.
  destruct HA as [e|]; intros Hz Hi H0.
  - unfold nzero in H0. cbn [nle nofZ ntrunc B64] in *. rewrite Bleb_toE in *. rewrite b64_trunc_E in Hz.
    change (toE (b64_ofZ 0)) with (Fin 0) in H0. rewrite toE_ofZ_small by (apply in_int_abs in Hi; lia).
    destruct (toE x) as [r| | |]; try discriminate. injection Hz as <-. cbn [xle] in *. apply Rleb_true. apply Rleb_true in H0.
    rewrite Ztrunc_floor by exact H0. apply Zfloor_lb.
  - unfold nzero in H0. cbn [nle nofZ ntrunc XR] in *.
    destruct x as [r| | |]; try discriminate. injection Hz as <-. cbn [xle] in *. apply Rleb_true. apply Rleb_true in H0.
    rewrite Ztrunc_floor by exact H0. apply Zfloor_lb.
Qed.

Lemma trunc_minus {A : Num} (HA : arith A) (x : num) : nlt (nofZ (-1)) x = true -> nle x nzero = true -> ntrunc x = Some 0%Z.
Proof.
  destruct HA as [e|]; intros H1 H0.
  - unfold nzero in H0. cbn [nle nlt nofZ ntrunc B64] in *. rewrite Bleb_toE in *. rewrite Bltb_toE in H1. rewrite b64_trunc_E.
    change (toE (b64_ofZ 0)) with (Fin 0) in H0. rewrite toE_ofZ_small in H1 by lia.
    destruct (toE x) as [r| | |]; try discriminate. cbn [xle xlt] in *. apply Rleb_true in H0. apply Rltb_true in H1.
    rewrite Ztrunc_ceil by exact H0. f_equal. apply Zceil_imp. cbn. lra.
  - unfold nzero in H0. cbn [nle nlt nofZ ntrunc XR] in *.
    destruct x as [r| | |]; try discriminate. cbn [xle xlt] in *. apply Rleb_true in H0. apply Rltb_true in H1.
    rewrite Ztrunc_ceil by exact H0. f_equal. apply Zceil_imp. cbn. lra.
Qed.

(** ** The constructor called with a double for the size *)
Section Ctor.
Context {A : Num} {L : NumLaws A} {L2 : NumLaws2 A}.

Lemma trunc_gt x z i : ntrunc x = Some z -> in_int i = true -> (i < z)%Z -> nlt (nofZ i) x = true.
Proof.
  intros Hz Hi Hlt. pose proof (l_trunc_ofZ i Hi) as Ti.
  pose proof (l_fin_nan _ (l_fin_trunc _ _ Hz)) as Nx. pose proof (l_fin_nan _ (l_fin_trunc _ _ Ti)) as Ni.
  rewrite l_lt. destruct (nle x (nofZ i)) eqn:E.
  - pose proof (l_trunc_mono _ _ _ _ E Hz Ti). lia.
  - destruct (l_le_total _ _ Nx Ni) as [H|H]; [congruence|]. rewrite H. reflexivity.
Qed.

Lemma upd_repeat (a : num) n i : i < n -> upd (repeat a n) i a = repeat a n.
Proof.
  intros H. apply list_ext. intros m. rewrite nth_error_upd by (rewrite repeat_length; exact H).
  destruct (Nat.eqb_spec m i) as [->|]; [|reflexivity].
  rewrite (nth_error_nth' _ a) by (rewrite repeat_length; exact H). rewrite nth_repeat. reflexivity.
Qed.

Lemma in_int_nat i : (Z.of_nat i <= INT_MAX)%Z -> in_int (Z.of_nat i) = true.
Proof. unfold in_int, INT_MIN, INT_MAX. intros H. apply andb_true_intro. split; apply Z.leb_le; lia. Qed.

Lemma zero_loop_run x z i m : ntrunc x = Some z -> (0 <= z <= INT_MAX)%Z -> i + m = Z.to_nat z ->
  zero_loop x (S m) i (repeat nzero (Z.to_nat z)) =
  if nlt (nofZ z) x then UB OobWrite else Ok (repeat nzero (Z.to_nat z)).
Proof.
  intros Hz Hb. revert i. induction m as [|m IH]; intros i Hi.
  - replace z with (Z.of_nat i) at 2 by lia. cbn [zero_loop]. destruct (nlt (nofZ (Z.of_nat i)) x); [|reflexivity].
    rewrite lset_oob by (rewrite repeat_length; lia). reflexivity.
  - cbn [zero_loop]. rewrite (trunc_gt x z) by (try exact Hz; try (apply in_int_nat); lia).
    rewrite lset_ok by (rewrite repeat_length; lia). cbn [bind]. rewrite upd_repeat by lia.
    destruct (Z.eqb_spec (Z.of_nat i) INT_MAX); [lia|]. apply IH. lia.
Qed.

Lemma zero_loop_long x z i m : ntrunc x = Some z -> (INT_MAX < z)%Z -> i + m = Z.to_nat z -> (Z.of_nat i <= INT_MAX)%Z ->
  zero_loop x (S m) i (repeat nzero (Z.to_nat z)) = UB BadConversion.
Proof.
  intros Hz Hb. revert i. induction m as [|m IH]; intros i Hi Hm; [lia|].
  cbn [zero_loop]. rewrite (trunc_gt x z) by (try exact Hz; try (apply in_int_nat); lia).
  rewrite lset_ok by (rewrite repeat_length; lia). cbn [bind]. rewrite upd_repeat by lia.
  destruct (Z.eqb_spec (Z.of_nat i) INT_MAX) as [|Hne]; [reflexivity|]. apply IH; lia.
Qed.

Lemma ctor_small kk x z : ntrunc x = Some z -> (0 <= z <= INT_MAX)%Z ->
  new_CorrelationIterator kk x = if nlt (nofZ z) x then UB OobWrite else Ok (CorrelationIterator kk (Z.to_nat z)).
Proof.
  intros Hz Hb. unfold new_CorrelationIterator. rewrite Hz. unfold INT_MAX in Hb.
  destruct (Z.ltb_spec z 0); [lia|]. destruct (Z.ltb_spec 18446744073709551615 z); [lia|]. cbn [orb].
  destruct (Z.ltb_spec 1152921504606846975 z); [lia|].
  rewrite (zero_loop_run x z 0 (Z.to_nat z) Hz) by (unfold INT_MAX; lia). destruct (nlt (nofZ z) x); reflexivity.
Qed.

Lemma ctor_large kk x z : ntrunc x = Some z -> (INT_MAX < z)%Z ->
  new_CorrelationIterator kk x = if ((1152921504606846976 <=? z) && (z <? 18446744073709551616))%Z then Throw LengthError else UB BadConversion.
Proof.
  intros Hz Hb. unfold new_CorrelationIterator. rewrite Hz. unfold INT_MAX in Hb.
  destruct (Z.ltb_spec z 0); [lia|]. cbn [orb].
  destruct (Z.ltb_spec 18446744073709551615 z), (Z.ltb_spec z 18446744073709551616), (Z.leb_spec 1152921504606846976 z); try lia; cbn [andb]; try reflexivity.
  - destruct (Z.ltb_spec 1152921504606846975 z); [reflexivity|lia].
  - destruct (Z.ltb_spec 1152921504606846975 z); [lia|].
    rewrite (zero_loop_long x z 0 (Z.to_nat z) Hz) by (unfold INT_MAX; lia). reflexivity.
Qed.

Lemma eqb_both a b : neqb a b = true -> nle a b = true /\ nle b a = true.
Proof. rewrite l_eq. intros H. apply andb_prop in H. exact H. Qed.

Lemma eqb_trunc x z : in_int z = true -> neqb x (nofZ z) = true -> ntrunc x = Some z.
Proof.
  intros Hz E. apply eqb_both in E. destruct E as [E1 E2]. pose proof (l_trunc_ofZ z Hz) as T.
  pose proof (l_fin_trunc _ _ T) as F. destruct (l_trunc_fin x) as [y Hy]; [apply (l_fin_between _ x _ E2 E1); exact F|].
  rewrite Hy. f_equal. pose proof (l_trunc_mono _ _ _ _ E1 Hy T). pose proof (l_trunc_mono _ _ _ _ E2 T Hy). lia.
Qed.

Lemma ctor_whole kk x z : (0 <= z <= INT_MAX)%Z -> neqb x (nofZ z) = true ->
  new_CorrelationIterator kk x = Ok (CorrelationIterator kk (Z.to_nat z)).
Proof.
  intros Hz E. assert (in_int z = true) as Hi by (unfold in_int, INT_MIN, INT_MAX in *; apply andb_true_intro; split; apply Z.leb_le; lia).
  rewrite (ctor_small kk x z) by (try apply eqb_trunc; assumption). apply eqb_both in E. rewrite l_lt. destruct E as [-> ->].
  cbn [negb]. rewrite andb_false_r. reflexivity.
Qed.

Lemma ctor_fraction (HA : arith A) kk x : nlt nzero x = true -> nle x (nofZ INT_MAX) = true ->
  (forall z, (0 < z <= INT_MAX)%Z -> neqb x (nofZ z) = false) -> new_CorrelationIterator kk x = UB OobWrite.
Proof.
  intros H0 H1 Hn. pose proof (lt_le _ _ H0) as H0'. pose proof (l_trunc_ofZ INT_MAX eq_refl) as TM.
  destruct (l_trunc_fin x) as [z Hz].
  { apply (l_fin_between _ x _ H0' H1); [apply l_fin_Z0|apply (l_fin_trunc _ _ TM)]. }
  pose proof (trunc_nonneg _ _ H0' Hz) as Z0. pose proof (l_trunc_mono _ _ _ _ H1 Hz TM) as Z1.
  assert (Hi : in_int z = true) by (unfold in_int, INT_MIN, INT_MAX in *; apply andb_true_intro; split; apply Z.leb_le; lia).
  rewrite (ctor_small kk x z Hz) by lia. rewrite l_lt.
  destruct (nle (nofZ z) x) eqn:E1, (nle x (nofZ z)) eqn:E2; cbn [andb negb]; try reflexivity.
  - destruct (Z.eq_dec z 0) as [->|Hz0]; [change (nofZ 0) with (nzero : num) in *; rewrite (lt_nle _ _ H0) in E2; discriminate|].
    specialize (Hn z ltac:(lia)). rewrite l_eq, E1, E2 in Hn. discriminate.
  - rewrite (trunc_below HA x z Hz Hi H0') in E1. discriminate.
  - rewrite (trunc_below HA x z Hz Hi H0') in E1. discriminate.
Qed.

Lemma ctor_empty (HA : arith A) kk x : nlt (nofZ (-1)) x = true -> nle x nzero = true ->
  new_CorrelationIterator kk x = Ok (CorrelationIterator kk 0).
Proof.
  intros H1 H2. rewrite (ctor_small kk x 0) by (try apply (trunc_minus HA); try assumption; unfold INT_MAX; lia).
  change (nofZ 0) with (nzero : num). rewrite l_lt, H2. cbn [negb]. rewrite andb_false_r. reflexivity.
Qed.

Lemma ctor_rejected kk x : nle x (nofZ (-1)) = true \/ nfin x = false -> new_CorrelationIterator kk x = UB BadConversion.
Proof.
  intros H. unfold new_CorrelationIterator. destruct (ntrunc x) as [z|] eqn:Hz; [|reflexivity].
  destruct H as [H|H]; [|rewrite (l_fin_trunc _ _ Hz) in H; discriminate].
  pose proof (l_trunc_mono _ _ _ _ H Hz (l_trunc_ofZ (-1) eq_refl)). destruct (Z.ltb_spec z 0); [reflexivity|lia].
Qed.

End Ctor.
