(** Iterators in the hands of a Python program. *)
From Coq Require Import String.
From Coq Require Import ZArith List Bool Arith Lia.
From Verif Require Import Num Mem MemFacts Spec DataStructure DSFacts Correlator Sacf Api CorrFacts LoopFacts MainFacts SelFacts SelThms.
Import ListNotations.

Section ItFacts.
Context {A : Num}.

Lemma vpush_buf {X} (v : vec X) a : vwf v -> length (vbuf (vpush v a)) = Nat.max (length (vbuf v)) (S (vsize v)).
Proof. apply vpush_length. Qed.

Lemma natural_shift_buf ts back kk v : vwf v ->
  length (vbuf (natural_shift ts back kk v)) =
  Nat.max (length (vbuf v)) (vsize v + length (shifted (fun s => nlt back s) ts kk)).
Proof.
  revert v. induction ts as [|a ts IH]; intros v Hw; cbn.
  - unfold vwf in Hw. lia.
  - destruct (nlt back (nadd a kk)); cbn [length].
    + unfold vwf in Hw. lia.
    + rewrite IH by (apply vwf_push; exact Hw). rewrite vpush_buf by exact Hw. cbn [vsize vpush]. lia.
Qed.

(** the natural selection of an iterator whose shifted times are cleared *)
Lemma natural_any p d it v : vwf v -> shifted_timeseries it = vclear v -> vwf (selection_indices it) ->
  match natural_sel p (norm_t d) (k it) with
  | Ok (sel, sh) => exists w, vwf w /\ vlive w = sh /\ length (vbuf w) = Nat.max (length (vbuf v)) (length sh) /\
      naturalSelectionFunctionIdx p d it =
        (set_shifted (set_selection it (pushes sel (selection_indices it))) (vclear w), Ok tt)
  | r => same_failure r (snd (naturalSelectionFunctionIdx p d it))
  end.
Proof.
  intros Hv Hs Hsel. unfold natural_sel, naturalSelectionFunctionIdx.
  destruct (lback (norm_t d)) as [back|e|u|]; cbn [bind mlift mbind snd same_failure]; try exact eq_refl; try exact I.
  rewrite Hs. set (w := natural_shift (norm_t d) back (k it) (vclear v)).
  destruct (natural_shift_live (norm_t d) back (k it) (vclear v) (vwf_clear v)) as [Hw [Hl Hz]].
  pose proof (natural_shift_buf (norm_t d) back (k it) (vclear v) (vwf_clear v)) as Hb.
  fold w in Hw, Hl, Hz, Hb. cbn [vlive vclear vbuf vsize firstn app Nat.add] in Hl, Hz, Hb.
  set (S := shifted (fun s => nlt back s) (norm_t d) (k it)) in *.
  set (it1 := set_shifted it w).
  pose proof (natural_loop_closed p (norm_t d) S (vsize w) 0 it1 Hw Hl) as HL.
  rewrite Hz in HL. specialize (HL eq_refl). rewrite skipn_O in HL.
  change (vsize (shifted_timeseries it1)) with (vsize w). rewrite Hz.
  destruct (mapM (natural_index p (norm_t d)) S) as [sel|e|u|]; cbn [bind].
  - rewrite HL. cbn [mbind]. exists w. split; [exact Hw|]. split; [exact Hl|]. split; [exact Hb|]. reflexivity.
  - destruct (natural_loop p (norm_t d) (length S) 0 it1) as [it2 r]. cbn in HL. subst r. reflexivity.
  - destruct (natural_loop p (norm_t d) (length S) 0 it1) as [it2 r]. cbn in HL. subst r. reflexivity.
  - destruct (natural_loop p (norm_t d) (length S) 0 it1) as [it2 r]. cbn in HL. subst r. exact I.
Qed.

(** more indices than stored times *)
Lemma deltaT_loop_short p nt sel i it : p_checked p = false -> p_abs p = AbsFloat ->
  vsize (shifted_timeseries it) = 0 -> i <= length (vbuf (shifted_timeseries it)) < i + length sel ->
  (forall s, In s sel -> s < length nt) ->
  snd (deltaT_loop p nt sel i it) = UB OobRead.
Proof.
  intros Hp Ha. revert i it. induction sel as [|x sel IH]; intros i it Hz Hi Hs; cbn [length] in Hi; [lia|].
  cbn [deltaT_loop]. unfold mlift. rewrite (lat_ok nt x nzero) by (apply Hs; left; reflexivity). cbn [mbind].
  unfold vget. rewrite Hz, Hp. cbn [Nat.ltb Nat.leb].
  destruct (Nat.lt_ge_cases i (length (vbuf (shifted_timeseries it)))) as [H|H].
  - rewrite (lget_ok _ _ nzero) by exact H. cbn [mbind]. rewrite (cabs_float p _ Ha). cbn [mbind].
    apply IH; [exact Hz|cbn [shifted_timeseries set_delta]; lia|]. intros s Hin. apply Hs. right. exact Hin.
  - rewrite lget_oob by lia. reflexivity.
Qed.

Lemma deltaT_short p d it : p_checked p = false -> p_abs p = AbsFloat ->
  vsize (shifted_timeseries it) = 0 -> length (vbuf (shifted_timeseries it)) < length (selection it) ->
  (forall s, In s (selection it) -> s < length (norm_t d)) ->
  snd (deltaT p d it) = UB OobRead.
Proof.
  intros Hp Ha Hz Hl Hs. unfold deltaT.
  pose proof (deltaT_loop_short p (norm_t d) (vlive (selection_indices it)) 0 it Hp Ha Hz) as H.
  unfold selection in *. specialize (H ltac:(lia) Hs).
  destruct (deltaT_loop p (norm_t d) (vlive (selection_indices it)) 0 it) as [it' r]. cbn [snd] in H. subst r. reflexivity.
Qed.

(** ** What never happens *)
Definition tame {X} (r : res X) : Prop := r <> UB OobWrite /\ r <> Diverge /\ forall e, r = Throw e -> e = OutOfRange.

Lemma tame_Ok {X} (x : X) : tame (Ok x).
Proof. repeat split; congruence. Qed.
Lemma tame_mbind {S R Q} (x : meth S R) (f : S -> R -> meth S Q) : tame (snd x) ->
  (forall s r, x = (s, Ok r) -> tame (snd (f s r))) -> tame (snd (mbind x f)).
Proof.
  destruct x as [s [r|e|u|]]; cbn; intros H1 H2; [apply H2; reflexivity| | |].
  - destruct H1 as [_ [_ H]]. split; [discriminate|]. split; [discriminate|]. intros e' E. injection E as <-. apply H. reflexivity.
  - destruct H1 as [H _]. repeat split; congruence.
  - destruct H1 as [_ [H _]]. congruence.
Qed.
Lemma tame_mlift {S R Q} (s : S) (x : res R) (f : R -> meth S Q) : tame x ->
  (forall r, x = Ok r -> tame (snd (f r))) -> tame (snd (mlift s x f)).
Proof. intros H1 H2. apply tame_mbind; [exact H1|]. intros s' r E. injection E as <- ->. apply H2. reflexivity. Qed.
Lemma tame_bind {X Y} (x : res X) (f : X -> res Y) : tame x -> (forall a, x = Ok a -> tame (f a)) -> tame (bind x f).
Proof.
  intros H1 H2. destruct x as [a|e|u|]; cbn; [apply H2; reflexivity| | |].
  - destruct H1 as [_ [_ H]]. split; [discriminate|]. split; [discriminate|]. intros e' E. injection E as <-. apply H. reflexivity.
  - destruct H1 as [H _]. repeat split; congruence.
  - destruct H1 as [_ [H _]]. congruence.
Qed.
Lemma tame_lget {X} (l : list X) i : tame (lget l i).
Proof. unfold lget. destruct (nth_error l i); [apply tame_Ok|]. repeat split; congruence. Qed.
Lemma tame_lat {X} (l : list X) i : tame (lat l i).
Proof. unfold lat. destruct (nth_error l i); [apply tame_Ok|]. repeat split; congruence. Qed.
Lemma tame_vget {X} p (v : vec X) i : tame (vget p v i).
Proof. unfold vget. destruct (i <? vsize v); [apply tame_lget|]. destruct (p_checked p); [repeat split; congruence|apply tame_lget]. Qed.
Lemma tame_cabs p (x : num) : tame (cabs p x).
Proof. destruct (cabs_outcome p x) as [[y ->]| ->]; [apply tame_Ok|repeat split; congruence]. Qed.
Lemma tame_lower_bound l (s : num) : tame (lower_bound l s).
Proof. destruct (lower_bound_split l s) as [i [-> _]]. apply tame_Ok. Qed.
Lemma tame_lback {X} (l : list X) : tame (lback l).
Proof. unfold lback. destruct l; [repeat split; congruence|apply tame_lget]. Qed.

Lemma tame_natural_index p nt s : tame (natural_index p nt s).
Proof.
  unfold natural_index. apply tame_bind; [apply tame_lower_bound|]. intros idx _.
  destruct (idx =? 0); [apply tame_Ok|]. apply tame_bind; [apply tame_lat|]. intros a _.
  apply tame_bind; [apply tame_cabs|]. intros da _. apply tame_bind; [apply tame_lat|]. intros b _.
  apply tame_bind; [apply tame_cabs|]. intros db _. apply tame_Ok.
Qed.

Lemma tame_natural_loop p nt n i it : tame (snd (natural_loop p nt n i it)).
Proof.
  revert i it. induction n as [|n IH]; intros i it; cbn [natural_loop]; [apply tame_Ok|].
  apply tame_mlift; [apply tame_vget|]. intros s _. apply tame_mlift; [apply tame_natural_index|]. intros idx _. apply IH.
Qed.

(** the size of the correlation stays *)
Lemma natural_loop_corr p nt n i it : correlation (fst (natural_loop p nt n i it)) = correlation it.
Proof.
  revert i it. induction n as [|n IH]; intros i it; cbn [natural_loop]; [reflexivity|].
  unfold mlift. destruct (vget p (shifted_timeseries it) i) as [s|e|u|]; try reflexivity. cbn [mbind].
  destruct (natural_index p nt s) as [idx|e|u|]; try reflexivity. cbn [mbind]. rewrite IH. reflexivity.
Qed.
Lemma natural_loop_wf p nt n i it : vwf (selection_indices it) -> vwf (selection_indices (fst (natural_loop p nt n i it))).
Proof.
  revert i it. induction n as [|n IH]; intros i it H; cbn [natural_loop]; [exact H|].
  unfold mlift. destruct (vget p (shifted_timeseries it) i) as [s|e|u|]; try exact H. cbn [mbind].
  destruct (natural_index p nt s) as [idx|e|u|]; try exact H. cbn [mbind]. apply IH. apply vwf_push. exact H.
Qed.

Lemma deltaT_loop_corr p nt sel i it : correlation (fst (deltaT_loop p nt sel i it)) = correlation it /\
  selection_indices (fst (deltaT_loop p nt sel i it)) = selection_indices it /\ tame (snd (deltaT_loop p nt sel i it)).
Proof.
  revert i it. induction sel as [|x sel IH]; intros i it; cbn [deltaT_loop]; [split; [|split]; try reflexivity; apply tame_Ok|].
  pose proof (tame_lat nt x) as T1. unfold mlift. destruct (lat nt x) as [a|e|u|]; cbn [mbind fst snd];
    try (split; [reflexivity|split; [reflexivity|]]; destruct T1 as [T1 [T2 T3]]; repeat split; try congruence; intros e' E'; injection E' as <-; apply T3; reflexivity).
  pose proof (tame_vget p (shifted_timeseries it) i) as T2. destruct (vget p (shifted_timeseries it) i) as [s|e|u|]; cbn [mbind fst snd];
    try (split; [reflexivity|split; [reflexivity|]]; destruct T2 as [T2 [T3 T4]]; repeat split; try congruence; intros e' E'; injection E' as <-; apply T4; reflexivity).
  pose proof (tame_cabs p (nsub a s)) as T3. destruct (cabs p (nsub a s)) as [dt|e|u|]; cbn [mbind fst snd];
    try (split; [reflexivity|split; [reflexivity|]]; destruct T3 as [T3 [T4 T5]]; repeat split; try congruence; intros e' E'; injection E' as <-; apply T5; reflexivity).
  destruct (IH (S i) (set_delta it (vpush (delta_t it) dt))) as [H1 [H2 H3]]. split; [exact H1|]. split; [exact H2|exact H3].
Qed.

Lemma vresize_wf {X} (d0 : X) v n : vwf v -> vwf (vresize d0 v n) /\ vsize (vresize d0 v n) = n.
Proof.
  unfold vwf, vresize. intros H. destruct (Nat.leb_spec n (vsize v)); cbn [vbuf vsize]; [split; [lia|reflexivity]|].
  split; [|reflexivity]. rewrite !app_length, firstn_length_le, repeat_length by exact H. lia.
Qed.

Lemma fast_corr p d it : vwf (shifted_timeseries it) -> vwf (selection_indices it) ->
  correlation (fst (fastSelectionFunctionIdx p d it)) = correlation it /\
  vwf (selection_indices (fst (fastSelectionFunctionIdx p d it))) /\ vwf (shifted_timeseries (fst (fastSelectionFunctionIdx p d it))) /\
  tame (snd (fastSelectionFunctionIdx p d it)).
Proof.
  intros Hv Hs. unfold fastSelectionFunctionIdx, mlift.
  pose proof (tame_lback (norm_t d)) as T. destruct (lback (norm_t d)) as [back|e|u|]; cbn [mbind fst snd];
    try (split; [reflexivity|split; [exact Hs|split; [exact Hv|]]]; destruct T as [T [T2 T3]]; repeat split; try congruence; intros e' E'; injection E' as <-; apply T3; reflexivity).
  destruct (fast_shift_live (norm_t d) back (k it) (shifted_timeseries it) Hv) as [Hw [Hl Hz]].
  set (w := fast_shift (norm_t d) back (k it) (shifted_timeseries it)) in *. set (it1 := set_shifted it w).
  change (shifted_timeseries it1) with w. change (selection_indices it1) with (selection_indices it).
  destruct (vsize w =? 0).
  { cbn [mbind fst snd]. split; [reflexivity|]. split; [exact Hs|]. split; [apply vwf_clear|apply tame_Ok]. }
  assert (F : forall r : res unit, tame r -> 
    correlation (fst (mbind (it1, r) (fun it3 _ => (set_shifted it3 (vclear (shifted_timeseries it3)), Ok tt)))) = correlation it /\
    vwf (selection_indices (fst (mbind (it1, r) (fun it3 _ => (set_shifted it3 (vclear (shifted_timeseries it3)), Ok tt))))) /\
    vwf (shifted_timeseries (fst (mbind (it1, r) (fun it3 _ => (set_shifted it3 (vclear (shifted_timeseries it3)), Ok tt))))) /\
    tame (snd (mbind (it1, r) (fun it3 _ => (set_shifted it3 (vclear (shifted_timeseries it3)), Ok tt))))).
  { intros r Hr. split; [destruct r; reflexivity|]. split; [destruct r; exact Hs|]. split; [destruct r; try exact Hw; apply vwf_clear|].
    apply tame_mbind; [exact Hr|]. intros; apply tame_Ok. }
  pose proof (tame_vget p w 0) as T1. destruct (vget p w 0) as [s|e|u|]; cbn [mbind];
    try (apply (F (Throw _)); destruct T1 as [T1 [T2 T3]]; repeat split; try congruence; intros e' E'; injection E' as <-; apply T3; reflexivity);
    try (apply (F (UB _)); destruct T1 as [T1 [T2 T3]]; repeat split; congruence);
    try (destruct T1 as [_ [T1 _]]; congruence).
  pose proof (tame_lower_bound (norm_t d) s) as T4. destruct (lower_bound (norm_t d) s) as [idx|e|u|]; cbn [mbind];
    try (apply (F (Throw _)); destruct T4 as [T4 [T5 T6]]; repeat split; try congruence; intros e' E'; injection E' as <-; apply T6; reflexivity);
    try (apply (F (UB _)); destruct T4 as [T4 [T5 T6]]; repeat split; congruence);
    try (destruct T4 as [_ [T4 _]]; congruence).
  pose proof (tame_lat (norm_t d) (idx + 1)) as T7. destruct (lat (norm_t d) (idx + 1)) as [b|e|u|]; cbn [mbind];
    try (apply (F (Throw _)); destruct T7 as [T7 [T8 T9]]; repeat split; try congruence; intros e' E'; injection E' as <-; apply T9; reflexivity);
    try (apply (F (UB _)); destruct T7 as [T7 [T8 T9]]; repeat split; congruence);
    try (destruct T7 as [_ [T7 _]]; congruence).
  pose proof (tame_cabs p (nsub s b)) as U1. destruct (cabs p (nsub s b)) as [db|e|u|]; cbn [mbind];
    try (apply (F (Throw _)); destruct U1 as [U1 [U2 U3]]; repeat split; try congruence; intros e' E'; injection E' as <-; apply U3; reflexivity);
    try (apply (F (UB _)); destruct U1 as [U1 [U2 U3]]; repeat split; congruence);
    try (destruct U1 as [_ [U1 _]]; congruence).
  pose proof (tame_lat (norm_t d) idx) as U4. destruct (lat (norm_t d) idx) as [a|e|u|]; cbn [mbind];
    try (apply (F (Throw _)); destruct U4 as [U4 [U5 U6]]; repeat split; try congruence; intros e' E'; injection E' as <-; apply U6; reflexivity);
    try (apply (F (UB _)); destruct U4 as [U4 [U5 U6]]; repeat split; congruence);
    try (destruct U4 as [_ [U4 _]]; congruence).
  pose proof (tame_cabs p (nsub s a)) as U7. destruct (cabs p (nsub s a)) as [da|e|u|]; cbn [mbind];
    try (apply (F (Throw _)); destruct U7 as [U7 [U8 U9]]; repeat split; try congruence; intros e' E'; injection E' as <-; apply U9; reflexivity);
    try (apply (F (UB _)); destruct U7 as [U7 [U8 U9]]; repeat split; congruence);
    try (destruct U7 as [_ [U7 _]]; congruence).
  set (idx' := if nlt db da then idx + 1 else idx).
  destruct (vresize_wf 0 (selection_indices it) (vsize w) Hs) as [R1 R2].
  cbn [selection_indices set_selection it1 set_shifted].
  destruct (fast_fill_closed idx' (vsize w) (vsize w - idx') 0 (vresize 0 (selection_indices it) (vsize w)) R1 R2 ltac:(lia)) as [v' [E [W1 [W2 _]]]].
  rewrite E. cbn [mbind fst snd]. split; [reflexivity|]. split; [exact W1|]. split; [apply vwf_clear|apply tame_Ok].
Qed.

Lemma find_sum_tame p d sel j ws i acc : tame (snd (findCorrelation_sum p d sel j ws i acc)).
Proof.
  revert i acc. induction ws as [|w ws IH]; intros i acc; cbn [findCorrelation_sum]; [apply tame_Ok|].
  apply tame_mlift; [apply tame_lat|]. intros x _. apply tame_mlift; [apply tame_vget|]. intros si _.
  apply tame_mlift; [apply tame_lat|]. intros y _. apply IH.
Qed.

Lemma find_corr p c n j it : j + n <= length (correlation it) ->
  length (correlation (fst (findCorrelation_loop p c n j it))) = length (correlation it) /\
  selection_indices (fst (findCorrelation_loop p c n j it)) = selection_indices it /\
  shifted_timeseries (fst (findCorrelation_loop p c n j it)) = shifted_timeseries it /\
  tame (snd (findCorrelation_loop p c n j it)).
Proof.
  revert j it. induction n as [|n IH]; intros j it Hj; cbn [findCorrelation_loop]; [repeat split; try reflexivity; discriminate|].
  unfold mlift. rewrite (lget_ok _ j nzero) by lia. cbn [mbind].
  pose proof (find_sum_tame p (ds c) (selection_indices it) j (vlive (weights it)) 0 (nth j (correlation it) nzero)) as T.
  destruct (findCorrelation_sum p (ds c) (selection_indices it) j (vlive (weights it)) 0 (nth j (correlation it) nzero)) as [s r].
  cbn [fst snd] in *. rewrite lset_ok by lia. cbn [mbind].
  assert (HL : length (upd (correlation it) j s) = length (correlation it)) by (apply upd_length; lia).
  destruct r as [u|e|u|]; cbn [mbind fst snd];
    try (split; [exact HL|]; split; [reflexivity|]; split; [reflexivity|]; destruct T as [T1 [T2 T3]]; repeat split; try congruence;
         intros e' E'; injection E' as <-; apply T3; reflexivity).
  pose proof (tame_lget (Nvec c) j) as T1. destruct (lget (Nvec c) j) as [Nj|e|u'|]; cbn [mbind fst snd];
    try (split; [exact HL|]; split; [reflexivity|]; split; [reflexivity|]; destruct T1 as [T1 [T2 T3]]; repeat split; try congruence;
         intros e' E'; injection E' as <-; apply T3; reflexivity).
  rewrite lset_ok by (rewrite HL; lia). cbn [mbind].
  set (cs := upd (upd (correlation it) j s) j (nmul s (ndiv none_ Nj))).
  assert (HL2 : length cs = length (correlation it)) by (unfold cs; rewrite upd_length; [exact HL|rewrite HL; lia]).
  destruct (IH (S j) (set_correlation it cs)) as [H1 [H2 [H3 H4]]]; [cbn [correlation set_correlation]; lia|].
  split; [rewrite H1; exact HL2|]. split; [exact H2|]. split; [exact H3|exact H4].
Qed.

(** the invariant *)
Definition it_inv (n : nat) (it : cor_it) : Prop :=
  length (correlation it) = n /\ vwf (selection_indices it) /\ vwf (shifted_timeseries it).

Lemma it_step p c n it o : (o = FindCorrelation -> N_datasets (ds c) <= n) -> it_inv n it ->
  it_inv n (fst (run_it_op p c it o)) /\ tame (snd (run_it_op p c it o)).
Proof.
  intros Hn [H1 [H2 H3]]. destruct o; cbn [run_it_op fst snd].
  - split; [split; [exact H1|split; assumption]|apply tame_Ok].
  - unfold naturalSelectionFunctionIdx, mlift. pose proof (tame_lback (norm_t (ds c))) as T.
    destruct (lback (norm_t (ds c))) as [back|e|u|]; cbn [mbind fst snd];
      try (split; [split; [exact H1|split; assumption]|]; destruct T as [T [T2 T3]]; repeat split; try congruence; intros e' E'; injection E' as <-; apply T3; reflexivity).
    destruct (natural_shift_live (norm_t (ds c)) back (k it) (shifted_timeseries it) H3) as [Hw [Hl Hz]].
    set (w := natural_shift (norm_t (ds c)) back (k it) (shifted_timeseries it)) in *. set (it1 := set_shifted it w).
    pose proof (natural_loop_corr p (norm_t (ds c)) (vsize (shifted_timeseries it1)) 0 it1) as C.
    pose proof (natural_loop_wf p (norm_t (ds c)) (vsize (shifted_timeseries it1)) 0 it1 H2) as W.
    pose proof (tame_natural_loop p (norm_t (ds c)) (vsize (shifted_timeseries it1)) 0 it1) as T4.
    assert (S : shifted_timeseries (fst (natural_loop p (norm_t (ds c)) (vsize (shifted_timeseries it1)) 0 it1)) = w).
    { transitivity (shifted_timeseries it1); [|reflexivity]. generalize (vsize (shifted_timeseries it1)) as m. generalize 0 as i. generalize it1. clear.
      intros it i m. revert i it. induction m as [|m IH]; intros i it; cbn [natural_loop]; [reflexivity|].
      unfold mlift. destruct (vget p (shifted_timeseries it) i) as [s|e|u|]; try reflexivity. cbn [mbind].
      destruct (natural_index p (norm_t (ds c)) s) as [idx|e|u|]; try reflexivity. cbn [mbind]. rewrite IH. reflexivity. }
    destruct (natural_loop p (norm_t (ds c)) (vsize (shifted_timeseries it1)) 0 it1) as [it2 r]. cbn [fst snd] in *.
    destruct r as [u|e|u|]; cbn [mbind fst snd].
    + split; [|apply tame_Ok]. split; [cbn [correlation set_shifted]; rewrite C; exact H1|]. split; [exact W|apply vwf_clear].
    + split; [split; [rewrite C; exact H1|]; split; [exact W|rewrite S; exact Hw]|].
      destruct T4 as [T4 [T5 T6]]. repeat split; try congruence. intros e' E'; injection E' as <-; apply T6; reflexivity.
    + split; [split; [rewrite C; exact H1|]; split; [exact W|rewrite S; exact Hw]|].
      destruct T4 as [T4 [T5 T6]]. repeat split; congruence.
    + destruct T4 as [_ [T4 _]]. congruence.
  - destruct (fast_corr p (ds c) it H3 H2) as [F1 [F2 [F3 F4]]]. split; [|exact F4]. split; [rewrite F1; exact H1|split; assumption].
  - unfold deltaT. destruct (deltaT_loop_corr p (norm_t (ds c)) (vlive (selection_indices it)) 0 it) as [D1 [D2 D3]].
    assert (S : shifted_timeseries (fst (deltaT_loop p (norm_t (ds c)) (vlive (selection_indices it)) 0 it)) = shifted_timeseries it).
    { clear. generalize (vlive (selection_indices it)) as sel, 0. intros sel. revert it. induction sel as [|x sel IH]; intros it i; cbn [deltaT_loop]; [reflexivity|].
      unfold mlift. destruct (lat (norm_t (ds c)) x); try reflexivity. cbn [mbind]. destruct (vget p (shifted_timeseries it) i); try reflexivity.
      cbn [mbind]. destruct (cabs p _); try reflexivity. cbn [mbind]. rewrite IH. reflexivity. }
    destruct (deltaT_loop p (norm_t (ds c)) (vlive (selection_indices it)) 0 it) as [it2 r]. cbn [fst snd] in *.
    destruct r as [u|e|u|]; cbn [mbind fst snd].
    + split; [|apply tame_Ok]. split; [cbn [correlation set_shifted]; rewrite D1; exact H1|]. split; [cbn [selection_indices set_shifted]; rewrite D2; exact H2|apply vwf_clear].
    + split; [split; [rewrite D1; exact H1|]; split; [rewrite D2; exact H2|rewrite S; exact H3]|].
      destruct D3 as [T4 [T5 T6]]. repeat split; try congruence. intros e' E'; injection E' as <-; apply T6; reflexivity.
    + split; [split; [rewrite D1; exact H1|]; split; [rewrite D2; exact H2|rewrite S; exact H3]|].
      destruct D3 as [T4 [T5 T6]]. repeat split; congruence.
    + destruct D3 as [_ [T4 _]]. congruence.
  - split; [split; [exact H1|split; assumption]|apply tame_Ok].
  - split; [split; [exact H1|split; assumption]|apply tame_Ok].
  - split; [split; [exact H1|split; assumption]|apply tame_Ok].
  - unfold findCorrelation. destruct (find_corr p c (N_datasets (ds c)) 0 it) as [F1 [F2 [F3 F4]]]; [specialize (Hn eq_refl); lia|].
    split; [|exact F4]. split; [rewrite F1; exact H1|]. rewrite F2, F3. split; assumption.
Qed.

Lemma it_history p n kk os it c o : it_after p (CorrelationIterator kk n) os it ->
  (forall c' o', In (c', o') (os ++ [(c, o)]) -> N_datasets (ds c') <= n) ->
  length (correlation it) = n /\ length (correlation (fst (run_it_op p c it o))) = n /\ tame (snd (run_it_op p c it o)).
Proof.
  intros H Hn. assert (J : it_inv n it).
  { assert (Hn' : forall c' o', In (c', o') os -> N_datasets (ds c') <= n) by (intros c' o' Hi; apply (Hn c' o'); apply in_or_app; left; exact Hi).
    clear Hn. induction H as [|os it1 c' o' it2 r _ IH E _].
    - split; [apply repeat_length|]. split; apply vwf_empty.
    - assert (K0 : N_datasets (ds c') <= n) by (apply (Hn' c' o'); apply in_or_app; right; left; reflexivity).
      pose proof (proj1 (it_step p c' n it1 o' (fun _ => K0) (IH (fun c1 o1 Hi => Hn' c1 o1 (in_or_app _ _ _ (or_introl Hi)))))) as K. rewrite E in K. exact K. }
  assert (K0 : N_datasets (ds c) <= n) by (apply (Hn c o); apply in_or_app; right; left; reflexivity).
  destruct (it_step p c n it o (fun _ => K0) J) as [K1 K2]. split; [apply J|]. split; [apply K1|exact K2].
Qed.

End ItFacts.
