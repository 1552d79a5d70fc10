(** Closed form of one lag of the correlation. *)
From Coq Require Import String.
From Coq Require Import ZArith List Bool Arith Lia.
From Verif Require Import Num Mem MemFacts Spec DataStructure DSFacts Correlator Sacf.
Import ListNotations.

Section CorrFacts.
Context {A : Num}.

(** the failure of one outcome as an outcome of another type *)
Definition refail {X Y} (r : res X) (k : X -> res Y) : res Y := bind r k.

(** the leading shifted times, up to the first one [beyond] the end *)
Fixpoint shifted (beyond : num -> bool) (ts : list num) (kk : num) : list num :=
  match ts with
  | [] => []
  | tp :: ts' => if beyond (nadd tp kk) then [] else nadd tp kk :: shifted beyond ts' kk
  end.

Lemma shifted_length_le beyond ts kk : length (shifted beyond ts kk) <= length ts.
Proof.
  induction ts as [|a ts IH]; cbn; [lia|]. destruct (beyond _); cbn; lia.
Qed.

Lemma shifted_nth beyond ts kk i s :
  nth_error (shifted beyond ts kk) i = Some s ->
  exists tp, nth_error ts i = Some tp /\ s = nadd tp kk /\ beyond s = false.
Proof.
  revert i. induction ts as [|a ts IH]; intros i H; cbn in H; [destruct i; discriminate|].
  destruct (beyond (nadd a kk)) eqn:E; [destruct i; discriminate|].
  destruct i as [|i]; cbn in H.
  - injection H as <-. exists a. auto.
  - apply IH in H. exact H.
Qed.

Lemma natural_shift_live ts back kk v : vwf v ->
  let v' := natural_shift ts back kk v in
  vwf v' /\ vlive v' = vlive v ++ shifted (fun s => nlt back s) ts kk /\
  vsize v' = vsize v + length (shifted (fun s => nlt back s) ts kk).
Proof.
  revert v. induction ts as [|a ts IH]; intros v Hw; cbn.
  - rewrite app_nil_r. auto.
  - destruct (nlt back (nadd a kk)); cbn.
    + rewrite app_nil_r. auto.
    + destruct (IH (vpush v (nadd a kk)) (vwf_push _ _ Hw)) as [H1 [H2 H3]].
      split; [exact H1|]. split.
      * rewrite H2, vlive_push by exact Hw. rewrite <- app_assoc. reflexivity.
      * rewrite H3. cbn. lia.
Qed.

Lemma fast_shift_live ts back kk v : vwf v ->
  let v' := fast_shift ts back kk v in
  vwf v' /\ vlive v' = vlive v ++ shifted (fun s => nle back s) ts kk /\
  vsize v' = vsize v + length (shifted (fun s => nle back s) ts kk).
Proof.
  revert v. induction ts as [|a ts IH]; intros v Hw; cbn.
  - rewrite app_nil_r. auto.
  - destruct (nle back (nadd a kk)); cbn.
    + rewrite app_nil_r. auto.
    + destruct (IH (vpush v (nadd a kk)) (vwf_push _ _ Hw)) as [H1 [H2 H3]].
      split; [exact H1|]. split.
      * rewrite H2, vlive_push by exact Hw. rewrite <- app_assoc. reflexivity.
      * rewrite H3. cbn. lia.
Qed.

(** ** Natural selection *)
Definition pushes {X} (l : list X) (v : vec X) : vec X := fold_left vpush l v.

Lemma pushes_live {X} (l : list X) v : vwf v ->
  vwf (pushes l v) /\ vlive (pushes l v) = vlive v ++ l /\ vsize (pushes l v) = vsize v + length l.
Proof.
  intros Hw. destruct (vpush_fold_live (fun x : X => x) l v Hw) as [H1 [H2 H3]].
  rewrite map_id in H2. auto.
Qed.

Lemma natural_loop_closed p nt S n i it :
  vwf (shifted_timeseries it) -> vlive (shifted_timeseries it) = S -> i + n = length S ->
  match mapM (natural_index p nt) (skipn i S) with
  | Ok idxs => natural_loop p nt n i it =
                 (set_selection it (pushes idxs (selection_indices it)), Ok tt)
  | Throw e => snd (natural_loop p nt n i it) = Throw e
  | UB u => snd (natural_loop p nt n i it) = UB u
  | Diverge => snd (natural_loop p nt n i it) = Diverge
  end.
Proof.
  revert i it. induction n as [|n IH]; intros i it Hw HS Hi.
  - rewrite skipn_all2 by lia. cbn. destruct it; reflexivity.
  - destruct (nth_error_Some_ex S i ltac:(lia)) as [s Hs].
    assert (Hsk : skipn i S = s :: skipn (Datatypes.S i) S).
    { apply list_ext. intros m. rewrite nth_error_skipn. destruct m as [|m].
      - rewrite Nat.add_0_r. exact Hs.
      - cbn [nth_error]. rewrite nth_error_skipn. f_equal. lia. }
    rewrite Hsk. cbn [mapM natural_loop].
    unfold mlift. rewrite (vget_live p _ i s Hw) by (rewrite HS; exact Hs). cbn [mbind].
    destruct (natural_index p nt s) as [idx|e|u|]; cbn [mbind bind snd]; try reflexivity.
    specialize (IH (Datatypes.S i) (set_selection it (vpush (selection_indices it) idx)) Hw HS ltac:(lia)).
    destruct (mapM (natural_index p nt) (skipn (Datatypes.S i) S)) as [idxs|e|u|]; cbn [bind]; exact IH.
Qed.

(** indices and shifted times of the natural selection *)
Definition natural_sel (p : platform) (nt : list num) (kk : num) : res (list nat * list num) :=
  do back <- lback nt;
  let S := shifted (fun s => nlt back s) nt kk in
  do sel <- mapM (natural_index p nt) S;
  Ok (sel, S).

(** state of the iterator after a selection function returned normally *)
Definition selected (it : cor_it) (kk : num) (n : nat) (sel : list nat) (S : list num) : Prop :=
  k it = kk /\ correlation it = repeat nzero n /\
  vwf (selection_indices it) /\ vlive (selection_indices it) = sel /\
  (exists v, vwf v /\ vlive v = S /\ shifted_timeseries it = vclear v) /\
  delta_t it = vempty /\ weights it = vempty.

Definition same_failure {X Y} (r : res X) (q : res Y) : Prop :=
  match r, q with
  | Throw e, Throw e' => e = e'
  | UB u, UB u' => u = u'
  | Diverge, Diverge => True
  | _, _ => False
  end.

Lemma natural_closed p d kk n :
  match natural_sel p (norm_t d) kk with
  | Ok (sel, sh) => exists it, naturalSelectionFunctionIdx p d (CorrelationIterator kk n) = (it, Ok tt) /\
                     selected it kk n sel sh
  | r => same_failure r (snd (naturalSelectionFunctionIdx p d (CorrelationIterator kk n)))
  end.
Proof.
  unfold natural_sel, naturalSelectionFunctionIdx.
  destruct (lback (norm_t d)) as [back|e|u|]; cbn [bind mlift mbind snd same_failure]; try exact eq_refl; try exact I.
  set (v := natural_shift (norm_t d) back kk vempty).
  destruct (natural_shift_live (norm_t d) back kk vempty vwf_empty) as [Hw [Hl Hs]].
  fold v in Hw, Hl, Hs. cbn [vlive vempty vbuf vsize firstn app Nat.add] in Hl, Hs.
  set (S := shifted (fun s => nlt back s) (norm_t d) kk) in *.
  cbn [k shifted_timeseries CorrelationIterator]. fold v.
  set (it1 := set_shifted (CorrelationIterator kk n) v).
  pose proof (natural_loop_closed p (norm_t d) S (vsize v) 0 it1 Hw Hl) as HL.
  rewrite Hs in HL. specialize (HL eq_refl). rewrite skipn_O in HL.
  cbn [shifted_timeseries it1 set_shifted].
  change (vsize (shifted_timeseries it1)) with (vsize v). rewrite Hs.
  destruct (mapM (natural_index p (norm_t d)) S) as [sel|e|u|]; cbn [bind].
  - rewrite HL. cbn [mbind]. eexists. split; [reflexivity|].
    destruct (pushes_live sel vempty vwf_empty) as [P1 [P2 P3]].
    repeat split; cbn; try assumption; try reflexivity.
    exists v. auto.
  - destruct (natural_loop p (norm_t d) (length S) 0 it1) as [it2 r]. cbn in HL. subst r. reflexivity.
  - destruct (natural_loop p (norm_t d) (length S) 0 it1) as [it2 r]. cbn in HL. subst r. reflexivity.
  - destruct (natural_loop p (norm_t d) (length S) 0 it1) as [it2 r]. cbn in HL. subst r. exact I.
Qed.

(** ** Fast selection *)
(** indices filled in by the fast selection: [idx + i] while [i < n - idx],
    the remaining ones stay 0 *)
Definition fast_list (idx n : nat) : list nat :=
  map (fun i => if i <? n - idx then idx + i else 0) (seq 0 n).

Definition fast_sel (p : platform) (nt : list num) (kk : num) : res (list nat * list num) :=
  do back <- lback nt;
  let S := shifted (fun s => nle back s) nt kk in
  match S with
  | [] => Ok ([], [])
  | s :: _ =>
      do idx <- lower_bound nt s;
      do b <- lat nt (idx + 1);
      do db <- cabs p (nsub s b);
      do a <- lat nt idx;
      do da <- cabs p (nsub s a);
      Ok (fast_list (if nlt db da then idx + 1 else idx) (length S), S)
  end.

Lemma fast_fill_closed idx m n i v :
  vwf v -> vsize v = m -> i + n <= m ->
  exists v', fast_fill idx n i v = Ok v' /\ vwf v' /\ vsize v' = m /\
    forall q, nth_error (vlive v') q =
      if (i <=? q) && (q <? i + n) then Some (idx + q) else nth_error (vlive v) q.
Proof.
  revert i v. induction n as [|n IH]; intros i v Hw Hs Hi; cbn [fast_fill].
  - exists v. repeat split; try assumption. intros q.
    destruct (Nat.leb_spec i q), (Nat.ltb_spec q (i + 0)); cbn; try lia; reflexivity.
  - unfold vset. destruct (Nat.ltb_spec i (vsize v)) as [Hlt|]; [|lia].
    rewrite lset_ok by (unfold vwf in Hw; lia). cbn [bind].
    set (v1 := {| vbuf := upd (vbuf v) i (idx + i); vsize := vsize v |}).
    assert (Hw1 : vwf v1). { unfold vwf, v1. cbn. rewrite upd_length; unfold vwf in Hw; lia. }
    destruct (IH (S i) v1 Hw1 Hs ltac:(lia)) as [v' [E [Hw' [Hs' Hn]]]].
    exists v'. repeat split; try assumption. intros q. rewrite Hn.
    unfold vlive, v1. cbn [vsize vbuf]. rewrite !nth_error_firstn.
    rewrite nth_error_upd by (unfold vwf in Hw; lia).
    destruct (Nat.leb_spec (S i) q), (Nat.ltb_spec q (S i + n)), (Nat.leb_spec i q),
      (Nat.ltb_spec q (i + S n)), (Nat.eqb_spec q i), (Nat.ltb_spec q (vsize v)); cbn; try lia;
      try reflexivity; try (subst; reflexivity).
Qed.

Lemma fast_closed p d kk n :
  match fast_sel p (norm_t d) kk with
  | Ok (sel, sh) => exists it, fastSelectionFunctionIdx p d (CorrelationIterator kk n) = (it, Ok tt) /\
                     selected it kk n sel sh
  | r => same_failure r (snd (fastSelectionFunctionIdx p d (CorrelationIterator kk n)))
  end.
Proof.
  unfold fast_sel, fastSelectionFunctionIdx.
  destruct (lback (norm_t d)) as [back|e|u|]; cbn [bind mlift mbind snd same_failure]; try exact eq_refl; try exact I.
  set (v := fast_shift (norm_t d) back kk vempty).
  destruct (fast_shift_live (norm_t d) back kk vempty vwf_empty) as [Hw [Hl Hs]].
  fold v in Hw, Hl, Hs. cbn [vlive vempty vbuf vsize firstn app Nat.add] in Hl, Hs.
  set (S := shifted (fun s => nle back s) (norm_t d) kk) in *.
  cbn [k shifted_timeseries CorrelationIterator]. fold v.
  set (it1 := set_shifted (CorrelationIterator kk n) v).
  change (vsize (shifted_timeseries it1)) with (vsize v). rewrite Hs.
  change (shifted_timeseries it1) with v.
  destruct S as [|s S'] eqn:ES.
  - cbn [length Nat.eqb mbind]. eexists. split; [reflexivity|].
    repeat split; cbn; try reflexivity; try apply vwf_empty. exists v. auto.
  - rewrite <- ES in *. replace (length S =? 0) with false by (rewrite ES; reflexivity).
    unfold mlift. rewrite (vget_live p v 0 s Hw) by (rewrite Hl, ES; reflexivity). cbn [mbind].
    destruct (lower_bound (norm_t d) s) as [idx|e|u|]; cbn [bind mbind snd same_failure]; try exact eq_refl; try exact I.
    destruct (lat (norm_t d) (idx + 1)) as [b|e|u|]; cbn [bind mbind snd same_failure]; try exact eq_refl; try exact I.
    destruct (cabs p (nsub s b)) as [db|e|u|]; cbn [bind mbind snd same_failure]; try exact eq_refl; try exact I.
    destruct (lat (norm_t d) idx) as [a|e|u|]; cbn [bind mbind snd same_failure]; try exact eq_refl; try exact I.
    destruct (cabs p (nsub s a)) as [da|e|u|]; cbn [bind mbind snd same_failure]; try exact eq_refl; try exact I.
    set (idx' := if nlt db da then idx + 1 else idx).
    set (m := length S).
    cbn [selection_indices set_selection it1 set_shifted CorrelationIterator].
    assert (Hres : vresize 0 (@vempty nat) m = {| vbuf := repeat 0 m; vsize := m |}).
    { unfold vresize. cbn [vsize vempty vbuf firstn app]. assert (0 < m) by (unfold m; rewrite ES; cbn; lia).
      destruct (Nat.leb_spec m 0); [lia|]. rewrite Nat.sub_0_r, skipn_nil, app_nil_r. reflexivity. }
    rewrite Hres.
    destruct (fast_fill_closed idx' m (m - idx') 0 {| vbuf := repeat 0 m; vsize := m |}) as [v' [E [Hw' [Hs' Hn]]]].
    { unfold vwf. cbn. rewrite repeat_length. lia. }
    { reflexivity. }
    { lia. }
    rewrite E. cbn [mbind]. eexists. split; [reflexivity|].
    repeat split; cbn; try assumption; try reflexivity.
    + apply list_ext. intros q. rewrite Hn. unfold fast_list. rewrite nth_error_map, nth_error_seq.
      unfold vlive. cbn [vsize vbuf]. rewrite nth_error_firstn, nth_error_repeat_.
      change (0 <=? q) with true. cbn [andb Nat.add].
      destruct (Nat.ltb_spec q (m - idx')), (Nat.ltb_spec q m); cbn [option_map]; try lia; try reflexivity.
      * destruct (Nat.ltb_spec q (m - idx')); [reflexivity|lia].
      * destruct (Nat.ltb_spec q (m - idx')); [lia|reflexivity].
    + exists v. auto.
Qed.

(** ** Offsets *)
(** offset of one selected point; reading the cleared vector stops a checked
    build *)
Definition delta_of (p : platform) (nt : list num) (xs : nat * num) : res num :=
  do a <- lat nt (fst xs);
  do s <- (if p_checked p then UB StaleRead else Ok (snd xs));
  cabs p (nsub a s).

Definition deltas (p : platform) (nt : list num) (sel : list nat) (S : list num) : res (list num) :=
  mapM (delta_of p nt) (combine sel S).

Lemma combine_cons_skipn {X Y} (a : X) l (S : list Y) i s :
  nth_error S i = Some s -> combine (a :: l) (skipn i S) = (a, s) :: combine l (skipn (Datatypes.S i) S).
Proof.
  intros H. assert (Hsk : skipn i S = s :: skipn (Datatypes.S i) S).
  { apply list_ext. intros m. rewrite nth_error_skipn. destruct m as [|m].
    - rewrite Nat.add_0_r. exact H.
    - cbn [nth_error]. rewrite nth_error_skipn. f_equal. lia. }
  rewrite Hsk. reflexivity.
Qed.

Lemma deltaT_loop_closed p nt v sel i it :
  vwf v -> shifted_timeseries it = vclear v -> i + length sel = length (vlive v) ->
  match deltas p nt sel (skipn i (vlive v)) with
  | Ok dts => deltaT_loop p nt sel i it = (set_delta it (pushes dts (delta_t it)), Ok tt)
  | r => same_failure r (snd (deltaT_loop p nt sel i it))
  end.
Proof.
  intros Hw. revert i it. induction sel as [|x sel IH]; intros i it Hv Hi; unfold deltas.
  - cbn. destruct it; reflexivity.
  - cbn [length] in Hi. destruct (nth_error_Some_ex (vlive v) i ltac:(lia)) as [s Hs].
    rewrite (combine_cons_skipn x sel (vlive v) i s Hs). cbn [mapM deltaT_loop].
    unfold delta_of at 1. cbn [fst snd]. unfold mlift.
    destruct (lat nt x) as [a|e|u|]; cbn [bind mbind snd same_failure]; try exact eq_refl; try exact I.
    rewrite Hv. destruct (p_checked p) eqn:Hp.
    + rewrite (vget_cleared_checked p v i Hp). cbn. reflexivity.
    + rewrite (vget_cleared p v i s Hp Hs). cbn [bind mbind].
      destruct (cabs p (nsub a s)) as [dt|e|u|]; cbn [bind mbind snd same_failure]; try exact eq_refl; try exact I.
      specialize (IH (Datatypes.S i) (set_delta it (vpush (delta_t it) dt)) Hv ltac:(lia)).
      unfold deltas in IH.
      destruct (mapM (delta_of p nt) (combine sel (skipn (Datatypes.S i) (vlive v)))) as [dts|e|u|];
        cbn [bind]; exact IH.
Qed.

(** state after deltaT *)
Definition offset (it : cor_it) (kk : num) (n : nat) (sel : list nat) (dts : list num) : Prop :=
  k it = kk /\ correlation it = repeat nzero n /\
  vwf (selection_indices it) /\ vlive (selection_indices it) = sel /\
  vwf (delta_t it) /\ vlive (delta_t it) = dts /\ weights it = vempty.

Lemma deltaT_closed p d it kk n sel S :
  selected it kk n sel S -> length sel = length S ->
  match deltas p (norm_t d) sel S with
  | Ok dts => exists it', deltaT p d it = (it', Ok tt) /\ offset it' kk n sel dts
  | r => same_failure r (snd (deltaT p d it))
  end.
Proof.
  intros [Hk [Hc [Hsw [Hsl [[v [Hvw [Hvl Hv]]] [Hd Hwt]]]]]] Hlen.
  unfold deltaT. rewrite Hsl.
  pose proof (deltaT_loop_closed p (norm_t d) v sel 0 it Hvw Hv ltac:(rewrite Hvl; cbn; lia)) as HL.
  rewrite skipn_O, Hvl in HL.
  destruct (deltas p (norm_t d) sel S) as [dts|e|u|].
  - rewrite HL. cbn [mbind]. eexists. split; [reflexivity|].
    destruct (pushes_live dts vempty vwf_empty) as [P1 [P2 P3]].
    rewrite Hd. repeat split; cbn; assumption.
  - destruct (deltaT_loop p (norm_t d) sel 0 it) as [it' r]. cbn [snd] in HL. destruct r; cbn in *; try contradiction; assumption.
  - destruct (deltaT_loop p (norm_t d) sel 0 it) as [it' r]. cbn [snd] in HL. destruct r; cbn in *; try contradiction; assumption.
  - destruct (deltaT_loop p (norm_t d) sel 0 it) as [it' r]. cbn [snd] in HL. destruct r; cbn in *; try contradiction; assumption.
Qed.

(** ** Weights and sum *)
Definition weighted (it : cor_it) (kk : num) (n : nat) (sel : list nat) (ws : list num) : Prop :=
  k it = kk /\ correlation it = repeat nzero n /\
  vwf (selection_indices it) /\ vlive (selection_indices it) = sel /\
  vwf (weights it) /\ vlive (weights it) = ws.

Lemma getWeights_closed w it kk n sel dts :
  offset it kk n sel dts -> weighted (getWeights w it) kk n sel (map w dts).
Proof.
  intros [Hk [Hc [Hsw [Hsl [Hdw [Hdl Hwt]]]]]]. unfold getWeights.
  rewrite Hdl, Hwt. destruct (vpush_fold_live w dts vempty vwf_empty) as [H1 [H2 H3]].
  repeat split; cbn; assumption.
Qed.

(** the weighted sum of products of a row [xs] with its selected partners *)
Fixpoint pair_sum (xs : list num) (i : nat) (sel : list nat) (ws : list num) (acc : num) : num :=
  match sel, ws with
  | s :: sel', w :: ws' =>
      pair_sum xs (S i) sel' ws' (nadd acc (nmul (nmul w (nth i xs nzero)) (nth s xs nzero)))
  | _, _ => acc
  end.

Lemma findCorrelation_sum_closed p d v j ws i acc M :
  vwf v -> i + length ws = length (vlive v) ->
  M_datapoints d = M -> (j + 1) * M <= length (norm_data d) -> length (vlive v) <= M ->
  (forall s, In s (vlive v) -> s < M) ->
  findCorrelation_sum p d v j ws i acc =
  (pair_sum (piece M (norm_data d) j) i (skipn i (vlive v)) ws acc, Ok tt).
Proof.
  intros Hw. revert i acc. induction ws as [|w ws IH]; intros i acc Hi HM Hd Hl Hs.
  - cbn. destruct (skipn i (vlive v)); reflexivity.
  - cbn [length] in Hi. destruct (nth_error_Some_ex (vlive v) i ltac:(lia)) as [s Es].
    assert (Hsk : skipn i (vlive v) = s :: skipn (S i) (vlive v)).
    { apply list_ext. intros m. rewrite nth_error_skipn. destruct m as [|m].
      - rewrite Nat.add_0_r. exact Es.
      - cbn [nth_error]. rewrite nth_error_skipn. f_equal. lia. }
    rewrite Hsk. cbn [findCorrelation_sum pair_sum]. unfold mlift, getVectorIndex. rewrite HM.
    assert (HsM : s < M) by (apply Hs; eapply nth_error_In; exact Es).
    assert (Hn : forall q, q < M -> lat (norm_data d) (q + j * M) = Ok (nth q (piece M (norm_data d) j) nzero)).
    { intros q Hq. rewrite (lat_ok _ _ nzero) by nia. f_equal.
      assert (E : nth_error (piece M (norm_data d) j) q = nth_error (norm_data d) (q + j * M)).
      { rewrite nth_error_piece. destruct (Nat.ltb_spec q M); [|lia]. f_equal. lia. }
      rewrite (nth_error_nth_eq (norm_data d) _ nzero) in E by nia.
      symmetry. apply nth_error_nth. exact E. }
    rewrite (Hn i) by lia. cbn [mbind].
    rewrite (vget_live p v i s Hw Es). cbn [mbind]. rewrite (Hn s HsM). cbn [mbind].
    rewrite IH; try assumption; try lia. reflexivity.
Qed.

Lemma nth_error_upd_same {X} (l : list X) i a b : i < length l -> upd (upd l i a) i b = upd l i b.
Proof.
  intros H. apply list_ext. intros n. rewrite !nth_error_upd by (try rewrite upd_length; assumption).
  destruct (n =? i); reflexivity.
Qed.

(** correlation of one dataset *)
Definition corr_value (xs : list num) (sel : list nat) (ws : list num) (Nj : num) : num :=
  nmul (pair_sum xs 0 sel ws nzero) (ndiv none_ Nj).

Definition wf_ds (d : dstruct) : Prop :=
  0 < M_datapoints d /\ length (norm_t d) = M_datapoints d /\
  N_datasets d * M_datapoints d <= length (norm_data d).

Lemma findCorrelation_loop_closed p c n j it kk sel ws :
  wf_ds (ds c) -> length (Nvec c) = N_datasets (ds c) -> j + n = N_datasets (ds c) ->
  k it = kk -> vwf (selection_indices it) -> vlive (selection_indices it) = sel ->
  vlive (weights it) = ws -> length ws = length sel -> length sel <= M_datapoints (ds c) ->
  (forall s, In s sel -> s < M_datapoints (ds c)) ->
  let f := fun j => corr_value (piece (M_datapoints (ds c)) (norm_data (ds c)) j) sel ws
                      (nth j (Nvec c) nzero) in
  correlation it = map f (seq 0 j) ++ repeat nzero n ->
  exists it', findCorrelation_loop p c n j it = (it', Ok tt) /\ k it' = kk /\
    correlation it' = map f (seq 0 (N_datasets (ds c))).
Proof.
  intros [HM [Hnt Hnd]] HN. revert j it. induction n as [|n IH]; intros j it Hj Hk Hsw Hsl Hwl Hlen HselM Hsel f Hc.
  - exists it. cbn. repeat split; auto. rewrite Hc. cbn. rewrite app_nil_r. f_equal. f_equal. lia.
  - cbn [findCorrelation_loop].
    assert (Hlc : length (correlation it) = N_datasets (ds c)).
    { rewrite Hc, app_length, map_length, seq_length, repeat_length. exact Hj. }
    assert (Hget : lget (correlation it) j = Ok nzero).
    { unfold lget. rewrite Hc. rewrite nth_error_app2 by (rewrite map_length, seq_length; lia).
      rewrite map_length, seq_length, Nat.sub_diag. reflexivity. }
    unfold mlift at 1. rewrite Hget. cbn [mbind].
    rewrite (findCorrelation_sum_closed p (ds c) (selection_indices it) j (vlive (weights it)) 0 nzero
               (M_datapoints (ds c))); try assumption; try reflexivity;
      try (rewrite Hsl; assumption); try (rewrite Hwl, Hsl; cbn; lia).
    2:{ nia. }
    rewrite skipn_O, Hsl, Hwl. cbn [fst snd].
    rewrite lset_ok by lia. unfold mlift. cbn [mbind].
    rewrite (lget_ok (Nvec c) j nzero) by lia. cbn [mbind].
    rewrite lset_ok by (rewrite upd_length; lia). cbn [mbind].
    rewrite nth_error_upd_same by lia.
    apply (IH (S j) (set_correlation it (upd (correlation it) j _))); try assumption; try lia.
    cbn [correlation set_correlation]. rewrite Hc. unfold upd.
    rewrite firstn_app, map_length, seq_length, Nat.sub_diag. cbn [firstn]. rewrite app_nil_r.
    rewrite firstn_all2 by (rewrite map_length, seq_length; lia).
    rewrite skipn_app, skipn_all2 by (rewrite map_length, seq_length; lia). cbn [app].
    rewrite map_length, seq_length. replace (S j - j) with 1 by lia. cbn [repeat skipn].
    rewrite seq_S, map_app, <- app_assoc. reflexivity.
Qed.

(** ** One lag *)
Definition sel_fun := platform -> list num -> num -> res (list nat * list num).

(** the correlations of all datasets at lag [kk] *)
Definition lag_values (sf : sel_fun) (w : num -> num) (p : platform) (c : correlator) (kk : num)
  : res (list num) :=
  do sS <- sf p (norm_t (ds c)) kk;
  do dts <- deltas p (norm_t (ds c)) (fst sS) (snd sS);
  Ok (map (fun j => corr_value (piece (M_datapoints (ds c)) (norm_data (ds c)) j) (fst sS) (map w dts)
                      (nth j (Nvec c) nzero))
          (seq 0 (N_datasets (ds c)))).

(** a record standing for the iterator when its data are stored *)
Definition store (c : correlator) (kk : num) (cs : list num) (i : nat) : meth correlator unit :=
  addCorrelationData c
    {| k := kk; correlation := cs; shifted_timeseries := vempty; selection_indices := vempty;
       delta_t := vempty; weights := vempty |} i.

Definition store_res (c : correlator) (kk : num) (r : res (list num)) (i : nat) : meth correlator unit :=
  match r with
  | Ok cs => store c kk cs i
  | Throw e => (c, Throw e)
  | UB u => (c, UB u)
  | Diverge => (c, Diverge)
  end.

(** what the two selection functions guarantee *)
Lemma natural_index_range p nt s idx : 0 < length nt -> natural_index p nt s = Ok idx -> idx < length nt.
Proof.
  intros H0 H. unfold natural_index in H. apply bind_Ok in H. destruct H as [i [Hi H]].
  destruct (Nat.eqb_spec i 0) as [->|Hn]; [injection H as <-; exact H0|].
  apply bind_Ok in H. destruct H as [a [Ha H]]. apply bind_Ok in H. destruct H as [da [Hda H]].
  apply bind_Ok in H. destruct H as [b [Hb H]]. apply bind_Ok in H. destruct H as [db [Hdb H]].
  injection H as <-. unfold lat in Hb. destruct (nth_error nt i) eqn:E; [|discriminate].
  assert (i < length nt) by (apply nth_error_Some; congruence).
  destruct (nlt da db); lia.
Qed.

Definition sel_ok (sf : sel_fun) : Prop :=
  forall p nt kk sel S, 0 < length nt -> sf p nt kk = Ok (sel, S) ->
    length sel = length S /\ length sel <= length nt /\ forall s, In s sel -> s < length nt.

Lemma natural_sel_ok : sel_ok natural_sel.
Proof.
  intros p nt kk sel S H0 H. unfold natural_sel in H. apply bind_Ok in H. destruct H as [back [Hb H]].
  apply bind_Ok in H. destruct H as [sel' [Hs H]]. injection H as <- <-.
  destruct (mapM_Ok_inv _ _ _ Hs) as [Hl Hn]. split; [exact Hl|].
  split; [rewrite Hl; apply shifted_length_le|].
  intros s Hin. apply In_nth_error in Hin. destruct Hin as [i Hi].
  assert (i < length (shifted (fun s => nlt back s) nt kk)).
  { rewrite <- Hl. apply nth_error_Some. congruence. }
  destruct (nth_error_Some_ex _ _ H) as [a Ha]. destruct (Hn _ _ Ha) as [b [Hb1 Hb2]].
  rewrite Hi in Hb1. injection Hb1 as <-. eapply natural_index_range; eassumption.
Qed.

Lemma fast_list_In idx n x : In x (fast_list idx n) -> x < n.
Proof.
  unfold fast_list. rewrite in_map_iff. intros [i [<- Hi]]. apply in_seq in Hi.
  destruct (Nat.ltb_spec i (n - idx)); lia.
Qed.

Lemma fast_sel_ok : sel_ok fast_sel.
Proof.
  intros p nt kk sel S H0 H. unfold fast_sel in H. apply bind_Ok in H. destruct H as [back [Hb H]].
  pose proof (shifted_length_le (fun s => nle back s) nt kk) as HS.
  destruct (shifted (fun s => nle back s) nt kk) as [|s S'].
  - injection H as <- <-. cbn. repeat split; try lia; intros s [].
  - apply bind_Ok in H. destruct H as [idx [Hidx H]].
    apply bind_Ok in H. destruct H as [b [Hb1 H]].
    apply bind_Ok in H. destruct H as [db [Hdb H]].
    apply bind_Ok in H. destruct H as [a [Ha H]].
    apply bind_Ok in H. destruct H as [da [Hda H]].
    injection H as <- <-.
    assert (Hfl : forall i n, length (fast_list i n) = n).
    { intros. unfold fast_list. rewrite map_length, seq_length. reflexivity. }
    rewrite Hfl. split; [reflexivity|]. split; [exact HS|].
    intros x Hx. apply fast_list_In in Hx. cbn [length] in HS. lia.
Qed.

Section OneLag.
Variables (p : platform) (c : correlator).
Hypothesis Hds : wf_ds (ds c).
Hypothesis HN : length (Nvec c) = N_datasets (ds c).

Lemma one_lag_closed (sf : sel_fun) (m : meth cor_it unit) (w : num -> num) kk i :
  sel_ok sf ->
  match sf p (norm_t (ds c)) kk with
  | Ok (sel, sh) => exists it, m = (it, Ok tt) /\ selected it kk (N_datasets (ds c)) sel sh
  | r => same_failure r (snd m)
  end ->
  on_it c m (fun it1 => on_it c (deltaT p (ds c) it1) (fun it2 =>
    on_it c (findCorrelation p c (getWeights w it2)) (fun it4 => addCorrelationData c it4 i))) =
  store_res c kk (lag_values sf w p c kk) i.
Proof.
  intros Hok Hm. unfold lag_values.
  pose proof (Hok p (norm_t (ds c)) kk) as Hok'.
  destruct (sf p (norm_t (ds c)) kk) as [[sel sh]|e|u|].
  2:{ cbn. destruct m as [it r]. cbn in Hm. destruct r; cbn in *; try contradiction; subst; reflexivity. }
  2:{ cbn. destruct m as [it r]. cbn in Hm. destruct r; cbn in *; try contradiction; subst; reflexivity. }
  2:{ cbn. destruct m as [it r]. cbn in Hm. destruct r; cbn in *; try contradiction; reflexivity. }
  destruct Hm as [it [-> Hit]]. cbn [on_it bind fst snd].
  destruct Hds as [HM [Hnt Hnd]].
  destruct (Hok' sel sh ltac:(lia) eq_refl) as [Hl1 [Hl2 Hl3]].
  pose proof (deltaT_closed p (ds c) it kk _ sel sh Hit Hl1) as HD.
  destruct (deltas p (norm_t (ds c)) sel sh) as [dts|e|u|] eqn:ED.
  2:{ destruct (deltaT p (ds c) it) as [it' r]. cbn in HD. destruct r; cbn in *; try contradiction; subst; reflexivity. }
  2:{ destruct (deltaT p (ds c) it) as [it' r]. cbn in HD. destruct r; cbn in *; try contradiction; subst; reflexivity. }
  2:{ destruct (deltaT p (ds c) it) as [it' r]. cbn in HD. destruct r; cbn in *; try contradiction; reflexivity. }
  destruct HD as [it2 [-> H2]]. cbn [on_it bind store_res].
  apply (getWeights_closed w) in H2. destruct H2 as [Hk [Hc [Hsw [Hsl [Hww Hwl]]]]].
  assert (Hdl : length dts = length sel).
  { unfold deltas in ED. apply mapM_Ok_inv in ED. destruct ED as [ED _]. rewrite ED.
    rewrite combine_length. lia. }
  unfold findCorrelation.
  destruct (findCorrelation_loop_closed p c (N_datasets (ds c)) 0 (getWeights w it2) kk sel (map w dts))
    as [it4 [E [Hk4 Hc4]]]; try assumption; try reflexivity; try lia.
  { rewrite map_length. exact Hdl. }
  { intros s Hs. rewrite <- Hnt. apply Hl3. exact Hs. }
  rewrite E. cbn [on_it]. unfold store, addCorrelationData. cbn [k correlation].
  rewrite Hk4, Hc4. reflexivity.
Qed.

Lemma calculate_at_closed kk i :
  calculateStandardCorrelation_at p c kk i =
  store_res c kk (lag_values natural_sel (fractionWeightFunction (alpha c)) p c kk) i.
Proof.
  unfold calculateStandardCorrelation_at, getFractionWeights.
  apply (one_lag_closed natural_sel); [exact natural_sel_ok|]. apply natural_closed.
Qed.

(** the selection and weight functions by name *)
Definition sel_named (name : string) : option sel_fun :=
  if String.eqb name "fast"%string then Some fast_sel
  else if String.eqb name "natural"%string then Some natural_sel else None.
Definition weight_named (name : string) (al : num) : option (num -> num) :=
  if String.eqb name "gaussian"%string then Some (gaussianWeightFunction al)
  else if String.eqb name "fractional"%string then Some (fractionWeightFunction al)
  else if String.eqb name "fractional_squared"%string then Some (fractionSquaredWeightFunction al)
  else None.

Definition named_values (sel wgt : string) (kk : num) : res (list num) :=
  match sel_named sel with
  | None => Throw PyKeyError
  | Some sf =>
      match weight_named wgt (alpha c) with
      | None => do sS <- sf p (norm_t (ds c)) kk;
                do dts <- deltas p (norm_t (ds c)) (fst sS) (snd sS);
                Throw PyKeyError
      | Some w => lag_values sf w p c kk
      end
  end.

Lemma on_it_fail (sf : sel_fun) (m : meth cor_it unit) kk :
  sel_ok sf ->
  match sf p (norm_t (ds c)) kk with
  | Ok (sel, sh) => exists it, m = (it, Ok tt) /\ selected it kk (N_datasets (ds c)) sel sh
  | r => same_failure r (snd m)
  end ->
  on_it c m (fun it1 => on_it c (deltaT p (ds c) it1) (fun it2 => (c, Throw PyKeyError) : meth correlator unit)) =
  store_res c kk (do sS <- sf p (norm_t (ds c)) kk;
                  do dts <- deltas p (norm_t (ds c)) (fst sS) (snd sS); Throw PyKeyError) 0.
Proof.
  intros Hok Hm. pose proof (Hok p (norm_t (ds c)) kk) as Hok'.
  destruct (sf p (norm_t (ds c)) kk) as [[sel sh]|e|u|].
  2:{ cbn. destruct m as [it r]. cbn in Hm. destruct r; cbn in *; try contradiction; subst; reflexivity. }
  2:{ cbn. destruct m as [it r]. cbn in Hm. destruct r; cbn in *; try contradiction; subst; reflexivity. }
  2:{ cbn. destruct m as [it r]. cbn in Hm. destruct r; cbn in *; try contradiction; reflexivity. }
  destruct Hm as [it [-> Hit]]. cbn [on_it bind fst snd].
  destruct Hds as [HM [Hnt Hnd]].
  destruct (Hok' sel sh ltac:(lia) eq_refl) as [Hl1 [Hl2 Hl3]].
  pose proof (deltaT_closed p (ds c) it kk _ sel sh Hit Hl1) as HD.
  destruct (deltas p (norm_t (ds c)) sel sh) as [dts|e|u|] eqn:ED.
  - destruct HD as [it2 [-> H2]]. reflexivity.
  - destruct (deltaT p (ds c) it) as [it' r]. cbn in HD. destruct r; cbn in *; try contradiction; subst; reflexivity.
  - destruct (deltaT p (ds c) it) as [it' r]. cbn in HD. destruct r; cbn in *; try contradiction; subst; reflexivity.
  - destruct (deltaT p (ds c) it) as [it' r]. cbn in HD. destruct r; cbn in *; try contradiction; reflexivity.
Qed.

Lemma find_at_closed sel wgt kk i :
  find_correlation_at p sel wgt c kk i = store_res c kk (named_values sel wgt kk) i.
Proof.
  unfold find_correlation_at, named_values, SELECTION_FUNCTIONS, sel_named, WEIGHT_FUNCTIONS, weight_named.
  destruct (String.eqb sel "fast").
  - pose proof (fast_closed p (ds c) kk (N_datasets (ds c))) as HC.
    destruct (String.eqb wgt "gaussian"); [apply (one_lag_closed fast_sel); [exact fast_sel_ok|exact HC]|].
    destruct (String.eqb wgt "fractional"); [apply (one_lag_closed fast_sel); [exact fast_sel_ok|exact HC]|].
    destruct (String.eqb wgt "fractional_squared"); [apply (one_lag_closed fast_sel); [exact fast_sel_ok|exact HC]|].
    rewrite (on_it_fail fast_sel _ kk fast_sel_ok HC).
    destruct (fast_sel p (norm_t (ds c)) kk) as [x|e|u|]; cbn; try reflexivity.
    destruct (deltas p (norm_t (ds c)) (fst x) (snd x)); reflexivity.
  - destruct (String.eqb sel "natural"); [|reflexivity].
    pose proof (natural_closed p (ds c) kk (N_datasets (ds c))) as HC.
    destruct (String.eqb wgt "gaussian"); [apply (one_lag_closed natural_sel); [exact natural_sel_ok|exact HC]|].
    destruct (String.eqb wgt "fractional"); [apply (one_lag_closed natural_sel); [exact natural_sel_ok|exact HC]|].
    destruct (String.eqb wgt "fractional_squared"); [apply (one_lag_closed natural_sel); [exact natural_sel_ok|exact HC]|].
    rewrite (on_it_fail natural_sel _ kk natural_sel_ok HC).
    destruct (natural_sel p (norm_t (ds c)) kk) as [x|e|u|]; cbn; try reflexivity.
    destruct (deltas p (norm_t (ds c)) (fst x) (snd x)); reflexivity.
Qed.

End OneLag.

End CorrFacts.
