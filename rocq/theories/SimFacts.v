(** Two runs, possibly in different arithmetics, whose times are related. *)
From Coq Require Import String.
From Coq Require Import ZArith List Bool Arith Lia.
From Verif Require Import Num Mem MemFacts Spec DataStructure DSFacts Correlator Sacf Api CorrFacts LoopFacts MainFacts.
Import ListNotations.
Local Open Scope list_scope.

Lemma Forall2_nth_error {X Y} (R : X -> Y -> Prop) l l' i : Forall2 R l l' ->
  match nth_error l i, nth_error l' i with Some x, Some y => R x y | None, None => True | _, _ => False end.
Proof. intros H. revert i. induction H; intros [|i]; cbn; auto. apply IHForall2. Qed.

Lemma Forall2_len {X Y} (R : X -> Y -> Prop) l l' : Forall2 R l l' -> length l = length l'.
Proof. induction 1; cbn; auto. Qed.

Lemma bind_rel {X X' Y Y'} (R : X -> X' -> Prop) (Q : Y -> Y' -> Prop) r r' f f' :
  same_outcome R r r' -> (forall x x', R x x' -> same_outcome Q (f x) (f' x')) -> same_outcome Q (bind r f) (bind r' f').
Proof. destruct r, r'; cbn; intros H K; try contradiction; auto. Qed.

Lemma mapM_rel {X X' Y Y'} (R : X -> X' -> Prop) (Q : Y -> Y' -> Prop) f f' l l' :
  Forall2 R l l' -> (forall x x', R x x' -> same_outcome Q (f x) (f' x')) -> same_outcome (Forall2 Q) (mapM f l) (mapM f' l').
Proof.
  intros H K. induction H as [|x x' l l' Hx Hl IH]; cbn [mapM]; [constructor|].
  apply (bind_rel Q); [apply K; exact Hx|]. intros y y' Hy. apply (bind_rel (Forall2 Q)); [exact IH|].
  intros ys ys' Hys. cbn. constructor; assumption.
Qed.

Lemma lget_rel {X Y} (R : X -> Y -> Prop) l l' i : Forall2 R l l' -> same_outcome R (lget l i) (lget l' i).
Proof. intros H. apply (Forall2_nth_error R l l' i) in H. unfold lget. destruct (nth_error l i), (nth_error l' i); cbn; auto; contradiction. Qed.
Lemma lat_rel {X Y} (R : X -> Y -> Prop) l l' i : Forall2 R l l' -> same_outcome R (lat l i) (lat l' i).
Proof. intros H. apply (Forall2_nth_error R l l' i) in H. unfold lat. destruct (nth_error l i), (nth_error l' i); cbn; auto; contradiction. Qed.
Lemma lback_rel {X Y} (R : X -> Y -> Prop) l l' : Forall2 R l l' -> same_outcome R (lback l) (lback l').
Proof.
  intros H. unfold lback. pose proof (Forall2_len R l l' H) as E. destruct l, l'; try discriminate; [reflexivity|].
  rewrite E. apply lget_rel. exact H.
Qed.

Section Sim.
Context {A B : Num}.
(** [T0]: times and lags; [T1]: their sums; [T2]: differences of sums and times *)
Context (T0 T1 T2 : @num A -> @num B -> Prop).
Context (T_add : forall x x' y y', T0 x x' -> T0 y y' -> T1 (nadd x y) (nadd x' y'))
        (T_sub : forall x x' y y', T1 x x' -> T0 y y' -> T2 (nsub x y) (nsub x' y'))
        (T_sub_r : forall x x' y y', T0 x x' -> T1 y y' -> T2 (nsub x y) (nsub x' y'))
        (T_lt : forall x x' y y', T0 x x' -> T1 y y' -> nlt x y = nlt x' y')
        (T_le : forall x x' y y', T0 x x' -> T1 y y' -> nle x y = nle x' y')
        (T_lt2 : forall x x' y y', T2 x x' -> T2 y y' -> nlt x y = nlt x' y')
        (p p' : platform) (same_checked : p_checked p = p_checked p')
        (T_abs : forall x x', T2 x x' -> same_outcome T2 (cabs p x) (cabs p' x')).

Lemma lower_bound_loop_rel fuel l l' v v' first len : Forall2 T0 l l' -> T1 v v' ->
  lower_bound_loop fuel l v first len = lower_bound_loop fuel l' v' first len.
Proof.
  intros Hl Hv. revert first len. induction fuel as [|fuel IH]; intros first len; [reflexivity|]. cbn [lower_bound_loop].
  destruct (len =? 0); [reflexivity|]. pose proof (lget_rel T0 l l' (first + len / 2) Hl) as G.
  destruct (lget l (first + len / 2)), (lget l' (first + len / 2)); cbn in G; try contradiction; cbn [bind]; subst; try reflexivity.
  rewrite (T_lt _ _ _ _ G Hv). destruct (nlt a0 v'); apply IH.
Qed.

Lemma lower_bound_rel l l' v v' : Forall2 T0 l l' -> T1 v v' -> lower_bound l v = lower_bound l' v'.
Proof. intros Hl Hv. unfold lower_bound. rewrite (Forall2_len T0 l l' Hl). apply lower_bound_loop_rel; assumption. Qed.

Lemma natural_index_rel nt nt' s s' : Forall2 T0 nt nt' -> T1 s s' ->
  same_outcome eq (natural_index p nt s) (natural_index p' nt' s').
Proof.
  intros Hn Hs. unfold natural_index. rewrite (lower_bound_rel nt nt' s s' Hn Hs).
  destruct (lower_bound nt' s') as [idx|e|u|]; cbn [bind]; try reflexivity. destruct (idx =? 0); [reflexivity|].
  apply (bind_rel T0); [apply lat_rel; exact Hn|]. intros a a' Ha.
  apply (bind_rel T2); [apply T_abs; apply T_sub; assumption|]. intros da da' Hda.
  apply (bind_rel T0); [apply lat_rel; exact Hn|]. intros b b' Hb.
  apply (bind_rel T2); [apply T_abs; apply T_sub; assumption|]. intros db db' Hdb.
  cbn. rewrite (T_lt2 _ _ _ _ Hda Hdb). reflexivity.
Qed.

Lemma shifted_rel (g : @num A -> bool) (g' : @num B -> bool) nt nt' kk kk' :
  (forall x x', T1 x x' -> g x = g' x') -> Forall2 T0 nt nt' -> T0 kk kk' -> Forall2 T1 (shifted g nt kk) (shifted g' nt' kk').
Proof.
  intros Hg Hn Hk. induction Hn as [|x x' nt nt' Hx Hn IH]; cbn [shifted]; [constructor|].
  rewrite (Hg _ _ (T_add _ _ _ _ Hx Hk)). destruct (g' (nadd x' kk')); [constructor|]. constructor; [apply T_add; assumption|exact IH].
Qed.

Definition sel_rel (x : list nat * list (@num A)) (y : list nat * list (@num B)) : Prop := fst x = fst y /\ Forall2 T1 (snd x) (snd y).

Lemma Forall2_eq {X} (l l' : list X) : Forall2 eq l l' -> l = l'.
Proof. induction 1; congruence. Qed.

Lemma natural_sel_rel nt nt' kk kk' : Forall2 T0 nt nt' -> T0 kk kk' -> same_outcome sel_rel (natural_sel p nt kk) (natural_sel p' nt' kk').
Proof.
  intros Hn Hk. unfold natural_sel. apply (bind_rel T0); [apply lback_rel; exact Hn|]. intros b b' Hb. cbv zeta.
  assert (HS : Forall2 T1 (shifted (fun s => nlt b s) nt kk) (shifted (fun s => nlt b' s) nt' kk')).
  { apply shifted_rel; try assumption. intros x x' Hx. apply T_lt; assumption. }
  apply (bind_rel (Forall2 eq)); [apply (mapM_rel T1); [exact HS|intros x x' Hx; apply natural_index_rel; assumption]|].
  intros l l' Hl. cbn. split; [exact (Forall2_eq l l' Hl)|exact HS].
Qed.

Lemma fast_sel_rel nt nt' kk kk' : Forall2 T0 nt nt' -> T0 kk kk' -> same_outcome sel_rel (fast_sel p nt kk) (fast_sel p' nt' kk').
Proof.
  intros Hn Hk. unfold fast_sel. apply (bind_rel T0); [apply lback_rel; exact Hn|]. intros b b' Hb. cbv zeta.
  assert (HS : Forall2 T1 (shifted (fun s => nle b s) nt kk) (shifted (fun s => nle b' s) nt' kk')).
  { apply shifted_rel; try assumption. intros x x' Hx. apply T_le; assumption. }
  destruct HS as [|s s' S S' Hs HS]; [cbn; split; [reflexivity|constructor]|].
  rewrite (lower_bound_rel nt nt' s s' Hn Hs). destruct (lower_bound nt' s') as [idx|e|u|]; cbn [bind]; try reflexivity.
  apply (bind_rel T0); [apply lat_rel; exact Hn|]. intros y y' Hy.
  apply (bind_rel T2); [apply T_abs; apply T_sub; assumption|]. intros da da' Hda.
  apply (bind_rel T0); [apply lat_rel; exact Hn|]. intros z z' Hz.
  apply (bind_rel T2); [apply T_abs; apply T_sub; assumption|]. intros db db' Hdb.
  cbn. split; [|constructor; assumption]. cbn. rewrite (T_lt2 _ _ _ _ Hda Hdb), (Forall2_len T1 S S' HS). reflexivity.
Qed.

Lemma sel_named_rel sel nt nt' kk kk' : Forall2 T0 nt nt' -> T0 kk kk' ->
  match sel_named (A := A) sel, sel_named (A := B) sel with
  | Some f, Some f' => same_outcome sel_rel (f p nt kk) (f' p' nt' kk')
  | None, None => True
  | _, _ => False
  end.
Proof.
  intros Hn Hk. unfold sel_named. destruct (String.eqb sel "fast"); [apply fast_sel_rel; assumption|].
  destruct (String.eqb sel "natural"); [apply natural_sel_rel; assumption|exact I].
Qed.

Lemma deltas_rel nt nt' sel S S' : Forall2 T0 nt nt' -> Forall2 T1 S S' ->
  same_outcome (Forall2 T2) (deltas p nt sel S) (deltas p' nt' sel S').
Proof.
  intros Hn HS. unfold deltas. apply (mapM_rel (fun x y => fst x = fst y /\ T1 (snd x) (snd y))).
  - revert sel. induction HS as [|s s' S S' Hs HS IH]; intros [|i sel]; cbn; constructor; auto.
  - intros [i s] [i' s'] [Hi Hs]. cbn [fst snd] in *. subst i'. unfold delta_of. cbn [fst snd].
    apply (bind_rel T0); [apply lat_rel; exact Hn|]. intros a a' Ha. rewrite <- same_checked. destruct (p_checked p); cbn [bind]; [reflexivity|].
    apply T_abs. apply T_sub_r; assumption.
Qed.

(** what is computed at a lag: the same pairs, related offsets *)
Definition fun_rel (wgt : string) (al : @num A) (al' : @num B) (F : @row_fun A) (F' : @row_fun B) : Prop :=
  exists w w' sel dts dts', weight_named wgt al = Some w /\ weight_named wgt al' = Some w' /\ Forall2 T2 dts dts' /\
    F = (fun row => corr_value (centred row) sel (map w dts) (norm_of row)) /\
    F' = (fun row => corr_value (centred row) sel (map w' dts') (norm_of row)).

Lemma weight_named_both wgt (al : @num A) (al' : @num B) :
  match weight_named wgt al, weight_named wgt al' with Some _, Some _ => True | None, None => True | _, _ => False end.
Proof.
  unfold weight_named. destruct (String.eqb wgt "gaussian"); [exact I|]. destruct (String.eqb wgt "fractional"); [exact I|].
  destruct (String.eqb wgt "fractional_squared"); exact I.
Qed.

Lemma named_acf_rel sel wgt al al' ts ts' kk kk' : Forall2 T0 (rel_times ts) (rel_times ts') -> T0 kk kk' ->
  same_outcome (fun_rel wgt al al') (named_acf sel wgt al p ts kk) (named_acf sel wgt al' p' ts' kk').
Proof.
  intros Hn Hk. unfold named_acf. pose proof (sel_named_rel sel _ _ _ _ Hn Hk) as HS.
  destruct (sel_named (A := A) sel) as [f|], (sel_named (A := B) sel) as [f'|]; try contradiction; [|reflexivity].
  pose proof (weight_named_both wgt al al') as HW.
  destruct (weight_named wgt al) as [w|] eqn:E, (weight_named wgt al') as [w'|] eqn:E'; try contradiction; unfold acf_at.
  - apply (bind_rel sel_rel); [exact HS|]. intros [l S] [l' S'] [Hl HSS]. cbn [fst snd] in *. subst l'.
    apply (bind_rel (Forall2 T2)); [apply deltas_rel; assumption|]. intros dts dts' Hd. cbn. exists w, w', l, dts, dts'. auto.
  - apply (bind_rel sel_rel); [exact HS|]. intros [l S] [l' S'] [Hl HSS]. cbn [fst snd] in *. subst l'.
    apply (bind_rel (Forall2 T2)); [apply deltas_rel; assumption|]. intros dts dts' Hd. reflexivity.
Qed.

Lemma run_room_rel {X Y} (Q : X -> Y -> Prop) (f : @num A -> res X) (f' : @num B -> res Y) ks ks' n :
  Forall2 T0 ks ks' -> (forall x x', T0 x x' -> same_outcome Q (f x) (f' x')) ->
  same_outcome (Forall2 Q) (run_room f ks n) (run_room f' ks' n).
Proof.
  intros H K. revert n. induction H as [|x x' ks ks' Hx Hl IH]; intros n; cbn [run_room]; [constructor|].
  apply (bind_rel Q); [apply K; exact Hx|]. intros y y' Hy. destruct n as [|n]; [reflexivity|].
  apply (bind_rel (Forall2 Q)); [apply IH|]. intros ys ys' Hys. cbn. constructor; assumption.
Qed.

(** the loop over the lags; [L] relates lags before the test *)
Lemma lag_list_rel (L : @num A -> @num B -> Prop) maxl maxl' r r' : T0 nzero nzero ->
  (forall x x', L x x' -> nle x maxl = nle x' maxl' /\
     (nle x maxl = true -> neqb x nzero = neqb x' nzero /\ nlt nzero x = nlt nzero x' /\ T0 x x' /\ L (nadd x r) (nadd x' r'))) ->
  forall fuel kk kk' pos, L kk kk' ->
  Forall2 T0 (fst (lag_list fuel maxl r kk pos)) (fst (lag_list fuel maxl' r' kk' pos)) /\
  snd (lag_list fuel maxl r kk pos) = snd (lag_list fuel maxl' r' kk' pos).
Proof.
  intros H0 HL. induction fuel as [|fuel IH]; intros kk kk' pos Hk; cbn [lag_list]; [split; [constructor|reflexivity]|].
  destruct (HL kk kk' Hk) as [E1 K]. rewrite <- E1. destruct (nle kk maxl); [|split; [constructor|reflexivity]].
  destruct (K eq_refl) as [E2 [E3 [Ht Hn]]]. rewrite <- E2, <- E3. cbv zeta.
  destruct (nlt nzero kk && negb (if neqb kk nzero then true else pos)); cbn [fst snd].
  - destruct (IH _ _ true Hn) as [I1 I2]. split; [|exact I2]. constructor; [exact H0|]. constructor; assumption.
  - destruct (IH _ _ (if neqb kk nzero then true else pos) Hn) as [I1 I2]. split; [|exact I2]. constructor; assumption.
Qed.

Lemma acf_core_rel (L : @num A -> @num B -> Prop) ts ts' mi mi' ma ma' re re' al al' sel wgt :
  let nt := rel_times ts in let nt' := rel_times ts' in
  let maxl := opt_or ma (last nt nzero) in let maxl' := opt_or ma' (last nt' nzero) in
  let minl := opt_or mi (nneg (last nt nzero)) in let minl' := opt_or mi' (nneg (last nt' nzero)) in
  let r := opt_or re (findMinDiff nt) in let r' := opt_or re' (findMinDiff nt') in
  Forall2 T0 nt nt' -> allot nt = allot nt' -> T0 nzero nzero -> L minl minl' ->
  (forall x x', L x x' -> nle x maxl = nle x' maxl' /\
     (nle x maxl = true -> neqb x nzero = neqb x' nzero /\ nlt nzero x = nlt nzero x' /\ T0 x x' /\ L (nadd x r) (nadd x' r'))) ->
  same_outcome (fun x y => Forall2 T0 (fst x) (fst y) /\
      Forall2 (fun_rel wgt (opt_or al (middle nt nzero)) (opt_or al' (middle nt' nzero))) (snd x) (snd y))
    (acf_core p ts mi ma re al sel wgt) (acf_core p' ts' mi' ma' re' al' sel wgt).
Proof.
  intros nt nt' maxl maxl' minl minl' r r' Hn Ha H0 Hm HL. unfold acf_core. fold nt nt'. rewrite Ha.
  destruct (allot nt') as [n|e|u|]; cbn [bind]; try reflexivity. cbv zeta. fold maxl maxl' minl minl' r r'.
  destruct (lag_list_rel L maxl maxl' r r' H0 HL (S n) minl minl' false Hm) as [HLag _].
  set (l := fst (lag_list (S n) maxl r minl false)) in *. set (l' := fst (lag_list (S n) maxl' r' minl' false)) in *.
  assert (K : same_outcome (fun x y => Forall2 T0 (fst x) (fst y) /\
      Forall2 (fun_rel wgt (opt_or al (middle nt nzero)) (opt_or al' (middle nt' nzero))) (snd x) (snd y))
     (do Fs <- run_room (named_acf sel wgt (opt_or al (middle nt nzero)) p ts) l n; Ok (l, Fs))
     (do Fs <- run_room (named_acf sel wgt (opt_or al' (middle nt' nzero)) p' ts') l' n; Ok (l', Fs))).
  { apply (bind_rel (Forall2 (fun_rel wgt (opt_or al (middle nt nzero)) (opt_or al' (middle nt' nzero))))).
    - apply run_room_rel; [exact HLag|]. intros x x' Hx. apply named_acf_rel; assumption.
    - intros Fs Fs' HF. cbn. split; assumption. }
  destruct HLag as [|x x' l l' Hx HLag]; [destruct (String.eqb sel "natural" && String.eqb wgt "fractional"); [exact K|reflexivity]|exact K].
Qed.
End Sim.
