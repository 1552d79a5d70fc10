(** The lag grid: order, zero, length. *)
From Coq Require Import ZArith Reals List Bool Arith Lia.
From Verif Require Import Num Mem MemFacts XR B64 Laws Laws2 Spec Api LoopFacts.
Import ListNotations.

Section Grid.
Context {A : Num} {L : NumLaws A} {L2 : NumLaws2 A}.

Lemma steps_next a r n : steps a r (S n) = nadd (steps a r n) r.
Proof. reflexivity. Qed.

(** a grid that does not advance once never ends *)
Lemma steps_stuck a r b : nle (nadd a r) a = true -> nle a b = true ->
  forall i, nle (steps a r i) a = true /\ nle (steps a r (S i)) (steps a r i) = true.
Proof.
  intros H Hab. destruct (l_le_nan _ _ H) as [N1 N0].
  induction i as [|i [IH1 IH2]]; [split; [apply le_refl; exact N0|exact H]|].
  split; [exact (l_le_trans _ _ _ IH2 IH1)|].
  destruct (l_le_nan _ _ IH2) as [Ni1 _]. rewrite steps_next in *.
  apply l_add_mono; [exact IH2| |exact Ni1]. apply l_add_again. exact Ni1.
Qed.

Lemma steps_shift a r i j : steps (steps a r i) r j = steps a r (i + j).
Proof. induction j as [|j IH]; [rewrite Nat.add_0_r; reflexivity|]. rewrite Nat.add_succ_r, !steps_next, IH. reflexivity. Qed.

Lemma stops_progress a r b n i : stops_at a r b n -> S i < n -> nlt (steps a r i) (steps a r (S i)) = true.
Proof.
  intros [H1 H2] Hi. pose proof (H1 i ltac:(lia)) as Hi1. pose proof (H1 (S i) Hi) as Hi2.
  destruct (l_le_nan _ _ Hi1) as [N1 _]. destruct (l_le_nan _ _ Hi2) as [N2 _].
  destruct (nlt (steps a r i) (steps a r (S i))) eqn:E; [reflexivity|exfalso].
  apply nlt_le in E; [|assumption..].
  destruct (steps_stuck (steps a r i) r b E Hi1 (n - i)) as [K _].
  rewrite steps_shift in K. replace (i + (n - i)) with n in K by lia.
  rewrite (l_le_trans _ _ _ K Hi1) in H2. discriminate.
Qed.

Lemma adjacent_increasing (l : list num) :
  (forall x, In x l -> nisnan x = false) ->
  (forall i a b, nth_error l i = Some a -> nth_error l (S i) = Some b -> nlt a b = true) -> increasing l.
Proof.
  intros HN H.
  assert (H' : forall i j a b, i < j -> nth_error l i = Some a -> nth_error l j = Some b -> nlt a b = true).
  { intros i j a b Hij. revert b. induction Hij as [|j Hij IH]; intros b Ha Hb; [exact (H i a b Ha Hb)|].
    assert (Hj : j < length l). { apply Nat.lt_succ_l. apply nth_error_Some. congruence. }
    destruct (nth_error_Some_ex l j Hj) as [x Hx]. exact (lt_trans _ _ _ (IH x Ha Hx) (H j x b Hx Hb)). }
  split; [|exact H']. intros i j a b Hij Ha Hb. destruct (Nat.eq_dec i j) as [->|Hne].
  - rewrite Ha in Hb. injection Hb as <-. apply le_refl. apply HN. eapply nth_error_In. exact Ha.
  - apply lt_le. apply (H' i j); [lia|assumption..].
Qed.

Lemma nth_steps a r n i : nth_error (map (steps a r) (seq 0 n)) i = if i <? n then Some (steps a r i) else None.
Proof. rewrite nth_error_map, nth_error_seq. destruct (i <? n); reflexivity. Qed.

Lemma steps_increasing a r b n : stops_at a r b n -> increasing (map (steps a r) (seq 0 n)).
Proof.
  intros H. apply adjacent_increasing.
  - intros x Hx. apply in_map_iff in Hx. destruct Hx as [i [<- Hi]]. apply in_seq in Hi.
    apply (l_le_nan (steps a r i) b). apply H. lia.
  - intros i x y Hx Hy. rewrite nth_steps in Hx, Hy.
    destruct (i <? n); [|discriminate]. destruct (Nat.ltb_spec (S i) n) as [Hi|]; [|discriminate].
    injection Hx as <-. injection Hy as <-. apply (stops_progress a r b n); assumption.
Qed.

Lemma increasing_cons x l : nisnan x = false -> increasing l -> (forall y, In y l -> nlt x y = true) -> increasing (x :: l).
Proof.
  intros Hx [H1 H2] H.
  assert (HN : forall y, In y l -> nisnan y = false) by (intros y Hy; apply (lt_nan x y); apply H; exact Hy).
  split.
  - intros [|i] [|j] a b Hij Ha Hb; cbn in Ha, Hb.
    + injection Ha as <-. injection Hb as <-. apply le_refl. exact Hx.
    + injection Ha as <-. apply lt_le, H. eapply nth_error_In. exact Hb.
    + lia.
    + apply (H1 i j); [lia|assumption..].
  - intros [|i] [|j] a b Hij Ha Hb; cbn in Ha, Hb; try lia.
    + injection Ha as <-. apply H. eapply nth_error_In. exact Hb.
    + apply (H2 i j); [lia|assumption..].
Qed.

Lemma increasing_inv x l : increasing (x :: l) ->
  nisnan x = false /\ increasing l /\ (forall y, In y l -> nlt x y = true).
Proof.
  intros [H1 H2]. split; [|split; [split|]].
  - apply (l_le_nan x x). apply (H1 0 0); [lia|reflexivity..].
  - intros i j a b Hij Ha Hb. apply (H1 (S i) (S j)); [lia|assumption..].
  - intros i j a b Hij Ha Hb. apply (H2 (S i) (S j)); [lia|assumption..].
  - intros y Hy. apply In_nth_error in Hy. destruct Hy as [j Hj]. apply (H2 0 (S j)); [lia|reflexivity|exact Hj].
Qed.

(** entries of a list with zero added *)
Lemma with_zero_In l x : In x (with_zero l) -> In x l \/ x = nzero /\ exists y, In y l /\ nlt nzero y = true.
Proof.
  induction l as [|a l IH]; cbn; [intros []|]. destruct (neqb a nzero) eqn:E; [intros H; left; exact H|].
  destruct (nlt nzero a) eqn:E2; cbn.
  - intros [<-|H]; [right; split; [reflexivity|exists a; auto]|left; exact H].
  - intros [<-|H]; [left; auto|]. destruct (IH H) as [H1|[H1 [y [H2 H3]]]]; [auto|right; split; [exact H1|exists y; auto]].
Qed.

Lemma In_with_zero l x : In x l -> In x (with_zero l).
Proof.
  induction l as [|a l IH]; cbn; [intros []|]. destruct (neqb a nzero); [auto|]. destruct (nlt nzero a); cbn; [auto|].
  intros [<-|H]; auto.
Qed.

Lemma with_zero_increasing l : increasing l -> increasing (with_zero l).
Proof.
  induction l as [|a l IH]; intros H; [exact H|]. destruct (increasing_inv a l H) as [Na [Hl Ha]]. cbn [with_zero].
  destruct (neqb a nzero) eqn:E; [exact H|]. destruct (nlt nzero a) eqn:E2.
  - apply increasing_cons; [apply zero_nan|exact H|]. intros y [<-|Hy]; [exact E2|].
    exact (lt_trans _ _ _ E2 (Ha y Hy)).
  - apply increasing_cons; [exact Na|exact (IH Hl)|]. intros y Hy. destruct (with_zero_In l y Hy) as [K|[-> _]]; [exact (Ha y K)|].
    destruct (trichotomy a nzero Na zero_nan) as [K|[K|K]]; [exact K|congruence..].
Qed.

(** C12 *)
Lemma grid_increasing a r b g : lag_grid a r b g -> increasing g.
Proof. intros [n [H ->]]. apply with_zero_increasing. eapply steps_increasing. exact H. Qed.

Lemma steps_ge a r b n i : stops_at a r b n -> i < n -> nle a (steps a r i) = true.
Proof.
  intros H Hi. apply (proj1 (steps_increasing a r b n H) 0 i); [lia|rewrite nth_steps|rewrite nth_steps].
  - destruct (Nat.ltb_spec 0 n); [reflexivity|lia].
  - destruct (Nat.ltb_spec i n); [reflexivity|lia].
Qed.

Lemma grid_bounds a r b g x : lag_grid a r b g -> In x g ->
  nle x b = true /\ (nle a x = true \/ x = nzero /\ nlt nzero a = true).
Proof.
  intros [n [H ->]] Hx.
  assert (Hin : forall y, In y (map (steps a r) (seq 0 n)) -> nle y b = true /\ nle a y = true).
  { intros y Hy. apply in_map_iff in Hy. destruct Hy as [i [<- Hi]]. apply in_seq in Hi.
    split; [apply H; lia|apply (steps_ge a r b n); [exact H|lia]]. }
  destruct (with_zero_In _ _ Hx) as [K|[-> [y [Hy Hp]]]].
  - destruct (Hin x K) as [K1 K2]. auto.
  - destruct (Hin y Hy) as [K1 K2]. split; [exact (l_le_trans _ _ _ (lt_le _ _ Hp) K1)|].
    destruct (l_le_nan _ _ K2) as [Na _].
    destruct (nle a nzero) eqn:E; [auto|]. right. split; [reflexivity|].
    apply nle_lt; [exact Na|apply zero_nan|exact E].
Qed.

(** C13 *)
Definition hit (a r b : num) (i : nat) : Prop :=
  (forall j, j <= i -> nle (steps a r j) b = true) /\ nle nzero (steps a r i) = true.

Lemma with_zero_has l : (forall x, In x l -> nisnan x = false) ->
  (exists x, In x (with_zero l) /\ neqb x nzero = true) <-> (exists x, In x l /\ nle nzero x = true).
Proof.
  intros HN. induction l as [|a l IH]; [split; intros [x [[] _]]|]. cbn [with_zero].
  pose proof (HN a (or_introl eq_refl)) as Na.
  destruct (neqb a nzero) eqn:E.
  - split; intros _; exists a; (split; [left; reflexivity|]); [|exact E]. apply (eq_le _ _ E).
  - destruct (nlt nzero a) eqn:E2.
    + split; intros _; [exists a; split; [left; reflexivity|apply lt_le; exact E2]|].
      exists nzero. split; [left; reflexivity|apply eq_refl_num, zero_nan].
    + specialize (IH (fun x Hx => HN x (or_intror Hx))). split.
      * intros [x [[<-|Hx] H]]; [congruence|]. destruct IH as [IH _]. destruct IH as [y [Hy Hy2]]; [exists x; auto|].
        exists y. split; [right; exact Hy|exact Hy2].
      * intros [x [[<-|Hx] H]].
        -- destruct (trichotomy a nzero Na zero_nan) as [K|[K|K]]; [|congruence..].
           rewrite (lt_nle _ _ K) in H. discriminate.
        -- destruct IH as [_ IH]. destruct IH as [y [Hy Hy2]]; [exists x; auto|]. exists y. split; [right; exact Hy|exact Hy2].
Qed.

Lemma grid_zero a r b g : lag_grid a r b g ->
  ((exists x, In x g /\ neqb x nzero = true) <->
   (exists i, (forall j, j <= i -> nle (steps a r j) b = true) /\ nle nzero (steps a r i) = true)).
Proof.
  intros [n [H ->]]. rewrite with_zero_has.
  - split.
    + intros [x [Hx Hp]]. apply in_map_iff in Hx. destruct Hx as [i [<- Hi]]. apply in_seq in Hi.
      exists i. split; [|exact Hp]. intros j Hj. apply H. lia.
    + intros [i [H1 Hp]]. exists (steps a r i). split; [|exact Hp]. apply in_map_iff. exists i. split; [reflexivity|].
      apply in_seq. destruct (Nat.le_gt_cases n i) as [K|K]; [|lia]. exfalso.
      pose proof (H1 n K) as K1. destruct H as [_ H2]. congruence.
  - intros x Hx. apply in_map_iff in Hx. destruct Hx as [i [<- Hi]]. apply in_seq in Hi.
    apply (l_le_nan (steps a r i) b). apply H. lia.
Qed.

Lemma increasing_once g i j x y z : increasing g -> nth_error g i = Some x -> nth_error g j = Some y ->
  neqb x z = true -> neqb y z = true -> i = j.
Proof.
  intros [_ H] Hi Hj Hx Hy. destruct (eq_le _ _ Hx) as [X1 X2]. destruct (eq_le _ _ Hy) as [Y1 Y2].
  destruct (Nat.lt_trichotomy i j) as [K|[K|K]]; [|exact K|]; exfalso.
  - pose proof (lt_nle _ _ (H i j x y K Hi Hj)) as E. rewrite (l_le_trans _ _ _ Y1 X2) in E. discriminate.
  - pose proof (lt_nle _ _ (H j i y x K Hj Hi)) as E. rewrite (l_le_trans _ _ _ X1 Y2) in E. discriminate.
Qed.

(** a grid from below zero with small steps meets zero *)
Lemma grid_crosses a r b g : lag_grid a r b g -> nle a nzero = true -> nle nzero b = true -> nfin r = true -> nle r b = true ->
  exists i, (forall j, j <= i -> nle (steps a r j) b = true) /\ nle nzero (steps a r i) = true.
Proof.
  intros [n [[H1 H2] _]] Ha Hb Hf Hr. destruct n as [|n].
  - cbn in H2. rewrite (l_le_trans _ _ _ Ha Hb) in H2. discriminate.
  - exists n. split; [intros j Hj; apply H1; lia|].
    pose proof (H1 n ltac:(lia)) as Hn. destruct (l_le_nan _ _ Hn) as [Nn _].
    destruct (nle nzero (steps a r n)) eqn:E; [reflexivity|exfalso].
    apply nle_lt in E; [|apply zero_nan|exact Nn]. rewrite steps_next in H2.
    assert (Nf : nisnan (nadd (steps a r n) r) = false).
    { destruct (nfin (steps a r n)) eqn:F; [apply l_add_fin; assumption|].
      destruct (nisnan (nadd (steps a r n) r)) eqn:Ex; [exfalso|reflexivity].
      pose proof (l_add_fin_nan r (steps a r n) Hf Nn) as K. rewrite l_add_nan_comm in K. congruence. }
    assert (K : nle (nadd (steps a r n) r) (nadd nzero r) = true).
    { apply l_add_mono; [apply lt_le; exact E|exact Nf|]. apply l_add_fin; [apply l_fin_Z0|exact Hf]. }
    destruct (eq_le _ _ (l_add_0_l r (l_fin_nan _ Hf))) as [K1 _].
    rewrite (l_le_trans _ _ _ K (l_le_trans _ _ _ K1 Hr)) in H2. discriminate.
Qed.

End Grid.
