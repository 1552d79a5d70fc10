(** Sums over every ordering of a list of values. *)
From Coq Require Import String.
From Coq Require Import ZArith Reals List ListDec Bool Arith Lia Lra Permutation.
From Verif Require Import Num XR B64 SpecR ExactFacts GridSums SpecShuffle.
Import ListNotations.
Local Open Scope list_scope.
Local Open Scope R_scope.

Lemma words_In k n l : In l (words k n) <-> length l = n /\ forall x, In x l -> (x < k)%nat.
Proof.
  revert l. induction n as [|n IH]; intros l; cbn [words].
  - split.
    + intros [<-|[]]. split; [reflexivity|]. intros x [].
    + intros [H _]. destruct l; [left; reflexivity|discriminate].
  - rewrite in_flat_map. split.
    + intros [i [Hi Hl]]. apply in_map_iff in Hl. destruct Hl as [m [<- Hm]]. apply IH in Hm. destruct Hm as [H1 H2].
      split; [cbn; rewrite H1; reflexivity|]. intros x [<-|Hx]; [apply in_seq in Hi; lia|apply H2, Hx].
    + intros [H1 H2]. destruct l as [|i m]; [discriminate|]. exists i. split; [apply in_seq; specialize (H2 i (or_introl eq_refl)); lia|].
      apply in_map, IH. split; [cbn in H1; lia|]. intros x Hx. apply H2. right. exact Hx.
Qed.

Lemma NoDup_app' {X} (l m : list X) : NoDup l -> NoDup m -> (forall x, In x l -> ~ In x m) -> NoDup (l ++ m).
Proof.
  induction l as [|a l IH]; intros H1 H2 H3; [exact H2|]. inversion H1 as [|? ? G1 G2]; subst. cbn. constructor.
  - rewrite in_app_iff. intros [G|G]; [exact (G1 G)|exact (H3 a (or_introl eq_refl) G)].
  - apply IH; [exact G2|exact H2|]. intros x Hx. apply H3. right. exact Hx.
Qed.

Lemma NoDup_map_inj {X Y} (f : X -> Y) l : (forall x y, In x l -> In y l -> f x = f y -> x = y) -> NoDup l -> NoDup (map f l).
Proof.
  induction l as [|a l IH]; intros H N; [constructor|]. inversion N as [|? ? G1 G2]; subst. cbn. constructor.
  - intros G. apply in_map_iff in G. destruct G as [y [E Hy]]. apply G1. rewrite (H a y); [exact Hy|left; reflexivity|right; exact Hy|symmetry; exact E].
  - apply IH; [|exact G2]. intros x y Hx Hy. apply H; right; assumption.
Qed.

Lemma words_NoDup k n : NoDup (words k n).
Proof.
  induction n as [|n IH]; cbn [words]; [constructor; [intros []|constructor]|].
  generalize (seq_NoDup k 0). generalize (seq 0 k). intros l. induction l as [|i l IHl]; intros N; [constructor|].
  inversion N as [|? ? G1 G2]; subst. cbn [flat_map]. apply NoDup_app'.
  - apply NoDup_map_inj; [|exact IH]. intros x y _ _ E. injection E as E. exact E.
  - apply IHl, G2.
  - intros x Hx Hy. apply in_map_iff in Hx. destruct Hx as [m [<- _]]. apply in_flat_map in Hy. destruct Hy as [i' [Hi Hm]].
    apply in_map_iff in Hm. destruct Hm as [m' [E _]]. injection E as -> _. exact (G1 Hi).
Qed.

Lemma distinct_NoDup l : distinct l = true <-> NoDup l.
Proof.
  induction l as [|x l IH]; cbn [distinct]; [split; [constructor|reflexivity]|].
  rewrite andb_true_iff, negb_true_iff, <- not_true_iff_false, existsb_exists, IH. split.
  - intros [H1 H2]. constructor; [|exact H2]. intros C. apply H1. exists x. split; [exact C|apply Nat.eqb_refl].
  - intros H. inversion H as [|? ? H1 H2]; subst. split; [|exact H2]. intros [y [Hy E]]. apply Nat.eqb_eq in E. subst y. exact (H1 Hy).
Qed.

Lemma orders_In n o : In o (orders n) <-> length o = n /\ (forall x, In x o -> (x < n)%nat) /\ NoDup o.
Proof.
  unfold orders. rewrite filter_In, words_In, distinct_NoDup. tauto.
Qed.

Lemma orders_NoDup n : NoDup (orders n).
Proof. apply NoDup_filter, words_NoDup. Qed.

Lemma orders_perm n o : In o (orders n) -> Permutation (seq 0 n) o.
Proof.
  intros H. apply orders_In in H. destruct H as [H1 [H2 H3]]. apply Permutation_sym. apply NoDup_Permutation_bis.
  - exact H3.
  - rewrite seq_length. lia.
  - intros x Hx. apply in_seq. specialize (H2 x Hx). lia.
Qed.

Lemma orders_seq n : In (seq 0 n) (orders n).
Proof. apply orders_In. split; [apply seq_length|]. split; [intros x Hx; apply in_seq in Hx; lia|apply seq_NoDup]. Qed.

Lemma orderings_perm rs xs : In xs (orderings rs) -> Permutation rs xs.
Proof.
  intros H. apply in_map_iff in H. destruct H as [o [<- Ho]]. apply orders_perm in Ho.
  apply (Permutation_map (fun i => nth i rs 0)) in Ho. rewrite <- Ho. clear Ho.
  replace (map (fun i => nth i rs 0) (seq 0 (length rs))) with rs; [reflexivity|].
  apply nth_ext with (d := 0) (d' := nth 0 rs 0); [rewrite map_length, seq_length; reflexivity|].
  intros i Hi. rewrite (map_nth (fun i => nth i rs 0)), seq_nth by exact Hi. reflexivity.
Qed.

Lemma perm_orderings rs xs : Permutation rs xs -> In xs (orderings rs).
Proof.
  intros H. apply (proj1 (Permutation_nth rs xs 0)) in H. destruct H as [L [f [F1 [F2 F3]]]]. unfold orderings. apply in_map_iff.
  exists (map f (seq 0 (length rs))). split.
  - rewrite map_map. apply nth_ext with (d := nth (f 0%nat) rs 0) (d' := 0); [rewrite map_length, seq_length; congruence|].
    intros i Hi. rewrite map_length, seq_length in Hi. rewrite (map_nth (fun x => nth (f x) rs 0)), seq_nth by exact Hi. symmetry. apply F3, Hi.
  - apply orders_In. rewrite map_length, seq_length. split; [reflexivity|]. split.
    + intros x Hx. apply in_map_iff in Hx. destruct Hx as [q [<- Hq]]. apply in_seq in Hq. apply F1. lia.
    + apply NoDup_map_inj; [|apply seq_NoDup]. intros x y Hx Hy. apply in_seq in Hx, Hy. apply F2; lia.
Qed.

Lemma rmean_perm rs xs : Permutation rs xs -> rmean xs = rmean rs.
Proof. intros H. unfold rmean. rewrite (rsum_perm _ _ H), (Permutation_length H). reflexivity. Qed.

Lemma sq_dev_perm rs xs : Permutation rs xs -> sq_dev xs = sq_dev rs.
Proof. intros H. unfold sq_dev. rewrite (rmean_perm _ _ H). symmetry. apply rsum_perm, Permutation_map, H. Qed.

Lemma sq_dev32_perm rs xs : Permutation rs xs -> sq_dev32 xs = sq_dev32 rs.
Proof. intros H. unfold sq_dev32. rewrite (rmean_perm _ _ H). symmetry. apply rsum_perm, Permutation_map, H. Qed.

(** exchanging two places *)
Definition tr (a b q : nat) : nat := if (q =? a)%nat then b else if (q =? b)%nat then a else q.

Lemma tr_tr a b q : tr a b (tr a b q) = q.
Proof.
  unfold tr. destruct (Nat.eqb_spec q a) as [->|H1].
  - destruct (Nat.eqb_spec b a) as [E|E]; [exact E|]. rewrite Nat.eqb_refl. reflexivity.
  - destruct (Nat.eqb_spec q b) as [->|H2]; [rewrite Nat.eqb_refl; reflexivity|].
    destruct (Nat.eqb_spec q a); [congruence|]. destruct (Nat.eqb_spec q b); congruence.
Qed.

Lemma tr_lt a b n q : (a < n)%nat -> (b < n)%nat -> (q < n)%nat -> (tr a b q < n)%nat.
Proof. unfold tr. intros. repeat (match goal with |- context [(?x =? ?y)%nat] => destruct (Nat.eqb_spec x y) end; try lia). Qed.

Definition exch (n a b : nat) (o : list nat) : list nat := map (fun q => nth (tr a b q) o 0%nat) (seq 0 n).

Lemma exch_nth n a b o q : (q < n)%nat -> nth q (exch n a b o) 0%nat = nth (tr a b q) o 0%nat.
Proof.
  intros H. unfold exch. rewrite (nth_indep _ 0%nat (nth (tr a b 0) o 0%nat)) by (rewrite map_length, seq_length; exact H).
  rewrite (map_nth (fun q => nth (tr a b q) o 0%nat)), seq_nth by exact H. reflexivity.
Qed.

Lemma exch_exch n a b o : (a < n)%nat -> (b < n)%nat -> length o = n -> exch n a b (exch n a b o) = o.
Proof.
  intros Ha Hb L. apply nth_ext with (d := 0%nat) (d' := 0%nat); [unfold exch; rewrite map_length, seq_length; congruence|].
  intros q Hq. unfold exch at 1 in Hq. rewrite map_length, seq_length in Hq. rewrite exch_nth by exact Hq.
  rewrite exch_nth by (apply tr_lt; assumption). rewrite tr_tr. reflexivity.
Qed.

Lemma exch_In n a b o : (a < n)%nat -> (b < n)%nat -> In o (orders n) -> In (exch n a b o) (orders n).
Proof.
  intros Ha Hb H. apply orders_In in H. destruct H as [H1 [H2 H3]]. apply orders_In.
  split; [unfold exch; rewrite map_length, seq_length; reflexivity|]. split.
  - intros x Hx. unfold exch in Hx. apply in_map_iff in Hx. destruct Hx as [q [<- Hq]]. apply in_seq in Hq.
    apply H2, nth_In. rewrite H1. apply tr_lt; [assumption..|lia].
  - unfold exch. apply NoDup_map_inj; [|apply seq_NoDup]. intros x y Hx Hy E. apply in_seq in Hx, Hy.
    apply (proj1 (NoDup_nth o 0%nat) H3) in E; [|rewrite H1; apply tr_lt; lia..].
    rewrite <- (tr_tr a b x), E, tr_tr. reflexivity.
Qed.

Lemma exch_all n a b : (a < n)%nat -> (b < n)%nat -> Permutation (map (exch n a b) (orders n)) (orders n).
Proof.
  intros Ha Hb. apply NoDup_Permutation.
  - apply NoDup_map_inj; [|apply orders_NoDup]. intros x y Hx Hy E.
    apply orders_In in Hx, Hy. rewrite <- (exch_exch n a b x), E by (try assumption; apply Hx). apply exch_exch; [assumption..|apply Hy].
  - apply orders_NoDup.
  - intros o. rewrite in_map_iff. split.
    + intros [x [<- Hx]]. apply exch_In; assumption.
    + intros H. exists (exch n a b o). split; [apply exch_exch; [assumption..|apply orders_In in H; apply H]|apply exch_In; assumption].
Qed.

(** ** sums over the orders *)
Section Sums.
Variable rs : list R.
Let M := length rs.
Let mu := rmean rs.
Definition at_ord (o : list nat) (q : nat) : R := nth (nth q o 0%nat) rs 0 - rmean rs.
Definition cross (i j : nat) : R := rsum (map (fun o => at_ord o i * at_ord o j) (orders (length rs))).

Lemma cross_tr a b i j : (a < M)%nat -> (b < M)%nat -> (i < M)%nat -> (j < M)%nat -> cross (tr a b i) (tr a b j) = cross i j.
Proof.
  intros Ha Hb Hi Hj. unfold cross. fold M. rewrite <- (rsum_perm _ _ (Permutation_map (fun o => at_ord o i * at_ord o j) (exch_all M a b Ha Hb))).
  rewrite map_map. f_equal. apply map_ext. intros o. unfold at_ord. rewrite !exch_nth by assumption. reflexivity.
Qed.

Lemma cross_comm i j : cross i j = cross j i.
Proof. unfold cross. f_equal. apply map_ext. intros o. lra. Qed.

Lemma cross_diag i : (i < M)%nat -> cross i i = cross 0 0.
Proof. intros H. rewrite <- (cross_tr i 0 i i) by lia. unfold tr. rewrite Nat.eqb_refl. reflexivity. Qed.

Lemma cross_off i j i' j' : (i < M)%nat -> (j < M)%nat -> (i' < M)%nat -> (j' < M)%nat -> i <> j -> i' <> j' -> cross i j = cross i' j'.
Proof.
  intros Hi Hj Hi' Hj' H H'. rewrite <- (cross_tr i i' i j) by assumption.
  set (k := tr i i' j). assert (E : tr i i' i = i') by (unfold tr; rewrite Nat.eqb_refl; reflexivity). rewrite E.
  assert (Hk : (k < M)%nat) by (apply tr_lt; assumption).
  assert (N : k <> i') by (unfold k, tr; destruct (Nat.eqb_spec j i); [congruence|]; destruct (Nat.eqb_spec j i'); congruence).
  rewrite <- (cross_tr k j' i' k) by assumption. f_equal; unfold tr.
  - destruct (Nat.eqb_spec i' k); [congruence|]. destruct (Nat.eqb_spec i' j'); [congruence|reflexivity].
  - rewrite Nat.eqb_refl. reflexivity.
Qed.

Lemma rsum_map_add {X} (f g : X -> R) l : rsum (map (fun x => f x + g x) l) = rsum (map f l) + rsum (map g l).
Proof. induction l as [|x l IH]; [cbn; lra|]. cbn [map rsum fold_right] in *. unfold rsum in *. cbn [fold_right]. rewrite IH. lra. Qed.
Lemma rsum_map_scal {X} c (f : X -> R) l : rsum (map (fun x => c * f x) l) = c * rsum (map f l).
Proof. induction l as [|x l IH]; [cbn; lra|]. unfold rsum in *. cbn [map fold_right]. rewrite IH. lra. Qed.
Lemma rsum_map_const {X} c (l : list X) : rsum (map (fun _ => c) l) = INR (length l) * c.
Proof. induction l as [|x l IH]; [cbn; lra|]. unfold rsum in *. cbn [map fold_right length]. rewrite IH, S_INR. lra. Qed.
Lemma rsum_map_swap {X} n (f : X -> nat -> R) l : rsum (map (fun x => rsum_n n (f x)) l) = rsum_n n (fun q => rsum (map (fun x => f x q) l)).
Proof.
  induction n as [|n IH].
  - rewrite rsum_n_0. replace (map (fun x => rsum_n 0 (f x)) l) with (map (fun _ : X => 0) l) by (apply map_ext; intros; rewrite rsum_n_0; reflexivity).
    rewrite rsum_map_const. lra.
  - rewrite rsum_n_S, <- IH, <- rsum_map_add. f_equal. apply map_ext. intros x. apply rsum_n_S.
Qed.

Lemma at_ord_dev o : In o (orders M) -> let xs := map (fun i => nth i rs 0) o in
  length xs = M /\ forall q, (q < M)%nat -> at_ord o q = dev xs q.
Proof.
  intros H xs. assert (P : Permutation rs xs) by (apply orderings_perm; unfold orderings; apply in_map, H).
  assert (L : length o = M) by (apply orders_In in H; apply H).
  split; [unfold xs; rewrite map_length; exact L|]. intros q Hq. unfold at_ord, dev. rewrite (rmean_perm _ _ P). f_equal. unfold xs.
  rewrite (nth_indep (map _ o) 0 (nth 0 rs 0)) by (rewrite map_length, L; exact Hq). rewrite (map_nth (fun i => nth i rs 0)). reflexivity.
Qed.

Lemma cross_row i : (0 < M)%nat -> (i < M)%nat -> rsum_n M (cross i) = 0.
Proof.
  intros H0 Hi. unfold cross. fold M. rewrite <- (rsum_map_swap M (fun o j => at_ord o i * at_ord o j)).
  replace (map _ (orders M)) with (map (fun _ : list nat => 0) (orders M)); [rewrite rsum_map_const; lra|].
  apply map_ext_in. intros o Ho. destruct (at_ord_dev o Ho) as [L E]. rewrite rsum_n_scal.
  rewrite (rsum_n_ext _ _ _ (fun q Hq => E q Hq)). rewrite <- L, dev_sum; [lra|]. intros G. rewrite G in L. cbn in L. lia.
Qed.

Lemma cross_trace : rsum_n M (fun i => cross i i) = INR (length (orders M)) * sq_dev rs.
Proof.
  unfold cross. fold M. rewrite <- (rsum_map_swap M (fun o j => at_ord o j * at_ord o j)).
  rewrite <- rsum_map_const. f_equal. apply map_ext_in. intros o Ho. destruct (at_ord_dev o Ho) as [L E].
  set (xs := map _ o) in *. rewrite <- (sq_dev_perm rs xs); [|apply orderings_perm; unfold orderings; apply in_map, Ho].
  rewrite sq_dev_n, L. apply rsum_n_ext. intros q Hq. rewrite E by exact Hq. reflexivity.
Qed.

Lemma rsum_n_same n c : rsum_n n (fun _ => c) = INR n * c.
Proof. unfold rsum_n. rewrite rsum_map_const, seq_length. reflexivity. Qed.

Lemma cross_same i : (i < M)%nat -> cross i i = INR (length (orders M)) * (sq_dev rs / INR M).
Proof.
  intros Hi. pose proof cross_trace as T. rewrite (rsum_n_ext _ _ (fun _ => cross i i)) in T.
  - rewrite rsum_n_same in T. assert (INR M <> 0) by (apply not_0_INR; lia).
    apply (Rmult_eq_reg_l (INR M)); [|assumption]. rewrite T. field. assumption.
  - intros q Hq. rewrite (cross_diag q Hq), (cross_diag i Hi). reflexivity.
Qed.

Lemma cross_other i j : (i < M)%nat -> (j < M)%nat -> i <> j ->
  cross i j = INR (length (orders M)) * (- (sq_dev rs / (INR M * (INR M - 1)))).
Proof.
  intros Hi Hj H. assert (H2 : (2 <= M)%nat) by lia.
  pose proof (cross_row 0 ltac:(lia) ltac:(lia)) as T. destruct M as [|n] eqn:EM; [lia|].
  rewrite rsum_n_first in T. rewrite (rsum_n_ext n _ (fun _ => cross i j)) in T.
  - rewrite rsum_n_same in T. assert (S0 := cross_same 0). rewrite EM in S0. rewrite S0 in T by lia.
    rewrite S_INR in *. replace (INR n + 1 - 1) with (INR n) by ring. assert (INR n <> 0) by (apply not_0_INR; lia). assert (INR n + 1 <> 0) by (rewrite <- S_INR; apply not_0_INR; lia).
    apply (Rmult_eq_reg_l (INR n)); [|assumption]. apply (Rplus_eq_reg_l (INR (length (orders (S n))) * (sq_dev rs / (INR n + 1)))). rewrite T. field. split; assumption.
  - intros q Hq. rewrite <- EM in *. apply cross_off; try lia.
Qed.

End Sums.

(** the mean over every ordering of a weighted sum of products of deviations *)
Definition expect (M : nat) (i j : nat) : R := if (i =? j)%nat then / INR M else - / (INR M * (INR M - 1)).

Lemma orders_some n : 0 < INR (length (orders n)).
Proof. apply lt_0_INR. pose proof (orders_seq n). destruct (orders n); [contradiction|cbn; lia]. Qed.

Lemma mean_over_orderings (rs : list R) m (w : nat -> R) (s : nat -> nat) D :
  (forall q, (q < m)%nat -> (q < length rs)%nat /\ (s q < length rs)%nat) ->
  rmean (map (fun xs => rsum_n m (fun q => w q * (dev xs q * dev xs (s q))) / D) (orderings rs)) =
  rsum_n m (fun q => w q * expect (length rs) q (s q)) * (sq_dev rs / D).
Proof.
  intros H. unfold orderings. rewrite map_map. unfold rmean. rewrite map_length.
  set (P := orders (length rs)). pose proof (orders_some (length rs)) as HP. fold P in HP.
  replace (map _ P) with (map (fun o => / D * rsum_n m (fun q => w q * (at_ord rs o q * at_ord rs o (s q)))) P).
  - rewrite rsum_map_scal, rsum_map_swap.
    rewrite (rsum_n_ext m _ (fun q => INR (length P) * sq_dev rs * (w q * expect (length rs) q (s q)))).
    + rewrite rsum_n_scal. unfold Rdiv. generalize (/ D). intros iD. field. apply Rgt_not_eq, HP.
    + intros q Hq. destruct (H q Hq) as [H1 H2]. rewrite rsum_map_scal. change (rsum _) with (cross rs q (s q)). unfold expect.
      destruct (Nat.eqb_spec q (s q)) as [E|E].
      * rewrite <- E, cross_same by exact H1. unfold Rdiv, P. ring.
      * rewrite cross_other by assumption. unfold Rdiv, P. ring.
  - apply map_ext_in. intros o Ho. destruct (at_ord_dev rs o Ho) as [L E]. unfold Rdiv. rewrite Rmult_comm. f_equal.
    apply rsum_n_ext. intros q Hq. destruct (H q Hq) as [H1 H2]. rewrite !E by assumption. reflexivity.
Qed.
