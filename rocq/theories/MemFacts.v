(** Lemmas about outcomes, lists and vectors. *)
From Coq Require Import ZArith List Bool Arith Lia.
From Verif Require Import Num Mem.
Import ListNotations.

Lemma bind_Ok {A B} (x : res A) (f : A -> res B) b :
  bind x f = Ok b <-> exists a, x = Ok a /\ f a = Ok b.
Proof.
  destruct x as [a| | |]; cbn; split; intros H; try discriminate;
    try (destruct H as [a' [H1 H2]]; discriminate).
  - eauto.
  - destruct H as [a' [H1 H2]]. injection H1 as ->. exact H2.
Qed.

Lemma mapM_ext {A B} (f g : A -> res B) l :
  (forall a, In a l -> f a = g a) -> mapM f l = mapM g l.
Proof.
  induction l as [|a l IH]; cbn; intros H; [reflexivity|].
  rewrite (H a) by (left; reflexivity). rewrite IH by (intros; apply H; right; assumption).
  reflexivity.
Qed.

Lemma mapM_Ok_map {A B} (f : A -> res B) (g : A -> B) l :
  (forall a, In a l -> f a = Ok (g a)) -> mapM f l = Ok (map g l).
Proof.
  induction l as [|a l IH]; cbn; intros H; [reflexivity|].
  rewrite (H a) by (left; reflexivity). cbn. rewrite IH by (intros; apply H; right; assumption).
  reflexivity.
Qed.

Lemma mapM_Ok_inv {A B} (f : A -> res B) l bs :
  mapM f l = Ok bs -> length bs = length l /\ forall i a, nth_error l i = Some a ->
    exists b, nth_error bs i = Some b /\ f a = Ok b.
Proof.
  revert bs; induction l as [|a l IH]; cbn; intros bs H.
  - injection H as <-. split; [reflexivity|]. intros i a Hi. destruct i; discriminate.
  - apply bind_Ok in H. destruct H as [b [Hb H]]. apply bind_Ok in H. destruct H as [bs' [Hbs H]].
    injection H as <-. destruct (IH _ Hbs) as [Hl Hn]. split; [cbn; lia|].
    intros i a' Hi. destruct i as [|i]; cbn in *.
    + injection Hi as <-. eauto.
    + eauto.
Qed.

Lemma mapM_app {A B} (f : A -> res B) l1 l2 :
  mapM f (l1 ++ l2) = (do a <- mapM f l1; do b <- mapM f l2; Ok (a ++ b)).
Proof.
  induction l1 as [|a l1 IH]; cbn.
  - destruct (mapM f l2); reflexivity.
  - destruct (f a) as [b| | |]; cbn; try reflexivity. rewrite IH.
    destruct (mapM f l1) as [x| | |]; cbn; try reflexivity.
    destruct (mapM f l2); reflexivity.
Qed.

(** first failing element decides *)
Lemma mapM_UB {A B} (f : A -> res B) l1 a l2 u :
  (forall x, In x l1 -> exists b, f x = Ok b) -> f a = UB u -> mapM f (l1 ++ a :: l2) = UB u.
Proof.
  induction l1 as [|x l1 IH]; intros H1 H2; cbn.
  - rewrite H2. reflexivity.
  - destruct (H1 x) as [b Hb]; [left; reflexivity|]. rewrite Hb. cbn.
    rewrite IH; [reflexivity| |exact H2]. intros; apply H1; right; assumption.
Qed.

Lemma nth_error_Some_ex {A} (l : list A) i : i < length l -> exists a, nth_error l i = Some a.
Proof. intros H. destruct (nth_error l i) eqn:E; eauto. apply nth_error_None in E. lia. Qed.

Lemma nth_error_nth_eq {A} (l : list A) i d : i < length l -> nth_error l i = Some (nth i l d).
Proof. intros H. apply nth_error_nth'. exact H. Qed.

Lemma lget_ok {A} (l : list A) i d : i < length l -> lget l i = Ok (nth i l d).
Proof. intros H. unfold lget. rewrite (nth_error_nth_eq l i d H). reflexivity. Qed.
Lemma lget_oob {A} (l : list A) i : length l <= i -> lget l i = UB OobRead.
Proof. intros H. unfold lget. apply nth_error_None in H. rewrite H. reflexivity. Qed.
Lemma lat_ok {A} (l : list A) i d : i < length l -> lat l i = Ok (nth i l d).
Proof. intros H. unfold lat. rewrite (nth_error_nth_eq l i d H). reflexivity. Qed.
Lemma lat_oob {A} (l : list A) i : length l <= i -> lat l i = Throw OutOfRange.
Proof. intros H. unfold lat. apply nth_error_None in H. rewrite H. reflexivity. Qed.

Lemma last_nth {A} (l : list A) d : last l d = nth (length l - 1) l d.
Proof.
  induction l as [|a l IH]; [reflexivity|]. destruct l as [|b l]; [reflexivity|].
  change (last (a :: b :: l) d) with (last (b :: l) d). rewrite IH.
  replace (length (a :: b :: l) - 1) with (S (length (b :: l) - 1)) by (cbn; lia). reflexivity.
Qed.

Lemma lback_ok {A} (l : list A) d : l <> [] -> lback l = Ok (last l d).
Proof.
  intros H. rewrite last_nth. unfold lback. destruct l as [|a l]; [congruence|].
  apply lget_ok. cbn. lia.
Qed.

(** update of one list position *)
Definition upd {A} (l : list A) (i : nat) (a : A) : list A := firstn i l ++ a :: skipn (S i) l.

Lemma lset_ok {A} (l : list A) i a : i < length l -> lset l i a = Ok (upd l i a).
Proof. intros H. unfold lset. apply Nat.ltb_lt in H. rewrite H. reflexivity. Qed.
Lemma lset_oob {A} (l : list A) i (a : A) : length l <= i -> lset l i a = UB OobWrite.
Proof. intros H. unfold lset. apply Nat.ltb_ge in H. rewrite H. reflexivity. Qed.

Lemma upd_length {A} (l : list A) i a : i < length l -> length (upd l i a) = length l.
Proof.
  intros H. unfold upd. rewrite app_length, firstn_length_le by lia. cbn [length].
  rewrite skipn_length. lia.
Qed.

Lemma nth_error_skipn {A} (l : list A) i n : nth_error (skipn i l) n = nth_error l (i + n).
Proof.
  revert l. induction i as [|i IH]; intros l; [reflexivity|].
  destruct l as [|a l]; cbn; [destruct n; reflexivity|]. apply IH.
Qed.

Lemma nth_error_firstn {A} (l : list A) i n :
  nth_error (firstn i l) n = if n <? i then nth_error l n else None.
Proof.
  revert l n. induction i as [|i IH]; intros l n; cbn [firstn].
  - destruct n; reflexivity.
  - destruct l as [|a l].
    + destruct (n <? S i); destruct n; reflexivity.
    + destruct n as [|n]; [reflexivity|]. cbn [nth_error]. rewrite IH. reflexivity.
Qed.

Lemma nth_error_upd {A} (l : list A) i a n : i < length l ->
  nth_error (upd l i a) n = if n =? i then Some a else nth_error l n.
Proof.
  intros H. unfold upd. destruct (Nat.lt_trichotomy n i) as [Hn|[Hn|Hn]].
  - rewrite nth_error_app1 by (rewrite firstn_length_le; lia). rewrite nth_error_firstn.
    destruct (Nat.ltb_spec n i); [|lia]. destruct (Nat.eqb_spec n i); [lia|reflexivity].
  - subst n. rewrite nth_error_app2 by (rewrite firstn_length_le; lia).
    rewrite firstn_length_le by lia. rewrite Nat.sub_diag, Nat.eqb_refl. reflexivity.
  - rewrite nth_error_app2 by (rewrite firstn_length_le; lia).
    rewrite firstn_length_le by lia.
    replace (n - i) with (S (n - S i)) by lia. cbn [nth_error]. rewrite nth_error_skipn.
    destruct (Nat.eqb_spec n i); [lia|]. f_equal. lia.
Qed.

Lemma list_ext {A} (l1 l2 : list A) : (forall n, nth_error l1 n = nth_error l2 n) -> l1 = l2.
Proof.
  revert l2. induction l1 as [|a l1 IH]; intros l2 H.
  - specialize (H 0). destruct l2; [reflexivity|discriminate].
  - destruct l2 as [|b l2]; [specialize (H 0); discriminate|].
    pose proof (H 0) as H0. cbn in H0. injection H0 as ->. f_equal. apply IH.
    intros n. exact (H (S n)).
Qed.

Lemma nth_error_repeat_ {A} (a : A) n i : nth_error (repeat a n) i = if i <? n then Some a else None.
Proof.
  revert i. induction n as [|n IH]; intros i; [destruct i; reflexivity|].
  destruct i as [|i]; [reflexivity|]. cbn [repeat nth_error]. rewrite IH. reflexivity.
Qed.

Lemma nth_error_seq s n i : nth_error (seq s n) i = if i <? n then Some (s + i) else None.
Proof.
  revert s i. induction n as [|n IH]; intros s i; [destruct i; reflexivity|].
  destruct i as [|i]; cbn [seq nth_error]; [rewrite Nat.add_0_r; reflexivity|].
  rewrite IH. replace (S s + i) with (s + S i) by lia. reflexivity.
Qed.

(** reading a stretch of a list element by element *)
Lemma mapM_lget {A} (l : list A) s n (f : nat -> nat) :
  (forall i, i < n -> f i = s + i) -> s + n <= length l ->
  mapM (fun i => lget l (f i)) (seq 0 n) = Ok (firstn n (skipn s l)).
Proof.
  intros Hf H. destruct l as [|d l'].
  - cbn in H. assert (n = 0) as -> by lia. reflexivity.
  - remember (d :: l') as l eqn:El.
    rewrite (mapM_Ok_map _ (fun i => nth (s + i) l d)).
    + f_equal. apply list_ext. intros i. rewrite nth_error_map, nth_error_seq, nth_error_firstn.
      destruct (Nat.ltb_spec i n) as [Hi|Hi]; [|reflexivity]. cbn.
      rewrite nth_error_skipn. symmetry. apply nth_error_nth_eq. lia.
    + intros i Hi. apply in_seq in Hi. rewrite Hf by lia. apply lget_ok. lia.
Qed.

Lemma mapM_lget_oob {A} (l : list A) s n (f : nat -> nat) :
  (forall i, i < n -> f i = s + i) -> 0 < n -> length l < s + n ->
  mapM (fun i => lget l (f i)) (seq 0 n) = UB OobRead.
Proof.
  intros Hf Hn H.
  set (m := length l - s).
  assert (Hm : m < n) by (unfold m; lia).
  assert (Hseq : seq 0 n = seq 0 m ++ m :: seq (S m) (n - S m)).
  { replace n with (m + S (n - S m)) at 1 by lia. rewrite seq_app. reflexivity. }
  rewrite Hseq.
  assert (Hoob : lget l (f m) = UB OobRead).
  { apply lget_oob. rewrite Hf by lia. unfold m in *. lia. }
  apply mapM_UB; [|exact Hoob].
  intros i Hi. apply in_seq in Hi. rewrite Hf by lia.
  destruct (nth_error_Some_ex l (s + i)) as [b Hb]; [unfold m in *; lia|].
  exists b. unfold lget. rewrite Hb. reflexivity.
Qed.

(** ** vec *)
Definition vwf {A} (v : vec A) : Prop := vsize v <= length (vbuf v).

Lemma vwf_empty {A} : vwf (@vempty A). Proof. unfold vwf. cbn. lia. Qed.
Lemma vwf_clear {A} (v : vec A) : vwf (vclear v). Proof. unfold vwf. cbn. lia. Qed.
Lemma vpush_length {A} (v : vec A) a : vwf v ->
  length (vbuf (vpush v a)) = Nat.max (length (vbuf v)) (S (vsize v)).
Proof.
  unfold vwf. intros H. cbn. rewrite app_length, firstn_length_le by exact H. cbn [length].
  change (match vbuf v with [] => [] | _ :: l => skipn (vsize v) l end) with (skipn (S (vsize v)) (vbuf v)).
  rewrite skipn_length. lia.
Qed.
Lemma vwf_push {A} (v : vec A) a : vwf v -> vwf (vpush v a).
Proof. intros H. unfold vwf. rewrite vpush_length by exact H. cbn. lia. Qed.

Lemma vlive_length {A} (v : vec A) : vwf v -> length (vlive v) = vsize v.
Proof. intros H. unfold vlive. apply firstn_length_le. exact H. Qed.

Lemma vlive_push {A} (v : vec A) a : vwf v -> vlive (vpush v a) = vlive v ++ [a].
Proof.
  intros H. unfold vlive. cbn [vpush vbuf vsize].
  rewrite firstn_app, firstn_firstn, firstn_length_le by exact H.
  rewrite Nat.min_r by lia. replace (S (vsize v) - vsize v) with 1 by lia. reflexivity.
Qed.

Lemma vlive_empty {A} : vlive (@vempty A) = []. Proof. reflexivity. Qed.

Lemma vget_live {A} (p : platform) (v : vec A) i a :
  vwf v -> nth_error (vlive v) i = Some a -> vget p v i = Ok a.
Proof.
  intros Hw H. unfold vlive in H. rewrite nth_error_firstn in H.
  unfold vget. destruct (i <? vsize v); [|discriminate]. unfold lget. rewrite H. reflexivity.
Qed.

Lemma vpush_fold_live {A B} (f : B -> A) (l : list B) (v : vec A) : vwf v ->
  let v' := fold_left (fun v d => vpush v (f d)) l v in
  vwf v' /\ vlive v' = vlive v ++ map f l /\ vsize v' = vsize v + length l.
Proof.
  revert v. induction l as [|b l IH]; intros v Hw; cbn.
  - rewrite app_nil_r. auto.
  - destruct (IH (vpush v (f b)) (vwf_push _ _ Hw)) as [H1 [H2 H3]].
    split; [exact H1|]. split.
    + rewrite H2, vlive_push by exact Hw. rewrite <- app_assoc. reflexivity.
    + rewrite H3. cbn. lia.
Qed.

(** a vector filled from empty and cleared: unchecked reads return the former
    elements *)
Lemma vget_cleared {A} (p : platform) (v : vec A) i a :
  p_checked p = false -> nth_error (vlive v) i = Some a -> vget p (vclear v) i = Ok a.
Proof.
  intros Hp H. unfold vget. cbn. rewrite Hp. unfold vlive in H. rewrite nth_error_firstn in H.
  destruct (i <? vsize v); [|discriminate]. unfold lget. rewrite H. reflexivity.
Qed.

Lemma vget_cleared_checked {A} (p : platform) (v : vec A) i :
  p_checked p = true -> vget p (vclear v) i = UB StaleRead.
Proof. intros Hp. unfold vget. cbn. rewrite Hp. reflexivity. Qed.
