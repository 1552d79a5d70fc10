(** Programs with several objects: reference counts, types and histories are kept by every command. *)
From Coq Require Import String.
From Coq Require Import ZArith List Bool Arith Lia.
From Verif Require Import Num Mem MemFacts Spec DataStructure DSFacts Correlator Sacf Api FileReader CorrFacts LoopFacts MainFacts SafeFacts StateFacts RelFacts
  FileThms Session.
Import ListNotations.
Local Open Scope list_scope.

(** ** Tables *)
Section Tables.
Context {X : Type}.
Implicit Types (l : list (option X)).

Lemma lookup_nil i : lookup (@nil (option X)) i = None.
Proof. destruct i; reflexivity. Qed.
Lemma lookup_assign l i v j : lookup (assign l i v) j = if j =? i then v else lookup l j.
Proof.
  revert l j. induction i as [|i IH]; intros [|w l] [|j]; cbn; try reflexivity.
  - destruct j; reflexivity.
  - change (lookup (assign [] i v) j = if j =? i then v else None). rewrite IH. destruct (j =? i); [reflexivity|apply lookup_nil].
  - apply IH.
Qed.
Lemma lookup_same l i v : lookup (assign l i v) i = v.
Proof. rewrite lookup_assign, Nat.eqb_refl. reflexivity. Qed.
Lemma lookup_other l i v j : j <> i -> lookup (assign l i v) j = lookup l j.
Proof. intros H. rewrite lookup_assign. destruct (Nat.eqb_spec j i); [contradiction|reflexivity]. Qed.
Lemma lookup_beyond l i : length l <= i -> lookup l i = None.
Proof. intros H. apply nth_overflow. exact H. Qed.
Lemma lookup_within l i x : lookup l i = Some x -> i < length l.
Proof. intros H. destruct (Nat.lt_ge_cases i (length l)) as [K|K]; [exact K|]. rewrite (lookup_beyond l i K) in H. discriminate. Qed.
Lemma assign_length l i v : length (assign l i v) = Nat.max (length l) (S i).
Proof. revert l. induction i as [|i IH]; intros [|w l]; cbn [assign length]; rewrite ?IH; cbn [length]; lia. Qed.

Definition sumt (f : option X -> nat) l : nat := list_sum (map f l).
Lemma sumt_assign f l i v : f None = 0 -> sumt f (assign l i v) + f (lookup l i) = sumt f l + f v.
Proof.
  intros H0. unfold sumt. revert l. induction i as [|i IH]; intros [|w l].
  - unfold lookup. cbn. lia.
  - unfold lookup. cbn. lia.
  - specialize (IH []). rewrite lookup_nil in IH. rewrite lookup_nil. cbn in *. rewrite H0 in *. unfold list_sum in IH. lia.
  - specialize (IH l). change (lookup (w :: l) (S i)) with (lookup l i). cbn [assign map]. change (list_sum (f w :: map f (assign l i v))) with (f w + list_sum (map f (assign l i v))).
    change (list_sum (f w :: map f l)) with (f w + list_sum (map f l)). lia.
Qed.
Lemma sumt_in f l i : f (lookup l i) <= sumt f l \/ lookup l i = None.
Proof.
  unfold sumt. revert l. induction i as [|i IH]; intros [|w l]; auto.
  - left. unfold lookup. cbn. lia.
  - change (lookup (w :: l) (S i)) with (lookup l i). change (list_sum (map f (w :: l))) with (f w + list_sum (map f l)).
    destruct (IH l) as [K|K]; [left; lia|right; exact K].
Qed.
End Tables.

Section SessFacts.
Context {A : Num} {D : Dec A}.

Definition cnt (l : list addr) (a : addr) : nat := count_occ Nat.eq_dec l a.
Definition occn (a : addr) (v : option val) : nat := match v with Some (VRef b) => if Nat.eq_dec b a then 1 else 0 | _ => 0 end.
Definition occc (a : addr) (c : option (obj * nat)) : nat := match c with Some (o, _) => cnt (children o) a | None => 0 end.
Definition refs (nm : list (option val)) (h : heap) (a : addr) : nat := sumt (occn a) nm + sumt (occc a) h.

(** the counts are right, if [pend a] further references to [a] are on their way *)
Definition good (nm : list (option val)) (h : heap) (pend : addr -> nat) : Prop :=
  forall a, match lookup h a with Some (_, n) => 0 < n /\ n = refs nm h a + pend a | None => refs nm h a + pend a = 0 end.

Definition live (h : heap) (a : addr) : Prop := lookup h a <> None.

Lemma good_ext nm h f g : (forall a, f a = g a) -> good nm h f -> good nm h g.
Proof. intros E H a. specialize (H a). rewrite <- E. exact H. Qed.

Lemma refs_cell nm h a c b : refs nm (assign h a c) b + occc b (lookup h a) = refs nm h b + occc b c.
Proof. unfold refs. pose proof (sumt_assign (occc b) h a c eq_refl). lia. Qed.
Lemma refs_recount nm h a o n m b : lookup h a = Some (o, n) -> refs nm (assign h a (Some (o, m))) b = refs nm h b.
Proof. intros E. pose proof (refs_cell nm h a (Some (o, m)) b) as K. rewrite E in K. cbn [occc] in K. lia. Qed.

Lemma incref_good nm h pend a : good nm h pend -> live h a -> good nm (incref h a) (fun b => (if Nat.eq_dec a b then 1 else 0) + pend b).
Proof.
  intros H L. unfold incref. destruct (lookup h a) as [[o n]|] eqn:E; [|contradiction]. intros b. specialize (H b).
  rewrite (refs_recount nm h a o n (S n) b E), lookup_assign. destruct (Nat.eq_dec a b) as [<-|Hn].
  - rewrite Nat.eqb_refl. rewrite E in H. lia.
  - destruct (Nat.eqb_spec b a); [congruence|]. exact H.
Qed.
Lemma incref_objs h a b : lookup (incref h a) b = match lookup h b with Some (o, n) => Some (o, if b =? a then S n else n) | None => None end.
Proof.
  unfold incref. destruct (lookup h a) as [[o n]|] eqn:E.
  - rewrite lookup_assign. destruct (Nat.eqb_spec b a) as [->|Hn]; [rewrite E; reflexivity|]. destruct (lookup h b) as [[]|]; reflexivity.
  - destruct (lookup h b) as [[o n]|] eqn:Eb; [|reflexivity]. destruct (Nat.eqb_spec b a) as [->|Hn]; [congruence|reflexivity].
Qed.
Lemma incref_live h a b : live (incref h a) b <-> live h b.
Proof. unfold live. rewrite incref_objs. destruct (lookup h b) as [[]|]; split; congruence. Qed.
Lemma incref_length h a : length (incref h a) = length h.
Proof. unfold incref. destruct (lookup h a) as [[o n]|] eqn:E; [|reflexivity]. apply lookup_within in E. rewrite assign_length. lia. Qed.

(** [h'] has the objects of [h], with other counts *)
Definition same_objs (h h' : heap) : Prop := length h' = length h /\ forall a, option_map fst (lookup h' a) = option_map fst (lookup h a).
Lemma increfs_good nm l h pend : good nm h pend -> (forall a, In a l -> live h a) ->
  good nm (fold_left incref l h) (fun b => cnt l b + pend b) /\ same_objs h (fold_left incref l h).
Proof.
  revert h pend. induction l as [|a l IH]; intros h pend H L; cbn [fold_left].
  - split; [exact H|split; auto].
  - destruct (IH (incref h a) _ (incref_good nm h pend a H (L a (or_introl eq_refl)))) as [K1 [K2 K3]].
    + intros b Hb. apply incref_live, L. right. exact Hb.
    + split.
      * eapply good_ext; [|exact K1]. intros b. cbn. unfold cnt. cbn [count_occ]. destruct (Nat.eq_dec a b); lia.
      * split; [rewrite K2; apply incref_length|]. intros b. rewrite K3, incref_objs. destruct (lookup h b) as [[]|]; reflexivity.
Qed.

Lemma live_objs h h' a : same_objs h h' -> live h' a <-> live h a.
Proof. intros [_ H]. specialize (H a). unfold live. destruct (lookup h a), (lookup h' a); cbn in H; split; congruence. Qed.

Lemma alloc_good nm h pend o : good nm h pend -> (forall a, In a (children o) -> live h a) ->
  good nm (fst (alloc h o)) (fun b => (if Nat.eq_dec (length h) b then 1 else 0) + pend b).
Proof.
  intros H L. destruct (increfs_good nm (children o) h pend H L) as [K1 [K2 K3]]. unfold alloc. cbn [fst].
  set (h1 := fold_left incref (children o) h) in *. assert (En : lookup h1 (length h) = None) by (apply lookup_beyond; lia).
  intros b. pose proof (refs_cell nm h1 (length h) (Some (o, 1)) b) as R. rewrite En in R. cbn [occc] in R. specialize (K1 b).
  rewrite lookup_assign. destruct (Nat.eqb_spec b (length h)) as [->|Hb].
  - rewrite En in K1. destruct (Nat.eq_dec (length h) (length h)); [lia|contradiction].
  - destruct (Nat.eq_dec (length h) b); [congruence|]. destruct (lookup h1 b) as [[o' n']|]; lia.
Qed.
Lemma alloc_objs h o b : option_map fst (lookup (fst (alloc h o)) b) = if b =? length h then Some o else option_map fst (lookup h b).
Proof.
  unfold alloc. cbn [fst]. rewrite lookup_assign. destruct (Nat.eqb_spec b (length h)); [reflexivity|].
  assert (K : forall l h0, option_map fst (lookup (fold_left incref l h0) b) = option_map fst (lookup h0 b)).
  { induction l as [|a l IH]; intros h0; cbn [fold_left]; [reflexivity|]. rewrite IH, incref_objs. destruct (lookup h0 b) as [[]|]; reflexivity. }
  apply K.
Qed.
Lemma alloc_length h o : length (fst (alloc h o)) = S (length h).
Proof.
  unfold alloc. cbn [fst]. rewrite assign_length.
  assert (K : forall l h0, length (fold_left incref l h0) = length h0) by (induction l as [|a l IH]; intros h0; cbn [fold_left]; [reflexivity|]; rewrite IH; apply incref_length).
  rewrite K. lia.
Qed.

(** ** Giving up references *)
(** [h'] has some of the objects of [h] *)
Definition fewer (h h' : heap) : Prop := length h' = length h /\ forall a o n, lookup h' a = Some (o, n) -> exists m, lookup h a = Some (o, m).
Lemma fewer_refl h : fewer h h.
Proof. split; eauto. Qed.
Lemma fewer_trans h h' h'' : fewer h h' -> fewer h' h'' -> fewer h h''.
Proof. intros [H1 H2] [K1 K2]. split; [congruence|]. intros a o n E. apply K2 in E as [m E]. eauto. Qed.

Lemma total_sum h : total h = sumt (fun c => match c with Some (_, n) => n | None => 0 end) h.
Proof. reflexivity. Qed.
Lemma total_assign h a c : total (assign h a c) + match lookup h a with Some (_, n) => n | None => 0 end = total h + match c with Some (_, n) => n | None => 0 end.
Proof. rewrite !total_sum. exact (sumt_assign (fun c : option (obj * nat) => match c with Some (_, n) => n | None => 0 end) h a c eq_refl). Qed.

Lemma release_good nm fuel todo h pend : total h <= fuel -> good nm h (fun b => cnt todo b + pend b) ->
  good nm (release fuel todo h) pend /\ fewer h (release fuel todo h).
Proof.
  revert todo h. induction fuel as [|fuel IH]; intros todo h Hf H.
  - destruct todo as [|a todo]; [split; [exact H|apply fewer_refl]|]. exfalso. specialize (H a). unfold cnt in H. cbn [count_occ] in H.
    destruct (Nat.eq_dec a a); [|contradiction]. destruct (lookup h a) as [[o n]|] eqn:E; [|lia].
    pose proof (total_assign h a None) as T. rewrite E in T. lia.
  - destruct todo as [|a todo]; [split; [exact H|apply fewer_refl]|]. cbn [release].
    assert (Ha := H a). unfold cnt in Ha. cbn [count_occ] in Ha. destruct (Nat.eq_dec a a) as [_|]; [|contradiction].
    destruct (lookup h a) as [[o n]|] eqn:E; [|lia]. destruct n as [|[|n]]; [lia| |].
    + (* freed *)
      assert (Er : refs nm h a = 0 /\ count_occ Nat.eq_dec todo a = 0 /\ pend a = 0) by lia.
      pose proof (total_assign h a None) as T. rewrite E in T.
      destruct (IH (children o ++ todo) (assign h a None) ltac:(lia)) as [K1 [K2 K3]].
      * intros b. pose proof (refs_cell nm h a None b) as R. rewrite E in R. cbn [occc] in R. specialize (H b). unfold cnt in *. rewrite count_occ_app.
        cbn [count_occ] in H. rewrite lookup_assign. destruct (Nat.eqb_spec b a) as [->|Hb].
        -- cbn [count_occ] in *. lia.
        -- destruct (Nat.eq_dec a b); [congruence|]. destruct (lookup h b) as [[o' n']|]; lia.
      * split; [exact K1|]. split; [rewrite K2, assign_length; apply lookup_within in E; lia|]. intros b o' n' Eb. apply K3 in Eb as [m Eb].
        rewrite lookup_assign in Eb. destruct (b =? a); [discriminate|eauto].
    + (* one less *)
      pose proof (total_assign h a (Some (o, S n))) as T. rewrite E in T.
      destruct (IH todo (assign h a (Some (o, S n))) ltac:(lia)) as [K1 [K2 K3]].
      * intros b. rewrite (refs_recount nm h a o (S (S n)) (S n) b E). specialize (H b). unfold cnt in *. cbn [count_occ] in H. rewrite lookup_assign.
        destruct (Nat.eqb_spec b a) as [->|Hb]; [destruct (Nat.eq_dec a a); [lia|contradiction]|]. destruct (Nat.eq_dec a b); [congruence|]. exact H.
      * split; [exact K1|]. split; [rewrite K2, assign_length; apply lookup_within in E; lia|]. intros b o' n' Eb. apply K3 in Eb as [m Eb].
        rewrite lookup_assign in Eb. destruct (Nat.eqb_spec b a) as [->|Hb]; [injection Eb as <- <-|]; eauto.
Qed.

Lemma decref_good nm h pend v : good nm h (fun b => occn b v + pend b) -> good nm (decref h v) pend /\ fewer h (decref h v).
Proof.
  intros H. destruct v as [[|a]|]; cbn [decref]; try (split; [exact H|apply fewer_refl]).
  apply release_good; [reflexivity|]. eapply good_ext; [|exact H]. intros b. unfold cnt. cbn. destruct (Nat.eq_dec a b); reflexivity.
Qed.

Lemma refs_names nm h x v b : refs (assign nm x v) h b + occn b (lookup nm x) = refs nm h b + occn b v.
Proof. unfold refs. pose proof (sumt_assign (occn b) nm x v eq_refl). lia. Qed.

Lemma bind_good s h x v : good (names s) h (fun b => occn b v) ->
  good (names (bind_name s h x v)) (mem (bind_name s h x v)) (fun _ => 0) /\ fewer h (mem (bind_name s h x v)).
Proof.
  intros H. cbn [bind_name names mem]. apply decref_good. intros b. specialize (H b). pose proof (refs_names (names s) h x v b) as R.
  destruct (lookup h b) as [[o n]|]; lia.
Qed.

Lemma put_objs h a o b : lookup (put h a o) b = match lookup h b with Some (o', n) => Some (if b =? a then o else o', n) | None => None end.
Proof.
  unfold put. destruct (lookup h a) as [[oa na]|] eqn:E.
  - rewrite lookup_assign. destruct (Nat.eqb_spec b a) as [->|Hb]; [rewrite E; reflexivity|]. destruct (lookup h b) as [[]|]; reflexivity.
  - destruct (lookup h b) as [[o' n]|] eqn:Eb; [|reflexivity]. destruct (Nat.eqb_spec b a) as [->|Hb]; [congruence|reflexivity].
Qed.
Lemma put_length h a o : length (put h a o) = length h.
Proof. unfold put. destruct (lookup h a) as [[oa na]|] eqn:E; [|reflexivity]. apply lookup_within in E. rewrite assign_length. lia. Qed.
Lemma put_good nm h pend a o o0 n : good nm h pend -> lookup h a = Some (o0, n) -> children o = children o0 -> good nm (put h a o) pend.
Proof.
  intros H E Ec b. assert (R : refs nm (put h a o) b = refs nm h b).
  { unfold put. rewrite E. pose proof (refs_cell nm h a (Some (o, n)) b) as K. rewrite E in K. cbn [occc] in K. rewrite Ec in K. lia. }
  rewrite R, put_objs. specialize (H b). destruct (lookup h b) as [[o' n']|]; exact H.
Qed.

(** what is named or held is live *)
Lemma named_live nm h pend x a : good nm h pend -> lookup nm x = Some (VRef a) -> live h a.
Proof.
  intros H E L. specialize (H a). unfold live in *. rewrite L in H. unfold refs in H.
  destruct (sumt_in (occn a) nm x) as [K|K]; [|congruence]. rewrite E in K. cbn in K. destruct (Nat.eq_dec a a); [lia|contradiction].
Qed.
Lemma child_live nm h pend a o n b : good nm h pend -> lookup h a = Some (o, n) -> In b (children o) -> live h b.
Proof.
  intros H E Hb L. specialize (H b). unfold live in *. rewrite L in H. unfold refs in H.
  destruct (sumt_in (occc b) h a) as [K|K]; [|congruence]. rewrite E in K. cbn in K. apply (count_occ_In Nat.eq_dec) in Hb. unfold cnt in K. lia.
Qed.
Lemma held nm h a : good nm h (fun _ => 0) -> live h a ->
  (exists x, lookup nm x = Some (VRef a)) \/ exists b o n, lookup h b = Some (o, n) /\ In a (children o).
Proof.
  intros H L. specialize (H a). unfold live in L. destruct (lookup h a) as [[o n]|]; [|congruence]. destruct H as [H1 H2]. unfold refs in H2.
  assert (G : forall X (f : option X -> nat) l, f None = 0 -> 0 < sumt f l -> exists i v, lookup l i = Some v /\ 0 < f (Some v)).
  { intros X f l. unfold sumt. induction l as [|w l IH]; cbn [map list_sum fold_right]; intros F0 F1; [lia|].
    destruct (f w) as [|fw] eqn:Ew.
    - destruct (IH F0 F1) as (i & v & E1 & E2). exists (S i), v. auto.
    - destruct w as [v|]; [|lia]. exists 0, v. split; [reflexivity|lia]. }
  destruct (sumt (occn a) nm) as [|k] eqn:En.
  - right. destruct (G _ (occc a) h eq_refl ltac:(lia)) as (b & [ob nb] & E1 & E2). exists b, ob, nb. split; [exact E1|]. apply (count_occ_In Nat.eq_dec). exact E2.
  - left. destruct (G _ (occn a) nm eq_refl ltac:(lia)) as (x & v & E1 & E2). exists x. rewrite E1. destruct v as [|b]; cbn in E2; [lia|].
    destruct (Nat.eq_dec b a); [congruence|lia].
Qed.
End SessFacts.
