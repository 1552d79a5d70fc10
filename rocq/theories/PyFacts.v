(** Facts about construction from Python values. *)
From Coq Require Import String.
From Coq Require Import ZArith List Bool Arith Ascii Lia.
From Verif Require Import Num Mem MemFacts Spec DataStructure Correlator Sacf Api DSFacts ConstrFacts FileReader PyBind SpecPy.
Import ListNotations.
Local Open Scope list_scope.

Section PyFacts.
Context {A : Num} {D : Dec A}.

Lemma finite_floor (x : num) : finite x -> exists z, nfloor x = Some z.
Proof. unfold finite. destruct (nfloor x) as [z|]; [eauto|congruence]. Qed.

Lemma load_number v x : number v x -> load_double true v = Some x.
Proof. intros []; cbn; try reflexivity. destruct (finite_floor _ H) as [y ->]. reflexivity. Qed.

Lemma load_floatable v x : load_double true v = Some x <-> floatable v x.
Proof.
  split.
  - revert x. enough (forall n v x, (fix sz v := match v with PyArray [w] => S (sz w) | _ => 0 end) v <= n ->
      load_double true v = Some x -> floatable v x) by (intros x H0; eapply H; [apply le_n|exact H0]).
    clear v. induction n as [|n IH]; intros v x Hn H; destruct v as [|y|z|y|s|s|l|l|]; cbn in H; try discriminate.
    + injection H as <-. do 2 constructor.
    + destruct (nfloor (nofZ z)) eqn:E; [|discriminate]. injection H as <-. do 2 constructor. unfold finite. congruence.
    + injection H as <-. do 2 constructor.
    + destruct l as [|w [|? ?]]; try discriminate. lia.
    + injection H as <-. do 2 constructor.
    + destruct (nfloor (nofZ z)) eqn:E; [|discriminate]. injection H as <-. do 2 constructor. unfold finite. congruence.
    + injection H as <-. do 2 constructor.
    + destruct l as [|w [|? ?]]; try discriminate. apply floatable_array. apply IH; [lia|exact H].
  - induction 1 as [v x H|v x _ IH]; [apply load_number, H|exact IH].
Qed.

Lemma load_false v x : load_double false v = Some x <-> v = PyFloat x.
Proof.
  split; [|intros ->; reflexivity]. destruct v as [| | | | | |l|[|w [|]]|]; cbn; try discriminate. congruence.
Qed.

Lemma load_false_true v x : load_double false v = Some x -> load_double true v = Some x.
Proof. intros H. apply load_false in H. subst. reflexivity. Qed.

Lemma load_all_iff {X} (f : pyval -> option X) (P : pyval -> X -> Prop) : (forall v x, f v = Some x <-> P v x) ->
  forall l xs, load_all f l = Some xs <-> Forall2 P l xs.
Proof.
  intros Hf l. induction l as [|v l IH]; intros xs; cbn [load_all].
  - split; [intros H; injection H as <-; constructor|]. intros H. inversion H. reflexivity.
  - split.
    + destruct (f v) as [x|] eqn:E; [|discriminate]. destruct (load_all f l) as [ys|] eqn:E'; [|discriminate].
      intros H. injection H as <-. constructor; [apply Hf, E|apply IH; reflexivity].
    + intros H. inversion H as [|? x ? ys H1 H2]; subst. apply Hf in H1. apply IH in H2. rewrite H1, H2. reflexivity.
Qed.

Lemma load_list_iff {X} (f : pyval -> option X) (P : pyval -> X -> Prop) : (forall v x, f v = Some x <-> P v x) ->
  forall v xs, load_list f v = Some xs <-> sequence_of P v xs.
Proof.
  intros Hf v xs. destruct v as [| | | | | |l|l|]; cbn [load_list]; try (split; [discriminate|intros H; inversion H; fail]).
  - rewrite (load_all_iff f P Hf). split; [constructor; assumption|intros H; inversion H; assumption].
  - rewrite (load_all_iff f P Hf). split; [constructor; assumption|intros H; inversion H; assumption].
Qed.

Lemma load_vec_true v xs : load_vec true v = Some xs <-> floatables v xs.
Proof. apply load_list_iff. exact load_floatable. Qed.
Lemma load_vec2_true v xs : load_vec2 true v = Some xs <-> floatable_rows v xs.
Proof. apply load_list_iff. exact load_vec_true. Qed.

Lemma load_all_weaker {X} (f g : pyval -> option X) : (forall v x, f v = Some x -> g v = Some x) ->
  forall l xs, load_all f l = Some xs -> load_all g l = Some xs.
Proof.
  intros H l. induction l as [|v l IH]; intros xs; cbn [load_all]; [exact (fun h => h)|].
  destruct (f v) as [x|] eqn:E; [|discriminate]. destruct (load_all f l) as [ys|] eqn:E'; [|discriminate].
  intros K. injection K as <-. rewrite (H _ _ E), (IH _ eq_refl). reflexivity.
Qed.
Lemma load_list_weaker {X} (f g : pyval -> option X) : (forall v x, f v = Some x -> g v = Some x) ->
  forall v xs, load_list f v = Some xs -> load_list g v = Some xs.
Proof. intros H v xs. destruct v; cbn [load_list]; try discriminate; apply load_all_weaker; exact H. Qed.

Lemma load_vec_weaker v xs : load_vec false v = Some xs -> load_vec true v = Some xs.
Proof. apply load_list_weaker. exact load_false_true. Qed.
Lemma load_vec2_weaker v xs : load_vec2 false v = Some xs -> load_vec2 true v = Some xs.
Proof. apply load_list_weaker. exact load_vec_weaker. Qed.

(** ** Two and three arguments *)
Definition call2 (c : bool) (a b : pyval) : option (res dstruct) :=
  match load_vec c a with
  | None => None
  | Some ts => match load_vec c b with
               | Some vs => Some (ds_1d ts vs)
               | None => match load_vec2 c b with Some vs => Some (ds_2d ts vs) | None => None end
               end
  end.
Lemma try_two o c a b : try_overloads c (init_overloads o) [a; b] = call2 c a b.
Proof.
  unfold init_overloads, call2. cbn [try_overloads init_file init_1d init_1d_err init_2d init_2d_err].
  destruct (load_vec c a); [|reflexivity]. destruct (load_vec c b); [reflexivity|]. destruct (load_vec2 c b); reflexivity.
Qed.

Definition call3 (c : bool) (a b e : pyval) : option (res dstruct) :=
  match load_vec c a with
  | None => None
  | Some ts =>
      match load_vec c b, load_vec c e with
      | Some vs, Some es => Some (ds_1d_err ts vs es)
      | _, _ => match load_vec2 c b, load_vec2 c e with
                | Some vs, Some es => Some (ds_2d_err ts vs es)
                | _, _ => None
                end
      end
  end.
Lemma try_three o c a b e : try_overloads c (init_overloads o) [a; b; e] = call3 c a b e.
Proof.
  unfold init_overloads, call3. cbn [try_overloads init_file init_1d init_1d_err init_2d init_2d_err].
  destruct (load_vec c a); [|reflexivity]. destruct (load_vec c b), (load_vec c e), (load_vec2 c b), (load_vec2 c e); reflexivity.
Qed.

(** ** Sequences of numbers *)
Lemma numbers_floatables v xs : numbers v xs -> floatables v xs.
Proof.
  assert (K : forall l xs, Forall2 number l xs -> Forall2 floatable l xs).
  { induction 1; constructor; [constructor; assumption|assumption]. }
  intros []; constructor; apply K; assumption.
Qed.
Lemma rows_floatable v xs : rows v xs -> floatable_rows v xs.
Proof.
  assert (K : forall l xs, Forall2 numbers l xs -> Forall2 floatables l xs).
  { induction 1; constructor; [apply numbers_floatables; assumption|assumption]. }
  intros []; constructor; apply K; assumption.
Qed.

(** a number is not a sequence *)
Lemma number_not_vec v x c : number v x -> load_vec c v = None.
Proof. intros []; reflexivity. Qed.
Lemma numbers_not_rows v xs c : numbers v xs -> xs <> [] -> load_vec2 c v = None.
Proof.
  intros H Hn. destruct H as [l xs H|l xs H]; (destruct H as [|w x l xs Hw _]; [congruence|]);
    cbn; rewrite (number_not_vec w x c Hw); reflexivity.
Qed.

Lemma two_numbers o t v ts vs : numbers t ts -> numbers v vs ->
  py_DataStructure o [t; v] = SACF_1d ts vs None.
Proof.
  intros Ht Hv. unfold py_DataStructure, dispatch. rewrite !try_two.
  pose proof (proj2 (load_vec_true _ _) (numbers_floatables _ _ Ht)) as Et.
  pose proof (proj2 (load_vec_true _ _) (numbers_floatables _ _ Hv)) as Ev.
  unfold call2. destruct (load_vec false t) as [ts'|] eqn:E1.
  - pose proof (load_vec_weaker _ _ E1) as X. rewrite Et in X. injection X as <-.
    destruct (load_vec false v) as [vs'|] eqn:E2.
    + pose proof (load_vec_weaker _ _ E2) as X. rewrite Ev in X. injection X as <-. reflexivity.
    + rewrite (numbers_not_rows v vs false Hv). { rewrite Et, Ev. reflexivity. }
      intros ->. inversion Hv as [l xs H|l xs H]; subst; inversion H; subst; discriminate.
  - rewrite Et, Ev. reflexivity.
Qed.


Lemma numbers_not_floatable w xs : numbers w xs -> (forall u, w <> PyArray [u]) -> load_double true w = None.
Proof.
  intros H Hn. destruct H as [l xs H|l xs H]; [reflexivity|]. cbn. destruct l as [|u [|]]; try reflexivity.
  exfalso. apply (Hn u). reflexivity.
Qed.

Lemma load_all_none {X} (f : pyval -> option X) l w : In w l -> f w = None -> load_all f l = None.
Proof.
  induction l as [|v l IH]; intros H E; [destruct H|]. destruct H as [->|H]; cbn [load_all].
  - rewrite E. reflexivity.
  - destruct (f v); [|reflexivity]. rewrite (IH H E). reflexivity.
Qed.

Lemma Forall2_In_l {X Y} (P : X -> Y -> Prop) l m x : Forall2 P l m -> In x l -> exists y, In y m /\ P x y.
Proof.
  induction 1 as [|a b l m H _ IH]; intros K; [destruct K|]. destruct K as [<-|K]; [exists b; split; [left; reflexivity|exact H]|].
  destruct (IH K) as (y & Hy & Hp). exists y. split; [right; exact Hy|exact Hp].
Qed.

Lemma rows_not_vec v vss : rows v vss -> not_a_column v -> load_vec true v = None.
Proof.
  intros H (w & Hw & Hn). destruct H as [l vss H|l vss H]; cbn [elements] in Hw;
    destruct (Forall2_In_l _ _ _ _ H Hw) as (y & _ & Hy);
    cbn [load_vec load_list]; apply (load_all_none _ _ w Hw); apply (numbers_not_floatable _ _ Hy Hn).
Qed.

Lemma vec_false_none v : load_vec true v = None -> load_vec false v = None.
Proof. intros H. destruct (load_vec false v) eqn:E; [|reflexivity]. apply load_vec_weaker in E. congruence. Qed.

Lemma two_rows o t v ts vss : numbers t ts -> rows v vss -> not_a_column v ->
  py_DataStructure o [t; v] = SACF_2d ts vss None.
Proof.
  intros Ht Hv Hc. unfold py_DataStructure, dispatch. rewrite !try_two.
  pose proof (proj2 (load_vec_true _ _) (numbers_floatables _ _ Ht)) as Et.
  pose proof (proj2 (load_vec2_true _ _) (rows_floatable _ _ Hv)) as Ev.
  pose proof (rows_not_vec v vss Hv Hc) as En. pose proof (vec_false_none v En) as En'.
  unfold call2. rewrite Et, En, En', Ev. destruct (load_vec false t) as [ts'|] eqn:E1; [|reflexivity].
  pose proof (load_vec_weaker _ _ E1) as X. rewrite Et in X. injection X as <-.
  destruct (load_vec2 false v) as [vss'|] eqn:E2; [|reflexivity].
  pose proof (load_vec2_weaker _ _ E2) as X. rewrite Ev in X. injection X as <-. reflexivity.
Qed.


Lemma float_seq v xs : sequence_of is_float v xs <-> load_vec false v = Some xs.
Proof. symmetry. apply load_list_iff. intros w x. rewrite load_false. split; [intros ->; constructor|intros []; reflexivity]. Qed.
Lemma float_seqs v xs : sequence_of (sequence_of is_float) v xs <-> load_vec2 false v = Some xs.
Proof. symmetry. apply load_list_iff. intros w x. symmetry. apply float_seq. Qed.

Lemma two_float_rows o t v ts vss : floats t ts -> float_rows v vss -> vss <> [] ->
  py_DataStructure o [t; v] = SACF_2d ts vss None.
Proof.
  intros Ht Hv Hn. apply float_seq in Ht. apply float_seqs in Hv.
  unfold py_DataStructure, dispatch. rewrite !try_two. unfold call2. rewrite Ht, Hv.
  destruct (load_vec false v) as [ys|] eqn:E; [|reflexivity].
  exfalso. apply float_seq in E. apply float_seqs in Hv.
  destruct E as [l xs E|l xs E]; (destruct E as [|w x l xs Hw _]; [inversion Hv as [? ? K|? ? K]; subst; inversion K; subst; congruence|]);
    destruct Hw; inversion Hv as [? ? K|? ? K]; subst; inversion K as [|? ? ? ? K' _]; subst; inversion K'.
Qed.

(** a column array with the times not all given as floats *)
Lemma two_column o t v ts vs : numbers t ts -> (forall ts', ~ floats t ts') -> floatables v vs ->
  py_DataStructure o [t; v] = SACF_1d ts vs None.
Proof.
  intros Ht Hn Hv. unfold py_DataStructure, dispatch. rewrite !try_two. unfold call2.
  rewrite (proj2 (load_vec_true _ _) (numbers_floatables _ _ Ht)).
  destruct (load_vec false t) as [ts'|] eqn:E; [exfalso; apply (Hn ts'), float_seq, E|].
  rewrite (proj2 (load_vec_true _ _) Hv). reflexivity.
Qed.

(** ** TypeError *)
Lemma setUp_not_TypeError (t v e : list num) N : setUp t v e N (length t) <> Throw PyTypeError.
Proof.
  intros H. destruct (setUp_cases t v e N _ H) as [[K _]|[[K _]|[[K _]|[K _]]]]; discriminate K.
Qed.

Lemma two_type_error o t v : py_DataStructure o [t; v] = Throw PyTypeError <->
  ~ ((exists ts, floatables t ts) /\ ((exists vs, floatables v vs) \/ (exists vss, floatable_rows v vss))).
Proof.
  unfold py_DataStructure, dispatch. rewrite !try_two. split.
  - intros H ((ts & Ht) & Hv). apply load_vec_true in Ht.
    assert (K : exists r, (match call2 false t v with Some r => r | None =>
        match call2 true t v with Some r => r | None => Throw PyTypeError end end) = r /\ r <> Throw PyTypeError).
    { eexists. split; [reflexivity|]. unfold call2. rewrite Ht.
      assert (Hr : match (match load_vec true v with Some vs => Some (ds_1d ts vs)
                          | None => match load_vec2 true v with Some vs => Some (ds_2d ts vs) | None => None end end) with
                   | Some r => r | None => Throw PyTypeError end <> Throw PyTypeError).
      { destruct Hv as [(vs & Hv)|(vss & Hv)].
        - apply load_vec_true in Hv. rewrite Hv. apply setUp_not_TypeError.
        - apply load_vec2_true in Hv. rewrite Hv. destruct (load_vec true v); apply setUp_not_TypeError. }
      destruct (load_vec false t); [|exact Hr].
      destruct (load_vec false v); [apply setUp_not_TypeError|].
      destruct (load_vec2 false v); [apply setUp_not_TypeError|exact Hr]. }
    destruct K as (r & <- & K). exact (K H).
  - intros H.
    assert (E : call2 true t v = None).
    { unfold call2. destruct (load_vec true t) as [ts|] eqn:Et; [|reflexivity]. apply load_vec_true in Et.
      destruct (load_vec true v) as [vs|] eqn:E1; [exfalso; apply H; split; [eauto|left; exists vs; apply load_vec_true, E1]|].
      destruct (load_vec2 true v) as [vs|] eqn:E2; [exfalso; apply H; split; [eauto|right; exists vs; apply load_vec2_true, E2]|].
      reflexivity. }
    assert (E' : call2 false t v = None).
    { revert E. unfold call2. destruct (load_vec false t) as [ts|] eqn:Et; [|reflexivity].
      rewrite (load_vec_weaker _ _ Et).
      destruct (load_vec false v) as [vs|] eqn:Ev; [rewrite (load_vec_weaker _ _ Ev); discriminate|].
      destruct (load_vec2 false v) as [vs|] eqn:Ev2; [rewrite (load_vec2_weaker _ _ Ev2); destruct (load_vec true v); discriminate|].
      reflexivity. }
    rewrite E, E'. reflexivity.
Qed.

(** ** With errors *)
Lemma three_numbers o t v e ts vs es : numbers t ts -> numbers v vs -> numbers e es ->
  py_DataStructure o [t; v; e] = SACF_1d ts vs (Some es).
Proof.
  intros Ht Hv He. unfold py_DataStructure, dispatch. rewrite !try_three.
  pose proof (proj2 (load_vec_true _ _) (numbers_floatables _ _ Ht)) as Et.
  pose proof (proj2 (load_vec_true _ _) (numbers_floatables _ _ Hv)) as Ev.
  pose proof (proj2 (load_vec_true _ _) (numbers_floatables _ _ He)) as Ee.
  unfold call3. rewrite Et, Ev, Ee.
  destruct (load_vec false t) as [ts'|] eqn:E1; [|reflexivity].
  pose proof (load_vec_weaker _ _ E1) as X. rewrite Et in X. injection X as <-.
  assert (K : forall w ws, numbers w ws -> load_vec false w = None -> load_vec2 false w = None).
  { intros w ws Hw E. apply (numbers_not_rows w ws false Hw).
    intros ->. inversion Hw as [l xs H|l xs H]; subst; inversion H; subst; discriminate. }
  destruct (load_vec false v) as [vs'|] eqn:E2.
  - pose proof (load_vec_weaker _ _ E2) as X. rewrite Ev in X. injection X as <-.
    destruct (load_vec false e) as [es'|] eqn:E3.
    + pose proof (load_vec_weaker _ _ E3) as X. rewrite Ee in X. injection X as <-. reflexivity.
    + rewrite (K e es He E3). destruct (load_vec2 false v); reflexivity.
  - rewrite (K v vs Hv E2). reflexivity.
Qed.

Lemma three_rows o t v e ts vss ess : numbers t ts -> rows v vss -> rows e ess -> not_a_column v \/ not_a_column e ->
  py_DataStructure o [t; v; e] = SACF_2d ts vss (Some ess).
Proof.
  intros Ht Hv He Hc. unfold py_DataStructure, dispatch. rewrite !try_three.
  pose proof (proj2 (load_vec_true _ _) (numbers_floatables _ _ Ht)) as Et.
  pose proof (proj2 (load_vec2_true _ _) (rows_floatable _ _ Hv)) as Ev.
  pose proof (proj2 (load_vec2_true _ _) (rows_floatable _ _ He)) as Ee.
  assert (En : load_vec true v = None \/ load_vec true e = None).
  { destruct Hc as [Hc|Hc]; [left|right]; eapply rows_not_vec; eassumption. }
  assert (En' : load_vec false v = None \/ load_vec false e = None).
  { destruct En as [En|En]; [left|right]; apply vec_false_none, En. }
  assert (K : forall c ts', match load_vec c v, load_vec c e with
      | Some vs, Some es => Some (ds_1d_err ts' vs es)
      | _, _ => match load_vec2 c v, load_vec2 c e with Some vs, Some es => Some (ds_2d_err ts' vs es) | _, _ => None end
      end = match load_vec2 c v, load_vec2 c e with Some vs, Some es => Some (ds_2d_err ts' vs es) | _, _ => None end).
  { intros c ts'. destruct c; [destruct En as [-> | ->]|destruct En' as [-> | ->]]; try reflexivity;
      [destruct (load_vec true v)|destruct (load_vec false v)]; reflexivity. }
  unfold call3. rewrite Et, !K, Ev, Ee.
  destruct (load_vec false t) as [ts'|] eqn:E1; [|reflexivity]. rewrite K.
  pose proof (load_vec_weaker _ _ E1) as X. rewrite Et in X. injection X as <-.
  destruct (load_vec2 false v) as [vss'|] eqn:E2; [|reflexivity].
  pose proof (load_vec2_weaker _ _ E2) as X. rewrite Ev in X. injection X as <-.
  destruct (load_vec2 false e) as [ess'|] eqn:E3; [|reflexivity].
  pose proof (load_vec2_weaker _ _ E3) as X. rewrite Ee in X. injection X as <-. reflexivity.
Qed.

Lemma three_type_error o t v e : py_DataStructure o [t; v; e] = Throw PyTypeError <->
  ~ ((exists ts, floatables t ts) /\
     ((exists vs, floatables v vs) /\ (exists es, floatables e es) \/
      (exists vss, floatable_rows v vss) /\ (exists ess, floatable_rows e ess))).
Proof.
  assert (M : forall c ts,
    (match load_vec c v, load_vec c e with
      | Some vs, Some es => Some (ds_1d_err ts vs es)
      | _, _ => match load_vec2 c v, load_vec2 c e with Some vs, Some es => Some (ds_2d_err ts vs es) | _, _ => None end
      end) <> None <->
    (load_vec c v <> None /\ load_vec c e <> None) \/ (load_vec2 c v <> None /\ load_vec2 c e <> None)).
  { intros c ts. destruct (load_vec c v), (load_vec c e), (load_vec2 c v), (load_vec2 c e);
      (split; [intros H; try (exfalso; apply H; reflexivity);
        ((left; split; discriminate) || (right; split; discriminate))
      |intros [[H1 H2]|[H1 H2]] K; try discriminate K; congruence]). }
  assert (T : forall c r, call3 c t v e = Some r -> r <> Throw PyTypeError).
  { intros c r. unfold call3. destruct (load_vec c t); [|discriminate].
    destruct (load_vec c v), (load_vec c e), (load_vec2 c v), (load_vec2 c e); intros H; try discriminate H;
      injection H as <-; apply setUp_not_TypeError. }
  assert (S : forall X (o1 o2 : option X), (forall x, o1 = Some x -> o2 = Some x) -> o1 <> None -> o2 <> None).
  { intros X o1 o2 H. destruct o1 as [x|]; [|congruence]. rewrite (H x eq_refl). discriminate. }
  unfold py_DataStructure, dispatch. rewrite !try_three.
  assert (W : call3 false t v e <> None -> call3 true t v e <> None).
  { unfold call3. destruct (load_vec false t) as [ts|] eqn:Et; [|congruence]. rewrite (load_vec_weaker _ _ Et).
    rewrite !M. intros [[H1 H2]|[H1 H2]]; [left|right]; split.
    - exact (S _ _ _ (load_vec_weaker v) H1).
    - exact (S _ _ _ (load_vec_weaker e) H2).
    - exact (S _ _ _ (load_vec2_weaker v) H1).
    - exact (S _ _ _ (load_vec2_weaker e) H2). }
  assert (Q : call3 true t v e <> None <-> ((exists ts, floatables t ts) /\
     ((exists vs, floatables v vs) /\ (exists es, floatables e es) \/
      (exists vss, floatable_rows v vss) /\ (exists ess, floatable_rows e ess)))).
  { assert (V : forall w, load_vec true w <> None <-> exists ws, floatables w ws).
    { intros w. destruct (load_vec true w) as [ws|] eqn:E; (split; [intros H|intros (ws' & H) K]).
      - exists ws. apply load_vec_true, E. - discriminate K. - congruence. - apply load_vec_true in H. congruence. }
    assert (V2 : forall w, load_vec2 true w <> None <-> exists ws, floatable_rows w ws).
    { intros w. destruct (load_vec2 true w) as [ws|] eqn:E; (split; [intros H|intros (ws' & H) K]).
      - exists ws. apply load_vec2_true, E. - discriminate K. - congruence. - apply load_vec2_true in H. congruence. }
    rewrite <- !V, <- !V2. unfold call3. destruct (load_vec true t) as [ts|] eqn:Et.
    - rewrite M. split; [intros H; split; [discriminate|exact H]|intros [_ H]; exact H].
    - split; [congruence|intros [H _]; congruence]. }
  rewrite <- Q. destruct (call3 false t v e) as [r|] eqn:E1.
  - split; [intros H; exfalso; exact (T _ _ E1 H)|]. intros H. exfalso. apply H, W. discriminate.
  - destruct (call3 true t v e) as [r|] eqn:E2.
    + split; [intros H; exfalso; exact (T _ _ E2 H)|]. intros H. exfalso. apply H. discriminate.
    + split; [intros _ H; apply H; reflexivity|reflexivity].
Qed.

(** ** Other numbers of arguments *)
Lemma one_argument o v : py_DataStructure o [v] =
  match v with PyStr s | PyBytes s => ds_file (o s) | _ => Throw PyTypeError end.
Proof. destruct v; reflexivity. Qed.
Lemma other_arguments o args : length args = 0 \/ 3 < length args -> py_DataStructure o args = Throw PyTypeError.
Proof. destruct args as [|a [|b [|c [|d args]]]]; cbn; intros [H|H]; try lia; reflexivity. Qed.

(** ** SACF() *)
Lemma sacf_filename o t v e s : s <> [] -> py_SACF o t v e (PyStr s) = ds_file (o s).
Proof. intros H. unfold py_SACF. cbn. destruct s; [congruence|]. reflexivity. Qed.
Lemma sacf_no_file o t v f : f = PyNone \/ f = PyStr [] -> py_SACF o t v PyNone f = py_DataStructure o [t; v].
Proof. intros [-> | ->]; reflexivity. Qed.
Lemma sacf_no_file_errors o t v e f : f = PyNone \/ f = PyStr [] -> e <> PyNone ->
  py_SACF o t v e f = py_DataStructure o [t; v; e].
Proof. intros [-> | ->] He; destruct e; try congruence; reflexivity. Qed.
Lemma sacf_nothing o e f : f = PyNone \/ f = PyStr [] -> py_SACF o PyNone PyNone e f = Throw PyTypeError.
Proof. intros [-> | ->]; destruct e; reflexivity. Qed.
Lemma sacf_empty_errors o t v e ts vs : numbers t ts -> numbers v vs -> numbers e [] ->
  py_SACF o t v e PyNone = py_SACF o t v PyNone PyNone.
Proof.
  intros Ht Hv He. rewrite (sacf_no_file o t v PyNone (or_introl eq_refl)).
  rewrite (sacf_no_file_errors o t v e PyNone (or_introl eq_refl)).
  - rewrite (three_numbers o t v e ts vs [] Ht Hv He), (two_numbers o t v ts vs Ht Hv). reflexivity.
  - intros ->. inversion He.
Qed.

(** ** autocorrelation(): numeric arguments *)
Lemma py_set_optional set c v x : optional v x ->
  py_set set c v = Ok (match x with Some y => set c y | None => c end).
Proof.
  intros []; [reflexivity|]. unfold py_set. apply load_floatable in H as E. rewrite E. destruct v0; try reflexivity. discriminate E.
Qed.
Lemma py_set_bad set c v : (forall x, ~ optional v x) -> py_set set c v = Throw PyTypeError.
Proof.
  intros H. unfold py_set. destruct (load_double true v) as [x|] eqn:E.
  - exfalso. apply (H (Some x)). constructor. apply load_floatable, E.
  - destruct v; try reflexivity. exfalso. apply (H None). constructor.
Qed.
Lemma optional_dec v : (exists x, optional v x) \/ (forall x, ~ optional v x).
Proof.
  destruct (load_double true v) as [x|] eqn:E.
  - left. exists (Some x). constructor. apply load_floatable, E.
  - destruct v; try (right; intros y K; inversion K as [|? ? K']; subst; apply load_floatable in K'; congruence).
    left. exists None. constructor.
Qed.

Lemma py_auto_optional p d v1 v2 v3 v4 x1 x2 x3 x4 sel wgt :
  optional v1 x1 -> optional v2 x2 -> optional v3 x3 -> optional v4 x4 ->
  py_autocorrelation p d v1 v2 v3 v4 sel wgt = autocorrelation p d x1 x2 x3 x4 sel wgt.
Proof.
  intros H1 H2 H3 H4. unfold py_autocorrelation, autocorrelation. destruct (new_Correlator d) as [c| | |]; try reflexivity.
  cbn [bind]. unfold py_set_up_correlation, set_up_correlation.
  rewrite (py_set_optional _ _ _ _ H2). cbn [bind]. rewrite (py_set_optional _ _ _ _ H1). cbn [bind].
  rewrite (py_set_optional _ _ _ _ H3). cbn [bind]. rewrite (py_set_optional _ _ _ _ H4). reflexivity.
Qed.

Lemma py_auto_bad p d v1 v2 v3 v4 c sel wgt : new_Correlator d = Ok c ->
  (exists v, In v [v1; v2; v3; v4] /\ forall x, ~ optional v x) ->
  py_autocorrelation p d v1 v2 v3 v4 sel wgt = Throw PyTypeError.
Proof.
  intros Hc (v & Hv & Hb). unfold py_autocorrelation. rewrite Hc. cbn [bind].
  enough (E : py_set_up_correlation c v1 v2 v3 v4 = Throw PyTypeError) by (rewrite E; reflexivity).
  unfold py_set_up_correlation.
  assert (K : forall set c v, (exists c', py_set set c v = Ok c') \/ (py_set set c v = Throw PyTypeError)).
  { intros set c' w. destruct (optional_dec w) as [(x & Hx)|Hx]; [left; rewrite (py_set_optional _ _ _ _ Hx); eauto|right; apply py_set_bad, Hx]. }
  destruct (K setMaxLag c v2) as [(c1 & E1)|E1]; rewrite E1; [cbn [bind]|reflexivity].
  destruct (K setMinLag c1 v1) as [(c2 & E2)|E2]; rewrite E2; [cbn [bind]|reflexivity].
  destruct (K setLagResolution c2 v3) as [(c3 & E3)|E3]; rewrite E3; [cbn [bind]|reflexivity].
  destruct (K setAlpha c3 v4) as [(c4 & E4)|E4]; rewrite E4; [|reflexivity].
  exfalso. destruct Hv as [<-|[<-|[<-|[<-|[]]]]]; rewrite (py_set_bad _ _ _ Hb) in *; discriminate.
Qed.

End PyFacts.
