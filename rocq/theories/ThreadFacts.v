(** Proofs about [Threads.v]: threads that do not share a Correlator. *)
From Coq Require Import String.
From Coq Require Import ZArith List Bool Arith Lia.
From Verif Require Import Num Mem DataStructure Correlator Sacf Api Threads SpecThreads CorrFacts LoopFacts StateFacts.
Import ListNotations.
Local Open Scope list_scope.

Section Facts.
Context {A : Num}.
Variable p : platform.

(** ** What is left of find_correlation, done at once *)
Definition fin (c1 : correlator) (last : option nat) : meth correlator unit :=
  match last with None => (c1, Throw PyUnboundLocalError) | Some i => cleanCorrelationData c1 (i + 1) end.
Definition len (c : correlator) : nat := length (timeseries_ c).
Definition loop_left (sel wgt : string) (fuel : nat) (l : locals) (n : nat) (c : correlator) : meth correlator unit :=
  mbind (find_loop p sel wgt fuel (l_max l) (l_res l) (l_gen l) n (l_i l) c) fin.

Definition left_store (sel wgt : string) (c : correlator) (l : locals) (it : cor_it) : meth correlator unit :=
  mbind (addCorrelationData c it (l_count l)) (fun c1 _ => loop_left sel wgt (len c - l_count l) l (S (l_count l)) c1).
Definition left_sum (sel wgt : string) (c : correlator) (l : locals) (it : cor_it) : meth correlator unit :=
  on_it c (findCorrelation p c it) (left_store sel wgt c l).
Definition left_weigh (sel wgt : string) (c : correlator) (l : locals) (it : cor_it) : meth correlator unit :=
  match WEIGHT_FUNCTIONS wgt with None => (c, Throw PyKeyError) | Some w => left_sum sel wgt c l (w c it) end.
Definition left_delta (sel wgt : string) (c : correlator) (l : locals) (it : cor_it) : meth correlator unit :=
  on_it c (deltaT p (ds c) it) (left_weigh sel wgt c l).
Definition left_select (sel wgt : string) (c : correlator) (l : locals) (it : cor_it) : meth correlator unit :=
  match SELECTION_FUNCTIONS p sel with None => (c, Throw PyKeyError) | Some f => on_it c (f c it) (left_delta sel wgt c l) end.

Definition rest_find (sel wgt : string) (c : correlator) (s : find_at) : meth correlator unit :=
  match s with
  | ReadMin => find_correlation p c sel wgt
  | ReadMax minl => mbind (find_loop p sel wgt (S (len c)) (max_lag c) (lag_resolution c) (gen_start minl) 0 None c) fin
  | ReadRes minl maxl => mbind (find_loop p sel wgt (S (len c)) maxl (lag_resolution c) (gen_start minl) 0 None c) fin
  | NextLag l => loop_left sel wgt (S (len c) - l_count l) l (l_count l) c
  | Select l it => left_select sel wgt c l it
  | Delta l it => left_delta sel wgt c l it
  | Weigh l it => left_weigh sel wgt c l it
  | Sum l it => left_sum sel wgt c l it
  | Store l it => left_store sel wgt c l it
  | Clean n => cleanCorrelationData c n
  | Stop r => (c, r)
  end.

Definition ok_find (c : correlator) (s : find_at) : Prop :=
  match s with
  | NextLag l => l_count l <= len c
  | Select l _ | Delta l _ | Weigh l _ | Sum l _ | Store l _ => l_count l <= len c /\ l_i l = Some (l_count l)
  | _ => True
  end.

(** a bound on the number of steps *)
Definition steps_left (n : nat) (s : find_at) : nat :=
  match s with
  | ReadMin => 8 * S n + 5 | ReadMax _ => 8 * S n + 4 | ReadRes _ _ => 8 * S n + 3
  | NextLag l => 8 * (S n - l_count l) + 2
  | Select l _ => 8 * (n - l_count l) + 9
  | Delta l _ => 8 * (n - l_count l) + 8
  | Weigh l _ => 8 * (n - l_count l) + 7
  | Sum l _ => 8 * (n - l_count l) + 6
  | Store l _ => 8 * (n - l_count l) + 5
  | Clean _ => 1
  | Stop _ => 0
  end.

Lemma on_it_mbind c x f (k : correlator -> unit -> meth correlator unit) : mbind (on_it c x f) k = on_it c x (fun it => mbind (f it) k).
Proof. destruct x as [it [[]|e|u|]]; reflexivity. Qed.
Lemma on_it_ext c x (f g : cor_it -> meth correlator unit) : (forall it, f it = g it) -> on_it c x f = on_it c x g.
Proof. intros H. destruct x as [it [[]|e|u|]]; cbn; auto. Qed.

Lemma loop_left_next sel wgt n l c : l_count l <= n -> len c = n ->
  loop_left sel wgt (S n - l_count l) l (l_count l) c =
  match gen_next (l_max l) (l_res l) (l_gen l) with
  | None => fin c (l_i l)
  | Some (kk, g) => left_select sel wgt c {| l_max := l_max l; l_res := l_res l; l_gen := g; l_count := l_count l; l_i := Some (l_count l) |}
                      (CorrelationIterator kk (N_datasets (ds c)))
  end.
Proof.
  intros H Hn. unfold loop_left. replace (S n - l_count l) with (S (n - l_count l)) by lia. cbn [find_loop].
  destruct (gen_next (l_max l) (l_res l) (l_gen l)) as [[kk g]|]; [|reflexivity].
  rewrite mbind_assoc. unfold find_correlation_at, left_select. destruct (SELECTION_FUNCTIONS p sel) as [f|]; [|reflexivity].
  rewrite on_it_mbind. apply on_it_ext. intros it1. unfold left_delta. rewrite on_it_mbind. apply on_it_ext. intros it2.
  unfold left_weigh. destruct (WEIGHT_FUNCTIONS wgt) as [w|]; [|reflexivity]. unfold left_sum. rewrite on_it_mbind. apply on_it_ext. intros it3.
  unfold left_store, loop_left. cbn [l_count l_max l_res l_gen l_i]. rewrite Hn. reflexivity.
Qed.

Lemma find_step_rest sel wgt c s c' s' : ok_find c s -> find_step p sel wgt c s = (c', s') ->
  rest_find sel wgt c' s' = rest_find sel wgt c s /\ ok_find c' s' /\ len c' = len c \/
  rest_find sel wgt c s = (c', match s' with Stop r => r | _ => Diverge end) /\ exists r, s' = Stop r.
Proof.
  intros Ho E. destruct s; cbn [find_step] in E.
  - injection E as <- <-. left. repeat split.
  - injection E as <- <-. left. repeat split.
  - injection E as <- <-. left. split; [|split; [cbn; lia|reflexivity]]. cbn [rest_find l_count]. rewrite Nat.sub_0_r. reflexivity.
  - cbn [ok_find] in Ho. cbn [rest_find]. rewrite (loop_left_next sel wgt (len c) l c Ho eq_refl).
    destruct (gen_next (l_max l) (l_res l) (l_gen l)) as [[kk g]|]; injection E as <- <-.
    + left. split; [reflexivity|]. split; [|reflexivity]. cbn. auto.
    + unfold fin. destruct (l_i l); [left; split; [reflexivity|split; [exact I|reflexivity]]|]. right. split; [reflexivity|eauto].
  - injection E as <- <-. cbn [rest_find]. unfold left_select. destruct (SELECTION_FUNCTIONS p sel) as [f|]; [|right; split; [reflexivity|eauto]].
    destruct (f c it) as [it1 [[]|e|u|]]; cbn [and_then on_it]; [|right; split; [reflexivity|eauto]..]. left. split; [reflexivity|]. split; [exact Ho|reflexivity].
  - injection E as <- <-. cbn [rest_find]. unfold left_delta.
    destruct (deltaT p (ds c) it) as [it1 [[]|e|u|]]; cbn [and_then on_it]; [|right; split; [reflexivity|eauto]..]. left. split; [reflexivity|]. split; [exact Ho|reflexivity].
  - injection E as <- <-. cbn [rest_find]. unfold left_weigh. destruct (WEIGHT_FUNCTIONS wgt) as [w|]; [|right; split; [reflexivity|eauto]].
    left. split; [reflexivity|]. split; [exact Ho|reflexivity].
  - injection E as <- <-. cbn [rest_find]. unfold left_sum.
    destruct (findCorrelation p c it) as [it1 [[]|e|u|]]; cbn [and_then on_it]; [|right; split; [reflexivity|eauto]..]. left. split; [reflexivity|]. split; [exact Ho|reflexivity].
  - destruct (addCorrelationData c it (l_count l)) as [c1 r] eqn:Ea. injection E as <- <-. cbn [rest_find]. unfold left_store. rewrite Ea.
    pose proof (add_cases _ _ _ _ _ Ea) as [_ [L1 [_ K]]]. destruct r as [[]|e|u|]; cbn [mbind]; [|right; split; [reflexivity|eauto]..].
    destruct K as [[_ K]|[u K]]; [|discriminate K]. left. split; [|split; [|exact L1]].
    + cbn [rest_find l_count]. unfold loop_left. cbn [l_max l_res l_gen l_i]. unfold len at 1. rewrite L1. fold (len c). replace (S (len c) - S (l_count l)) with (len c - l_count l) by lia. reflexivity.
    + cbn [ok_find l_count]. unfold len. rewrite L1. exact K.
  - destruct (cleanCorrelationData c n) as [c1 r] eqn:Ea. injection E as <- <-. right. cbn [rest_find]. rewrite Ea. split; [reflexivity|eauto].
  - injection E as <- <-. right. split; [reflexivity|eauto].
Qed.

Lemma find_step_fewer sel wgt c s c' s' : ok_find c s -> find_step p sel wgt c s = (c', s') -> (forall r, s <> Stop r) ->
  steps_left (len c') s' < steps_left (len c) s \/ (exists r, s' = Stop r).
Proof.
  intros Ho E Hs. destruct (find_step_rest sel wgt c s c' s' Ho E) as [[_ [_ L]]|[_ R]]; [|right; exact R]. left. rewrite L.
  destruct s; cbn [find_step] in E.
  - injection E as <- <-. cbn [steps_left]. lia.
  - injection E as <- <-. cbn [steps_left]. lia.
  - injection E as <- <-. cbn [steps_left l_count]. lia.
  - cbn [ok_find] in Ho. destruct (gen_next (l_max l) (l_res l) (l_gen l)) as [[kk g]|]; injection E as <- <-.
    + cbn [steps_left l_count]. lia.
    + destruct (l_i l); cbn [steps_left]; lia.
  - injection E as <- <-. destruct (SELECTION_FUNCTIONS p sel) as [f|]; [|cbn [steps_left]; lia].
    destruct (f c it) as [it1 [[]|e|u|]]; cbn [and_then steps_left]; lia.
  - injection E as <- <-. destruct (deltaT p (ds c) it) as [it1 [[]|e|u|]]; cbn [and_then steps_left]; lia.
  - injection E as <- <-. destruct (WEIGHT_FUNCTIONS wgt) as [w|]; cbn [steps_left]; lia.
  - injection E as <- <-. destruct (findCorrelation p c it) as [it1 [[]|e|u|]]; cbn [and_then steps_left]; lia.
  - destruct (addCorrelationData c it (l_count l)) as [c1 r] eqn:Ea. injection E as <- <-. destruct Ho as [Ho _]. destruct r as [[]|e|u|]; cbn [steps_left l_count]; lia.
  - destruct (cleanCorrelationData c n) as [c1 r] eqn:Ea. injection E as <- <-. cbn [steps_left]. lia.
  - destruct (Hs r). reflexivity.
Qed.

(** ** What is left of a thread, done at once *)
Definition auto_cost (d : dstruct) (n : nat) : nat :=
  match new_Correlator d with Ok c0 => n + steps_left (len c0) ReadMin + 7 | _ => 1 end.
Definition call_cost (c : correlator) (o : op) : nat := match o with Find _ _ => S (steps_left (len c) ReadMin) | _ => 1 end.

Fixpoint seq_works (h : heap) (ws : list work) : heap * list report * nat :=
  match ws with
  | [] => (h, [], 0)
  | Call a o :: ws' =>
      match nth_error h a with
      | None => (h, [], 0)
      | Some c =>
          let (c', r) := run_op p c o in
          if undefined r then (replace h a c', [Ended r], call_cost c o)
          else let '(h', l, n) := seq_works (replace h a c') ws' in (h', Ended r :: l, call_cost c o + n)
      end
  | Auto d mi ma re al sel wgt :: ws' =>
      let r := visible (autocorrelation p d mi ma re al sel wgt) in
      if undefined r then (h, [Returned r], auto_cost d (length (assignments mi ma re al)))
      else let '(h', l, n) := seq_works h ws' in (h', Returned r :: l, auto_cost d (length (assignments mi ma re al)) + n)
  end.

Definition after_call (h : heap) (t : thread) (u : bool) (rep : report) (n : nat) : heap * list report * nat :=
  if u then (h, log t ++ [rep], n)
  else let '(h', l, m) := seq_works h (todo t) in (h', log t ++ rep :: l, n + m).

Definition rest_auto (m : meth correlator unit) : res (list num * py_corr) := do _u <- snd m; result_of (fst m).
Definition pick (lags : list num) (n : nat) (cs : list (list num)) : res (list num * py_corr) :=
  if 1 <? n then Ok (lags, Nested cs) else match cs with [] => Throw PyIndexError | row :: _ => Ok (lags, Flat row) end.
Definition assigned (c : correlator) (os : list op) : correlator := fold_left (fun c o => fst (run_op p c o)) os c.
Definition auto_left (c : correlator) (k : control) : res (list num * py_corr) :=
  match k with
  | SetUp _ os sel wgt =>
      rest_auto (if String.eqb sel "natural" && String.eqb wgt "fractional" then calculateStandardCorrelation p (assigned c os) else find_correlation p (assigned c os) sel wgt)
  | AutoFind _ sel wgt s => rest_auto (rest_find sel wgt c s)
  | ReadLags _ => result_of c
  | ReadLen _ lags => do cs <- correlations c; pick lags (length cs) cs
  | ReadRows _ lags n => do cs <- correlations c; pick lags n cs
  | _ => Diverge
  end.
Definition auto_steps (c : correlator) (k : control) : nat :=
  match k with
  | SetUp _ os _ _ => length os + steps_left (len c) ReadMin + 5
  | AutoFind _ _ _ s => steps_left (len c) s + 4
  | ReadLags _ => 3 | ReadLen _ _ => 2 | _ => 1
  end.

Definition rest_thread (h : heap) (t : thread) : heap * list report * nat :=
  match doing t with
  | Idle => let '(h', l, n) := seq_works h (todo t) in (h', log t ++ l, n)
  | InFind a sel wgt s =>
      match nth_error h a with
      | None => (h, log t, 0)
      | Some c => let (c', r) := rest_find sel wgt c s in after_call (replace h a c') t (undefined r) (Ended r) (steps_left (len c) s)
      end
  | SetUp a _ _ _ | AutoFind a _ _ _ | ReadLags a | ReadLen a _ | ReadRows a _ _ =>
      match nth_error h a with
      | None => (h, log t, 0)
      | Some c => let r := auto_left c (doing t) in after_call h t (undefined r) (Returned r) (auto_steps c (doing t))
      end
  end.

(** ** Objects of no concern *)
Definition agree (P : nat -> Prop) (h h' : heap) : Prop := forall a, P a -> nth_error h a = nth_error h' a.

Lemma replace_length h : forall a c, length (replace h a c) = length h.
Proof. induction h as [|x h IH]; intros [|a] c; cbn; auto. Qed.
Lemma replace_nth h : forall a c b, nth_error (replace h a c) b = if (b =? a) && (a <? length h) then Some c else nth_error h b.
Proof.
  induction h as [|x h IH]; intros a c b.
  - cbn [replace length]. destruct a; rewrite andb_comm; reflexivity.
  - destruct a, b; cbn [replace nth_error]; try reflexivity. rewrite IH. reflexivity.
Qed.
Lemma replace_same h a c b x : nth_error h a = Some x -> nth_error (replace h a c) b = if b =? a then Some c else nth_error h b.
Proof.
  intros H. rewrite replace_nth. assert (L : a < length h) by (apply nth_error_Some; congruence).
  destruct (Nat.ltb_spec a (length h)); [|lia]. rewrite andb_true_r. reflexivity.
Qed.
Lemma agree_replace (P : nat -> Prop) h h' a c : P a -> agree P h h' -> agree P (replace h a c) (replace h' a c).
Proof.
  intros Ha H b Hb. rewrite !replace_nth. rewrite (H b Hb). destruct (Nat.eqb_spec b a) as [->|]; [|reflexivity]. cbn [andb].
  assert (L : (a <? length h) = (a <? length h')).
  { specialize (H a Ha). destruct (Nat.ltb_spec a (length h)) as [K|K], (Nat.ltb_spec a (length h')) as [K'|K']; try reflexivity.
    - apply nth_error_None in K'. apply nth_error_Some in K. congruence.
    - apply nth_error_None in K. apply nth_error_Some in K'. congruence. }
  rewrite L. reflexivity.
Qed.

Definition same_rest (P : nat -> Prop) (x y : heap * list report * nat) : Prop :=
  agree P (fst (fst x)) (fst (fst y)) /\ snd (fst x) = snd (fst y) /\ snd x = snd y.

Lemma seq_works_ext (P : nat -> Prop) ws : forall h h', (forall a, uses ws a -> P a) -> agree P h h' -> same_rest P (seq_works h ws) (seq_works h' ws).
Proof.
  induction ws as [|w ws IH]; intros h h' Hu Ha; [split; [exact Ha|split; reflexivity]|].
  assert (Hu' : forall a, uses ws a -> P a) by (intros a [o Ho]; apply Hu; exists o; right; exact Ho).
  destruct w as [a o|d mi ma re al sel wgt]; cbn [seq_works].
  - assert (Pa : P a) by (apply Hu; exists o; left; reflexivity). rewrite <- (Ha a Pa). destruct (nth_error h a) as [c|]; [|split; [exact Ha|split; reflexivity]].
    destruct (run_op p c o) as [c' r]. destruct (undefined r); [split; [apply agree_replace; assumption|split; reflexivity]|].
    specialize (IH (replace h a c') (replace h' a c') Hu' (agree_replace P h h' a c' Pa Ha)).
    destruct (seq_works (replace h a c') ws) as [[h1 l1] n1], (seq_works (replace h' a c') ws) as [[h2 l2] n2].
    destruct IH as [K1 [K2 K3]]. cbn in *. split; [exact K1|]. split; cbn; congruence.
  - destruct (undefined _); [split; [exact Ha|split; reflexivity]|]. specialize (IH h h' Hu' Ha).
    destruct (seq_works h ws) as [[h1 l1] n1], (seq_works h' ws) as [[h2 l2] n2]. destruct IH as [K1 [K2 K3]]. cbn in *. split; [exact K1|]. split; cbn; congruence.
Qed.

Lemma after_call_ext (P : nat -> Prop) h h' t u rep n : (forall a, uses (todo t) a -> P a) -> agree P h h' -> same_rest P (after_call h t u rep n) (after_call h' t u rep n).
Proof.
  intros Hu Ha. unfold after_call. destruct u; [split; [exact Ha|split; reflexivity]|].
  pose proof (seq_works_ext P (todo t) h h' Hu Ha) as K. destruct (seq_works h (todo t)) as [[h1 l1] n1], (seq_works h' (todo t)) as [[h2 l2] n2].
  destruct K as [K1 [K2 K3]]. cbn in *. split; [exact K1|]. split; cbn; congruence.
Qed.

(** the object a call of autocorrelation works on *)
Definition own (t : thread) : option nat :=
  match doing t with SetUp a _ _ _ | AutoFind a _ _ _ | ReadLags a | ReadLen a _ | ReadRows a _ _ => Some a | _ => None end.

(** the steps of a thread whose objects are those of [P] and its own *)
Definition valid (P : nat -> Prop) (h : heap) (t : thread) : Prop :=
  (forall a, uses (todo t) a -> P a) /\ (forall a, P a -> a < length h) /\
  (forall a, own t = Some a -> ~ P a /\ a < length h) /\
  match doing t with
  | InFind a _ _ s => P a /\ (forall c, nth_error h a = Some c -> ok_find c s) /\ forall r, s <> Stop r
  | AutoFind a _ _ s => (forall c, nth_error h a = Some c -> ok_find c s) /\ forall r, s <> Stop r
  | SetUp _ os _ _ => forall o c, In o os -> len (fst (run_op p c o)) = len c
  | _ => True
  end.

Lemma rest_ext (P : nat -> Prop) h h' t : valid P h t -> agree P h h' -> (forall a, own t = Some a -> nth_error h a = nth_error h' a) ->
  same_rest P (rest_thread h t) (rest_thread h' t).
Proof.
  intros [Hu [Hl [Ho Hd]]] Ha Hown. unfold rest_thread, own in *. destruct (doing t) as [|a sel wgt s|a os sel wgt|a sel wgt s|a|a lags|a lags n] eqn:Et.
  - pose proof (seq_works_ext P (todo t) h h' Hu Ha) as K. destruct (seq_works h (todo t)) as [[h1 l1] n1], (seq_works h' (todo t)) as [[h2 l2] n2].
    destruct K as [K1 [K2 K3]]. cbn in *. split; [exact K1|]. split; cbn; congruence.
  - destruct Hd as [Pa _]. rewrite <- (Ha a Pa). destruct (nth_error h a) as [c|]; [|split; [exact Ha|split; reflexivity]].
    destruct (rest_find sel wgt c s) as [c' r]. apply after_call_ext; [exact Hu|]. apply agree_replace; assumption.
  - rewrite <- (Hown a eq_refl). destruct (nth_error h a) as [c|]; [|split; [exact Ha|split; reflexivity]]. apply after_call_ext; assumption.
  - rewrite <- (Hown a eq_refl). destruct (nth_error h a) as [c|]; [|split; [exact Ha|split; reflexivity]]. apply after_call_ext; assumption.
  - rewrite <- (Hown a eq_refl). destruct (nth_error h a) as [c|]; [|split; [exact Ha|split; reflexivity]]. apply after_call_ext; assumption.
  - rewrite <- (Hown a eq_refl). destruct (nth_error h a) as [c|]; [|split; [exact Ha|split; reflexivity]]. apply after_call_ext; assumption.
  - rewrite <- (Hown a eq_refl). destruct (nth_error h a) as [c|]; [|split; [exact Ha|split; reflexivity]]. apply after_call_ext; assumption.
Qed.

(** ** One step of the thread itself *)
Implicit Types P : nat -> Prop.

Definition less_rest (P : nat -> Prop) (x y : heap * list report * nat) : Prop :=
  agree P (fst (fst x)) (fst (fst y)) /\ snd (fst x) = snd (fst y) /\ snd x < snd y.

Lemma undefined_failed {X Y} (r : res X) : undefined (failed (Y := Y) r) = match r with Ok _ => true | _ => undefined r end.
Proof. destruct r; reflexivity. Qed.

Lemma agree_refl P h : agree P h h.
Proof. intros a _. reflexivity. Qed.

(** a call is over *)
Lemma finish_rest P h h' t u rep n m : (forall a, uses (todo t) a -> P a) -> agree P h' h -> m < n ->
  less_rest P (let '(h1, l, k) := seq_works h' (todo (finish t (todo t) u rep)) in (h1, log (finish t (todo t) u rep) ++ l, m + k)) (after_call h t u rep n).
Proof.
  intros Hu Ha Hm. unfold after_call, finish. cbn [todo log]. destruct u.
  - cbn [seq_works]. split; [exact Ha|]. cbn. split; [apply app_nil_r|lia].
  - pose proof (seq_works_ext P (todo t) h' h Hu Ha) as K. destruct (seq_works h' (todo t)) as [[h1 l1] n1], (seq_works h (todo t)) as [[h2 l2] n2].
    destruct K as [K1 [K2 K3]]. cbn in *. split; [exact K1|]. cbn. subst l2 n2. rewrite <- app_assoc. split; [reflexivity|lia].
Qed.

(** it goes on *)
Lemma goes_on_rest P h h' t t' u rep n n' : (forall a, uses (todo t) a -> P a) -> agree P h' h -> n' < n -> todo t' = todo t -> log t' = log t ->
  less_rest P (after_call h' t' u rep n') (after_call h t u rep n).
Proof.
  intros Hu Ha Hm E1 E2. unfold after_call. rewrite E1, E2. destruct u; [split; [exact Ha|split; [reflexivity|exact Hm]]|].
  pose proof (seq_works_ext P (todo t) h' h Hu Ha) as K. destruct (seq_works h' (todo t)) as [[h1 l1] n1], (seq_works h (todo t)) as [[h2 l2] n2].
  destruct K as [K1 [K2 K3]]. cbn in *. split; [exact K1|]. cbn. subst l2 n2. split; [reflexivity|lia].
Qed.

Lemma replace_agree P h a c : ~ P a -> agree P (replace h a c) h.
Proof. intros H b Hb. rewrite replace_nth. destruct (Nat.eqb_spec b a) as [->|]; [contradiction|reflexivity]. Qed.
Lemma snoc_agree P h c : (forall a, P a -> a < length h) -> agree P (h ++ [c]) h.
Proof. intros H b Hb. apply nth_error_app1. apply H. exact Hb. Qed.
Lemma replace_twice_agree P h a c c' : agree P (replace (replace h a c) a c') (replace h a c').
Proof. intros b _. rewrite !replace_nth, replace_length. destruct (b =? a) eqn:E, (a <? length h); reflexivity. Qed.

Lemma auto_visible d mi ma re al sel wgt : visible (autocorrelation p d mi ma re al sel wgt) =
  match new_Correlator d with
  | Ok c0 => auto_left c0 (SetUp 0 (assignments mi ma re al) sel wgt)
  | r => failed r
  end.
Proof.
  unfold visible, autocorrelation. destruct (new_Correlator d) as [c0|e|u|]; cbn [bind failed]; try reflexivity.
  unfold auto_left, rest_auto.
  assert (E : assigned c0 (assignments mi ma re al) = set_up_correlation c0 mi ma re al).
  { unfold assigned, assignments, set_up_correlation. destruct mi, ma, re, al; reflexivity. }
  rewrite E. destruct (if _ && _ then _ else _) as [c2 [[]|e|u|]]; cbn [fst snd bind]; try reflexivity.
  destruct (result_of c2) as [[x y]|e|u|]; reflexivity.
Qed.

Lemma find_step_cases sel wgt c s c' s' : ok_find c s -> (forall r, s <> Stop r) -> find_step p sel wgt c s = (c', s') ->
  (exists r, s' = Stop r /\ rest_find sel wgt c s = (c', r)) \/
  ((forall r, s' <> Stop r) /\ rest_find sel wgt c' s' = rest_find sel wgt c s /\ ok_find c' s' /\ steps_left (len c') s' < steps_left (len c) s).
Proof.
  intros Ho Hs E. pose proof (find_step_fewer sel wgt c s c' s' Ho E Hs) as F. destruct (find_step_rest sel wgt c s c' s' Ho E) as [[R [O _]]|[R [r ->]]].
  - destruct s'; try (right; split; [discriminate|]; split; [exact R|]; split; [exact O|]; destruct F as [F|[r F]]; [exact F|discriminate F]).
    left. exists r. split; [reflexivity|]. symmetry. exact R.
  - left. exists r. split; [reflexivity|exact R].
Qed.
Lemma steps_left_pos n s : (forall r, s <> Stop r) -> 0 < steps_left n s.
Proof. intros H. destruct s; cbn [steps_left]; try lia. destruct (H r). reflexivity. Qed.

Lemma valid_finish P h t ws u rep : (forall a, uses ws a -> P a) -> (forall a, P a -> a < length h) -> valid P h (finish t ws u rep).
Proof.
  intros Hu Hl. split; [|split; [exact Hl|split; [intros a Ha; discriminate Ha|exact I]]].
  intros a [o Hb]. cbn [finish todo] in Hb. destruct u; [destruct Hb|]. apply Hu. exists o. exact Hb.
Qed.

Lemma after_call_todo h t ws u rep n l : todo t = ws -> log t = l ->
  after_call h t u rep n = after_call h {| doing := Idle; todo := ws; log := l |} u rep n.
Proof. intros <- <-. reflexivity. Qed.

Lemma finish_rest' P h h' t ws u rep n m : (forall a, uses ws a -> P a) -> agree P h' h -> m < n ->
  less_rest P (let '(h1, l, k) := seq_works h' (todo (finish t ws u rep)) in (h1, log (finish t ws u rep) ++ l, m + k))
     (after_call h (goes_on t ws Idle) u rep n).
Proof. intros Hu Ha Hm. apply (finish_rest P h h' (goes_on t ws Idle) u rep n m Hu Ha Hm). Qed.

Lemma rest_finish h t ws u rep : rest_thread h (finish t ws u rep) =
  let '(h1, l, k) := seq_works h (todo (finish t ws u rep)) in (h1, log (finish t ws u rep) ++ l, 0 + k).
Proof. reflexivity. Qed.

Lemma seq_call h a o ws c t : nth_error h a = Some c ->
  (let '(h', l, n) := seq_works h (Call a o :: ws) in (h', log t ++ l, n)) =
  let (c', r) := run_op p c o in after_call (replace h a c') (goes_on t ws Idle) (undefined r) (Ended r) (call_cost c o).
Proof.
  intros E. cbn [seq_works]. rewrite E. destruct (run_op p c o) as [c' r]. unfold after_call. destruct (undefined r); [reflexivity|].
  cbn [goes_on todo log]. destruct (seq_works (replace h a c') ws) as [[h1 l1] n1]. reflexivity.
Qed.
Lemma seq_auto h d mi ma re al sel wgt ws t :
  (let '(h', l, n) := seq_works h (Auto d mi ma re al sel wgt :: ws) in (h', log t ++ l, n)) =
  let r := visible (autocorrelation p d mi ma re al sel wgt) in
  after_call h (goes_on t ws Idle) (undefined r) (Returned r) (auto_cost d (length (assignments mi ma re al))).
Proof.
  cbn [seq_works]. cbv zeta. unfold after_call. destruct (undefined _); [reflexivity|].
  cbn [goes_on todo log]. destruct (seq_works h ws) as [[h1 l1] n1]. reflexivity.
Qed.

Lemma assignments_len mi ma re al o c : In o (assignments mi ma re al) -> len (fst (run_op p c o)) = len c.
Proof.
  unfold assignments. intros H. apply in_app_or in H. destruct H as [H|H]; [|apply in_app_or in H; destruct H as [H|H]; [|apply in_app_or in H; destruct H as [H|H]]].
  - destruct ma; [|destruct H]. destruct H as [<-|[]]. reflexivity.
  - destruct mi; [|destruct H]. destruct H as [<-|[]]. reflexivity.
  - destruct re; [|destruct H]. destruct H as [<-|[]]. reflexivity.
  - destruct al; [|destruct H]. destruct H as [<-|[]]. reflexivity.
Qed.

Lemma call_step (h : heap) t a o ws c : 
  (exists sel wgt, o = Find sel wgt) \/
  (call_cost c o = 1 /\
   match o with
   | Find sel wgt => (h, goes_on t ws (InFind a sel wgt ReadMin))
   | _ => let (c', r) := run_op p c o in (replace h a c', finish t ws (undefined r) (Ended r))
   end = let (c', r) := run_op p c o in (replace h a c', finish t ws (undefined r) (Ended r))).
Proof. destruct o; first [right; split; reflexivity | left; do 2 eexists; reflexivity]. Qed.

Lemma step_own P h t h' t' : valid P h t -> thread_step p h t = (h', t') -> ~ finished t ->
  valid P h' t' /\ length h <= length h' /\ less_rest P (rest_thread h' t') (rest_thread h t) /\
  (forall a, a < length h -> ~ P a -> own t <> Some a -> nth_error h' a = nth_error h a) /\
  (forall a, own t' = Some a -> own t = Some a \/ a = length h).
Proof.
  intros V E Hf. pose proof V as [Hu [Hl [Ho Hd]]]. unfold thread_step, on in E. unfold own in Ho.
  destruct (doing t) as [|a sel wgt s|a os sel wgt|a sel wgt s|a|a lags|a lags n] eqn:Et.
  - destruct (todo t) as [|w ws] eqn:Ew; [destruct Hf; split; assumption|].
    assert (Hu' : forall a, uses ws a -> P a) by (intros b [o Hb]; apply Hu; exists o; right; exact Hb).
    assert (ER : rest_thread h t = let '(h', l, n) := seq_works h (w :: ws) in (h', log t ++ l, n)) by (unfold rest_thread; rewrite Et, Ew; reflexivity).
    rewrite ER. clear ER. unfold own at 1. rewrite Et. destruct w as [a o|d mi ma re al sel wgt].
    + assert (Pa : P a) by (apply Hu; exists o; left; reflexivity).
      destruct (nth_error h a) as [c|] eqn:Ec; [|apply nth_error_None in Ec; specialize (Hl a Pa); lia]. rewrite (seq_call h a o ws c t Ec).
      destruct (call_step h t a o ws c) as [[sel [wgt ->]]|[C1 K]].
      * injection E as <- <-. split; [|split; [lia|split; [|split; [reflexivity|intros b Hb; discriminate Hb]]]].
        { split; [exact Hu'|]. split; [exact Hl|]. split; [intros b Hb; discriminate Hb|]. cbn. split; [exact Pa|]. split; [intros; exact I|discriminate]. }
        unfold rest_thread. cbn [goes_on doing]. rewrite Ec. cbn [rest_find run_op]. destruct (find_correlation p c sel wgt) as [c' r].
        apply goes_on_rest; [exact Hu'|apply agree_refl|cbn [call_cost]; lia|reflexivity|reflexivity].
      * rewrite K in E. clear K. destruct (run_op p c o) as [c' r]. injection E as <- <-.
        split; [apply valid_finish; [exact Hu'|]; intros b Hb; rewrite replace_length; apply Hl; exact Hb|]. rewrite replace_length. split; [lia|]. split.
        { rewrite rest_finish. apply finish_rest'; [exact Hu'|apply agree_refl|lia]. }
        split; [|intros b Hb; discriminate Hb]. intros b Hb Pb _. rewrite replace_nth. destruct (Nat.eqb_spec b a) as [->|]; [contradiction|reflexivity].
    + rewrite seq_auto. cbv zeta. rewrite auto_visible. unfold auto_cost. destruct (new_Correlator d) as [c0|e|u|] eqn:Ed; injection E as <- <-.
      * split; [|split; [rewrite app_length; cbn; lia|split; [|split; [|intros b Hb; right; injection Hb as <-; reflexivity]]]].
        { split; [exact Hu'|]. split; [intros b Hb; rewrite app_length; specialize (Hl b Hb); lia|]. split; [|intros o c Hoc; apply (assignments_len mi ma re al); exact Hoc].
          intros b Hb. injection Hb as <-. split; [intros K; specialize (Hl _ K); lia|rewrite app_length; cbn; lia]. }
        { unfold rest_thread. cbn [goes_on doing]. rewrite nth_error_app2, Nat.sub_diag by lia. cbn [nth_error]. cbv zeta.
          apply goes_on_rest; [exact Hu'|apply snoc_agree; exact Hl|cbn [auto_steps]; lia|reflexivity|reflexivity]. }
        intros b Hb _ _. apply nth_error_app1. exact Hb.
      * split; [apply valid_finish; assumption|]. split; [lia|]. split; [rewrite rest_finish; apply finish_rest'; [exact Hu'|apply agree_refl|lia]|]. split; [reflexivity|intros b Hb; discriminate Hb].
      * split; [apply valid_finish; assumption|]. split; [lia|]. split; [rewrite rest_finish; apply finish_rest'; [exact Hu'|apply agree_refl|lia]|]. split; [reflexivity|intros b Hb; discriminate Hb].
      * split; [apply valid_finish; assumption|]. split; [lia|]. split; [rewrite rest_finish; apply finish_rest'; [exact Hu'|apply agree_refl|lia]|]. split; [reflexivity|intros b Hb; discriminate Hb].
  - destruct Hd as [Pa [Hok Hns]]. destruct (nth_error h a) as [c|] eqn:Ec; [|apply nth_error_None in Ec; specialize (Hl a Pa); lia].
    assert (ER : rest_thread h t = let (c', r) := rest_find sel wgt c s in after_call (replace h a c') (goes_on t (todo t) Idle) (undefined r) (Ended r) (steps_left (len c) s)).
    { unfold rest_thread. rewrite Et, Ec. destruct (rest_find sel wgt c s) as [c' r]. reflexivity. }
    rewrite ER. clear ER. destruct (find_step p sel wgt c s) as [c' s'] eqn:Es.
    assert (Hl' : forall x b, P b -> b < length (replace h a x)) by (intros x b Hb; rewrite replace_length; apply Hl; exact Hb).
    assert (Fr : forall b, b < length h -> ~ P b -> own t <> Some b -> nth_error (replace h a c') b = nth_error h b).
    { intros b Hb Pb _. rewrite replace_nth. destruct (Nat.eqb_spec b a) as [->|]; [contradiction|reflexivity]. }
    destruct (find_step_cases sel wgt c s c' s' (Hok c eq_refl) Hns Es) as [[r [-> R]]|[Ns [R [O F]]]].
    + injection E as <- <-. rewrite R. split; [apply valid_finish; [exact Hu|apply Hl']|]. rewrite replace_length. split; [lia|]. split; [|split; [exact Fr|intros b Hb; discriminate Hb]].
      rewrite rest_finish. apply finish_rest'; [exact Hu|apply agree_refl|apply steps_left_pos; exact Hns].
    + assert (E' : (replace h a c', goes_on t (todo t) (InFind a sel wgt s')) = (h', t')) by (rewrite <- E; destruct s'; try reflexivity; destruct (Ns r); reflexivity).
      injection E' as <- <-. rewrite replace_length. split; [|split; [lia|split; [|split; [exact Fr|intros b Hb; discriminate Hb]]]].
      * split; [exact Hu|]. split; [apply Hl'|]. split; [intros b Hb; discriminate Hb|]. cbn [goes_on doing]. split; [exact Pa|]. split; [|exact Ns].
        intros c2 Hc2. rewrite (replace_same h a c' a c Ec), Nat.eqb_refl in Hc2. injection Hc2 as <-. exact O.
      * unfold rest_thread. cbn [goes_on doing]. rewrite (replace_same h a c' a c Ec), Nat.eqb_refl. rewrite R. destruct (rest_find sel wgt c s) as [c2 r].
        apply goes_on_rest; [exact Hu|apply replace_twice_agree|exact F|reflexivity|reflexivity].
  - destruct (Ho a eq_refl) as [Na La]. destruct (nth_error h a) as [c|] eqn:Ec; [|apply nth_error_None in Ec; lia].
    assert (Hl' : forall x b, P b -> b < length (replace h a x)) by (intros x b Hb; rewrite replace_length; apply Hl; exact Hb).
    assert (ER : rest_thread h t = after_call h (goes_on t (todo t) Idle) (undefined (auto_left c (SetUp a os sel wgt))) (Returned (auto_left c (SetUp a os sel wgt))) (auto_steps c (SetUp a os sel wgt))).
    { unfold rest_thread. rewrite Et, Ec. reflexivity. }
    assert (Ow : own t = Some a) by (unfold own; rewrite Et; reflexivity).
    assert (Fr : forall x b, b < length h -> ~ P b -> own t <> Some b -> nth_error (replace h a x) b = nth_error h b).
    { intros x b Hb Pb Nb. rewrite replace_nth. destruct (Nat.eqb_spec b a) as [->|]; [contradiction|reflexivity]. }
    rewrite ER. clear ER. destruct os as [|o os].
    + cbn [auto_left auto_steps]. change (assigned c []) with c. destruct (String.eqb sel "natural" && String.eqb wgt "fractional").
      * destruct (calculateStandardCorrelation p c) as [c' r] eqn:Es. unfold rest_auto. cbn [fst snd].
        destruct r as [[]|e|u|]; cbn [bind]; injection E as <- <-; rewrite replace_length.
        { split; [|split; [lia|split; [|split; [apply Fr|intros b Hb; left; rewrite Ow; exact Hb]]]].
          - split; [exact Hu|]. split; [apply Hl'|]. split; [|exact I]. intros b Hb. injection Hb as <-. split; [exact Na|rewrite replace_length; exact La].
          - unfold rest_thread. cbn [goes_on doing]. rewrite (replace_same h a c' a c Ec), Nat.eqb_refl. cbv zeta. cbn [auto_left].
            apply goes_on_rest; [exact Hu|apply replace_agree; exact Na|cbn [auto_steps]; lia|reflexivity|reflexivity]. }
        all: (split; [apply valid_finish; [exact Hu|apply Hl']|split; [lia|split; [rewrite rest_finish; apply finish_rest'; [exact Hu|apply replace_agree; exact Na|lia]|split; [apply Fr|intros b Hb; discriminate Hb]]]]).
      * injection E as <- <-. split; [|split; [lia|split; [|split; [reflexivity|intros b Hb; left; rewrite Ow; exact Hb]]]].
        { split; [exact Hu|]. split; [exact Hl|]. split; [|split; [intros; exact I|discriminate]]. intros b Hb. injection Hb as <-. split; assumption. }
        unfold rest_thread. cbn [goes_on doing]. rewrite Ec. cbv zeta. apply goes_on_rest; [exact Hu|apply agree_refl|cbn [auto_steps length]; lia|reflexivity|reflexivity].
    + injection E as <- <-. rewrite replace_length. split; [|split; [lia|split; [|split; [apply Fr|intros b Hb; left; rewrite Ow; exact Hb]]]].
      * split; [exact Hu|]. split; [apply Hl'|]. split; [|intros o' c' Hin; apply Hd; right; exact Hin]. intros b Hb. injection Hb as <-. split; [exact Na|rewrite replace_length; exact La].
      * unfold rest_thread. cbn [goes_on doing]. rewrite (replace_same h a _ a c Ec), Nat.eqb_refl. cbv zeta.
        change (auto_left c (SetUp a (o :: os) sel wgt)) with (auto_left (fst (run_op p c o)) (SetUp a os sel wgt)).
        apply goes_on_rest; [exact Hu|apply replace_agree; exact Na| |reflexivity|reflexivity]. cbn [auto_steps length]. rewrite (Hd o c) by (left; reflexivity). lia.
  - destruct (Ho a eq_refl) as [Na La]. destruct Hd as [Hok Hns]. destruct (nth_error h a) as [c|] eqn:Ec; [|apply nth_error_None in Ec; lia].
    assert (Hl' : forall x b, P b -> b < length (replace h a x)) by (intros x b Hb; rewrite replace_length; apply Hl; exact Hb).
    assert (ER : rest_thread h t = after_call h (goes_on t (todo t) Idle) (undefined (rest_auto (rest_find sel wgt c s))) (Returned (rest_auto (rest_find sel wgt c s))) (steps_left (len c) s + 4)).
    { unfold rest_thread. rewrite Et, Ec. reflexivity. }
    assert (Ow : own t = Some a) by (unfold own; rewrite Et; reflexivity).
    assert (Fr : forall x b, b < length h -> ~ P b -> own t <> Some b -> nth_error (replace h a x) b = nth_error h b).
    { intros x b Hb Pb Nb. rewrite replace_nth. destruct (Nat.eqb_spec b a) as [->|]; [contradiction|reflexivity]. }
    rewrite ER. clear ER. destruct (find_step p sel wgt c s) as [c' s'] eqn:Es.
    destruct (find_step_cases sel wgt c s c' s' (Hok c eq_refl) Hns Es) as [[r [-> R]]|[Ns [R [O F]]]].
    + rewrite R. unfold rest_auto. cbn [fst snd]. destruct r as [[]|e|u|]; cbn [bind]; injection E as <- <-; rewrite replace_length.
      { split; [|split; [lia|split; [|split; [apply Fr|intros b Hb; left; rewrite Ow; exact Hb]]]].
        - split; [exact Hu|]. split; [apply Hl'|]. split; [|exact I]. intros b Hb. injection Hb as <-. split; [exact Na|rewrite replace_length; exact La].
        - unfold rest_thread. cbn [goes_on doing]. rewrite (replace_same h a c' a c Ec), Nat.eqb_refl. cbv zeta. cbn [auto_left].
          apply goes_on_rest; [exact Hu|apply replace_agree; exact Na| |reflexivity|reflexivity]. pose proof (steps_left_pos (len c) s Hns). cbn [auto_steps]. lia. }
      all: (split; [apply valid_finish; [exact Hu|apply Hl']|split; [lia|split; [rewrite rest_finish; apply finish_rest'; [exact Hu|apply replace_agree; exact Na|lia]|split; [apply Fr|intros b Hb; discriminate Hb]]]]).
    + assert (E' : (replace h a c', goes_on t (todo t) (AutoFind a sel wgt s')) = (h', t')) by (rewrite <- E; destruct s'; try reflexivity; destruct (Ns r); reflexivity).
      injection E' as <- <-. rewrite replace_length. split; [|split; [lia|split; [|split; [apply Fr|intros b Hb; left; rewrite Ow; exact Hb]]]].
      * split; [exact Hu|]. split; [apply Hl'|]. split; [intros b Hb; injection Hb as <-; split; [exact Na|rewrite replace_length; exact La]|]. cbn [goes_on doing]. split; [|exact Ns].
        intros c2 Hc2. rewrite (replace_same h a c' a c Ec), Nat.eqb_refl in Hc2. injection Hc2 as <-. exact O.
      * unfold rest_thread. cbn [goes_on doing]. rewrite (replace_same h a c' a c Ec), Nat.eqb_refl. cbv zeta. cbn [auto_left auto_steps]. rewrite R.
        apply goes_on_rest; [exact Hu|apply replace_agree; exact Na|lia|reflexivity|reflexivity].
  - destruct (Ho a eq_refl) as [Na La]. destruct (nth_error h a) as [c|] eqn:Ec; [|apply nth_error_None in Ec; lia].
    assert (Ow : own t = Some a) by (unfold own; rewrite Et; reflexivity).
    assert (ER : rest_thread h t = after_call h (goes_on t (todo t) Idle) (undefined (auto_left c (ReadLen a (lag_timeseries c)))) (Returned (auto_left c (ReadLen a (lag_timeseries c)))) 3).
    { unfold rest_thread. rewrite Et, Ec. reflexivity. }
    rewrite ER. clear ER. injection E as <- <-. split; [|split; [lia|split; [|split; [reflexivity|intros b Hb; left; rewrite Ow; exact Hb]]]].
    + split; [exact Hu|]. split; [exact Hl|]. split; [|exact I]. intros b Hb. injection Hb as <-. split; assumption.
    + unfold rest_thread. cbn [goes_on doing]. rewrite Ec. cbv zeta. apply goes_on_rest; [exact Hu|apply agree_refl|cbn [auto_steps]; lia|reflexivity|reflexivity].
  - destruct (Ho a eq_refl) as [Na La]. destruct (nth_error h a) as [c|] eqn:Ec; [|apply nth_error_None in Ec; lia].
    assert (Ow : own t = Some a) by (unfold own; rewrite Et; reflexivity).
    assert (ER : rest_thread h t = after_call h (goes_on t (todo t) Idle) (undefined (auto_left c (ReadLen a lags))) (Returned (auto_left c (ReadLen a lags))) 2).
    { unfold rest_thread. rewrite Et, Ec. reflexivity. }
    rewrite ER. clear ER. cbn [auto_left]. destruct (correlations c) as [cs|e|u|] eqn:Ecs; cbn [bind]; injection E as <- <-.
    + split; [|split; [lia|split; [|split; [reflexivity|intros b Hb; left; rewrite Ow; exact Hb]]]].
      * split; [exact Hu|]. split; [exact Hl|]. split; [|exact I]. intros b Hb. injection Hb as <-. split; assumption.
      * unfold rest_thread. cbn [goes_on doing]. rewrite Ec. cbv zeta. cbn [auto_left]. rewrite Ecs. cbn [bind].
        apply goes_on_rest; [exact Hu|apply agree_refl|cbn [auto_steps]; lia|reflexivity|reflexivity].
    + split; [apply valid_finish; assumption|split; [lia|split; [rewrite rest_finish; apply finish_rest'; [exact Hu|apply agree_refl|lia]|split; [reflexivity|intros b Hb; discriminate Hb]]]].
    + split; [apply valid_finish; assumption|split; [lia|split; [rewrite rest_finish; apply finish_rest'; [exact Hu|apply agree_refl|lia]|split; [reflexivity|intros b Hb; discriminate Hb]]]].
    + split; [apply valid_finish; assumption|split; [lia|split; [rewrite rest_finish; apply finish_rest'; [exact Hu|apply agree_refl|lia]|split; [reflexivity|intros b Hb; discriminate Hb]]]].
  - destruct (Ho a eq_refl) as [Na La]. destruct (nth_error h a) as [c|] eqn:Ec; [|apply nth_error_None in Ec; lia].
    assert (Ow : own t = Some a) by (unfold own; rewrite Et; reflexivity).
    assert (ER : rest_thread h t = after_call h (goes_on t (todo t) Idle) (undefined (auto_left c (ReadRows a lags n))) (Returned (auto_left c (ReadRows a lags n))) 1).
    { unfold rest_thread. rewrite Et, Ec. reflexivity. }
    rewrite ER. clear ER. cbn [auto_left]. destruct (correlations c) as [cs|e|u|] eqn:Ecs; cbn [bind]; injection E as <- <-.
    + split; [apply valid_finish; assumption|split; [lia|split; [|split; [reflexivity|intros b Hb; discriminate Hb]]]].
      assert (Eu : undefined (pick lags n cs) = false) by (unfold pick; destruct (1 <? n); [reflexivity|destruct cs; reflexivity]). rewrite Eu.
      rewrite rest_finish; apply finish_rest'; [exact Hu|apply agree_refl|lia].
    + split; [apply valid_finish; assumption|split; [lia|split; [rewrite rest_finish; apply finish_rest'; [exact Hu|apply agree_refl|lia]|split; [reflexivity|intros b Hb; discriminate Hb]]]].
    + split; [apply valid_finish; assumption|split; [lia|split; [rewrite rest_finish; apply finish_rest'; [exact Hu|apply agree_refl|lia]|split; [reflexivity|intros b Hb; discriminate Hb]]]].
    + split; [apply valid_finish; assumption|split; [lia|split; [rewrite rest_finish; apply finish_rest'; [exact Hu|apply agree_refl|lia]|split; [reflexivity|intros b Hb; discriminate Hb]]]].
Qed.

(** ** All threads *)
Lemma set_thread_nth ts : forall i t j, nth_error (set_thread ts i t) j = if (j =? i) && (i <? length ts) then Some t else nth_error ts j.
Proof.
  induction ts as [|x ts IH]; intros i t j.
  - cbn [set_thread length]. destruct i; rewrite andb_comm; reflexivity.
  - destruct i, j; cbn [set_thread nth_error]; try reflexivity. rewrite IH. reflexivity.
Qed.
Lemma set_thread_same ts i t j x : nth_error ts i = Some x -> nth_error (set_thread ts i t) j = if j =? i then Some t else nth_error ts j.
Proof.
  intros H. rewrite set_thread_nth. assert (L : i < length ts) by (apply nth_error_Some; congruence).
  destruct (Nat.ltb_spec i (length ts)); [|lia]. rewrite andb_true_r. reflexivity.
Qed.

Lemma finished_step h t : finished t -> thread_step p h t = (h, t).
Proof. intros [H1 H2]. unfold thread_step. rewrite H1, H2. reflexivity. Qed.
Lemma finished_dec t : finished t \/ ~ finished t.
Proof. unfold finished. destruct (doing t); [|right; intros [K _]; discriminate K..]. destruct (todo t); [left; auto|right; intros [_ K]; discriminate K]. Qed.
Lemma finished_rest h t : finished t -> rest_thread h t = (h, log t, 0).
Proof. intros [H1 H2]. unfold rest_thread. rewrite H1, H2. cbn. rewrite app_nil_r. reflexivity. Qed.

Section Disjoint.
Variables (P : nat -> nat -> Prop) (n0 : nat).
Hypothesis Pn0 : forall i a, P i a -> a < n0.
Hypothesis Pdisj : forall i j a, i <> j -> P i a -> P j a -> False.

Definition wf (s : system) : Prop :=
  n0 <= length (mem s) /\
  (forall i t, nth_error (threads s) i = Some t -> valid (P i) (mem s) t /\ forall a, own t = Some a -> n0 <= a) /\
  (forall i j t t' a, i <> j -> nth_error (threads s) i = Some t -> nth_error (threads s) j = Some t' -> own t = Some a -> own t' <> Some a).

(** what a step of thread [i] does to what is left of thread [j] *)
Definition moved (i j : nat) (s s' : system) (t t' : thread) : Prop :=
  agree (P j) (fst (fst (rest_thread (mem s') t'))) (fst (fst (rest_thread (mem s) t))) /\
  snd (fst (rest_thread (mem s') t')) = snd (fst (rest_thread (mem s) t)) /\
  snd (rest_thread (mem s') t') <= snd (rest_thread (mem s) t) /\
  (finished t -> t' = t) /\
  (i = j -> ~ finished t -> snd (rest_thread (mem s') t') < snd (rest_thread (mem s) t)).

Lemma valid_ext Q h h' t : valid Q h t -> length h <= length h' -> agree Q h h' -> (forall a, own t = Some a -> nth_error h a = nth_error h' a) -> valid Q h' t.
Proof.
  intros [Hu [Hl [Ho Hd]]] Le Ha Hown. split; [exact Hu|]. split; [intros a Pa; specialize (Hl a Pa); lia|].
  split; [intros a Oa; destruct (Ho a Oa); split; [assumption|lia]|]. unfold own in Hown. destruct (doing t) as [|a sel wgt s|a os sel wgt|a sel wgt s|a|a lags|a lags n]; auto.
  - destruct Hd as [Pa [K1 K2]]. split; [exact Pa|]. split; [|exact K2]. intros c Hc. apply K1. rewrite (Ha a Pa). exact Hc.
  - destruct Hd as [K1 K2]. split; [|exact K2]. intros c Hc. apply K1. rewrite (Hown a eq_refl). exact Hc.
Qed.

Lemma step_system s i : wf s ->
  wf (system_step p s i) /\
  (forall j t, nth_error (threads s) j = Some t -> exists t', nth_error (threads (system_step p s i)) j = Some t' /\ moved i j s (system_step p s i) t t') /\
  (forall a, a < n0 -> (forall j, ~ P j a) -> nth_error (mem (system_step p s i)) a = nth_error (mem s) a) /\
  length (threads (system_step p s i)) = length (threads s).
Proof.
  intros [W0 [W1 W2]]. unfold system_step. destruct (nth_error (threads s) i) as [ti|] eqn:Ei.
  2:{ split; [split; [exact W0|split; assumption]|]. split; [|split; reflexivity]. intros j t Hj. exists t. split; [exact Hj|]. split; [apply agree_refl|]. split; [reflexivity|]. split; [lia|].
      split; [reflexivity|]. intros -> _. congruence. }
  destruct (finished_dec ti) as [Fi|Fi].
  { rewrite (finished_step _ _ Fi).
    assert (Ns : forall j, nth_error (set_thread (threads s) i ti) j = nth_error (threads s) j).
    { intros j. rewrite (set_thread_same _ _ _ _ _ Ei). destruct (Nat.eqb_spec j i) as [->|]; auto. }
    split.
    { split; [exact W0|]. split; cbn [mem threads].
      - intros j t. rewrite Ns. apply W1.
      - intros j k t t' a. rewrite !Ns. apply W2. }
    split; [|split; [reflexivity|]].
    - intros j t Hj. exists t. cbn [threads mem]. rewrite Ns. split; [exact Hj|]. split; [apply agree_refl|]. split; [reflexivity|]. split; [cbn; lia|]. split; [reflexivity|].
      intros -> K. congruence.
    - cbn [threads]. clear. generalize (threads s). intros ts. revert i. induction ts as [|x ts IH]; intros [|i]; cbn; auto. }
  destruct (thread_step p (mem s) ti) as [h' t'] eqn:Es. destruct (W1 i ti Ei) as [Vi Oi].
  destruct (step_own (P i) (mem s) ti h' t' Vi Es Fi) as [V' [Le [L [Fr Ow]]]].
  assert (Oth : forall j t, j <> i -> nth_error (threads s) j = Some t -> agree (P j) (mem s) h' /\ forall a, own t = Some a -> nth_error (mem s) a = nth_error h' a).
  { intros j t Hji Hj. destruct (W1 j t Hj) as [Vj Oj]. split.
    - intros a Pa. symmetry. apply Fr.
      + pose proof (Pn0 j a Pa). lia.
      + intros K. exact (Pdisj j i a Hji Pa K).
      + intros K. pose proof (Oi a K). pose proof (Pn0 j a Pa). lia.
    - intros a Oa. symmetry. destruct Vj as [_ [_ [Vo _]]]. destruct (Vo a Oa) as [_ La]. apply Fr; [exact La| |].
      + intros K. pose proof (Pn0 i a K). pose proof (Oj a Oa). lia.
      + intros K. exact (W2 i j ti t a (fun e => Hji (eq_sym e)) Ei Hj K Oa). }
  assert (Ns : forall j, nth_error (set_thread (threads s) i t') j = if j =? i then Some t' else nth_error (threads s) j) by (intros j; apply (set_thread_same _ _ _ _ _ Ei)).
  assert (On : forall a, own t' = Some a -> n0 <= a) by (intros a Oa; destruct (Ow a Oa) as [K| ->]; [apply Oi; exact K|exact W0]).
  assert (Od : forall j t a, j <> i -> nth_error (threads s) j = Some t -> own t = Some a -> own t' <> Some a).
  { intros j t a Hji Hj Oa K. destruct (Ow a K) as [K'| ->]; [exact (W2 j i t ti a Hji Hj Ei Oa K')|].
    destruct (W1 j t Hj) as [[_ [_ [Vo _]]] _]. destruct (Vo _ Oa). lia. }
  split.
  { split; [cbn [mem]; lia|]. split; cbn [mem threads].
    - intros j t. rewrite Ns. destruct (Nat.eqb_spec j i) as [->|Hji].
      + intros K. injection K as <-. split; assumption.
      + intros Hj. destruct (W1 j t Hj) as [Vj Oj]. split; [|exact Oj]. destruct (Oth j t Hji Hj) as [K1 K2]. apply (valid_ext (P j) (mem s)); assumption.
    - intros j k t tk a Hjk. rewrite !Ns. destruct (Nat.eqb_spec j i) as [->|Hji], (Nat.eqb_spec k i) as [->|Hki].
      + congruence.
      + intros K Hk O1 O2. injection K as <-. exact (Od k tk a Hki Hk O2 O1).
      + intros Hj K O1 O2. injection K as <-. exact (Od j t a Hji Hj O1 O2).
      + intros Hj Hk. exact (W2 j k t tk a Hjk Hj Hk). }
  split; [|split].
  - intros j t Hj. cbn [threads mem]. rewrite Ns. destruct (Nat.eqb_spec j i) as [->|Hji].
    + rewrite Ei in Hj. injection Hj as <-. exists t'. split; [reflexivity|]. destruct L as [L1 [L2 L3]]. split; [exact L1|]. split; [exact L2|]. cbn [mem]. split; [lia|]. split; [contradiction|]. intros _ _. exact L3.
    + exists t. split; [exact Hj|]. destruct (Oth j t Hji Hj) as [K1 K2]. destruct (W1 j t Hj) as [Vj _].
      destruct (rest_ext (P j) (mem s) h' t Vj K1 K2) as [R1 [R2 R3]]. unfold moved. cbn [mem]. split; [intros a Pa; symmetry; apply R1; exact Pa|]. split; [auto|]. split; [lia|]. split; [reflexivity|]. intros E. congruence.
  - intros a Ha Hn. cbn [mem]. apply Fr; [lia|apply Hn|]. intros K. pose proof (Oi a K). lia.
  - cbn [threads]. clear. generalize (threads s). intros ts. revert i. induction ts as [|x ts IH]; intros [|i]; cbn; auto.
Qed.

Lemma run_system schedule : forall s, wf s ->
  let s' := run_threads p schedule s in
  (forall j t, nth_error (threads s) j = Some t -> exists t', nth_error (threads s') j = Some t' /\
     agree (P j) (fst (fst (rest_thread (mem s') t'))) (fst (fst (rest_thread (mem s) t))) /\
     snd (fst (rest_thread (mem s') t')) = snd (fst (rest_thread (mem s) t)) /\
     (finished t -> t' = t) /\
     (finished t' \/ snd (rest_thread (mem s') t') + turns j schedule <= snd (rest_thread (mem s) t))) /\
  (forall a, a < n0 -> (forall j, ~ P j a) -> nth_error (mem s') a = nth_error (mem s) a) /\
  length (threads s') = length (threads s).
Proof.
  induction schedule as [|i sch IH]; intros s W; cbv zeta.
  - cbn [run_threads fold_left]. split; [|split; reflexivity]. intros j t Hj. exists t. split; [exact Hj|]. split; [apply agree_refl|]. split; [reflexivity|]. split; [reflexivity|]. right. cbn. lia.
  - cbn [run_threads fold_left]. fold (run_threads p sch (system_step p s i)). destruct (step_system s i W) as [W' [M [Fr Ln]]]. specialize (IH _ W'). cbv zeta in IH. destruct IH as [I1 [I2 I3]].
    split; [|split; [intros a Ha Hn; rewrite I2 by assumption; apply Fr; assumption|rewrite I3; exact Ln]].
    intros j t Hj. destruct (M j t Hj) as [t1 [Hj1 [M1 [M2 [M3 [M4 M5]]]]]]. destruct (I1 j t1 Hj1) as [t2 [Hj2 [K1 [K2 [K3 K4]]]]]. exists t2. split; [exact Hj2|].
    split; [intros a Pa; rewrite (K1 a Pa); apply M1; exact Pa|]. split; [congruence|]. split; [intros F; rewrite (M4 F) in K3; exact (K3 F)|].
    destruct K4 as [K4|K4]; [left; exact K4|]. cbn [turns]. destruct (Nat.eqb_spec i j) as [->|Hij]; [|right; lia].
    destruct (finished_dec t) as [Ft|Ft]; [left; rewrite (M4 Ft) in K3; rewrite (K3 Ft); exact Ft|]. right. specialize (M5 eq_refl Ft). lia.
Qed.
End Disjoint.

(** ** Against the program run alone *)
Lemma undefined_iff {X} (r : res X) : undefined r = true <-> is_undefined r.
Proof. unfold is_undefined. destruct r; cbn; split; intros H; try discriminate H; auto; try (destruct H as [[? H]|H]; discriminate H). left. eauto. Qed.
Lemma undefined_not {X} (r : res X) : undefined r = false -> ~ is_undefined r.
Proof. intros H K. apply undefined_iff in K. congruence. Qed.

Lemma seq_alone ws : forall h, (forall a, uses ws a -> a < length h) -> alone p h ws (fst (fst (seq_works h ws))) (snd (fst (seq_works h ws))).
Proof.
  induction ws as [|w ws IH]; intros h Hu; [constructor|]. assert (Hu' : forall a, uses ws a -> a < length h) by (intros b [o Hb]; apply Hu; exists o; right; exact Hb).
  destruct w as [a o|d mi ma re al sel wgt]; cbn [seq_works].
  - assert (La : a < length h) by (apply Hu; exists o; left; reflexivity). destruct (nth_error h a) as [c|] eqn:Ec; [|apply nth_error_None in Ec; lia].
    destruct (run_op p c o) as [c' r] eqn:Er. destruct (undefined r) eqn:Eu.
    + eapply alone_call_undefined; [exact Ec|exact Er|]. apply undefined_iff. exact Eu.
    + assert (K : forall b, uses ws b -> b < length (replace h a c')) by (intros b Hb; rewrite replace_length; apply Hu'; exact Hb). specialize (IH _ K).
      destruct (seq_works (replace h a c') ws) as [[h1 l1] n1]. eapply alone_call; [exact Ec|exact Er|apply undefined_not; exact Eu|exact IH].
  - destruct (undefined _) eqn:Eu.
    + eapply alone_auto_undefined; [reflexivity|]. apply undefined_iff. exact Eu.
    + specialize (IH h Hu'). destruct (seq_works h ws) as [[h1 l1] n1]. eapply alone_auto; [reflexivity|apply undefined_not; exact Eu|exact IH].
Qed.

Lemma alone_det h ws h' l : alone p h ws h' l -> forall h'' l', alone p h ws h'' l' -> h'' = h' /\ l' = l.
Proof.
  induction 1 as [h|h a o ws c c' r h' l E1 E2 Hn _ IH|h a o ws c c' r E1 E2 Hy|h d mi ma re al sel wgt ws h' l r E Hn _ IH|h d mi ma re al sel wgt ws r E Hy]; intros h'' l' K; inversion K; subst.
  - auto.
  - assert (c0 = c) by congruence. subst c0. assert (c'0 = c' /\ r0 = r) as [-> ->] by (split; congruence). destruct (IH _ _ H8) as [-> ->]. auto.
  - assert (c0 = c) by congruence. subst c0. assert (c'0 = c' /\ r0 = r) as [-> ->] by (split; congruence). contradiction.
  - assert (c0 = c) by congruence. subst c0. assert (c'0 = c' /\ r0 = r) as [-> ->] by (split; congruence). contradiction.
  - assert (c0 = c) by congruence. subst c0. assert (c'0 = c' /\ r0 = r) as [-> ->] by (split; congruence). auto.
  - match goal with K : alone _ _ ws h'' ?x |- _ => destruct (IH _ _ K) as [-> ->] end. auto.
  - contradiction.
  - contradiction.
  - auto.
Qed.

Definition nobody_shares (h : heap) (progs : list (list work)) : Prop :=
  (forall i ws a, nth_error progs i = Some ws -> uses ws a -> a < length h) /\
  (forall i j wi wj a, i <> j -> nth_error progs i = Some wi -> nth_error progs j = Some wj -> uses wi a -> ~ uses wj a).

Definition mine (progs : list (list work)) (i a : nat) : Prop := exists ws, nth_error progs i = Some ws /\ uses ws a.

Lemma begin_nth h progs i t : nth_error (threads (begin h progs)) i = Some t <-> exists ws, nth_error progs i = Some ws /\ t = {| doing := Idle; todo := ws; log := [] |}.
Proof.
  cbn [begin threads]. rewrite nth_error_map. destruct (nth_error progs i) as [ws|]; cbn; split.
  - intros K. injection K as <-. eauto.
  - intros [w [K ->]]. injection K as <-. reflexivity.
  - discriminate.
  - intros [w [K _]]. discriminate K.
Qed.

Lemma begin_wf h progs : nobody_shares h progs -> wf (mine progs) (length h) (begin h progs).
Proof.
  intros [H1 H2]. split; [cbn; lia|]. split.
  - intros i t Ht. apply begin_nth in Ht. destruct Ht as [ws [Hw ->]]. split; [|intros a Ha; discriminate Ha]. split; [intros a Ha; exists ws; auto|].
    split; [intros a [w [Hw' Ha]]; cbn; eapply H1; eassumption|]. split; [intros a Ha; discriminate Ha|exact I].
  - intros i j t t' a _ Ht _ Ha. apply begin_nth in Ht. destruct Ht as [ws [_ ->]]. discriminate Ha.
Qed.

Lemma isolated h progs schedule i ws t : nobody_shares h progs -> nth_error progs i = Some ws ->
  nth_error (threads (run_threads p schedule (begin h progs))) i = Some t ->
  exists h' l, alone p h ws h' l /\ (exists l', l = log t ++ l') /\
    (finished t -> log t = l /\ forall a, uses ws a -> nth_error (mem (run_threads p schedule (begin h progs))) a = nth_error h' a) /\
    (snd (seq_works h ws) < turns i schedule -> finished t).
Proof.
  intros Hs Hw Ht. pose proof Hs as [H1 H2].
  assert (Q1 : forall i a, mine progs i a -> a < length h) by (intros j a [w [K1 K2]]; eapply H1; eassumption).
  assert (Q2 : forall i j a, i <> j -> mine progs i a -> mine progs j a -> False) by (intros j k a Hjk [w [K1 K2]] [w' [K1' K2']]; eapply (H2 j k); eassumption).
  destruct (run_system (mine progs) (length h) Q1 Q2 schedule (begin h progs) (begin_wf h progs Hs)) as [R _].
  assert (B : nth_error (threads (begin h progs)) i = Some {| doing := Idle; todo := ws; log := [] |}) by (apply begin_nth; eauto).
  destruct (R i _ B) as [t' [Ht' [R1 [R2 [_ R4]]]]]. rewrite Ht in Ht'. injection Ht' as <-.
  assert (E0 : rest_thread (mem (begin h progs)) {| doing := Idle; todo := ws; log := [] |} = seq_works h ws).
  { unfold rest_thread. cbn. destruct (seq_works h ws) as [[h1 l1] n1]. reflexivity. }
  rewrite E0 in R1, R2, R4. exists (fst (fst (seq_works h ws))), (snd (fst (seq_works h ws))). split; [apply seq_alone; intros a Ha; eapply H1; eassumption|].
  split; [|split].
  - rewrite <- R2. unfold rest_thread. clear. destruct (doing t).
    + destruct (seq_works _ _) as [[h1 l1] n1]. eexists. reflexivity.
    + destruct (nth_error _ _); [|exists []; cbn; rewrite app_nil_r; reflexivity]. destruct (rest_find _ _ _ _). unfold after_call. destruct (undefined _); [eexists; reflexivity|]. destruct (seq_works _ _) as [[h1 l1] n1]. eexists. reflexivity.
    + destruct (nth_error _ _); [|exists []; cbn; rewrite app_nil_r; reflexivity]. cbv zeta. unfold after_call. destruct (undefined _); [eexists; reflexivity|]. destruct (seq_works _ _) as [[h1 l1] n1]. eexists. reflexivity.
    + destruct (nth_error _ _); [|exists []; cbn; rewrite app_nil_r; reflexivity]. cbv zeta. unfold after_call. destruct (undefined _); [eexists; reflexivity|]. destruct (seq_works _ _) as [[h1 l1] n1]. eexists. reflexivity.
    + destruct (nth_error _ _); [|exists []; cbn; rewrite app_nil_r; reflexivity]. cbv zeta. unfold after_call. destruct (undefined _); [eexists; reflexivity|]. destruct (seq_works _ _) as [[h1 l1] n1]. eexists. reflexivity.
    + destruct (nth_error _ _); [|exists []; cbn; rewrite app_nil_r; reflexivity]. cbv zeta. unfold after_call. destruct (undefined _); [eexists; reflexivity|]. destruct (seq_works _ _) as [[h1 l1] n1]. eexists. reflexivity.
    + destruct (nth_error _ _); [|exists []; cbn; rewrite app_nil_r; reflexivity]. cbv zeta. unfold after_call. destruct (undefined _); [eexists; reflexivity|]. destruct (seq_works _ _) as [[h1 l1] n1]. eexists. reflexivity.
  - intros F. rewrite (finished_rest _ _ F) in R1, R2. cbn in R1, R2. split; [exact R2|]. intros a Ha. apply R1. exists ws. auto.
  - intros Hn. destruct R4 as [F|K]; [exact F|]. lia.
Qed.

Lemma untouched h progs schedule a : nobody_shares h progs -> a < length h -> (forall i ws, nth_error progs i = Some ws -> ~ uses ws a) ->
  nth_error (mem (run_threads p schedule (begin h progs))) a = nth_error h a.
Proof.
  intros Hs La Hn. pose proof Hs as [H1 H2].
  assert (Q1 : forall i a, mine progs i a -> a < length h) by (intros j b [w [K1 K2]]; eapply H1; eassumption).
  assert (Q2 : forall i j a, i <> j -> mine progs i a -> mine progs j a -> False) by (intros j k b Hjk [w [K1 K2]] [w' [K1' K2']]; eapply (H2 j k); eassumption).
  destruct (run_system (mine progs) (length h) Q1 Q2 schedule (begin h progs) (begin_wf h progs Hs)) as [_ [R _]].
  apply (R a La). intros j [w [K1 K2]]. exact (Hn j w K1 K2).
Qed.

End Facts.
