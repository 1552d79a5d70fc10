(** Proofs about [LoadAlloc.v]. *)
From Coq Require Import ZArith List Bool Arith Ascii Lia.
From Verif Require Import Num Mem Spec DataStructure DSFacts Correlator Sacf ConstrFacts FileReader SpecFile FileFacts FileThms SpecText TextFacts Alloc FileErrors SpecStream FileErrorFacts LoadAlloc.
Import ListNotations.
Local Open Scope list_scope.

Section Facts.
Context {A : Num} {D : Dec A} (fails : nat -> bool).
Definition some_fails : Prop := exists n, fails n = true.

(** out of memory after a failed request, or the same *)
Definition ag {R} (x : ameth unit R) (y : res R) : Prop := (snd x = NoMemory /\ some_fails) \/ snd x = Done y.

Lemma ag_done {R} q (r : res R) : ag (tt, q, Done r) r.
Proof. right. reflexivity. Qed.
Lemma ag_bind {R Q} (x : ameth unit R) (y : res R) (f : unit -> nat -> R -> ameth unit Q) (g : R -> res Q) :
  ag x y -> (forall q r, y = Ok r -> ag (f tt q r) (g r)) -> ag (abind x f) (bind y g).
Proof.
  destruct x as [[[] q] r]. intros [[H1 H2]|H1] H; cbn [snd] in H1; subst r; [left; split; [reflexivity|exact H2]|].
  destruct y as [a|e|u|]; cbn [abind bind]; [apply H; reflexivity|apply ag_done..].
Qed.
Lemma ag_lift {R Q} q (x : res R) (f : R -> ameth unit Q) (g : R -> res Q) :
  (forall r, x = Ok r -> ag (f r) (g r)) -> ag (alift tt q x f) (bind x g).
Proof. intros H. unfold alift. apply ag_bind; [apply ag_done|]. intros q' r E. apply H, E. Qed.
Lemma ag_request {R} q (f : nat -> ameth unit R) (y : res R) : (forall q, ag (f q) y) -> ag (arequest fails tt q f) y.
Proof. intros H. unfold arequest. destruct (fails q) eqn:E; [|apply H]. left. split; [reflexivity|]. exists q. exact E. Qed.
Lemma ag_requests {R} n : forall q (f : nat -> ameth unit R) (y : res R), (forall q, ag (f q) y) -> ag (arequests fails n q f) y.
Proof. induction n as [|n IH]; intros q f y H; cbn [arequests]; [apply H|]. apply ag_request. intros q'. apply IH, H. Qed.

Lemma means_ag data M js : forall q, ag (means_a fails data M js q) (mapM (dataset_mean data M) js).
Proof.
  induction js as [|j js IH]; intros q; cbn [means_a mapM]; [apply ag_done|]. apply ag_request. intros q'. apply ag_lift. intros m _.
  apply ag_bind; [apply IH|]. intros q2 ms _. apply ag_done.
Qed.

Lemma setUp_ag t_in data_in err_in N M q : ag (setUp_a fails t_in data_in err_in N M q) (setUp t_in data_in err_in N M).
Proof.
  unfold setUp_a, setUp. destruct (_ || _); [apply ag_done|]. destruct (negb _); [apply ag_done|].
  apply ag_request. intros q1. apply ag_bind; [apply means_ag|]. intros q2 means _. apply ag_lift. intros tm _.
  apply ag_requests. intros q3. apply ag_lift. intros nt _. apply ag_request. intros q4. apply ag_lift. intros nd _. apply ag_lift. intros med _. apply ag_done.
Qed.

Lemma ds_1d_ag t_in v q : ag (ds_1d_a fails t_in v q) (ds_1d t_in v).
Proof. apply ag_requests. intros q'. apply setUp_ag. Qed.
Lemma ds_1d_err_ag t_in v e q : ag (ds_1d_err_a fails t_in v e q) (ds_1d_err t_in v e).
Proof. apply ag_requests. intros q'. apply setUp_ag. Qed.
Lemma ds_2d_ag t_in v q : ag (ds_2d_a fails t_in v q) (ds_2d t_in v).
Proof. apply ag_requests. intros q'. apply setUp_ag. Qed.
Lemma ds_2d_err_ag t_in v e q : ag (ds_2d_err_a fails t_in v e q) (ds_2d_err t_in v e).
Proof. apply ag_requests. intros q'. apply setUp_ag. Qed.

(** ** Reading a line *)
Definition with_more (st : rstate) (l : list num) : rstate :=
  {| t_in := t_in st; data_in := data_in st; data_err_in := data_err_in st ++ l;
     has_errors := true; update_has_errors := if isnil l then update_has_errors st else false |}.

Lemma read_errors_a_cut s l : reads s l -> forall fuel st q, length l < fuel -> has_errors st = true ->
  match snd (read_errors_a fails fuel s st q) with
  | NoMemory => some_fails
  | Done (Ok (st', o)) => o = None /\ exists k, st' = with_more st (firstn k l)
  | Done _ => False
  end.
Proof.
  assert (Z : forall st, has_errors st = true -> st = with_more st []).
  { intros [? ? ? ? ?] H. cbn in H. subst. unfold with_more. cbn. rewrite app_nil_r. reflexivity. }
  induction 1 as [s E|s v s' l E H IH]; intros fuel st q Hf Hh; (destruct fuel as [|fuel]; [cbn in Hf; lia|]); cbn [read_errors_a]; unfold extract_a.
  - rewrite E. destruct (fails q); cbn [snd]; (split; [reflexivity|exists 0; apply Z, Hh]).
  - destruct (fails q) eqn:F; [cbn [snd]; split; [reflexivity|exists 0; apply Z, Hh]|]. rewrite E, Hh. unfold arequest.
    destruct (fails (S q)) eqn:F'; [exists (S q); exact F'|]. cbn [length] in Hf.
    specialize (IH fuel {| t_in := t_in st; data_in := data_in st; data_err_in := data_err_in st ++ [v]; has_errors := true; update_has_errors := false |} (S (S q)) ltac:(lia) eq_refl).
    destruct (snd _) as [[[st' o]|e|u|]|]; try exact IH. destruct IH as [-> [k ->]]. split; [reflexivity|]. exists (S k). unfold with_more.
    cbn [t_in data_in data_err_in update_has_errors firstn isnil]. rewrite <- app_assoc. cbn [app]. destruct (isnil (firstn k l)); reflexivity.
Qed.

Definition with_line (st : rstate) (l : list num) : rstate :=
  match l with
  | a :: b :: r =>
      {| t_in := t_in st ++ [a]; data_in := data_in st ++ [b]; data_err_in := data_err_in st ++ r;
         has_errors := negb (isnil r && update_has_errors st);
         update_has_errors := isnil r && update_has_errors st |}
  | _ => st
  end.
Definition with_points (st : rstate) (l : list num) : rstate :=
  {| t_in := t_in st ++ map fst (points_of l); data_in := data_in st ++ map snd (points_of l);
     data_err_in := data_err_in st; has_errors := false; update_has_errors := true |}.

Lemma read_points_a_true s l fuel st q : reads s l -> length l < fuel -> has_errors st = true ->
  match snd (read_points_a fails fuel s st q) with
  | NoMemory => some_fails
  | Done (Ok st') => exists k, st' = with_line st (firstn k l)
  | Done _ => False
  end.
Proof.
  intros H Hf Hh. destruct fuel as [|fuel]; [lia|]. cbn [read_points_a]. unfold extract_a.
  destruct (fails q); [exists 0; reflexivity|].
  destruct H as [s E|s v s1 l E H]; rewrite E; [exists 0; reflexivity|].
  destruct (fails (S q)); [exists 0; reflexivity|].
  destruct H as [s1 E1|s1 v1 s2 l E1 H]; rewrite E1; [exists 0; reflexivity|].
  cbn [arequests]. unfold arequest. destruct (fails (S (S q))) eqn:F1; [exists (S (S q)); exact F1|].
  destruct (fails (S (S (S q)))) eqn:F2; [exists (S (S (S q))); exact F2|]. cbn [length] in Hf.
  match goal with |- context [read_errors_a fails fuel s2 ?st1 ?q1] => assert (K := read_errors_a_cut s2 l H fuel st1 q1 ltac:(lia) Hh); destruct (read_errors_a fails fuel s2 st1 q1) as [[[] q2] [[[st' o]|e|u|]|]] end;
    cbn [snd] in K; try contradiction; cbn [abind]; [|exact K].
  destruct K as [-> [k ->]]. cbn [snd fst]. exists (S (S k)). cbn [firstn]. unfold with_line, with_more. cbn [t_in data_in data_err_in has_errors update_has_errors].
  destruct (firstn k l) as [|x r]; cbn [isnil andb negb]; [|reflexivity]. destruct (update_has_errors st); reflexivity.
Qed.

Lemma read_points_a_false fuel : forall s l st q, reads s l -> length l < fuel -> has_errors st = false -> update_has_errors st = true ->
  match snd (read_points_a fails fuel s st q) with
  | NoMemory => some_fails
  | Done (Ok st') => exists k, st' = with_points st (firstn k l)
  | Done _ => False
  end.
Proof.
  induction fuel as [fuel IH] using (well_founded_induction lt_wf). intros s l st q H Hf Hh Hu.
  assert (Z : st = with_points st []).
  { destruct st. cbn in Hh, Hu. subst. unfold with_points. cbn. rewrite !app_nil_r. reflexivity. }
  assert (Z1 : forall x, st = with_points st (firstn 1 (x :: l))) by (intros x; exact Z).
  destruct fuel as [|fuel]; [lia|]. cbn [read_points_a]. unfold extract_a.
  destruct (fails q); [exists 0; exact Z|].
  destruct H as [s E|s v s1 l E H]; rewrite E; [exists 0; exact Z|].
  destruct (fails (S q)); [exists 0; exact Z|].
  destruct H as [s1 E1|s1 v1 s2 l E1 H]; rewrite E1; [exists 0; exact Z|].
  cbn [arequests]. unfold arequest. destruct (fails (S (S q))) eqn:F1; [exists (S (S q)); exact F1|].
  destruct (fails (S (S (S q)))) eqn:F2; [exists (S (S (S q))); exact F2|]. cbn [length] in Hf.
  destruct fuel as [|fuel]; [lia|]. cbn [read_errors_a]. unfold extract_a at 1.
  assert (Z2 : forall z, z = with_points st [v; v1] -> exists k, z = with_points st (firstn k (v :: v1 :: l))) by (intros z ->; exists 2; reflexivity).
  destruct (fails (S (S (S (S q))))).
  { cbn [abind fst snd update_has_errors t_in data_in data_err_in]. rewrite Hu. apply Z2. reflexivity. }
  destruct H as [s2 E2|s2 v2 s3 l E2 H]; rewrite E2.
  { cbn [abind fst snd update_has_errors t_in data_in data_err_in]. rewrite Hu. apply Z2. reflexivity. }
  cbn [has_errors]. rewrite Hh. cbn [abind fst snd update_has_errors]. rewrite Hu.
  match goal with |- context [read_points_a fails (S fuel) s3 ?st1 ?q1] => assert (K := IH (S fuel) ltac:(lia) s3 l st1 q1 H ltac:(cbn [length] in Hf; lia) eq_refl eq_refl) end.
  destruct (snd _) as [[st'|e|u|]|]; try exact K. destruct K as [k ->]. exists (S (S (S k))). cbn [firstn]. unfold with_points.
  cbn [t_in data_in data_err_in points_of map fst snd]. rewrite <- !app_assoc. reflexivity.
Qed.

Definition fine (st : rstate) : Prop := has_errors st = true \/ (has_errors st = false /\ update_has_errors st = true).
Definition next (st : rstate) (l : list num) : rstate := if has_errors st then with_line st l else with_points st l.
Lemma fine_next st l : fine st -> fine (next st l).
Proof.
  intros H. unfold next. destruct (has_errors st) eqn:E.
  - destruct l as [|a [|b r]]; [exact H|exact H|]. unfold fine. cbn. destruct (isnil r && update_has_errors st); auto.
  - right. split; reflexivity.
Qed.

Lemma read_line_next st line l : fine st -> line_reads line l -> read_line st line = Ok (next st l).
Proof.
  intros [H|[H1 H2]] Hl; unfold next; [rewrite H|rewrite H1].
  - rewrite (read_line_true line l st Hl H). destruct l as [|a [|b r]]; reflexivity.
  - rewrite (read_line_false line l st Hl H1 H2). reflexivity.
Qed.

Lemma read_line_a_cut st line l q : fine st -> line_reads line l ->
  match snd (read_line_a fails st line q) with
  | NoMemory => some_fails
  | Done (Ok st') => exists k, st' = next st (firstn k l)
  | Done _ => False
  end.
Proof.
  intros Hs Hl. unfold read_line_a. unfold line_reads, commented, uncomma in Hl.
  destruct (match line with c :: _ => Ascii.eqb c ch_hash | [] => false end).
  - subst l. exists 0. unfold next. destruct Hs as [H|[H1 H2]]; [rewrite H; reflexivity|]. rewrite H1. cbn [snd].
    destruct st. cbn in *. subst. unfold with_points. cbn. rewrite !app_nil_r. reflexivity.
  - unfold arequest. destruct (fails q) eqn:F; [exists q; exact F|].
    assert (L := reads_length _ _ Hl). unfold next. destruct Hs as [H|[H1 H2]].
    + assert (K := read_points_a_true _ l (S (length (uncomma line))) st (S q) Hl ltac:(unfold uncomma; lia) H). unfold uncomma in K. rewrite H. exact K.
    + assert (K := read_points_a_false (S (length (uncomma line))) _ l st (S q) Hl ltac:(unfold uncomma; lia) H1 H2). unfold uncomma in K. rewrite H1. exact K.
Qed.

(** ** Reading a file *)
Definition cuts (ns' ns : list (list num)) : Prop := exists m, Forall2 (fun a b => exists k, a = firstn k b) ns' (firstn m ns).

Lemma read_stream_a_cut e : forall fuel blocks buf st q ns, full blocks -> length (buf ++ concat blocks) < fuel -> fine st ->
  Forall2 line_reads (lines (buf ++ concat blocks)) ns ->
  match snd (read_stream_a fails fuel e blocks buf st q) with
  | NoMemory => some_fails
  | Done (Ok st') => exists ns', cuts ns' ns /\ st' = fold_left next ns' st
  | Done _ => False
  end.
Proof.
  induction fuel as [|fuel IH]; intros blocks buf st q ns Hb Hl Hs Hn; [lia|]. cbn [read_stream_a].
  assert (Z : exists ns', cuts ns' ns /\ st = fold_left next ns' st) by (exists []; split; [exists 0; constructor|reflexivity]).
  destruct (fails q); [exact Z|].
  assert (G := getline_spec e blocks [] buf Hb ltac:(intros [])). cbn [app] in G. destruct (getline e blocks [] buf) as [l buf' blocks'|l| |]; [| |exact Z|exact Z].
  - destruct G as (E & N & F). rewrite E in Hl, Hn. rewrite app_length in Hl. cbn [length] in Hl. rewrite (lines_cons l _ N) in Hn.
    inversion Hn as [|? n ? ns0 H1 H2]; subst. assert (K := read_line_a_cut st l n (S q) Hs H1).
    destruct (read_line_a fails st l (S q)) as [[[] q'] [[st'|x|u|]|]]; cbn [snd] in K; try contradiction; cbn [abind]; [|exact K].
    destruct K as [k ->]. specialize (IH blocks' buf' (next st (firstn k n)) q' ns0 F ltac:(lia) (fine_next _ _ Hs) H2).
    destruct (snd _) as [[st'|x|u|]|]; try exact IH. destruct IH as (ns' & [m C] & ->). exists (firstn k n :: ns'). split; [|reflexivity].
    exists (S m). cbn [firstn]. constructor; [exists k; reflexivity|exact C].
  - destruct G as (-> & E & N & Hne). rewrite E, (lines_last l N) in Hn. destruct l as [|c l]; [congruence|].
    inversion Hn as [|? n ? ns0 H1 H2]; subst. assert (K := read_line_a_cut st _ n (S q) Hs H1).
    destruct (snd _) as [[st'|x|u|]|]; try exact K. destruct K as [k ->]. exists [firstn k n]. split; [|reflexivity]. exists 1. cbn [firstn].
    constructor; [exists k; reflexivity|constructor].
Qed.

Lemma read_lines_next ls ns : Forall2 line_reads ls ns -> forall st, fine st -> read_lines ls st = Ok (fold_left next ns st).
Proof.
  induction 1 as [|l n ls ns H _ IH]; intros st Hs; [reflexivity|]. cbn [read_lines fold_left]. rewrite (read_line_next st l n Hs H). cbn [bind].
  apply IH, fine_next, Hs.
Qed.

Lemma fine_start : fine rstart. Proof. left. reflexivity. Qed.

Lemma next_lengths ns : forall st, length (t_in st) = length (data_in st) -> length (t_in (fold_left next ns st)) = length (data_in (fold_left next ns st)).
Proof.
  induction ns as [|l ns IH]; intros st H; [exact H|]. cbn [fold_left]. apply IH. unfold next. destruct (has_errors st).
  - destruct l as [|a [|b r]]; [exact H|exact H|]. cbn. rewrite !app_length, H. reflexivity.
  - cbn. rewrite !app_length, !map_length, H. reflexivity.
Qed.

Lemma ds_file_a_cut blocks q ns e : full blocks -> Forall2 line_reads (lines (concat blocks)) ns ->
  let x := snd (ds_file_a fails (Some (blocks, e)) q) in
  (x = NoMemory /\ some_fails) \/ (x = Done (Throw BadDataFileReadException) /\ some_fails) \/
  exists ns', cuts ns' ns /\ (forall f, Forall2 line_reads (lines f) ns' -> x = Done (ds_file (Some f))) /\
    exists ts vs es, length ts = length vs /\ x = Done (ds_1d_err ts vs es).
Proof.
  intros Hb Hn. remember (ds_file_a fails (Some (blocks, e)) q) as y eqn:Ey. intros x. subst x. unfold ds_file_a in Ey. unfold arequest at 1 in Ey.
  destruct (fails q) eqn:F1; [subst y; left; split; [reflexivity|exists q; exact F1]|].
  destruct (fails (S q)) eqn:F2; [subst y; right; left; split; [reflexivity|exists (S q); exact F2]|]. unfold arequest at 1 in Ey.
  destruct (fails (S (S q))) eqn:F3; [subst y; left; split; [reflexivity|exists (S (S q)); exact F3]|].
  assert (K := read_stream_a_cut e (S (length (concat blocks))) blocks [] rstart (S (S (S q))) ns Hb ltac:(cbn [app]; lia) fine_start Hn).
  destruct (read_stream_a fails _ e blocks [] rstart _) as [[[] q'] [[st|z|u|]|]]; cbn [snd] in K; try contradiction; cbn [abind] in Ey; [|subst y; left; split; [reflexivity|exact K]].
  destruct K as (ns' & C & ->). remember (fold_left next ns' rstart) as st eqn:Est.
  assert (G : ag (arequests fails (if has_errors st then 3 else 2) q' (fun q => setUp_a fails (t_in st) (data_in st) (if has_errors st then data_err_in st else []) 1 (length (t_in st)) q))
                 (setUp (t_in st) (data_in st) (if has_errors st then data_err_in st else []) 1 (length (t_in st)))).
  { apply ag_requests. intros q2. apply setUp_ag. }
  rewrite <- Ey in G. destruct G as [G|G]; [left; exact G|]. right. right. exists ns'. split; [exact C|]. split.
  - intros f Hf. rewrite G. unfold ds_file. rewrite (read_lines_next _ _ Hf rstart fine_start), <- Est. reflexivity.
  - exists (t_in st), (data_in st), (if has_errors st then data_err_in st else []). split; [rewrite Est; apply next_lengths; reflexivity|exact G].
Qed.

Lemma load_outcomes blocks q e : full blocks -> let x := snd (ds_file_a fails (Some (blocks, e)) q) in
  (x = NoMemory /\ some_fails) \/ (x = Done (Throw BadDataFileReadException) /\ some_fails) \/ x = Done (Throw EmptyDataStructureException) \/
  exists d, x = Done (Ok d) /\ length (timeseries d) = length (data_ d) /\ timeseries d <> [].
Proof.
  intros Hb x. destruct (lines_reads_exists (lines (concat blocks))) as [ns Hn].
  destruct (ds_file_a_cut blocks q ns e Hb Hn) as [K|[K|(ns' & C & _ & ts & vs & es & L & K)]]; [left; exact K|right; left; exact K|]. right. right.
  subst x. rewrite K. destruct ts as [|t0 ts].
  - left. destruct vs; [|discriminate L]. reflexivity.
  - right. destruct (one_dataset (t0 :: ts) vs (Some es)) as (_ & _ & H3).
    destruct H3 as (d & H3 & _); [discriminate|intros ->; discriminate L|rewrite <- L; apply Nat.mod_same; discriminate|].
    exists d. rewrite ds_1d_err_SACF, H3. split; [reflexivity|]. unfold SACF_1d in H3. apply setUp_fields in H3 as (F1 & F2 & _).
    unfold timeseries. rewrite F1, F2. split; [exact L|discriminate].
Qed.

(** ** Files of literals *)
Definition cut_line (k : nat) (l : line) : line :=
  match l with
  | Comment s => Comment s
  | Row r => if k <? length (r_fields r) then Row {| r_fields := firstn k (r_fields r); r_tail := [] |} else Row r
  end.
Lemma Forall_firstn {X} (P : X -> Prop) k l : Forall P l -> Forall P (firstn k l).
Proof. intros H. revert k. induction H; intros [|k]; cbn; constructor; auto. Qed.
Lemma tl_firstn {X} k (l : list X) : exists k', tl (firstn k l) = firstn k' (tl l).
Proof. destruct k, l; try (exists 0; reflexivity). exists k. reflexivity. Qed.
Lemma cut_line_literals k l : literals_of (cut_line k l) = firstn k (literals_of l).
Proof.
  destruct l as [s|r]; [destruct k; reflexivity|]. cbn [cut_line]. destruct (k <? length (r_fields r)) eqn:E; cbn [literals_of r_fields].
  - symmetry. apply firstn_map.
  - apply Nat.ltb_ge in E. symmetry. apply firstn_all2. rewrite map_length. exact E.
Qed.
Lemma cut_line_ok k l : line_ok l -> line_ok (cut_line k l).
Proof.
  destruct l as [s|r]; [exact (fun H => H)|]. cbn [cut_line]. destruct (k <? length (r_fields r)); [|exact (fun H => H)]. intros H. destruct H. cbn [line_ok].
  constructor; cbn [r_fields r_tail].
  - apply Forall_firstn. assumption.
  - destruct (tl_firstn k (r_fields r)) as [k' ->]. apply Forall_firstn. assumption.
  - apply Forall_firstn. assumption.
  - apply unreadable_end. constructor.
  - intros _. exact I.
  - intros [].
  - intros _. exact I.
Qed.

Lemma cuts_lines ls : Forall line_ok ls -> Forall (fun l => Forall fits (literals_of l)) ls -> forall ns', cuts ns' (map numbers_of ls) ->
  exists ls' n, Forall line_ok ls' /\ Forall (fun l => Forall fits (literals_of l)) ls' /\ Forall2 cut_short ls' (firstn n ls) /\ map numbers_of ls' = ns'.
Proof.
  intros Ho Hf ns' [m C]. rewrite firstn_map in C. assert (Ho' := Forall_firstn _ m _ Ho). assert (Hf' := Forall_firstn _ m _ Hf).
  remember (map numbers_of (firstn m ls)) as ns0 eqn:E0. remember (firstn m ls) as ls0 eqn:E. cut (exists ls', Forall line_ok ls' /\ Forall (fun l => Forall fits (literals_of l)) ls' /\ Forall2 cut_short ls' ls0 /\ map numbers_of ls' = ns').
  { intros (ls' & K). exists ls', m. rewrite <- E. exact K. }
  clear E Ho Hf. revert ls0 E0 Ho' Hf'. induction C as [|a b ns' ns [k ->] _ IH]; intros ls0 E0 Ho Hf.
  - destruct ls0; [|discriminate E0]. exists []. repeat split; constructor.
  - destruct ls0 as [|l ls0]; [discriminate E0|]. cbn [map] in E0. apply (f_equal (fun x => (hd [] x, tl x))) in E0. cbn [hd tl] in E0.
    assert (E1 := f_equal fst E0). assert (E2 := f_equal snd E0). cbn [fst snd] in E1, E2. clear E0. subst b.
    inversion Ho; subst. inversion Hf as [|? ? Hl Hls]; subst. destruct (IH ls0 eq_refl ltac:(assumption) ltac:(assumption)) as (ls' & I1 & I2 & I3 & I4).
    exists (cut_line k l :: ls'). split; [constructor; [apply cut_line_ok; assumption|exact I1]|].
    split; [constructor; [rewrite cut_line_literals; apply Forall_firstn, Hl|exact I2]|].
    split; [constructor; [exists k; apply cut_line_literals|exact I3]|]. cbn [map]. rewrite I4. f_equal. unfold numbers_of. rewrite cut_line_literals. symmetry. apply firstn_map.
Qed.

Lemma file_lines_reads ls : Forall line_ok ls -> Forall (fun l => Forall fits (literals_of l)) ls -> Forall2 line_reads (lines (text_of_lines ls)) (map numbers_of ls).
Proof.
  intros Ho Hf. rewrite <- (app_nil_r (text_of_lines ls)), (lines_text ls [] Ho). cbn [lines]. rewrite app_nil_r. apply lines_reads; assumption.
Qed.

Lemma load_file ls blocks q e : Forall line_ok ls -> Forall (fun l => Forall fits (literals_of l)) ls -> full blocks -> concat blocks = text_of_lines ls ->
  let x := snd (ds_file_a fails (Some (blocks, e)) q) in
  (x = NoMemory /\ some_fails) \/ (x = Done (Throw BadDataFileReadException) /\ some_fails) \/
  exists ls' n, Forall line_ok ls' /\ Forall (fun l => Forall fits (literals_of l)) ls' /\ Forall2 cut_short ls' (firstn n ls) /\ x = Done (ds_file (Some (text_of_lines ls'))).
Proof.
  intros Ho Hf Hb Ht x. assert (Hn := file_lines_reads ls Ho Hf). rewrite <- Ht in Hn.
  destruct (ds_file_a_cut blocks q _ e Hb Hn) as [K|[K|(ns' & C & K & _)]]; [left; exact K|right; left; exact K|]. right. right.
  destruct (cuts_lines ls Ho Hf ns' C) as (ls' & n & I1 & I2 & I3 & <-). exists ls', n. split; [exact I1|]. split; [exact I2|]. split; [exact I3|].
  apply K, file_lines_reads; assumption.
Qed.

(** ** Two or three columns: the points are points of the file *)
Definition pt (l : list num) : num * num := (nth 0 l nzero, nth 1 l nzero).

Lemma combine_pt (dl : list (list num)) : combine (times_col dl) (values_col dl) = map pt dl.
Proof. induction dl as [|l dl IH]; [reflexivity|]. cbn [times_col values_col map combine]. unfold times_col, values_col in IH. rewrite IH. reflexivity. Qed.

Lemma combine_fst_snd {X Y} (l : list (X * Y)) : combine (map fst l) (map snd l) = l.
Proof. induction l as [|[x y] l IH]; [reflexivity|]. cbn. rewrite IH. reflexivity. Qed.

Lemma file_points dl : Forall (fun l : list num => length l = 2 \/ length l = 3) dl -> combine (file_times dl) (file_values dl) = map pt dl.
Proof.
  intros H. unfold file_times, file_values. destruct (first_errors dl); [apply combine_pt|]. rewrite combine_fst_snd.
  induction H as [|l dl Hl _ IH]; [reflexivity|]. cbn [flat_map map]. rewrite IH.
  destruct Hl as [Hl|Hl]; destruct l as [|a [|b [|c [|z l]]]]; try discriminate Hl; reflexivity.
Qed.

Lemma sublist_firstn {X} (l l' : list X) n : sublist l (firstn n l') -> sublist l l'.
Proof.
  revert l n. induction l' as [|x l' IH]; intros l [|n] H; cbn [firstn] in H; try exact H.
  - clear IH. inversion H; subst. apply sub_drop. induction l'; constructor; assumption.
  - inversion H; subst; [apply sub_keep|apply sub_drop]; eapply IH; eassumption.
Qed.

Lemma data_points (ls' ls : list line) : Forall2 cut_short ls' ls -> Forall (fun l => length (literals_of l) < 2 \/ (length (literals_of l) = 2 \/ length (literals_of l) = 3)) ls ->
  sublist (map pt (data_lines ls')) (map pt (data_lines ls)) /\ Forall (fun l => length l = 2 \/ length l = 3) (data_lines ls').
Proof.
  induction 1 as [|l' l ls' ls [k E] _ IH]; intros H; [split; constructor|]. inversion H as [|? ? Hl Hls]; subst. destruct (IH Hls) as [I1 I2].
  unfold data_lines in *. cbn [map filter]. assert (E' : numbers_of l' = firstn k (numbers_of l)) by (unfold numbers_of; rewrite E; symmetry; apply firstn_map).
  assert (Ln : length (numbers_of l) = length (literals_of l)) by apply map_length.
  rewrite E'. destruct (numbers_of l) as [|a [|b r]].
  - rewrite firstn_nil. split; assumption.
  - destruct k as [|k]; cbn [firstn]; [|rewrite firstn_nil]; split; assumption.
  - change (is_data (a :: b :: r)) with true. cbn [map]. destruct k as [|[|k]]; cbn [firstn]; [split; [apply sub_drop|]; assumption..|].
    change (is_data (a :: b :: firstn k r)) with true. cbn [map]. split; [apply sub_keep, I1|]. constructor; [|exact I2].
    cbn [length] in Ln |- *. rewrite firstn_length. lia.
Qed.

Lemma load_points ls blocks q e n d0 d : n = 2 \/ n = 3 -> Forall line_ok ls -> Forall (fun l => Forall fits (literals_of l)) ls -> all_of n ls ->
  full blocks -> concat blocks = text_of_lines ls -> ds_file (Some (concat blocks)) = Ok d0 ->
  snd (ds_file_a fails (Some (blocks, e)) q) = Done (Ok d) -> sublist (points d) (points d0).
Proof.
  intros Hn Ho Hf Ha Hb Ht H0 H. destruct (load_file ls blocks q e Ho Hf Hb Ht) as [[K _]|[[K _]|(ls' & m & I1 & I2 & I3 & K)]]; rewrite H in K; [discriminate K|discriminate K|].
  assert (K' := f_equal (fun x => match x with Done r => r | NoMemory => Ok d end) K). cbn beta iota in K'. clear K. symmetry in K'.
  assert (H1 : ds_file (Some (text_of_lines ls)) = Ok d0) by (rewrite <- Ht; exact H0). clear H0. rename H1 into H0. rewrite (file_lines ls Ho Hf) in H0. rewrite (file_lines ls' I1 I2) in K'. cbv zeta in H0, K'.
  apply setUp_fields in H0 as (F1 & F2 & _). apply setUp_fields in K' as (G1 & G2 & _). unfold points, timeseries. rewrite F1, F2, G1, G2.
  assert (Hc : Forall (fun l => length (literals_of l) < 2 \/ (length (literals_of l) = 2 \/ length (literals_of l) = 3)) ls).
  { eapply Forall_impl; [|exact Ha]. cbn beta. intros l [L|L]; [left; exact L|]. right. destruct Hn; subst n; auto. }
  assert (Hd : Forall (fun l : list num => length l = 2 \/ length l = 3) (data_lines ls)).
  { eapply Forall_impl; [|exact (data_lines_all n ls Ha)]. cbn beta. intros l L. destruct Hn; subst n; auto. }
  rewrite (file_points _ Hd). destruct (data_points ls' (firstn m ls) I3 (Forall_firstn _ m _ Hc)) as [S1 S2]. rewrite (file_points _ S2).
  assert (X : exists j, data_lines (firstn m ls) = firstn j (data_lines ls)).
  { clear. revert m. unfold data_lines. induction ls as [|l ls IH]; intros [|m]; cbn [firstn map filter]; try (exists 0; reflexivity). destruct (IH m) as [j Hj].
    destruct (is_data (numbers_of l)); [exists (S j); cbn [firstn]; rewrite Hj; reflexivity|exists j; exact Hj]. }
  destruct X as [j Hj]. rewrite Hj, <- firstn_map in S1. exact (sublist_firstn _ _ _ S1).
Qed.

(** ** When no request fails *)
Section Enough.
Hypothesis Hf : forall n, fails n = false.

Lemma req_ok {R} q (f : nat -> ameth unit R) : arequest fails tt q f = f (S q).
Proof. unfold arequest. rewrite Hf. reflexivity. Qed.
Lemma reqs_ok {R} n : forall q (f : nat -> ameth unit R), arequests fails n q f = f (n + q).
Proof. induction n as [|n IH]; intros q f; cbn [arequests]; [reflexivity|]. rewrite req_ok, IH. f_equal. lia. Qed.
Lemma ag_ok {R} (x : ameth unit R) y : ag x y -> snd x = Done y.
Proof. intros [[_ [n C]]|H]; [rewrite Hf in C; discriminate C|exact H]. Qed.

Lemma read_errors_ok fuel : forall s st q, snd (read_errors_a fails fuel s st q) = Done (read_errors fuel s st).
Proof.
  induction fuel as [|fuel IH]; intros s st q; [reflexivity|]. cbn [read_errors_a read_errors]. unfold extract_a. rewrite Hf.
  destruct (extract s) as [[x s']|]; [|reflexivity]. destruct (has_errors st); [|reflexivity]. rewrite req_ok. apply IH.
Qed.
Lemma read_points_ok fuel : forall s st q, snd (read_points_a fails fuel s st q) = Done (read_points fuel s st).
Proof.
  induction fuel as [|fuel IH]; intros s st q; [reflexivity|]. cbn [read_points_a read_points]. unfold extract_a. rewrite !Hf.
  destruct (extract s) as [[x s1]|]; [|reflexivity]. destruct (extract s1) as [[y s2]|]; [|reflexivity]. rewrite reqs_ok.
  match goal with |- context [read_errors_a fails fuel s2 ?st1 ?q1] => assert (K := read_errors_ok fuel s2 st1 q1); destruct (read_errors_a fails fuel s2 st1 q1) as [[[] q2] r2] end.
  cbn [snd] in K. rewrite K. destruct (read_errors fuel s2 _) as [[st1 o]|e|u|]; try reflexivity. cbn [abind bind fst snd]. destruct o; [apply IH|reflexivity].
Qed.
Lemma read_line_ok st l q : snd (read_line_a fails st l q) = Done (read_line st l).
Proof. unfold read_line_a, read_line. destruct (match l with c :: _ => Ascii.eqb c ch_hash | [] => false end); [reflexivity|]. rewrite req_ok. apply read_points_ok. Qed.
Lemma read_stream_ok e fuel : forall k blocks buf st q, snd (read_stream_a fails fuel e blocks buf st q) = Done (read_stream fuel k enough e blocks buf st).
Proof.
  induction fuel as [|fuel IH]; intros k blocks buf st q; [reflexivity|]. cbn [read_stream_a read_stream enough]. rewrite Hf.
  destruct (getline e blocks [] buf) as [l buf' blocks'|l| |]; try reflexivity; [|apply read_line_ok].
  assert (K := read_line_ok st l (S q)). destruct (read_line_a fails st l (S q)) as [[[] q2] r2]. cbn [snd] in K. rewrite K.
  destruct (read_line st l); try reflexivity. cbn [abind bind]. apply IH.
Qed.
Lemma ds_file_ok file q : snd (ds_file_a fails file q) = Done (ds_stream enough file).
Proof.
  unfold ds_file_a, ds_stream. rewrite req_ok, Hf. destruct file as [[blocks e]|]; [|reflexivity]. rewrite req_ok.
  match goal with |- context [read_stream_a fails ?f e blocks [] rstart ?q1] => assert (K := read_stream_ok e f 0 blocks [] rstart q1); destruct (read_stream_a fails f e blocks [] rstart q1) as [[[] q2] r2] end.
  cbn [snd] in K. rewrite K. destruct (read_stream _ 0 enough e blocks [] rstart); try reflexivity. cbn [abind bind]. rewrite reqs_ok. apply ag_ok, setUp_ag.
Qed.
End Enough.
End Facts.
