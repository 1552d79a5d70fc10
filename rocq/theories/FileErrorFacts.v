(** Lemmas: reading in blocks, read errors. *)
From Coq Require Import ZArith List Bool Arith Ascii Lia.
From Verif Require Import Num Mem Spec DataStructure Correlator Sacf Api FileReader SpecFile FileFacts FileThms SpecText TextFacts FileErrors SpecStream.
Import ListNotations.
Local Open Scope list_scope.

Lemma cut_nl_some s x r : cut_nl s = (x, Some r) -> s = x ++ NL :: r /\ no_newline x.
Proof.
  revert x r. induction s as [|c s IH]; intros x r; cbn [cut_nl]; [discriminate|]. destruct (Ascii.eqb c NL) eqn:E.
  - intros H. injection H as <- <-. apply Ascii.eqb_eq in E. subst. split; [reflexivity|]. intros [].
  - destruct (cut_nl s) as [y o]. intros H. injection H as <- ->. destruct (IH y r eq_refl) as [-> K]. split; [reflexivity|].
    intros [C|C]; [|exact (K C)]. subst. rewrite Ascii.eqb_refl in E. discriminate E.
Qed.

Lemma cut_nl_none s x : cut_nl s = (x, None) -> s = x /\ no_newline x.
Proof.
  revert x. induction s as [|c s IH]; intros x; cbn [cut_nl].
  - intros H. injection H as <-. split; [reflexivity|]. intros [].
  - destruct (Ascii.eqb c NL) eqn:E; [discriminate|]. destruct (cut_nl s) as [y o]. intros H. injection H as <- ->.
    destruct (IH y eq_refl) as [-> K]. split; [reflexivity|].
    intros [C|C]; [|exact (K C)]. subst. rewrite Ascii.eqb_refl in E. discriminate E.
Qed.

Lemma getline_spec e : forall blocks str buf, full blocks -> no_newline str ->
  match getline e blocks str buf with
  | GotLine l buf' blocks' => str ++ buf ++ concat blocks = l ++ NL :: buf' ++ concat blocks' /\ no_newline l /\ full blocks'
  | GotLast l => e = AtEnd /\ str ++ buf ++ concat blocks = l /\ no_newline l /\ l <> []
  | GotNothing => e = AtEnd /\ str ++ buf ++ concat blocks = []
  | Broken => e = ReadError /\ no_newline (str ++ buf ++ concat blocks)
  end.
Proof.
  induction blocks as [|b bs IH]; intros str buf Hb Hs; cbn [getline]; destruct (cut_nl buf) as [x [r|]] eqn:E.
  - apply cut_nl_some in E as [-> K]. split; [rewrite <- !app_assoc; reflexivity|]. split; [apply no_newline_app; assumption|constructor].
  - apply cut_nl_none in E as [-> K]. cbn [concat]. rewrite app_nil_r. assert (N := no_newline_app _ _ Hs K). destruct e.
    + destruct (str ++ x); [auto|]. repeat split; auto. discriminate.
    + auto.
  - apply cut_nl_some in E as [-> K]. split; [rewrite <- !app_assoc; reflexivity|]. split; [apply no_newline_app; assumption|exact Hb].
  - apply cut_nl_none in E as [-> K]. inversion Hb as [|? ? B1 B2]; subst. destruct b as [|c b]; [congruence|].
    specialize (IH (str ++ x) (c :: b) B2 (no_newline_app _ _ Hs K)). rewrite <- app_assoc in IH. exact IH.
Qed.

Lemma whole_cons l a : whole_lines a -> whole_lines (l ++ NL :: a).
Proof. intros [-> | [a' ->]]; right; [exists l; reflexivity|]. exists (l ++ NL :: a'). rewrite <- app_assoc. reflexivity. Qed.

Section Facts.
Context {A : Num} {D : Dec A}.

Lemma read_stream_spec mem e : forall fuel k blocks buf st, full blocks -> length (buf ++ concat blocks) < fuel ->
  exists a r, buf ++ concat blocks = a ++ r /\
    read_stream fuel k mem e blocks buf st = read_lines (lines a) st /\
    ((whole_lines a /\ ((forall i, k <= i -> mem i = true) -> no_newline r /\ (e = AtEnd -> r = []))) \/ (e = AtEnd /\ r = [])).
Proof.
  induction fuel as [|fuel IH]; intros k blocks buf st Hb Hl; [lia|]. cbn [read_stream]. destruct (mem k) eqn:Em.
  2:{ exists [], (buf ++ concat blocks). split; [reflexivity|]. split; [reflexivity|]. left. split; [left; reflexivity|].
      intros C. rewrite C in Em by lia. discriminate Em. }
  assert (G := getline_spec e blocks [] buf Hb ltac:(intros [])). cbn [app] in G. destruct (getline e blocks [] buf) as [l buf' blocks'|l| |].
  - destruct G as (E & N & F). rewrite E in Hl. rewrite app_length in Hl. cbn [length] in Hl.
    assert (K := fun st => IH (S k) blocks' buf' st F ltac:(lia)).
    destruct (read_line st l) as [st'|x|u|] eqn:El; cbn [bind].
    + destruct (K st') as (a & r & E1 & E2 & E3). exists (l ++ NL :: a), r. split; [rewrite E, E1, <- app_assoc; reflexivity|].
      split; [rewrite (lines_cons l a N); cbn [read_lines]; rewrite El; exact E2|].
      destruct E3 as [[W E3]|E3]; [left; split; [apply whole_cons, W|]|right; exact E3]. intros Hm. apply E3. intros i Hi. apply Hm. lia.
    + destruct (K st) as (a & r & E1 & E2 & E3). exists (l ++ NL :: a), r. split; [rewrite E, E1, <- app_assoc; reflexivity|].
      split; [rewrite (lines_cons l a N); cbn [read_lines]; rewrite El; reflexivity|].
      destruct E3 as [[W E3]|E3]; [left; split; [apply whole_cons, W|]|right; exact E3]. intros Hm. apply E3. intros i Hi. apply Hm. lia.
    + destruct (K st) as (a & r & E1 & E2 & E3). exists (l ++ NL :: a), r. split; [rewrite E, E1, <- app_assoc; reflexivity|].
      split; [rewrite (lines_cons l a N); cbn [read_lines]; rewrite El; reflexivity|].
      destruct E3 as [[W E3]|E3]; [left; split; [apply whole_cons, W|]|right; exact E3]. intros Hm. apply E3. intros i Hi. apply Hm. lia.
    + destruct (K st) as (a & r & E1 & E2 & E3). exists (l ++ NL :: a), r. split; [rewrite E, E1, <- app_assoc; reflexivity|].
      split; [rewrite (lines_cons l a N); cbn [read_lines]; rewrite El; reflexivity|].
      destruct E3 as [[W E3]|E3]; [left; split; [apply whole_cons, W|]|right; exact E3]. intros Hm. apply E3. intros i Hi. apply Hm. lia.
  - destruct G as (-> & E & N & Hn). exists l, []. rewrite app_nil_r. split; [exact E|]. split; [|right; auto].
    rewrite (lines_last l N). destruct l as [|c l]; [congruence|]. cbn [read_lines]. destruct (read_line st (c :: l)); reflexivity.
  - destruct G as (-> & E). exists [], []. rewrite E. split; [reflexivity|]. split; [reflexivity|]. right. auto.
  - destruct G as (-> & N). exists [], (buf ++ concat blocks). split; [reflexivity|]. split; [reflexivity|]. left. split; [left; reflexivity|].
    intros _. split; [exact N|discriminate].
Qed.

Lemma ds_stream_spec mem e blocks : full blocks -> exists a r, concat blocks = a ++ r /\ ds_stream mem (Some (blocks, e)) = ds_file (Some a) /\
  ((whole_lines a /\ ((forall i, mem i = true) -> no_newline r /\ (e = AtEnd -> r = []))) \/ (e = AtEnd /\ r = [])).
Proof.
  intros Hb. destruct (read_stream_spec mem e (S (length (concat blocks))) 0 blocks [] rstart Hb) as (a & r & E1 & E2 & E3); [cbn [app]; lia|].
  exists a, r. split; [exact E1|]. split; [unfold ds_stream, ds_file; rewrite E2; reflexivity|].
  destruct E3 as [[W E3]|E3]; [left; split; [exact W|intros Hm; apply E3; auto]|right; exact E3].
Qed.

Lemma stream_blocks blocks : full blocks -> ds_stream enough (Some (blocks, AtEnd)) = ds_file (Some (concat blocks)).
Proof.
  intros Hb. destruct (ds_stream_spec enough AtEnd blocks Hb) as (a & r & E1 & E2 & E3).
  assert (r = []) as -> by (destruct E3 as [[_ E3]|[_ E3]]; [apply E3; reflexivity|exact E3]). rewrite app_nil_r in E1. rewrite E1. exact E2.
Qed.

Lemma stream_error blocks a r : full blocks -> concat blocks = a ++ r -> whole_lines a -> no_newline r ->
  ds_stream enough (Some (blocks, ReadError)) = ds_file (Some a).
Proof.
  intros Hb E W N. destruct (ds_stream_spec enough ReadError blocks Hb) as (a' & r' & E1 & E2 & [[W' E3]|[C _]]); [|discriminate C].
  destruct (E3 (fun _ => eq_refl)) as [N' _]. rewrite E2. do 2 f_equal. rewrite E in E1.
  assert (K : forall a r a' r', a ++ r = a' ++ r' -> whole_lines a -> whole_lines a' -> no_newline r -> no_newline r' -> exists z, a = a' ++ z).
  { clear. intros a r a' r' E W W' N N'. assert (L : length a' <= length a).
    { destruct (Nat.le_gt_cases (length a') (length a)) as [L|L]; [exact L|]. exfalso. destruct W' as [-> | [b ->]]; [cbn in L; lia|].
      apply N. rewrite <- app_assoc in E. assert (F := f_equal (skipn (length a)) E). rewrite skipn_app, skipn_all, Nat.sub_diag in F. cbn [app skipn] in F.
      rewrite F. rewrite app_length in L. cbn [length] in L. rewrite skipn_app. replace (length a - length b) with 0 by lia. apply in_or_app. right. left. reflexivity. }
    exists (skipn (length a') a). assert (F := f_equal (firstn (length a')) E). rewrite !firstn_app, Nat.sub_diag, firstn_all in F. cbn [firstn] in F.
    replace (length a' - length a) with 0 in F by lia. cbn [firstn] in F. rewrite !app_nil_r in F. rewrite <- F at 1. symmetry. apply firstn_skipn. }
  destruct (K _ _ _ _ E1 W W' N N') as (z & Ez). destruct (K _ _ _ _ (eq_sym E1) W' W N' N) as (z' & Ez').
  assert (length a = length a') by (apply Nat.le_antisymm; [rewrite Ez'|rewrite Ez]; rewrite app_length; lia).
  assert (z = []) as -> by (apply length_zero_iff_nil; rewrite Ez, app_length in H; lia). rewrite app_nil_r in Ez. symmetry. exact Ez.
Qed.

Lemma stream_any mem e blocks : full blocks ->
  (exists a r, concat blocks = a ++ r /\ whole_lines a /\ ds_stream mem (Some (blocks, e)) = ds_file (Some a)) \/
  (e = AtEnd /\ ds_stream mem (Some (blocks, e)) = ds_file (Some (concat blocks))).
Proof.
  intros Hb. destruct (ds_stream_spec mem e blocks Hb) as (a & r & E1 & E2 & [[W E3]|[-> ->]]); [left; exists a, r; auto|].
  right. split; [reflexivity|]. rewrite E1, app_nil_r. exact E2.
Qed.

(** ** A prefix of whole lines *)
Lemma file_prefix a rest d : ds_file (Some a) = Ok d -> exists d', ds_file (Some (a ++ NL :: rest)) = Ok d' /\
  prefix (t d) (t d') /\ prefix (data_ d) (data_ d') /\ prefix (err d) (err d') /\ length (t d) = length (data_ d) /\ length (t d') = length (data_ d') /\ (err d = [] <-> err d' = []).
Proof.
  intros Hd. destruct (ds_file_lines a rest) as (na & nr & Ea & Er & Ew & Da & Dr). rewrite Hd in Ea. symmetry in Ea.
  assert (Hn : na <> []) by (intros ->; discriminate Ea).
  assert (Dw : Forall (fun l => is_data l = true) (na ++ nr)) by (apply Forall_app; auto).
  destruct (file_outcomes (Some (a ++ NL :: rest))) as [K1 [K2|[K2|(ts & vs & es & d' & _ & _ & K2 & _)]]].
  - apply K1 in K2. discriminate K2.
  - exfalso. rewrite Ew in K2. apply (file_no_data _ K2) in Dw. destruct na; [congruence|discriminate Dw].
  - exists d'. split; [exact K2|]. rewrite Ew in K2. clear Ew. destruct na as [|l na]; [congruence|].
    apply setUp_fields in Ea as (F1 & F2 & F3 & _). apply setUp_fields in K2 as (G1 & G2 & G3 & _).
    assert (Fe : first_errors ((l :: na) ++ nr) = first_errors (l :: na)) by reflexivity.
    split; [rewrite F1, G1; unfold file_times; rewrite Fe; destruct (first_errors (l :: na));
      [eexists; apply map_app|eexists; rewrite flat_map_app, map_app; reflexivity]|].
    split; [rewrite F2, G2; unfold file_values; rewrite Fe; destruct (first_errors (l :: na));
      [eexists; apply map_app|eexists; rewrite flat_map_app, map_app; reflexivity]|].
    split; [rewrite F3, G3; unfold file_errors; rewrite Fe; destruct (first_errors (l :: na));
      [eexists; unfold errors_col; rewrite map_app, concat_app; reflexivity|exists []; reflexivity]|].
    rewrite F1, F2, G1, G2. split; [apply times_values_length|]. split; [apply times_values_length|].
    rewrite F3, G3, <- !errors_none by assumption. rewrite Fe. reflexivity.
Qed.

Lemma prefix_refl {X} (l : list X) : prefix l l. Proof. exists []. symmetry. apply app_nil_r. Qed.
Lemma first_points_refl d : length (t d) = length (data_ d) -> first_points d d.
Proof. intros H. unfold first_points. intuition (auto using prefix_refl). Qed.

Lemma file_lengths f d : ds_file (Some f) = Ok d -> length (t d) = length (data_ d).
Proof. intros H. destruct (file_prefix f [] d H) as (d' & _ & _ & _ & _ & L & _). exact L. Qed.

Lemma whole_prefix a rest : whole_lines a ->
  ds_file (Some a) = Throw EmptyDataStructureException \/
  exists d d', ds_file (Some a) = Ok d /\ ds_file (Some (a ++ rest)) = Ok d' /\ first_points d d'.
Proof.
  intros [-> | [b ->]]; [left; reflexivity|].
  assert (E : ds_file (Some ((b ++ ["010"%char]) : bytes)) = ds_file (Some b)) by (apply file_rows, rows_last_newline). unfold bytes in *. rewrite E.
  destruct (file_outcomes (Some b)) as [K1 [K2|[K2|(ts & vs & es & d & _ & _ & K2 & _)]]]; [apply K1 in K2; discriminate K2|left; exact K2|].
  right. destruct (file_prefix b rest d K2) as (d' & E' & K). exists d, d'. split; [exact K2|]. split; [rewrite <- app_assoc; exact E'|exact K].
Qed.

(** the file [f] is delivered up to a point where reading fails, or the memory for a line is not there *)
Lemma stream_prefix mem e blocks f : full blocks -> (e = ReadError /\ prefix (concat blocks) f \/ concat blocks = f) ->
  ds_stream mem (Some (blocks, e)) = Throw EmptyDataStructureException \/
  exists d d', ds_stream mem (Some (blocks, e)) = Ok d /\ ds_file (Some f) = Ok d' /\ first_points d d'.
Proof.
  intros Hb Hf. assert (P : prefix (concat blocks) f) by (destruct Hf as [[_ P]| <-]; [exact P|apply prefix_refl]).
  destruct (stream_any mem e blocks Hb) as [(a & r & E & W & ->)|[-> ->]].
  - destruct P as [r' ->]. rewrite E, <- app_assoc. apply whole_prefix, W.
  - destruct Hf as [[C _]|Hf]; [discriminate C|]. rewrite Hf.
    destruct (file_outcomes (Some f)) as [K1 [K2|[K2|(ts & vs & es & d & _ & _ & K2 & _)]]]; [apply K1 in K2; discriminate K2|left; exact K2|].
    right. exists d, d. rewrite K2. split; [reflexivity|]. split; [reflexivity|]. apply first_points_refl, (file_lengths _ _ K2).
Qed.

Lemma cut_lines (s : bytes) : exists a r, s = a ++ r /\ whole_lines a /\ no_newline r.
Proof.
  induction s as [|c s (a & r & -> & W & N)] using rev_ind; [exists [], []; split; [reflexivity|]; split; [left; reflexivity|intros []]|].
  destruct (Ascii.eqb c NL) eqn:E.
  - apply Ascii.eqb_eq in E. subst. exists ((a ++ r) ++ [NL]), []. split; [symmetry; apply app_nil_r|]. split; [right; exists (a ++ r); reflexivity|intros []].
  - exists a, (r ++ [c]). split; [rewrite app_assoc; reflexivity|]. split; [exact W|]. apply no_newline_app; [exact N|].
    intros [C|[]]. subst. rewrite Ascii.eqb_refl in E. discriminate E.
Qed.
End Facts.

(** an empty block is the end *)
Lemma getline_empty e rest : forall a str buf, full a ->
  getline e (a ++ [] :: rest) str buf =
  match getline AtEnd a str buf with GotLine l buf' bs => GotLine l buf' (bs ++ [] :: rest) | g => g end.
Proof.
  induction a as [|b a IH]; intros str buf Hb; cbn [app getline]; destruct (cut_nl buf) as [x [r|]]; try reflexivity.
  - destruct (str ++ x); reflexivity.
  - inversion Hb as [|? ? B1 B2]; subst. destruct b as [|c b]; [congruence|]. apply IH, B2.
Qed.

Lemma read_stream_empty {A : Num} {D : Dec A} mem e rest : forall fuel fuel' k a buf st, full a ->
  length (buf ++ concat a) < fuel -> length (buf ++ concat a) < fuel' ->
  read_stream fuel k mem e (a ++ [] :: rest) buf st = read_stream fuel' k mem AtEnd a buf st.
Proof.
  induction fuel as [|fuel IH]; intros [|fuel'] k a buf st Ha H H'; try lia. cbn [read_stream]. rewrite getline_empty by exact Ha.
  destruct (mem k); [|reflexivity]. pose proof (getline_spec AtEnd a [] buf Ha (fun H => H)) as G. destruct (getline AtEnd a [] buf) as [l b bs|l| |]; try reflexivity.
  destruct G as (G1 & _ & G3). destruct (read_line st l) as [st'| | |]; cbn [bind]; try reflexivity. cbn [app] in G1. rewrite G1, app_length in H, H'. cbn [length] in H, H'.
  apply IH; [exact G3|lia|lia].
Qed.

Lemma stream_empty {A : Num} {D : Dec A} mem e a rest : full a -> ds_stream mem (Some (a ++ [] :: rest, e)) = ds_stream mem (Some (a, AtEnd)).
Proof.
  intros Ha. unfold ds_stream. rewrite (read_stream_empty mem e rest _ (S (length (concat a))) 0 a [] rstart Ha); [reflexivity| |cbn [app]; lia].
  rewrite concat_app. cbn [concat app]. rewrite app_length. lia.
Qed.
