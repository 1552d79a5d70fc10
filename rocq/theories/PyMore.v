(** More facts about construction from Python values and about calls: which constructor is reached, for every pair and triple of
    arguments; file names of any type; weight functions of any type. *)
From Coq Require Import String.
From Coq Require Import ZArith List Bool Arith Ascii Lia.
From Verif Require Import Num Mem MemFacts Spec DataStructure Correlator Sacf Api FileReader PyBind SpecPy PyFacts PyCall SpecCall PyCallFacts.
Import ListNotations.
Local Open Scope list_scope.

Section PyMore.
Context {A : Num} {D : Dec A}.

Lemma not_empty_rows v vss : load_vec2 false v = Some vss -> vss <> [] -> load_vec false v = None.
Proof.
  intros H Hn. destruct (load_vec false v) as [vs|] eqn:E; [|reflexivity]. exfalso.
  apply float_seq in E. apply float_seqs in H.
  destruct E as [l xs E|l xs E]; (destruct E as [|w x l xs Hw _]; [inversion H as [? ? K|? ? K]; subst; inversion K; subst; congruence|]);
    destruct Hw; inversion H as [? ? K|? ? K]; subst; inversion K as [|? ? ? ? K' _]; subst; inversion K'.
Qed.

Lemma empty_1d (ts : list num) (es : list num) : setUp ts [] es 1 (length ts) = setUp ts [] es 0 (length ts).
Proof. reflexivity. Qed.

Lemma floatables_ex v : (exists vs, load_vec true v = Some vs) <-> exists vs, floatables v vs.
Proof. split; intros [vs H]; exists vs; apply load_vec_true; exact H. Qed.

(** ** Two arguments *)
Lemma two_flat o t v ts vs : floatables t ts -> floatables v vs ->
  ~ ((exists ts', floats t ts') /\ exists vss, float_rows v vss /\ vss <> []) ->
  py_DataStructure o [t; v] = SACF_1d ts vs None.
Proof.
  intros Ht Hv Hn. apply load_vec_true in Ht. apply load_vec_true in Hv.
  unfold py_DataStructure, dispatch. rewrite !try_two. unfold call2. rewrite Ht, Hv.
  destruct (load_vec false t) as [ts'|] eqn:E1; [|reflexivity].
  pose proof (load_vec_weaker _ _ E1) as X. rewrite Ht in X. injection X as <-.
  destruct (load_vec false v) as [vs'|] eqn:E2.
  - pose proof (load_vec_weaker _ _ E2) as X. rewrite Hv in X. injection X as <-. reflexivity.
  - destruct (load_vec2 false v) as [vss|] eqn:E3; [|reflexivity].
    destruct vss as [|r vss].
    + exfalso. apply float_seqs in E3. assert (F : load_vec false v = Some []).
      { apply float_seq. inversion E3 as [? ? K|? ? K]; inversion K; subst; constructor; constructor. } congruence.
    + exfalso. apply Hn. split; [exists ts; apply float_seq, E1|]. exists (r :: vss). split; [apply float_seqs, E3|discriminate].
Qed.

Lemma two_nested o t v ts vss : floatables t ts -> floatable_rows v vss -> (forall vs, ~ floatables v vs) ->
  py_DataStructure o [t; v] = SACF_2d ts vss None.
Proof.
  intros Ht Hv Hn. apply load_vec_true in Ht. apply load_vec2_true in Hv.
  assert (N : load_vec true v = None).
  { destruct (load_vec true v) as [vs|] eqn:E; [|reflexivity]. exfalso. apply (Hn vs), load_vec_true, E. }
  unfold py_DataStructure, dispatch. rewrite !try_two. unfold call2. rewrite Ht, Hv, N, (vec_false_none v N).
  destruct (load_vec false t) as [ts'|] eqn:E1; [|reflexivity].
  pose proof (load_vec_weaker _ _ E1) as X. rewrite Ht in X. injection X as <-.
  destruct (load_vec2 false v) as [vss'|] eqn:E2; [|reflexivity].
  pose proof (load_vec2_weaker _ _ E2) as X. rewrite Hv in X. injection X as <-. reflexivity.
Qed.

(** ** Three arguments *)
Lemma three_flat o t v e ts vs es : floatables t ts -> floatables v vs -> floatables e es ->
  ~ ((exists ts', floats t ts') /\ (exists vss, float_rows v vss /\ vss <> []) /\ exists ess, float_rows e ess) ->
  ~ ((exists ts', floats t ts') /\ (exists ess, float_rows e ess /\ ess <> []) /\ vs = []) ->
  py_DataStructure o [t; v; e] = SACF_1d ts vs (Some es).
Proof.
  intros Ht Hv He Hn Hn'. apply load_vec_true in Ht. apply load_vec_true in Hv. apply load_vec_true in He.
  unfold py_DataStructure, dispatch. rewrite !try_three. unfold call3. rewrite Ht, Hv, He.
  destruct (load_vec false t) as [ts'|] eqn:E1; [|reflexivity].
  pose proof (load_vec_weaker _ _ E1) as X. rewrite Ht in X. injection X as <-.
  assert (W : forall w ws, load_vec false w = Some ws -> load_vec true w = Some ws) by (intros; apply load_vec_weaker; assumption).
  assert (Em : forall w, load_vec2 false w = Some [] -> load_vec false w = Some []).
  { intros w H. apply float_seqs in H. apply float_seq. inversion H as [? ? K|? ? K]; inversion K; subst; constructor; constructor. }
  destruct (load_vec false v) as [vs'|] eqn:E2, (load_vec false e) as [es'|] eqn:E3.
  - apply W in E2. apply W in E3. rewrite Hv in E2. rewrite He in E3. injection E2 as <-. injection E3 as <-. reflexivity.
  - destruct (load_vec2 false v) as [vss|] eqn:E4; [|reflexivity].
    destruct (load_vec2 false e) as [ess|] eqn:E5; [|reflexivity]. exfalso.
    destruct ess as [|r ess]; [apply Em in E5; congruence|].
    destruct vss as [|r' vss].
    + apply Hn'. split; [exists ts; apply float_seq, E1|]. split; [exists (r :: ess); split; [apply float_seqs, E5|discriminate]|].
      apply Em in E4. apply W in E4. congruence.
    + rewrite (not_empty_rows v _ E4) in E2; [discriminate|discriminate].
  - destruct (load_vec2 false v) as [vss|] eqn:E4; [|reflexivity].
    destruct (load_vec2 false e) as [ess|] eqn:E5; [|reflexivity]. exfalso.
    destruct vss as [|r' vss]; [apply Em in E4; congruence|].
    apply Hn. split; [exists ts; apply float_seq, E1|]. split; [exists (r' :: vss); split; [apply float_seqs, E4|discriminate]|].
    exists ess. apply float_seqs, E5.
  - destruct (load_vec2 false v) as [vss|] eqn:E4; [|reflexivity].
    destruct (load_vec2 false e) as [ess|] eqn:E5; [|reflexivity]. exfalso.
    destruct vss as [|r' vss]; [apply Em in E4; congruence|].
    apply Hn. split; [exists ts; apply float_seq, E1|]. split; [exists (r' :: vss); split; [apply float_seqs, E4|discriminate]|].
    exists ess. apply float_seqs, E5.
Qed.

(** without values it is the same which constructor is reached *)
Lemma three_empty o t v e ts : floatables t ts -> floatables v [] -> (exists es, floatables e es) \/ (exists ess, floatable_rows e ess) ->
  py_DataStructure o [t; v; e] = Throw EmptyDataStructureException.
Proof.
  intros Ht Hv He.
  assert (V2 : load_vec2 true v = Some []).
  { apply load_vec2_true. inversion Hv as [? ? K|? ? K]; inversion K; subst; constructor; constructor. }
  assert (V2' : forall x, load_vec2 false v = Some x -> x = []) by (intros x Hx; apply load_vec2_weaker in Hx; congruence).
  apply load_vec_true in Ht. apply load_vec_true in Hv.
  assert (V1' : forall x, load_vec false v = Some x -> x = []) by (intros x Hx; apply load_vec_weaker in Hx; congruence).
  unfold py_DataStructure, dispatch. rewrite !try_three.
  assert (T : forall c r, call3 c t v e = Some r -> r = Throw EmptyDataStructureException).
  { intros c r. unfold call3. destruct (load_vec c t) as [ts'|]; [|discriminate].
    assert (E1 : forall x, load_vec c v = Some x -> x = []) by (destruct c; [intros x Hx; congruence|exact V1']).
    assert (E2 : forall x, load_vec2 c v = Some x -> x = []) by (destruct c; [intros x Hx; congruence|exact V2']).
    destruct (load_vec c v) as [x|]; [rewrite (E1 x eq_refl)|];
      (destruct (load_vec c e) as [es|]; (destruct (load_vec2 c v) as [y|]; [try rewrite (E2 y eq_refl)|]); (destruct (load_vec2 c e) as [ess|]));
      intros H; try discriminate H; injection H as <-; reflexivity. }
  destruct (call3 false t v e) as [r|] eqn:E; [apply (T false), E|].
  destruct (call3 true t v e) as [r|] eqn:E'; [apply (T true), E'|].
  exfalso. unfold call3 in E'. rewrite Ht, Hv, V2 in E'. destruct He as [(es & He)|(ess & He)].
  - apply load_vec_true in He. rewrite He in E'. discriminate.
  - apply load_vec2_true in He. rewrite He in E'. destruct (load_vec true e); discriminate.
Qed.

Lemma three_float_rows o t v e ts vss ess : floats t ts -> float_rows v vss -> float_rows e ess -> vss <> [] ->
  py_DataStructure o [t; v; e] = SACF_2d ts vss (Some ess).
Proof.
  intros Ht Hv He Hn. apply float_seq in Ht. apply float_seqs in Hv. apply float_seqs in He.
  unfold py_DataStructure, dispatch. rewrite !try_three. unfold call3. rewrite Ht, Hv, He, (not_empty_rows v vss Hv Hn). reflexivity.
Qed.

Lemma three_nested o t v e ts vss ess : floatables t ts -> floatable_rows v vss -> floatable_rows e ess ->
  ~ ((exists vs, floatables v vs) /\ (exists es, floatables e es)) ->
  py_DataStructure o [t; v; e] = SACF_2d ts vss (Some ess).
Proof.
  intros Ht Hv He Hn. apply load_vec_true in Ht. apply load_vec2_true in Hv. apply load_vec2_true in He.
  assert (N : load_vec true v = None \/ load_vec true e = None).
  { destruct (load_vec true v) as [vs|] eqn:E; [|left; reflexivity]. destruct (load_vec true e) as [es|] eqn:E'; [|right; reflexivity].
    exfalso. apply Hn. split; [exists vs|exists es]; apply load_vec_true; assumption. }
  assert (N' : load_vec false v = None \/ load_vec false e = None) by (destruct N as [N|N]; [left|right]; apply vec_false_none, N).
  assert (K : forall c ts', load_vec c v = None \/ load_vec c e = None -> match load_vec c v, load_vec c e with
      | Some vs, Some es => Some (ds_1d_err ts' vs es)
      | _, _ => match load_vec2 c v, load_vec2 c e with Some vs, Some es => Some (ds_2d_err ts' vs es) | _, _ => None end
      end = match load_vec2 c v, load_vec2 c e with Some vs, Some es => Some (ds_2d_err ts' vs es) | _, _ => None end).
  { intros c ts' [-> | ->]; [reflexivity|]. destruct (load_vec c v); reflexivity. }
  unfold py_DataStructure, dispatch. rewrite !try_three. unfold call3. rewrite Ht, (K true ts N), Hv, He.
  destruct (load_vec false t) as [ts'|] eqn:E1; [|reflexivity]. rewrite (K false ts' N').
  pose proof (load_vec_weaker _ _ E1) as X. rewrite Ht in X. injection X as <-.
  destruct (load_vec2 false v) as [vss'|] eqn:E2; [|reflexivity].
  pose proof (load_vec2_weaker _ _ E2) as X. rewrite Hv in X. injection X as <-.
  destruct (load_vec2 false e) as [ess'|] eqn:E3; [|reflexivity].
  pose proof (load_vec2_weaker _ _ E3) as X. rewrite He in X. injection X as <-. reflexivity.
Qed.

Lemma three_flat' o t v e ts vs es : floatables t ts -> floatables v vs -> floatables e es ->
  ~ ((exists ts', floats t ts') /\ (exists vss, float_rows v vss /\ vss <> []) /\ exists ess, float_rows e ess) ->
  py_DataStructure o [t; v; e] = SACF_1d ts vs (Some es).
Proof.
  intros Ht Hv He Hn. destruct vs as [|x vs].
  - rewrite (three_empty o t v e ts Ht Hv); [reflexivity|left; exists es; exact He].
  - apply (three_flat o t v e ts _ es Ht Hv He Hn). intros (_ & _ & K). discriminate.
Qed.

(** ** A file name of any type *)
Lemma sacf_any_filename o t v e f b : truth_value f b ->
  py_SACF o t v e f = py_DataStructure o (if b then [f] else match e with PyNone => [t; v] | _ => [t; v; e] end).
Proof.
  intros H. unfold py_SACF. rewrite (truth_value_ok f b H). cbn [bind]. destruct b; [reflexivity|]. destruct e; reflexivity.
Qed.
Lemma sacf_ambiguous o t v e u w l : py_SACF o t v e (PyArray (u :: w :: l)) = Throw PyValueError.
Proof. reflexivity. Qed.

(** ** A weight function of any type *)
Lemma find_at_bad_weight h p sel wgt c kk i : (sel = "natural" \/ sel = "fast")%string ->
  ~ is_str wgt "gaussian" -> ~ is_str wgt "fractional" -> ~ is_str wgt "fractional_squared" ->
  snd (find_correlation_at p sel "gaussian" c kk i) = Ok tt ->
  py_find_correlation_at h p (PyStr (list_ascii_of_string sel)) wgt c kk i = (c, Throw (bad_key h wgt)).
Proof.
  intros Hs N1 N2 N3 H.
  assert (Hw : py_WEIGHT h wgt = Throw (bad_key h wgt)).
  { unfold py_WEIGHT. destruct (py_is wgt "gaussian") eqn:Q1; [apply py_is_str in Q1; contradiction|].
    destruct (py_is wgt "fractional") eqn:Q2; [apply py_is_str in Q2; contradiction|].
    destruct (py_is wgt "fractional_squared") eqn:Q3; [apply py_is_str in Q3; contradiction|]. reflexivity. }
  revert H. unfold py_find_correlation_at, find_correlation_at, py_SELECTION, SELECTION_FUNCTIONS. rewrite !py_is_lit, Hw.
  destruct Hs as [-> | ->]; cbn [String.eqb Ascii.eqb Bool.eqb mbind].
  - destruct (naturalSelectionFunctionIdx p (ds c) _) as [it1 [[]|e|u|]]; cbn [on_it snd]; try discriminate.
    destruct (deltaT p (ds c) it1) as [it2 [[]|e|u|]]; cbn [on_it snd]; try discriminate. intros _. reflexivity.
  - destruct (fastSelectionFunctionIdx p (ds c) _) as [it1 [[]|e|u|]]; cbn [on_it snd]; try discriminate.
    destruct (deltaT p (ds c) it1) as [it2 [[]|e|u|]]; cbn [on_it snd]; try discriminate. intros _. reflexivity.
Qed.

Lemma find_bad_weight h p c sel wgt u : (sel = "natural" \/ sel = "fast")%string ->
  ~ is_str wgt "gaussian" -> ~ is_str wgt "fractional" -> ~ is_str wgt "fractional_squared" ->
  snd (find_correlation p c sel "gaussian") = Ok u ->
  py_find_correlation h p c (PyStr (list_ascii_of_string sel)) wgt = (c, Throw (bad_key h wgt)).
Proof.
  intros Hs N1 N2 N3. unfold find_correlation, py_find_correlation. cbn [find_loop py_find_loop].
  destruct (gen_next (max_lag c) (lag_resolution c) (gen_start (min_lag c))) as [[kk g']|]; [|intros K; cbn in K; discriminate K].
  intros H. assert (E : snd (find_correlation_at p sel "gaussian" c kk 0) = Ok tt).
  { destruct (find_correlation_at p sel "gaussian" c kk 0) as [c1 [[]|e|w|]]; cbn [mbind snd] in *; [reflexivity|discriminate H..]. }
  rewrite (find_at_bad_weight h p sel wgt c kk 0 Hs N1 N2 N3 E). reflexivity.
Qed.

Notation R := (receives autocorrelation_parameters).
Lemma call_bad_weight h p d pos kws mi ma re al x1 x2 x3 x4 sel wgt r : well_called autocorrelation_parameters pos kws ->
  R pos kws "min_lag" mi -> R pos kws "max_lag" ma -> R pos kws "lag_resolution" re -> R pos kws "alpha" al ->
  R pos kws "selection_function" (PyStr (list_ascii_of_string sel)) -> R pos kws "weight_function" wgt ->
  optional mi x1 -> optional ma x2 -> optional re x3 -> optional al x4 -> (sel = "natural" \/ sel = "fast")%string ->
  ~ is_str wgt "gaussian" -> ~ is_str wgt "fractional" -> ~ is_str wgt "fractional_squared" ->
  autocorrelation p d x1 x2 x3 x4 sel "gaussian" = Ok r ->
  call_autocorrelation h p d pos kws = Throw (bad_key h wgt).
Proof.
  intros W H1 H2 H3 H4 H5 H6 O1 O2 O3 O4 Hs N1 N2 N3 E.
  destruct (receives_one _ pos kws "return_correlator"%string sig_auto_nodup W) as [rc [H7 _]]; [cbn; tauto|].
  rewrite (call_values h p d pos kws mi ma re al _ _ rc W H1 H2 H3 H4 H5 H6 H7). unfold run_values.
  unfold autocorrelation in E. destruct (new_Correlator d) as [c0| | |]; cbn [bind] in *; try discriminate E.
  destruct (set_up_lags c0 mi ma re al x1 x2 x3 x4 O1 O2 O3 O4) as [Es _]. rewrite Es. cbn [bind].
  destruct (py_is wgt "fractional") eqn:Q; [apply py_is_str in Q; contradiction|]. rewrite andb_false_r.
  change (String.eqb "gaussian" "fractional") with false in E. rewrite andb_false_r in E.
  destruct (snd (find_correlation p (set_up_correlation c0 x1 x2 x3 x4) sel "gaussian")) as [u| | |] eqn:F; cbn [bind] in E; try discriminate E.
  rewrite (find_bad_weight h p _ sel wgt u Hs N1 N2 N3 F). reflexivity.
Qed.
End PyMore.
