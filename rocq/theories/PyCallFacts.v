(** Proofs about calls with keyword arguments. *)
From Coq Require Import String.
From Coq Require Import ZArith List Bool Arith Ascii Lia Permutation.
From Verif Require Import Num Mem Spec DataStructure Correlator Sacf FileReader PyBind PyCall SpecPy SpecCall Api PyFacts.
Import ListNotations.
Local Open Scope list_scope.

Section Bind.
Context {A : Num}.
Notation sigt := (list (string * @pyval A)).
Notation names := (map fst).

Lemma place_positional_at (sig : sigt) : forall pos i, i < length sig -> nth_error (place_positional sig pos) i = Some (nth_error pos i).
Proof.
  induction sig as [|a sig IH]; intros pos i Hi; [cbn in Hi; lia|]. cbn [length] in Hi.
  destruct pos as [|v pos]; destruct i as [|i]; cbn [place_positional nth_error]; try reflexivity.
  - rewrite IH by lia. destruct i; reflexivity.
  - apply IH. lia.
Qed.
Lemma place_positional_length (sig : sigt) : forall pos, length (place_positional sig pos) = length sig.
Proof. induction sig as [|a sig IH]; intros [|v pos]; cbn [place_positional length]; auto. Qed.

Lemma place_keyword_cases (sig : sigt) x v : NoDup (names sig) -> forall slots, length slots = length sig ->
  (exists j r, nth_error (names sig) j = Some x /\ nth_error slots j = Some None /\ place_keyword sig slots x v = Ok r /\ length r = length sig /\
     nth_error r j = Some (Some v) /\ forall i, i <> j -> nth_error r i = nth_error slots i) \/
  (place_keyword sig slots x v = Throw PyTypeError /\ forall j, nth_error (names sig) j = Some x -> nth_error slots j <> Some None).
Proof.
  induction sig as [|[y d] sig IH]; intros HN slots HL.
  { right. destruct slots; [|discriminate]. split; [reflexivity|]. intros [|j]; discriminate. }
  destruct slots as [|s slots]; [discriminate|]. cbn [length map fst] in *. injection HL as HL. inversion HN as [|? ? Hy HN']; subst.
  cbn [place_keyword]. destruct (String.eqb_spec x y) as [->|Hxy].
  - destruct s as [u|].
    + right. split; [reflexivity|]. intros [|j] Hj; [cbn [nth_error]; discriminate|]. cbn [nth_error] in Hj. apply nth_error_In in Hj. contradiction.
    + left. exists 0, (Some v :: slots). cbn [nth_error length]. repeat (split; [auto|]). intros [|i] Hi; [congruence|reflexivity].
  - destruct (IH HN' slots HL) as [[j [r [H1 [H2 [H3 [H4 [H5 H6]]]]]]]|[H1 H2]].
    + left. exists (S j), (s :: r). rewrite H3. cbn [bind nth_error length]. repeat (split; [auto|]). intros [|i] Hi; [reflexivity|]. cbn [nth_error]. apply H6. lia.
    + right. rewrite H1. split; [reflexivity|]. intros [|j] Hj; cbn [nth_error] in *; [injection Hj as ->; congruence|auto].
Qed.

Lemma names_inj (sig : sigt) i j x : NoDup (names sig) -> nth_error (names sig) i = Some x -> nth_error (names sig) j = Some x -> i = j.
Proof. intros HN Hi Hj. apply (proj1 (NoDup_nth_error (names sig)) HN); [apply nth_error_Some; congruence|congruence]. Qed.

Lemma place_keywords_cases (sig : sigt) : NoDup (names sig) -> forall kws slots, length slots = length sig ->
  (place_keywords sig slots kws = Throw PyTypeError /\
     ~ (NoDup (names kws) /\ forall x, In x (names kws) -> exists j, nth_error (names sig) j = Some x /\ nth_error slots j = Some None)) \/
  (exists r, place_keywords sig slots kws = Ok r /\ length r = length sig /\ NoDup (names kws) /\
     (forall x v, In (x, v) kws -> exists j, nth_error (names sig) j = Some x /\ nth_error slots j = Some None /\ nth_error r j = Some (Some v)) /\
     (forall j x, nth_error (names sig) j = Some x -> ~ In x (names kws) -> nth_error r j = nth_error slots j)).
Proof.
  intros HN. induction kws as [|[x v] kws IH]; intros slots HL.
  { right. exists slots. cbn [place_keywords map]. split; [reflexivity|]. split; [exact HL|]. split; [constructor|]. split; [intros ? ? []|reflexivity]. }
  cbn [place_keywords map fst].
  destruct (place_keyword_cases sig x v HN slots HL) as [[j [r [H1 [H2 [H3 [H4 [H5 H6]]]]]]]|[H1 H2]].
  2:{ left. rewrite H1. split; [reflexivity|]. intros [_ K]. destruct (K x (or_introl eq_refl)) as [j [K1 K2]]. exact (H2 j K1 K2). }
  rewrite H3. cbn [bind]. destruct (IH r H4) as [[K1 K2]|[r' [K1 [K2 [K3 [K4 K5]]]]]].
  - left. split; [exact K1|]. intros [N1 N2]. inversion N1 as [|? ? Nx N1']; subst. apply K2. split; [exact N1'|].
    intros y Hy. destruct (N2 y (or_intror Hy)) as [i [I1 I2]]. exists i. split; [exact I1|]. rewrite H6; [exact I2|]. intros ->. rewrite H1 in I1. injection I1 as ->. contradiction.
  - right. exists r'. assert (Hx : ~ In x (names kws)).
    { intros Hx. apply in_map_iff in Hx. destruct Hx as [[x' v'] [E Hx]]. cbn [fst] in E. subst x'. destruct (K4 x v' Hx) as [i [I1 [I2 _]]].
      rewrite (names_inj sig i j x HN I1 H1) in I2. rewrite H5 in I2. discriminate. }
    split; [exact K1|]. split; [exact K2|]. split; [constructor; assumption|]. split.
    + intros y w [E|Hy].
      * injection E as <- <-. exists j. split; [exact H1|]. split; [exact H2|]. rewrite (K5 j x H1 Hx). exact H5.
      * destruct (K4 y w Hy) as [i [I1 [I2 I3]]]. exists i. split; [exact I1|]. split; [|exact I3].
        rewrite <- I2. symmetry. apply H6. intros ->. rewrite H1 in I1. injection I1 as <-. apply Hx. apply (in_map fst) in Hy. exact Hy.
    + intros i y Hi Hy. rewrite (K5 i y Hi) by (intros C; apply Hy; right; exact C). apply H6. intros ->. rewrite H1 in Hi. injection Hi as <-. apply Hy. left. reflexivity.
Qed.

Lemma fill_defaults_at (sig : sigt) : forall slots, length slots = length sig -> length (fill_defaults sig slots) = length sig /\
  forall i x v s, nth_error sig i = Some (x, v) -> nth_error slots i = Some s -> nth_error (fill_defaults sig slots) i = Some match s with Some u => u | None => v end.
Proof.
  induction sig as [|[y d] sig IH]; intros [|s slots] HL; try discriminate.
  - split; [reflexivity|]. intros [|i]; discriminate.
  - injection HL as HL. destruct (IH slots HL) as [K1 K2]. cbn [fill_defaults length]. split; [congruence|].
    intros [|i] x v s' H1 H2; cbn [nth_error] in *; [injection H1 as <- <-; injection H2 as <-; reflexivity|eauto].
Qed.

Lemma names_at (sig : sigt) i x : nth_error (names sig) i = Some x -> exists v, nth_error sig i = Some (x, v).
Proof. rewrite nth_error_map. destruct (nth_error sig i) as [[y v]|]; cbn [option_map fst]; intros E; [injection E as <-; eauto|discriminate]. Qed.

Lemma bind_spec (sig : sigt) pos kws : NoDup (names sig) ->
  (well_called sig pos kws /\ exists l, bind_arguments sig pos kws = Ok l /\ length l = length sig /\
     forall i x v, nth_error (names sig) i = Some x -> (receives sig pos kws x v <-> nth_error l i = Some v)) \/
  (~ well_called sig pos kws /\ bind_arguments sig pos kws = Throw PyTypeError).
Proof.
  intros HN. unfold bind_arguments. pose proof (place_positional_length sig pos) as L0.
  destruct (place_keywords_cases sig HN kws _ L0) as [[H1 H2]|[r [H1 [H2 [H3 [H4 H5]]]]]]; rewrite H1; cbn [bind].
  - right. split; [|reflexivity]. intros [W1 [W2 W3]]. apply H2. split; [exact W2|]. intros x Hx. destruct (W3 x Hx) as [i [I1 I2]]. exists i. split; [exact I2|].
    rewrite place_positional_at; [|rewrite <- (map_length fst); apply nth_error_Some; congruence]. f_equal. apply nth_error_None. exact I1.
  - destruct (Nat.ltb_spec (length sig) (length pos)) as [G|G]; [right; split; [intros [W _]; lia|reflexivity]|]. left.
    assert (HF : forall i x, nth_error (names sig) i = Some x -> nth_error (place_positional sig pos) i = Some (nth_error pos i)).
    { intros i x Hi. apply place_positional_at. rewrite <- (map_length fst). apply nth_error_Some. congruence. }
    assert (HW : well_called sig pos kws).
    { split; [exact G|]. split; [exact H3|]. intros x Hx. apply in_map_iff in Hx. destruct Hx as [[x' v] [E Hx]]. cbn [fst] in E. subst x'.
      destruct (H4 x v Hx) as [j [I1 [I2 _]]]. exists j. split; [|exact I1]. rewrite (HF j x I1) in I2. injection I2 as I2. apply nth_error_None. exact I2. }
    split; [exact HW|]. destruct (fill_defaults_at sig r H2) as [K1 K2]. exists (fill_defaults sig r). split; [reflexivity|]. split; [exact K1|].
    assert (V : forall i x v, nth_error (names sig) i = Some x -> receives sig pos kws x v -> nth_error (fill_defaults sig r) i = Some v).
    { intros i x v Hi R. destruct (names_at sig i x Hi) as [dv Hd]. destruct R as [i' I1 I2|Hk|i' I1 I2 I3].
      - rewrite (names_inj sig i' i x HN I1 Hi) in I2. assert (Hx : ~ In x (names kws)).
        { intros Hx. destruct HW as [_ [_ W3]]. destruct (W3 x Hx) as [i2 [J1 J2]]. rewrite (names_inj sig i2 i x HN J2 Hi) in J1. apply nth_error_None in J1. congruence. }
        rewrite (K2 i x dv (Some v) Hd); [reflexivity|]. rewrite (H5 i x Hi Hx), (HF i x Hi). congruence.
      - destruct (H4 x v Hk) as [j [J1 [_ J3]]]. rewrite (names_inj sig j i x HN J1 Hi) in J3. rewrite (K2 i x dv (Some v) Hd J3). reflexivity.
      - assert (Hn : nth_error (names sig) i' = Some x) by (rewrite nth_error_map, I1; reflexivity). assert (i' = i) by exact (names_inj sig i' i x HN Hn Hi). subst i'.
        rewrite (K2 i x v None I1); [reflexivity|]. rewrite (H5 i x Hi I3), (HF i x Hi). f_equal. apply nth_error_None. exact I2. }
    intros i x v Hi. split; [exact (V i x v Hi)|]. intros Hv.
    assert (R : exists w, receives sig pos kws x w).
    { destruct (in_dec string_dec x (names kws)) as [Hx|Hx].
      - apply in_map_iff in Hx. destruct Hx as [[x' w] [E Hx]]. cbn [fst] in E. subst x'. exists w. apply by_keyword. exact Hx.
      - destruct (nth_error pos i) as [w|] eqn:Ep; [exists w; exact (by_position _ _ _ _ _ i Hi Ep)|].
        destruct (names_at sig i x Hi) as [dv Hd]. exists dv. apply (by_default _ _ _ _ _ i Hd); [apply nth_error_None; exact Ep|exact Hx]. }
    destruct R as [w R]. rewrite (V i x w Hi R) in Hv. injection Hv as <-. exact R.
Qed.
End Bind.

Section Calls.
Context {A : Num} {D : Dec A}.

Lemma sig_SACF_nodup : NoDup (map fst (@SACF_parameters A)).
Proof. repeat constructor; cbn; intuition discriminate. Qed.
Lemma sig_auto_nodup : NoDup (map fst (@autocorrelation_parameters A)).
Proof. repeat constructor; cbn; intuition discriminate. Qed.

Lemma call_SACF_spec open_file pos kws :
  (well_called SACF_parameters pos kws /\ exists t v e f,
     receives SACF_parameters pos kws "timeseries" t /\ receives SACF_parameters pos kws "values" v /\
     receives SACF_parameters pos kws "errors" e /\ receives SACF_parameters pos kws "filename" f /\
     call_SACF open_file pos kws = py_SACF open_file t v e f) \/
  (~ well_called SACF_parameters pos kws /\ call_SACF open_file pos kws = Throw PyTypeError).
Proof.
  unfold call_SACF. change sig_SACF with (@SACF_parameters A).
  destruct (bind_spec SACF_parameters pos kws sig_SACF_nodup) as [[W [l [E [L R]]]]|[W E]]; rewrite E; cbn [bind]; [left|right; split; auto].
  split; [exact W|]. cbn [SACF_parameters length] in L. destruct l as [|t [|v [|e [|f [|? ?]]]]]; try discriminate L.
  exists t, v, e, f. repeat split; [apply (R 0)|apply (R 1)|apply (R 2)|apply (R 3)]; reflexivity.
Qed.

Lemma py_is_str v name : py_is v name = true <-> is_str v name.
Proof.
  unfold py_is, is_str. destruct v as [|x|z|x|s|s|l|l|]; try (split; discriminate). destruct (list_eq_dec ascii_dec s (list_ascii_of_string name)) as [->|N]; split; auto; [discriminate|congruence].
Qed.
Lemma py_is_lit a b : py_is (PyStr (list_ascii_of_string a)) b = String.eqb a b.
Proof.
  unfold py_is. destruct (list_eq_dec _ _ _) as [E|N]; destruct (String.eqb_spec a b) as [E'|N']; auto.
  - exfalso. apply N'. rewrite <- (string_of_list_ascii_of_string a), E, string_of_list_ascii_of_string. reflexivity.
  - congruence.
Qed.

Lemma find_at_str h p sel wgt c kk i :
  py_find_correlation_at h p (PyStr (list_ascii_of_string sel)) (PyStr (list_ascii_of_string wgt)) c kk i = find_correlation_at p sel wgt c kk i.
Proof.
  unfold py_find_correlation_at, find_correlation_at, py_SELECTION, SELECTION_FUNCTIONS. rewrite !py_is_lit.
  assert (G : forall c it2, mbind (c, py_WEIGHT h (PyStr (list_ascii_of_string wgt))) (fun c w => on_it c (findCorrelation p c (w c it2)) (fun it4 => addCorrelationData c it4 i)) =
    match WEIGHT_FUNCTIONS wgt with None => (c, Throw PyKeyError) | Some w => on_it c (findCorrelation p c (w c it2)) (fun it4 => addCorrelationData c it4 i) end).
  { intros c' it2. unfold py_WEIGHT, WEIGHT_FUNCTIONS. rewrite !py_is_lit.
    destruct (String.eqb wgt "gaussian"); [reflexivity|]. destruct (String.eqb wgt "fractional"); [reflexivity|]. destruct (String.eqb wgt "fractional_squared"); reflexivity. }
  assert (G2 : forall f : correlator -> cor_it -> meth cor_it unit,
    on_it c (f c (CorrelationIterator kk (N_datasets (ds c)))) (fun it1 => on_it c (deltaT p (ds c) it1) (fun it2 =>
      mbind (c, py_WEIGHT h (PyStr (list_ascii_of_string wgt))) (fun c w => on_it c (findCorrelation p c (w c it2)) (fun it4 => addCorrelationData c it4 i)))) =
    on_it c (f c (CorrelationIterator kk (N_datasets (ds c)))) (fun it1 => on_it c (deltaT p (ds c) it1) (fun it2 =>
      match WEIGHT_FUNCTIONS wgt with None => (c, Throw PyKeyError) | Some w => on_it c (findCorrelation p c (w c it2)) (fun it4 => addCorrelationData c it4 i) end))).
  { intros f. destruct (f c _) as [it1 [[]|e|u|]]; cbn [on_it]; auto. destruct (deltaT p (ds c) it1) as [it2 [[]|e|u|]]; cbn [on_it]; auto. }
  destruct (String.eqb sel "fast"); [apply (G2 (fun c => fastSelectionFunctionIdx p (ds c)))|].
  destruct (String.eqb sel "natural"); [apply (G2 (fun c => naturalSelectionFunctionIdx p (ds c)))|]. reflexivity.
Qed.

Lemma find_loop_str h p sel wgt maxl resl : forall fuel g n last c,
  py_find_loop h p (PyStr (list_ascii_of_string sel)) (PyStr (list_ascii_of_string wgt)) fuel maxl resl g n last c = find_loop p sel wgt fuel maxl resl g n last c.
Proof.
  induction fuel as [|fuel IH]; intros g n last c; [reflexivity|]. cbn [py_find_loop find_loop]. destruct (gen_next maxl resl g) as [[kk g']|]; [|reflexivity].
  rewrite find_at_str. destruct (find_correlation_at p sel wgt c kk n) as [c1 [[]|e|u|]]; cbn [mbind]; auto.
Qed.

Lemma find_str h p c sel wgt :
  py_find_correlation h p c (PyStr (list_ascii_of_string sel)) (PyStr (list_ascii_of_string wgt)) = find_correlation p c sel wgt.
Proof. unfold py_find_correlation, find_correlation. rewrite find_loop_str. reflexivity. Qed.

Notation R := (receives autocorrelation_parameters).
Definition run_values h p d (mi ma re al sel wgt rc : @pyval A) : res py_tuple :=
  do c0 <- new_Correlator d; do c1 <- py_set_up_correlation c0 mi ma re al;
  let m := if py_is sel "natural" && py_is wgt "fractional" then calculateStandardCorrelation p c1 else py_find_correlation h p c1 sel wgt in
  do _u <- snd m; do b <- truth rc; do r <- result_of (fst m); Ok (if b then Triple (fst r) (snd r) (fst m) else Pair (fst r) (snd r)).

Lemma call_auto_spec h p d pos kws :
  (well_called autocorrelation_parameters pos kws /\ exists mi ma re al sel wgt rc,
     R pos kws "min_lag" mi /\ R pos kws "max_lag" ma /\ R pos kws "lag_resolution" re /\ R pos kws "alpha" al /\
     R pos kws "selection_function" sel /\ R pos kws "weight_function" wgt /\ R pos kws "return_correlator" rc /\
     call_autocorrelation h p d pos kws = run_values h p d mi ma re al sel wgt rc) \/
  (~ well_called autocorrelation_parameters pos kws /\ call_autocorrelation h p d pos kws = Throw PyTypeError).
Proof.
  unfold call_autocorrelation. change sig_autocorrelation with (@autocorrelation_parameters A).
  destruct (bind_spec autocorrelation_parameters pos kws sig_auto_nodup) as [[W [l [E [L Q]]]]|[W E]]; rewrite E; cbn [bind]; [left|right; split; auto].
  split; [exact W|]. cbn [autocorrelation_parameters length] in L. destruct l as [|a [|b [|c [|e [|f [|g [|k [|? ?]]]]]]]]; try discriminate L.
  exists a, b, c, e, f, g, k. repeat split; [apply (Q 0)|apply (Q 1)|apply (Q 2)|apply (Q 3)|apply (Q 4)|apply (Q 5)|apply (Q 6)]; reflexivity.
Qed.

Lemma receives_fun (ps : list (string * @pyval A)) pos kws i x v w : NoDup (map fst ps) -> well_called ps pos kws -> nth_error (map fst ps) i = Some x ->
  receives ps pos kws x v -> receives ps pos kws x w -> v = w.
Proof.
  intros HN W Hi H1 H2. destruct (bind_spec ps pos kws HN) as [[_ [l [_ [_ K]]]]|[C _]]; [|contradiction].
  apply (K i x v Hi) in H1. apply (K i x w Hi) in H2. congruence.
Qed.

Lemma run_values_str h p d mi ma re al sel wgt rc b : truth rc = Ok b ->
  run_values h p d mi ma re al (PyStr (list_ascii_of_string sel)) (PyStr (list_ascii_of_string wgt)) rc =
  do r <- py_autocorrelation p d mi ma re al sel wgt; Ok (if b then Triple (fst (fst r)) (snd (fst r)) (snd r) else Pair (fst (fst r)) (snd (fst r))).
Proof.
  intros Hb. unfold run_values, py_autocorrelation. rewrite !py_is_lit, Hb. destruct (new_Correlator d) as [c0| | |]; cbn [bind]; auto.
  destruct (py_set_up_correlation c0 mi ma re al) as [c1| | |]; cbn [bind]; auto. rewrite find_str.
  destruct (if _ : bool then calculateStandardCorrelation p c1 else find_correlation p c1 sel wgt) as [c2 [[]|e|u|]]; cbn [snd fst bind]; auto.
  destruct (result_of c2) as [[x y]| | |]; cbn [bind fst snd]; auto.
Qed.

(** the same keywords in another order, the last positional argument as a keyword, a default written out *)
Lemma bind_same (ps : list (string * @pyval A)) pos kws pos' kws' : NoDup (map fst ps) ->
  (well_called ps pos kws <-> well_called ps pos' kws') -> (forall x v, well_called ps pos kws -> receives ps pos kws x v -> receives ps pos' kws' x v) ->
  bind_arguments ps pos kws = bind_arguments ps pos' kws'.
Proof.
  intros HN HW HR. destruct (bind_spec ps pos kws HN) as [[W [l [E [L K]]]]|[W E]]; destruct (bind_spec ps pos' kws' HN) as [[W' [l' [E' [L' K']]]]|[W' E']]; try tauto; [|congruence].
  rewrite E, E'. f_equal.
  assert (G : forall i, nth_error l i = nth_error l' i).
  { intros i. destruct (nth_error (map fst ps) i) as [x|] eqn:Ei.
    - destruct (nth_error l i) as [v|] eqn:El.
      + apply (K i x v Ei) in El. apply (HR x v W) in El. apply (K' i x v Ei) in El. congruence.
      + apply nth_error_None in El. assert (i < length (map fst ps)) by (apply nth_error_Some; congruence). rewrite map_length in *. lia.
    - apply nth_error_None in Ei. rewrite map_length in Ei. rewrite (proj2 (nth_error_None l i)) by lia. symmetry. apply nth_error_None. lia. }
  clear - G. revert l' G. induction l as [|a l IH]; intros [|b l'] G; auto; try (specialize (G 0); discriminate).
  pose proof (G 0) as G0. injection G0 as ->. f_equal. apply IH. intros i. exact (G (S i)).
Qed.

Lemma bind_permuted (ps : list (string * @pyval A)) pos kws kws' : NoDup (map fst ps) -> Permutation kws kws' -> bind_arguments ps pos kws = bind_arguments ps pos kws'.
Proof.
  intros HN HP. assert (HQ : forall x, In x (map fst kws) <-> In x (map fst kws')) by (intros x; split; apply Permutation_in; [|apply Permutation_sym]; apply Permutation_map; exact HP).
  apply bind_same; [exact HN| |].
  - unfold well_called. split; intros [W1 [W2 W3]]; (split; [exact W1|]; split; [|intros x Hx; apply W3, HQ, Hx]).
    + eapply Permutation_NoDup; [apply Permutation_map, HP|exact W2].
    + eapply Permutation_NoDup; [apply Permutation_map, Permutation_sym, HP|exact W2].
  - intros x v _ [i I1 I2|I1|i I1 I2 I3]; [exact (by_position _ _ _ _ _ i I1 I2)|apply by_keyword; eapply Permutation_in; eauto|].
    apply (by_default _ _ _ _ _ i I1 I2). intros C. apply I3, HQ, C.
Qed.

Lemma bind_last (ps : list (string * @pyval A)) pos kws x v : NoDup (map fst ps) -> nth_error (map fst ps) (length pos) = Some x ->
  bind_arguments ps (pos ++ [v]) kws = bind_arguments ps pos ((x, v) :: kws).
Proof.
  intros HN Hx. assert (HL : length pos < length ps) by (rewrite <- (map_length fst); apply nth_error_Some; congruence). apply bind_same; [exact HN| |].
  - unfold well_called. rewrite app_length. cbn [length map fst]. split; intros [W1 [W2 W3]].
    + split; [lia|]. split.
      * constructor; [|exact W2]. intros C. destruct (W3 x C) as [i [I1 I2]]. rewrite (names_inj ps i (length pos) x HN I2 Hx) in I1. lia.
      * intros y [<-|Hy]; [exists (length pos); auto|]. destruct (W3 y Hy) as [i [I1 I2]]. exists i. split; [lia|exact I2].
    + inversion W2 as [|? ? Nx W2']; subst. split; [lia|]. split; [exact W2'|]. intros y Hy. destruct (W3 y (or_intror Hy)) as [i [I1 I2]]. exists i. split; [|exact I2].
      assert (i <> length pos) by (intros ->; rewrite Hx in I2; injection I2 as ->; contradiction). lia.
  - intros y w _ [i I1 I2|I1|i I1 I2 I3].
    + destruct (Nat.lt_ge_cases i (length pos)) as [G|G].
      * rewrite nth_error_app1 in I2 by exact G. exact (by_position _ _ _ _ _ i I1 I2).
      * rewrite nth_error_app2 in I2 by exact G. destruct (i - length pos) as [|[|k]] eqn:Ei; try discriminate I2. cbn in I2. injection I2 as ->.
        assert (i = length pos) by lia. subst i. rewrite Hx in I1. injection I1 as ->. apply by_keyword. left. reflexivity.
    + apply by_keyword. right. exact I1.
    + rewrite app_length in I2. cbn [length] in I2. apply (by_default _ _ _ _ _ i I1); [lia|]. cbn [map fst]. intros [->|C]; [|contradiction].
      assert (Hy : nth_error (map fst ps) i = Some y) by (rewrite nth_error_map, I1; reflexivity). pose proof (names_inj ps i (length pos) y HN Hy Hx). lia.
Qed.

Lemma bind_default (ps : list (string * @pyval A)) pos kws i x v : NoDup (map fst ps) -> nth_error ps i = Some (x, v) -> length pos <= i -> ~ In x (map fst kws) ->
  bind_arguments ps pos ((x, v) :: kws) = bind_arguments ps pos kws.
Proof.
  intros HN Hi Hp Hx. assert (Hn : nth_error (map fst ps) i = Some x) by (rewrite nth_error_map, Hi; reflexivity). apply bind_same; [exact HN| |].
  - unfold well_called. cbn [map fst]. split; intros [W1 [W2 W3]].
    + inversion W2; subst. split; [exact W1|]. split; [assumption|]. intros y Hy. apply W3. right. exact Hy.
    + split; [exact W1|]. split; [constructor; assumption|]. intros y [<-|Hy]; [exists i; auto|auto].
  - intros y w _ [i' I1 I2|[I1|I1]|i' I1 I2 I3].
    + exact (by_position _ _ _ _ _ i' I1 I2).
    + injection I1 as <- <-. exact (by_default _ _ _ _ _ i Hi Hp Hx).
    + apply by_keyword. exact I1.
    + apply (by_default _ _ _ _ _ i' I1 I2). intros C. apply I3. right. exact C.
Qed.

(** a function name that is no str among the keys *)
Lemma bad_key_exn h v : bad_key h v = PyKeyError \/ bad_key h v = PyTypeError.
Proof. destruct v; cbn [bad_key]; auto; destruct (h _); auto. Qed.

Lemma find_bad_sel h p c sel wgt : ~ is_str sel "natural" -> ~ is_str sel "fast" -> 
  py_find_correlation h p c sel wgt = (c, Throw (if nle (min_lag c) (max_lag c) then bad_key h sel else PyUnboundLocalError)).
Proof.
  intros H1 H2. unfold py_find_correlation. cbn [py_find_loop gen_next gen_start g_pc g_k g_pos].
  assert (F : forall kk i, py_find_correlation_at h p sel wgt c kk i = (c, Throw (bad_key h sel))).
  { intros kk i. unfold py_find_correlation_at, py_SELECTION. destruct (py_is sel "fast") eqn:E1; [apply py_is_str in E1; contradiction|].
    destruct (py_is sel "natural") eqn:E2; [apply py_is_str in E2; contradiction|]. reflexivity. }
  unfold gen_test. destruct (nle (min_lag c) (max_lag c)); [|reflexivity].
  destruct (_ && _); rewrite F; reflexivity.
Qed.

Lemma truth_value_ok (v : @pyval A) b : truth_value v b -> truth v = Ok b.
Proof. induction 1; cbn [truth]; auto; try (rewrite H; reflexivity); destruct s || destruct l; reflexivity. Qed.

Lemma find_at_bad h p sel wgt c kk i c' : (~ is_str sel "natural" /\ ~ is_str sel "fast") \/
  (~ is_str wgt "gaussian" /\ ~ is_str wgt "fractional" /\ ~ is_str wgt "fractional_squared") ->
  py_find_correlation_at h p sel wgt c kk i <> (c', Ok tt).
Proof.
  intros H. unfold py_find_correlation_at, py_SELECTION, py_WEIGHT.
  assert (G : forall f : correlator -> cor_it -> meth cor_it unit, (~ is_str wgt "gaussian" /\ ~ is_str wgt "fractional" /\ ~ is_str wgt "fractional_squared") ->
    on_it c (f c (CorrelationIterator kk (N_datasets (ds c)))) (fun it1 => on_it c (deltaT p (ds c) it1) (fun it2 =>
      mbind (c, if py_is wgt "gaussian" then Ok getGaussianWeights else if py_is wgt "fractional" then Ok getFractionWeights
        else if py_is wgt "fractional_squared" then Ok getFractionSquaredWeights else Throw (bad_key h wgt))
       (fun c w => on_it c (findCorrelation p c (w c it2)) (fun it4 => addCorrelationData c it4 i)))) <> (c', Ok tt)).
  { intros f [W1 [W2 W3]]. destruct (py_is wgt "gaussian") eqn:E1; [apply py_is_str in E1; contradiction|].
    destruct (py_is wgt "fractional") eqn:E2; [apply py_is_str in E2; contradiction|]. destruct (py_is wgt "fractional_squared") eqn:E3; [apply py_is_str in E3; contradiction|].
    destruct (f c _) as [it1 [[]|e|u|]]; cbn [on_it]; try discriminate. destruct (deltaT p (ds c) it1) as [it2 [[]|e|u|]]; cbn [on_it mbind]; discriminate. }
  destruct (py_is sel "fast") eqn:E1.
  { apply py_is_str in E1. destruct H as [[_ H]|H]; [contradiction|]. cbn [mbind]. exact (G (fun c => fastSelectionFunctionIdx p (ds c)) H). }
  destruct (py_is sel "natural") eqn:E2.
  { apply py_is_str in E2. destruct H as [[H _]|H]; [contradiction|]. cbn [mbind]. exact (G (fun c => naturalSelectionFunctionIdx p (ds c)) H). }
  cbn [mbind]. discriminate.
Qed.

Lemma find_bad h p c sel wgt : (~ is_str sel "natural" /\ ~ is_str sel "fast") \/
  (~ is_str wgt "gaussian" /\ ~ is_str wgt "fractional" /\ ~ is_str wgt "fractional_squared") ->
  forall u, snd (py_find_correlation h p c sel wgt) <> Ok u.
Proof.
  intros H []. unfold py_find_correlation. cbn [py_find_loop gen_next gen_start g_pc g_k g_pos]. unfold gen_test.
  destruct (nle (min_lag c) (max_lag c)); [|discriminate].
  destruct (_ && _).
  - pose proof (fun c' => find_at_bad h p sel wgt c nzero 0 c' H) as F. destruct (py_find_correlation_at h p sel wgt c nzero 0) as [c1 [[]|e|u|]]; cbn [mbind snd]; try discriminate. exfalso. exact (F c1 eq_refl).
  - pose proof (fun c' => find_at_bad h p sel wgt c (min_lag c) 0 c' H) as F. destruct (py_find_correlation_at h p sel wgt c (min_lag c) 0) as [c1 [[]|e|u|]]; cbn [mbind snd]; try discriminate. exfalso. exact (F c1 eq_refl).
Qed.

Lemma set_up_lags c0 mi ma re al x1 x2 x3 x4 : optional mi x1 -> optional ma x2 -> optional re x3 -> optional al x4 ->
  py_set_up_correlation c0 mi ma re al = Ok (set_up_correlation c0 x1 x2 x3 x4) /\
  min_lag (set_up_correlation c0 x1 x2 x3 x4) = opt_or x1 (min_lag c0) /\ max_lag (set_up_correlation c0 x1 x2 x3 x4) = opt_or x2 (max_lag c0).
Proof.
  intros H1 H2 H3 H4. split.
  - unfold py_set_up_correlation, set_up_correlation.
    rewrite (py_set_optional _ _ _ _ H2). cbn [bind]. rewrite (py_set_optional _ _ _ _ H1). cbn [bind].
    rewrite (py_set_optional _ _ _ _ H3). cbn [bind]. rewrite (py_set_optional _ _ _ _ H4). reflexivity.
  - unfold set_up_correlation. destruct x1, x2, x3, x4; split; reflexivity.
Qed.

Lemma call_values h p d pos kws mi ma re al sel wgt rc : well_called autocorrelation_parameters pos kws ->
  R pos kws "min_lag" mi -> R pos kws "max_lag" ma -> R pos kws "lag_resolution" re -> R pos kws "alpha" al ->
  R pos kws "selection_function" sel -> R pos kws "weight_function" wgt -> R pos kws "return_correlator" rc ->
  call_autocorrelation h p d pos kws = run_values h p d mi ma re al sel wgt rc.
Proof.
  intros W H1 H2 H3 H4 H5 H6 H7. destruct (call_auto_spec h p d pos kws) as [[_ [a [b [c [e [f [g [k [K1 [K2 [K3 [K4 [K5 [K6 [K7 E]]]]]]]]]]]]]]]|[C _]]; [|contradiction].
  rewrite E.
  rewrite (receives_fun _ _ _ 0 _ _ _ sig_auto_nodup W eq_refl K1 H1), (receives_fun _ _ _ 1 _ _ _ sig_auto_nodup W eq_refl K2 H2), (receives_fun _ _ _ 2 _ _ _ sig_auto_nodup W eq_refl K3 H3),
    (receives_fun _ _ _ 3 _ _ _ sig_auto_nodup W eq_refl K4 H4), (receives_fun _ _ _ 4 _ _ _ sig_auto_nodup W eq_refl K5 H5), (receives_fun _ _ _ 5 _ _ _ sig_auto_nodup W eq_refl K6 H6),
    (receives_fun _ _ _ 6 _ _ _ sig_auto_nodup W eq_refl K7 H7). reflexivity.
Qed.

Lemma SACF_values open_file pos kws t v e f : well_called SACF_parameters pos kws ->
  receives SACF_parameters pos kws "timeseries" t -> receives SACF_parameters pos kws "values" v ->
  receives SACF_parameters pos kws "errors" e -> receives SACF_parameters pos kws "filename" f ->
  call_SACF open_file pos kws = py_SACF open_file t v e f.
Proof.
  intros W H1 H2 H3 H4. destruct (call_SACF_spec open_file pos kws) as [[_ [a [b [c [g [K1 [K2 [K3 [K4 E]]]]]]]]]|[C _]]; [|contradiction]. rewrite E.
  rewrite (receives_fun _ _ _ 0 _ _ _ sig_SACF_nodup W eq_refl K1 H1), (receives_fun _ _ _ 1 _ _ _ sig_SACF_nodup W eq_refl K2 H2), (receives_fun _ _ _ 2 _ _ _ sig_SACF_nodup W eq_refl K3 H3),
    (receives_fun _ _ _ 3 _ _ _ sig_SACF_nodup W eq_refl K4 H4). reflexivity.
Qed.

Lemma receives_one (ps : list (string * @pyval A)) pos kws x : NoDup (map fst ps) -> well_called ps pos kws -> In x (map fst ps) -> exists! v, receives ps pos kws x v.
Proof.
  intros HN W Hx. apply In_nth_error in Hx. destruct Hx as [i Hi]. destruct (bind_spec ps pos kws HN) as [[_ [l [_ [L K]]]]|[C _]]; [|contradiction].
  destruct (nth_error l i) as [v|] eqn:El.
  - exists v. split; [apply (K i x v Hi), El|]. intros w Hw. apply (K i x w Hi) in Hw. congruence.
  - apply nth_error_None in El. assert (i < length (map fst ps)) by (apply nth_error_Some; congruence). rewrite map_length in *. lia.
Qed.

Lemma call_named h p d pos kws mi ma re al x1 x2 x3 x4 s1 s2 rc b : well_called autocorrelation_parameters pos kws ->
  R pos kws "min_lag" mi -> R pos kws "max_lag" ma -> R pos kws "lag_resolution" re -> R pos kws "alpha" al ->
  R pos kws "selection_function" (PyStr (list_ascii_of_string s1)) -> R pos kws "weight_function" (PyStr (list_ascii_of_string s2)) -> R pos kws "return_correlator" rc ->
  optional mi x1 -> optional ma x2 -> optional re x3 -> optional al x4 -> truth_value rc b ->
  call_autocorrelation h p d pos kws =
  do r <- autocorrelation p d x1 x2 x3 x4 s1 s2; Ok (if b then Triple (fst (fst r)) (snd (fst r)) (snd r) else Pair (fst (fst r)) (snd (fst r))).
Proof.
  intros W H1 H2 H3 H4 H5 H6 H7 O1 O2 O3 O4 T. rewrite (call_values h p d pos kws mi ma re al _ _ rc W H1 H2 H3 H4 H5 H6 H7).
  rewrite (run_values_str h p d mi ma re al s1 s2 rc b (truth_value_ok rc b T)), (py_auto_optional p d mi ma re al x1 x2 x3 x4 s1 s2 O1 O2 O3 O4). reflexivity.
Qed.

Lemma call_ambiguous h p d pos kws mi ma re al x1 x2 x3 x4 s1 s2 u v l r : well_called autocorrelation_parameters pos kws ->
  R pos kws "min_lag" mi -> R pos kws "max_lag" ma -> R pos kws "lag_resolution" re -> R pos kws "alpha" al ->
  R pos kws "selection_function" (PyStr (list_ascii_of_string s1)) -> R pos kws "weight_function" (PyStr (list_ascii_of_string s2)) ->
  R pos kws "return_correlator" (PyArray (u :: v :: l)) ->
  optional mi x1 -> optional ma x2 -> optional re x3 -> optional al x4 -> autocorrelation p d x1 x2 x3 x4 s1 s2 = Ok r ->
  call_autocorrelation h p d pos kws = Throw PyValueError.
Proof.
  intros W H1 H2 H3 H4 H5 H6 H7 O1 O2 O3 O4 E. rewrite (call_values h p d pos kws mi ma re al _ _ _ W H1 H2 H3 H4 H5 H6 H7).
  rewrite <- (py_auto_optional p d mi ma re al x1 x2 x3 x4 s1 s2 O1 O2 O3 O4) in E. unfold run_values, py_autocorrelation in *. rewrite !py_is_lit.
  destruct (new_Correlator d) as [c0| | |]; cbn [bind] in *; try discriminate. destruct (py_set_up_correlation c0 mi ma re al) as [c1| | |]; cbn [bind] in *; try discriminate.
  rewrite find_str. destruct (if _ : bool then calculateStandardCorrelation p c1 else find_correlation p c1 s1 s2) as [c2 [[]|e|w|]]; cbn [snd fst bind] in *; try discriminate. reflexivity.
Qed.

Lemma call_bad_name h p d pos kws sel wgt r : well_called autocorrelation_parameters pos kws ->
  R pos kws "selection_function" sel -> R pos kws "weight_function" wgt ->
  (~ is_str sel "natural" /\ ~ is_str sel "fast") \/ (~ is_str wgt "gaussian" /\ ~ is_str wgt "fractional" /\ ~ is_str wgt "fractional_squared") ->
  call_autocorrelation h p d pos kws <> Ok r.
Proof.
  intros W H5 H6 H E. destruct (call_auto_spec h p d pos kws) as [[_ [a [b [c [e [f [g [k [K1 [K2 [K3 [K4 [K5 [K6 [K7 E']]]]]]]]]]]]]]]|[C _]]; [|contradiction].
  rewrite E' in E. rewrite (receives_fun _ _ _ 4 _ _ _ sig_auto_nodup W eq_refl K5 H5), (receives_fun _ _ _ 5 _ _ _ sig_auto_nodup W eq_refl K6 H6) in E. unfold run_values in E.
  destruct (new_Correlator d) as [c0| | |]; cbn [bind] in E; try discriminate. destruct (py_set_up_correlation c0 a b c e) as [c1| | |]; cbn [bind] in E; try discriminate.
  assert (B : py_is sel "natural" && py_is wgt "fractional" = false).
  { apply andb_false_iff. destruct H as [[H _]|[_ [H _]]]; [left|right]; [destruct (py_is sel "natural") eqn:Q|destruct (py_is wgt "fractional") eqn:Q]; auto; apply py_is_str in Q; contradiction. }
  rewrite B in E. pose proof (find_bad h p c1 sel wgt H) as F. destruct (snd (py_find_correlation h p c1 sel wgt)) as [u|x|x|]; cbn [bind] in E; try discriminate. exact (F u eq_refl).
Qed.

Lemma call_bad_selection h p d c0 pos kws mi ma re al x1 x2 x3 x4 sel : well_called autocorrelation_parameters pos kws ->
  R pos kws "min_lag" mi -> R pos kws "max_lag" ma -> R pos kws "lag_resolution" re -> R pos kws "alpha" al -> R pos kws "selection_function" sel ->
  optional mi x1 -> optional ma x2 -> optional re x3 -> optional al x4 -> new_Correlator d = Ok c0 ->
  ~ is_str sel "natural" -> ~ is_str sel "fast" -> nle (opt_or x1 (min_lag c0)) (opt_or x2 (max_lag c0)) = true ->
  call_autocorrelation h p d pos kws = Throw (bad_key h sel).
Proof.
  intros W H1 H2 H3 H4 H5 O1 O2 O3 O4 Hn N1 N2 Hle.
  destruct (receives_one _ pos kws "weight_function"%string sig_auto_nodup W) as [wgt [H6 _]]; [cbn; tauto|].
  destruct (receives_one _ pos kws "return_correlator"%string sig_auto_nodup W) as [rc [H7 _]]; [cbn; tauto|].
  rewrite (call_values h p d pos kws mi ma re al _ _ rc W H1 H2 H3 H4 H5 H6 H7). unfold run_values. rewrite Hn. cbn [bind].
  destruct (set_up_lags c0 mi ma re al x1 x2 x3 x4 O1 O2 O3 O4) as [E [L1 L2]]. rewrite E. cbn [bind].
  destruct (py_is sel "natural") eqn:Q; [apply py_is_str in Q; contradiction|]. cbn [andb].
  rewrite (find_bad_sel h p _ sel wgt N1 N2), L1, L2, Hle. reflexivity.
Qed.
End Calls.
