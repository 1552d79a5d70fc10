(** Cost.v: the counted functions do what the plain ones do, and what they cost. *)
From Coq Require Import String.
From Coq Require Import ZArith List Bool Arith Lia.
From Verif Require Import Num Mem MemFacts Spec DataStructure DSFacts Correlator Sacf Api CorrFacts LoopFacts MainFacts Cost.
Import ListNotations.
Local Open Scope list_scope.

(** ** Erasure *)
Lemma fst_charge {X} n (x : X * cost) : fst (charge n x) = fst x.
Proof. reflexivity. Qed.
Lemma fst_cbind {S R Q} (x : counted S R) (f : S -> R -> counted S Q) :
  fst (cbind x f) = mbind (fst x) (fun s r => fst (f s r)).
Proof. destruct x as [[s [r|e|u|]] n]; reflexivity. Qed.
Lemma fst_ccall {S R Q} (s : S) (x : res R * cost) (f : R -> counted S Q) :
  fst (ccall s x f) = mlift s (fst x) (fun r => fst (f r)).
Proof. unfold ccall, mlift. rewrite fst_cbind. reflexivity. Qed.
Lemma fst_clift {S R Q} (s : S) (x : res R) (f : R -> counted S Q) :
  fst (clift s x f) = mlift s x (fun r => fst (f r)).
Proof. apply fst_ccall. Qed.
Lemma mlift_ext {S R Q} (s : S) (x : res R) (f g : R -> meth S Q) :
  (forall r, x = Ok r -> f r = g r) -> mlift s x f = mlift s x g.
Proof. intros H. destruct x; cbn; auto. Qed.
Lemma snd_mlift {S R Q} (s : S) (x : res R) (f : R -> meth S Q) (g : R -> res Q) :
  (forall r, x = Ok r -> snd (f r) = g r) -> snd (mlift s x f) = bind x g.
Proof. intros H. destruct x; cbn; auto. Qed.
Lemma fst_on_it_c {A : Num} {R} (c : correlator) (x : counted cor_it unit) (f : cor_it -> counted correlator R) :
  fst (on_it_c c x f) = on_it c (fst x) (fun it => fst (f it)).
Proof. destruct x as [[s [[]|e|u|]] n]; reflexivity. Qed.
Lemma on_it_ext {A : Num} {R} (c : correlator) (x : meth cor_it unit) (f g : cor_it -> meth correlator R) :
  (forall it, x = (it, Ok tt) -> f it = g it) -> on_it c x f = on_it c x g.
Proof. intros H. destruct x as [s [[]|e|u|]]; cbn; auto. Qed.

Section Erase.
Context {A : Num}.

Lemma norm_loop_e d j n i acc : snd (fst (norm_loop_c d j n i acc)) = norm_loop d j n i acc.
Proof.
  revert i acc. induction n as [|n IH]; intros i acc; cbn [norm_loop_c norm_loop]; [reflexivity|].
  rewrite fst_clift. apply snd_mlift. intros x _. destruct (nisnan (nf32 x)); [apply IH|].
  rewrite fst_charge, fst_clift. apply snd_mlift. intros m _. apply IH.
Qed.
Lemma snd_mbind {S R Q} (x : meth S R) (f : S -> R -> meth S Q) (g : R -> res Q) :
  (forall s r, x = (s, Ok r) -> snd (f s r) = g r) -> snd (mbind x f) = bind (snd x) g.
Proof. intros H. destruct x as [s [r|e|u|]]; cbn; auto. Qed.
Lemma norms_e d js : snd (fst (norms_c d js)) = mapM (fun j => norm_loop d j (M_datapoints d) 0 nzero) js.
Proof.
  induction js as [|j js IH]; cbn [norms_c mapM]; [reflexivity|].
  rewrite fst_cbind, <- norm_loop_e. apply snd_mbind. intros [] x _. rewrite fst_cbind, <- IH.
  apply snd_mbind. intros [] xs _. reflexivity.
Qed.
Lemma new_Correlator_e d : fst (new_Correlator_c d) = new_Correlator d.
Proof.
  unfold new_Correlator_c, new_Correlator. cbn [fst]. rewrite fst_cbind, <- norms_e. apply snd_mbind. reflexivity.
Qed.

Lemma lower_bound_loop_e fuel l val : forall first len,
  fst (lower_bound_loop_c fuel l val first len) = lower_bound_loop fuel l val first len.
Proof.
  induction fuel as [|fuel IH]; intros first len; cbn [lower_bound_loop_c lower_bound_loop]; [reflexivity|].
  destruct (len =? 0); [reflexivity|]. destruct (lget l (first + len / 2)); cbn [bind]; try reflexivity.
  rewrite fst_charge. destruct (nlt _ _); apply IH.
Qed.
Lemma lower_bound_e l val : fst (lower_bound_c l val) = lower_bound l val.
Proof. apply lower_bound_loop_e. Qed.

Lemma natural_shift_e ts back kk v : fst (natural_shift_c ts back kk v) = natural_shift ts back kk v.
Proof.
  revert v. induction ts as [|tp ts IH]; intros v; cbn [natural_shift_c natural_shift]; [reflexivity|].
  rewrite fst_charge. destruct (nlt _ _); [reflexivity|apply IH].
Qed.
Lemma natural_index_e p nt s : fst (natural_index_c p nt s) = natural_index p nt s.
Proof.
  unfold natural_index_c, natural_index. cbn [fst]. rewrite fst_ccall, lower_bound_e. apply snd_mlift. intros idx _.
  destruct (idx =? 0); [reflexivity|].
  rewrite fst_clift. apply snd_mlift. intros a _. rewrite fst_clift. apply snd_mlift. intros da _.
  rewrite fst_clift. apply snd_mlift. intros b _. rewrite fst_clift. apply snd_mlift. reflexivity.
Qed.
Lemma natural_loop_e p nt n i it : fst (natural_loop_c p nt n i it) = natural_loop p nt n i it.
Proof.
  revert i it. induction n as [|n IH]; intros i it; cbn [natural_loop_c natural_loop]; [reflexivity|].
  rewrite fst_clift. apply mlift_ext. intros s _. rewrite fst_ccall, natural_index_e. apply mlift_ext. intros idx _.
  apply IH.
Qed.
Lemma naturalSelection_e p d it : fst (naturalSelection_c p d it) = naturalSelectionFunctionIdx p d it.
Proof.
  unfold naturalSelection_c, naturalSelectionFunctionIdx. rewrite fst_clift. apply mlift_ext. intros back _.
  rewrite fst_charge, fst_cbind, natural_shift_e, natural_loop_e. reflexivity.
Qed.
Lemma fast_shift_e ts back kk v : fst (fast_shift_c ts back kk v) = fast_shift ts back kk v.
Proof.
  revert v. induction ts as [|tp ts IH]; intros v; cbn [fast_shift_c fast_shift]; [reflexivity|].
  rewrite fst_charge. destruct (nle _ _); [reflexivity|apply IH].
Qed.
Lemma fastSelection_e p d it : fst (fastSelection_c p d it) = fastSelectionFunctionIdx p d it.
Proof.
  unfold fastSelection_c, fastSelectionFunctionIdx. rewrite fst_clift. apply mlift_ext. intros back _.
  rewrite fst_charge, fst_cbind, fast_shift_e. f_equal. destruct (_ =? 0); [reflexivity|].
  rewrite fst_clift. apply mlift_ext. intros s _. rewrite fst_ccall, lower_bound_e. apply mlift_ext. intros idx _.
  rewrite fst_clift. apply mlift_ext. intros b _. rewrite fst_clift. apply mlift_ext. intros db _.
  rewrite fst_clift. apply mlift_ext. intros a _. rewrite fst_clift. apply mlift_ext. intros da _.
  rewrite fst_charge, fst_clift. reflexivity.
Qed.
Lemma findCorrelation_sum_e p d sel j ws i acc :
  fst (findCorrelation_sum_c p d sel j ws i acc) = findCorrelation_sum p d sel j ws i acc.
Proof.
  revert i acc. induction ws as [|w ws IH]; intros i acc; cbn [findCorrelation_sum_c findCorrelation_sum]; [reflexivity|].
  rewrite fst_clift. apply mlift_ext. intros x _. rewrite fst_clift. apply mlift_ext. intros si _.
  rewrite fst_clift. apply mlift_ext. intros y _. rewrite fst_charge. apply IH.
Qed.
Lemma findCorrelation_loop_e p c n j it : fst (findCorrelation_loop_c p c n j it) = findCorrelation_loop p c n j it.
Proof.
  revert j it. induction n as [|n IH]; intros j it; cbn [findCorrelation_loop_c findCorrelation_loop]; [reflexivity|].
  rewrite fst_clift. apply mlift_ext. intros acc _. rewrite fst_charge, fst_clift, findCorrelation_sum_e.
  apply mlift_ext. intros cs _. rewrite fst_clift. apply mlift_ext. intros _ _.
  rewrite fst_clift. apply mlift_ext. intros Nj _. rewrite fst_clift. apply mlift_ext. intros cs' _. apply IH.
Qed.
Lemma calculate_at_e p c kk i : fst (calculateStandardCorrelation_at_c p c kk i) = calculateStandardCorrelation_at p c kk i.
Proof.
  unfold calculateStandardCorrelation_at_c, calculateStandardCorrelation_at.
  rewrite fst_charge, fst_on_it_c, naturalSelection_e. apply on_it_ext. intros it1 _.
  rewrite fst_on_it_c. cbn [fst]. apply on_it_ext. intros it2 _. rewrite fst_charge, fst_on_it_c.
  unfold findCorrelation_c. rewrite findCorrelation_loop_e. reflexivity.
Qed.
Lemma std_loop_e p fuel kk pos i c : fst (std_loop_c p fuel kk pos i c) = std_loop p fuel kk pos i c.
Proof.
  revert kk pos i c. induction fuel as [|fuel IH]; intros kk pos i c; cbn [std_loop_c std_loop]; [reflexivity|].
  destruct (nle kk (max_lag c)); [|reflexivity].
  destruct (nlt nzero kk && _); rewrite fst_cbind, calculate_at_e; apply mbind_ext; intros c1 [] _; [|apply IH].
  rewrite fst_cbind, calculate_at_e. apply mbind_ext. intros c2 [] _. apply IH.
Qed.
Lemma calculate_e p c : fst (calculateStandardCorrelation_c p c) = calculateStandardCorrelation p c.
Proof.
  unfold calculateStandardCorrelation_c, calculateStandardCorrelation. rewrite fst_cbind, std_loop_e. reflexivity.
Qed.
Lemma find_at_e p sel wgt c kk i : fst (find_correlation_at_c p sel wgt c kk i) = find_correlation_at p sel wgt c kk i.
Proof.
  unfold find_correlation_at_c, find_correlation_at, SELECTION_FUNCTIONS_c, SELECTION_FUNCTIONS. rewrite fst_charge.
  assert (H : forall (f : correlator -> cor_it -> counted cor_it unit) (g : correlator -> cor_it -> meth cor_it unit),
    (forall it, fst (f c it) = g c it) ->
    fst (on_it_c c (f c (CorrelationIterator kk (N_datasets (ds c)))) (fun it1 =>
        on_it_c c (deltaT p (ds c) it1, free) (fun it2 =>
        match WEIGHT_FUNCTIONS wgt with
        | None => ((c, Throw PyKeyError), free)
        | Some w =>
            let x := weights_c (w c) it2 in
            charge (snd x)
             (on_it_c c (findCorrelation_c p c (fst x)) (fun it4 => (addCorrelationData c it4 i, free)))
        end))) =
    on_it c (g c (CorrelationIterator kk (N_datasets (ds c)))) (fun it1 =>
      on_it c (deltaT p (ds c) it1) (fun it2 =>
      match WEIGHT_FUNCTIONS wgt with
      | None => (c, Throw PyKeyError)
      | Some w => let it3 := w c it2 in on_it c (findCorrelation p c it3) (fun it4 => addCorrelationData c it4 i)
      end))).
  { intros f g Hfg. rewrite fst_on_it_c, Hfg. apply on_it_ext. intros it1 _. rewrite fst_on_it_c. cbn [fst].
    apply on_it_ext. intros it2 _. destruct (WEIGHT_FUNCTIONS wgt) as [w|]; [|reflexivity].
    cbv zeta. rewrite fst_charge, fst_on_it_c. unfold findCorrelation_c. rewrite findCorrelation_loop_e. reflexivity. }
  destruct (String.eqb sel "fast").
  { apply (H (fun c => fastSelection_c p (ds c)) (fun c => fastSelectionFunctionIdx p (ds c))). intros it. apply fastSelection_e. }
  destruct (String.eqb sel "natural"); [|reflexivity].
  apply (H (fun c => naturalSelection_c p (ds c)) (fun c => naturalSelectionFunctionIdx p (ds c))). intros it. apply naturalSelection_e.
Qed.
Lemma find_loop_e p sel wgt fuel maxl resl g n last c :
  fst (find_loop_c p sel wgt fuel maxl resl g n last c) = find_loop p sel wgt fuel maxl resl g n last c.
Proof.
  revert g n last c. induction fuel as [|fuel IH]; intros g n last c; cbn [find_loop_c find_loop]; [reflexivity|].
  destruct (gen_next maxl resl g) as [[kk g']|]; [|reflexivity].
  rewrite fst_cbind, find_at_e. apply mbind_ext. intros c1 [] _. apply IH.
Qed.
Lemma find_e p c sel wgt : fst (find_correlation_c p c sel wgt) = find_correlation p c sel wgt.
Proof.
  unfold find_correlation_c, find_correlation. rewrite fst_cbind, find_loop_e. apply mbind_ext.
  intros c1 [i|] _; reflexivity.
Qed.
Lemma autocorrelation_e p d mi ma re al sel wgt :
  fst (autocorrelation_c p d mi ma re al sel wgt) = autocorrelation p d mi ma re al sel wgt.
Proof.
  unfold autocorrelation_c, autocorrelation. rewrite <- new_Correlator_e.
  destruct (new_Correlator_c d) as [[c0|e|u|] n]; cbn [fst bind]; try reflexivity.
  destruct (String.eqb sel "natural" && String.eqb wgt "fractional");
    [rewrite <- calculate_e|rewrite <- find_e]; reflexivity.
Qed.

End Erase.

(** ** Comparisons only *)
Definition comparisons (m : nat) : cost := {| started := 0; compared := m; weighed := 0; multiplied := 0; copied := 0 |}.
Definition cheap (b : nat) (c : cost) : Prop := exists m, m <= b /\ c = comparisons m.
Lemma cheap_free b : cheap b free.
Proof. exists 0. split; [lia|reflexivity]. Qed.
Lemma cheap_one b : 1 <= b -> cheap b a_comparison.
Proof. intros H. exists 1. split; [exact H|reflexivity]. Qed.
Lemma cheap_plus b1 b2 b c1 c2 : cheap b1 c1 -> cheap b2 c2 -> b1 + b2 <= b -> cheap b (plus c1 c2).
Proof. intros [m [Hm ->]] [n [Hn ->]] Hb. exists (m + n). split; [lia|reflexivity]. Qed.
Lemma cheap_mono b b' c : cheap b c -> b <= b' -> cheap b' c.
Proof. intros [m [Hm ->]] Hb. exists m. split; [lia|reflexivity]. Qed.
Lemma cheap_charge {X} b1 b2 b n (x : X * cost) : cheap b1 n -> cheap b2 (snd x) -> b1 + b2 <= b -> cheap b (snd (charge n x)).
Proof. apply cheap_plus. Qed.
Lemma cheap_cbind {S R Q} b1 b2 b (x : counted S R) (f : S -> R -> counted S Q) : cheap b1 (snd x) ->
  (forall s r, fst x = (s, Ok r) -> cheap b2 (snd (f s r))) -> b1 + b2 <= b -> cheap b (snd (cbind x f)).
Proof.
  intros H1 H2 Hb. destruct x as [[s [r|e|u|]] n]; cbn [cbind snd fst] in *;
    try (eapply cheap_mono; [exact H1|lia]).
  eapply cheap_plus; [exact H1|apply H2; reflexivity|exact Hb].
Qed.
Lemma cheap_ccall {S R Q} b1 b2 b (s : S) (x : res R * cost) (f : R -> counted S Q) : cheap b1 (snd x) ->
  (forall r, fst x = Ok r -> cheap b2 (snd (f r))) -> b1 + b2 <= b -> cheap b (snd (ccall s x f)).
Proof.
  intros H1 H2 Hb. unfold ccall. eapply cheap_cbind; [exact H1| |exact Hb].
  intros s' r E. injection E as _ E. apply H2. exact E.
Qed.
Lemma cheap_clift {S R Q} b (s : S) (x : res R) (f : R -> counted S Q) :
  (forall r, x = Ok r -> cheap b (snd (f r))) -> cheap b (snd (clift s x f)).
Proof.
  intros H. unfold clift. eapply cheap_ccall; [apply (cheap_free 0)|exact H|lia].
Qed.

Section Bounds.
Context {A : Num}.

(** a search among [len] elements *)
Lemma halves len : 0 < len -> S (Nat.log2 (2 * (len / 2))) <= Nat.log2 (2 * len) /\
  S (Nat.log2 (2 * (len - len / 2 - 1))) <= Nat.log2 (2 * len).
Proof.
  intros H. assert (Hh : 2 * (len / 2) <= len) by (apply Nat.mul_div_le; lia).
  assert (Hh' : len - len / 2 - 1 <= len / 2).
  { pose proof (Nat.div_mod len 2 ltac:(lia)). pose proof (Nat.mod_upper_bound len 2 ltac:(lia)). lia. }
  rewrite (Nat.log2_double len) by exact H. split; apply le_n_S.
  - apply Nat.log2_le_mono. exact Hh.
  - apply Nat.log2_le_mono. lia.
Qed.
Lemma lower_bound_loop_cheap fuel l val : forall first len,
  cheap (Nat.log2 (2 * len)) (snd (lower_bound_loop_c fuel l val first len)).
Proof.
  induction fuel as [|fuel IH]; intros first len; cbn [lower_bound_loop_c]; [apply cheap_free|].
  destruct (Nat.eqb_spec len 0) as [->|Hn]; [apply cheap_free|].
  destruct (halves len ltac:(lia)) as [H1 H2].
  destruct (lget l (first + len / 2)); try apply cheap_free.
  eapply cheap_charge; [apply (cheap_one 1); lia| |].
  - destruct (nlt _ _).
    + eapply (cheap_mono _ (Nat.log2 (2 * len) - 1)); [apply IH|lia].
    + eapply (cheap_mono _ (Nat.log2 (2 * len) - 1)); [apply IH|lia].
  - lia.
Qed.
Lemma lower_bound_cheap l val : cheap (Nat.log2 (length l) + 1) (snd (lower_bound_c l val)).
Proof.
  unfold lower_bound_c. eapply cheap_mono; [apply lower_bound_loop_cheap|].
  destruct (length l) as [|n]; [cbn; lia|]. rewrite Nat.log2_double by lia. lia.
Qed.

Lemma natural_shift_cheap ts back kk v : cheap (length ts) (snd (natural_shift_c ts back kk v)).
Proof.
  revert v. induction ts as [|tp ts IH]; intros v; cbn [natural_shift_c length]; [apply cheap_free|].
  eapply cheap_charge; [apply (cheap_one 1); lia| |].
  - destruct (nlt _ _); [apply (cheap_free (length ts))|apply IH].
  - lia.
Qed.
Lemma fast_shift_cheap ts back kk v : cheap (length ts) (snd (fast_shift_c ts back kk v)).
Proof.
  revert v. induction ts as [|tp ts IH]; intros v; cbn [fast_shift_c length]; [apply cheap_free|].
  eapply cheap_charge; [apply (cheap_one 1); lia| |].
  - destruct (nle _ _); [apply (cheap_free (length ts))|apply IH].
  - lia.
Qed.
Lemma natural_index_cheap p nt s : cheap (Nat.log2 (length nt) + 2) (snd (natural_index_c p nt s)).
Proof.
  unfold natural_index_c. cbn [snd]. eapply (cheap_ccall _ 1); [apply lower_bound_cheap| |lia].
  intros idx _. destruct (idx =? 0); [apply cheap_free|].
  apply cheap_clift. intros a _. apply cheap_clift. intros da _. apply cheap_clift. intros b _.
  apply cheap_clift. intros db _. eapply (cheap_charge 1 0); [apply cheap_one; lia|apply cheap_free|lia].
Qed.
Lemma natural_loop_cheap p nt n i it : cheap (n * (Nat.log2 (length nt) + 2)) (snd (natural_loop_c p nt n i it)).
Proof.
  revert i it. induction n as [|n IH]; intros i it; cbn [natural_loop_c]; [apply cheap_free|].
  apply cheap_clift. intros s _. eapply cheap_ccall; [apply natural_index_cheap| |].
  - intros idx _. apply IH.
  - cbn [Nat.mul]. lia.
Qed.
Lemma natural_cheap p d kk n :
  cheap (length (norm_t d) * (Nat.log2 (length (norm_t d)) + 3))
        (snd (naturalSelection_c p d (CorrelationIterator kk n))).
Proof.
  unfold naturalSelection_c. apply cheap_clift. intros back _.
  eapply cheap_charge; [apply natural_shift_cheap| |].
  - eapply cheap_cbind; [apply natural_loop_cheap| |apply Nat.le_refl].
    intros it2 [] _. apply (cheap_free 0).
  - cbn [shifted_timeseries set_shifted CorrelationIterator k]. rewrite natural_shift_e.
    destruct (natural_shift_live (norm_t d) back kk vempty vwf_empty) as [Hw [Hl Hs]].
    assert (Hv : vsize (natural_shift (norm_t d) back kk vempty) <= length (norm_t d)).
    { rewrite <- vlive_length by exact Hw. rewrite Hl. cbn [vlive vempty vbuf vsize firstn app]. apply shifted_length_le. }
    set (m := vsize _) in *. set (M := length (norm_t d)) in *. set (L := Nat.log2 M).
    assert (m * (L + 2) <= M * (L + 2)) by (apply Nat.mul_le_mono_r; exact Hv). nia.
Qed.
Lemma fast_cheap p d it :
  cheap (length (norm_t d) + (Nat.log2 (length (norm_t d)) + 2)) (snd (fastSelection_c p d it)).
Proof.
  unfold fastSelection_c. apply cheap_clift. intros back _.
  eapply (cheap_charge _ (Nat.log2 (length (norm_t d)) + 2)); [apply fast_shift_cheap| |lia].
  eapply (cheap_cbind _ 0); [| |rewrite Nat.add_0_r; apply Nat.le_refl].
  - destruct (_ =? 0); [apply cheap_free|].
    apply cheap_clift. intros s _. eapply (cheap_ccall _ 1); [apply lower_bound_cheap| |lia].
    intros idx _. apply cheap_clift. intros b _. apply cheap_clift. intros db _. apply cheap_clift. intros a _.
    apply cheap_clift. intros da _. eapply (cheap_charge 1 0); [apply cheap_one; lia| |lia].
    apply cheap_clift. intros v _. apply cheap_free.
  - intros it3 [] _. apply cheap_free.
Qed.

(** ** Products only *)
Definition products (m : nat) : cost := {| started := 0; compared := 0; weighed := 0; multiplied := m; copied := 0 |}.
Lemma sum_products p d sel j ws i acc : exists m,
  snd (findCorrelation_sum_c p d sel j ws i acc) = products m /\ m <= length ws /\
  (snd (fst (findCorrelation_sum_c p d sel j ws i acc)) = Ok tt -> m = length ws).
Proof.
  revert i acc. induction ws as [|w ws IH]; intros i acc; cbn [findCorrelation_sum_c].
  - exists 0. repeat split. apply Nat.le_refl.
  - unfold clift, ccall. cbn [fst snd].
    destruct (lat (norm_data d) (getVectorIndex (M_datapoints d) i j)) as [x|e|u|]; cbn [cbind fst snd charge];
      [|exists 0; repeat split; [lia|discriminate]..].
    destruct (vget p sel i) as [si|e|u|]; cbn [cbind fst snd charge];
      [|exists 0; repeat split; [lia|discriminate]..].
    destruct (lat (norm_data d) (getVectorIndex (M_datapoints d) si j)) as [y|e|u|]; cbn [cbind fst snd charge];
      [|exists 0; repeat split; [lia|discriminate]..].
    destruct (IH (S i) (nadd acc (nmul (nmul w x) y))) as [m [E [Hm Ho]]]. exists (S m). rewrite E.
    split; [reflexivity|]. cbn [length]. split; [lia|]. intros H. rewrite Ho by exact H. reflexivity.
Qed.
Lemma loop_products p c n j it : exists m,
  snd (findCorrelation_loop_c p c n j it) = products m /\ m <= n * length (vlive (weights it)) /\
  (snd (fst (findCorrelation_loop_c p c n j it)) = Ok tt -> m = n * length (vlive (weights it))).
Proof.
  revert j it. induction n as [|n IH]; intros j it; cbn [findCorrelation_loop_c]; cbv zeta.
  - exists 0. repeat split. lia.
  - unfold clift, ccall. cbn [fst snd].
    destruct (lget (correlation it) j) as [acc|e|u|]; cbn [cbind fst snd charge];
      [|exists 0; repeat split; [lia|discriminate]..].
    destruct (sum_products p (ds c) (selection_indices it) j (vlive (weights it)) 0 acc) as [m [E [Hm Ho]]].
    destruct (findCorrelation_sum_c p (ds c) (selection_indices it) j (vlive (weights it)) 0 acc) as [[x r] q].
    cbn [fst snd] in *. subst q. unfold clift, ccall. cbn [fst snd].
    destruct (lset (correlation it) j x) as [cs|e|u|]; cbn [cbind fst snd charge];
      [|exists m; split; [unfold plus, products; cbn; f_equal; lia|]; split; [cbn [Nat.mul]; lia|let H := fresh in cbn; intros H; discriminate H]..].
    destruct r as [[]|e|u|]; cbn [cbind fst snd charge];
      [|exists m; split; [unfold plus, products; cbn; f_equal; lia|]; split; [cbn [Nat.mul]; lia|let H := fresh in cbn; intros H; discriminate H]..].
    destruct (lget (Nvec c) j) as [Nj|e|u|]; cbn [cbind fst snd charge];
      [|exists m; split; [unfold plus, products; cbn; f_equal; lia|]; split; [cbn [Nat.mul]; lia|let H := fresh in cbn; intros H; discriminate H]..].
    destruct (lset cs j (nmul x (ndiv none_ Nj))) as [cs'|e|u|]; cbn [cbind fst snd charge];
      [|exists m; split; [unfold plus, products; cbn; f_equal; lia|]; split; [cbn [Nat.mul]; lia|let H := fresh in cbn; intros H; discriminate H]..].
    destruct (IH (S j) (set_correlation it cs')) as [m' [E' [Hm' Ho']]]. rewrite E'. cbn [weights set_correlation] in *.
    exists (m + m'). split; [unfold plus, products; cbn; f_equal; lia|]. split; [cbn [Nat.mul]; lia|].
    intros H. rewrite Ho' by exact H. rewrite Ho by reflexivity. cbn [Nat.mul]. lia.
Qed.

(** ** One lag *)
(** the work of lags: at most [B] comparisons and [M] weights each, [N] products per weight, no copies *)
Record bounded (B M N : nat) (c : cost) : Prop := {
  b_compared : compared c <= started c * B;
  b_weighed : weighed c <= started c * M;
  b_multiplied : multiplied c <= N * weighed c;
  b_copied : copied c = 0 }.
Lemma bounded_free B M N : bounded B M N free.
Proof. constructor; cbn; lia. Qed.
Lemma bounded_plus B M N a b : bounded B M N a -> bounded B M N b -> bounded B M N (plus a b).
Proof. intros [A1 A2 A3 A4] [B1 B2 B3 B4]. constructor; cbn; lia. Qed.

(** the lags [ks] were worked on completely, with the pairs that [f] and deltaT give *)
Definition ran (p : platform) (d : dstruct) (f : cor_it -> meth cor_it unit) (ks : list num) (c : cost) : Prop :=
  exists ns, Forall2 (fun kk n => exists s os, pairs_by p d f kk (N_datasets d) = Ok (s, os) /\ length s = n) ks ns /\
    started c = length ks /\ weighed c = list_sum ns /\ multiplied c = N_datasets d * list_sum ns.
Lemma ran_nil p d f : ran p d f [] free.
Proof. exists []. cbn. repeat split; [constructor|lia]. Qed.
Lemma ran_app p d f ks ks' c c' : ran p d f ks c -> ran p d f ks' c' -> ran p d f (ks ++ ks') (plus c c').
Proof.
  intros [ns [H1 [H2 [H3 H4]]]] [ns' [H1' [H2' [H3' H4']]]]. exists (ns ++ ns').
  split; [apply Forall2_app; assumption|]. rewrite app_length, list_sum_app. cbn. lia.
Qed.

Section OneLagCost.
Variables (p : platform) (c : correlator).
Hypothesis Hds : wf_ds (ds c).

Lemma one_lag_cost (sf : sel_fun) (fc : counted cor_it unit) (f : cor_it -> meth cor_it unit) (w : num -> num) B kk i
  (rest : cor_it -> counted correlator unit) :
  sel_ok sf ->
  f (CorrelationIterator kk (N_datasets (ds c))) = fst fc ->
  match sf p (norm_t (ds c)) kk with
  | Ok (sel, sh) => exists it, fst fc = (it, Ok tt) /\ selected it kk (N_datasets (ds c)) sel sh
  | r => same_failure r (snd (fst fc))
  end ->
  cheap B (snd fc) ->
  (forall it2, rest it2 = (c, Throw PyKeyError, free) \/
     rest it2 = charge (snd (weights_c (getWeights w) it2))
       (on_it_c c (findCorrelation_c p c (fst (weights_c (getWeights w) it2))) (fun it4 => (addCorrelationData c it4 i, free)))) ->
  let x := charge a_lag (on_it_c c fc (fun it1 => on_it_c c (deltaT p (ds c) it1, free) rest)) in
  bounded B (M_datapoints (ds c)) (N_datasets (ds c)) (snd x) /\ started (snd x) = 1 /\
  (snd (fst x) = Ok tt -> ran p (ds c) f [kk] (snd x)).
Proof.
  intros Hok Hf Hm [nb [Hb Ec]] Hrest x. subst x.
  pose proof (Hok p (norm_t (ds c)) kk) as Hok'. destruct Hds as [HM [Hnt Hnd]].
  destruct fc as [m q]. cbn [fst snd] in *. subst q.
  destruct (sf p (norm_t (ds c)) kk) as [[sel sh]|e|u|].
  2-4: destruct m as [it [[]|e'|u'|]]; cbn [same_failure snd] in Hm; try contradiction;
    cbn [on_it_c charge snd fst]; (split; [constructor; cbn; lia|split; [reflexivity|discriminate]]).
  destruct Hm as [it [-> Hit]]. cbn [on_it_c charge snd fst].
  destruct (Hok' sel sh ltac:(lia) eq_refl) as [Hl1 [Hl2 Hl3]].
  pose proof (deltaT_closed p (ds c) it kk _ sel sh Hit Hl1) as HD.
  destruct (deltas p (norm_t (ds c)) sel sh) as [dts|e|u|] eqn:ED.
  2-4: destruct (deltaT p (ds c) it) as [it' [[]|e'|u'|]]; cbn [same_failure snd] in HD; try contradiction;
    cbn [on_it_c charge snd fst]; (split; [constructor; cbn; lia|split; [reflexivity|discriminate]]).
  destruct HD as [it2 [HD H2]].
  assert (Hp : pairs_by p (ds c) f kk (N_datasets (ds c)) = Ok (sel, dts)).
  { unfold pairs_by. rewrite Hf. cbn [bind]. rewrite HD. cbn [bind]. destruct H2 as [_ [_ [_ [E1 [_ [E2 _]]]]]].
    unfold selection, offsets. rewrite E1, E2. reflexivity. }
  assert (Hdl : length dts = length sel).
  { unfold deltas in ED. apply mapM_Ok_inv in ED. destruct ED as [ED _]. rewrite ED, combine_length. lia. }
  rewrite HD. cbn [on_it_c charge snd fst].
  destruct (Hrest it2) as [->| ->].
  { cbn [snd fst]. split; [constructor; cbn; lia|split; [reflexivity|discriminate]]. }
  assert (Hw : length (vlive (delta_t it2)) = length dts) by (destruct H2 as [_ [_ [_ [_ [_ [E2 _]]]]]]; rewrite E2; reflexivity).
  pose proof (getWeights_closed w _ _ _ _ _ H2) as [_ [_ [_ [_ [_ Hwl]]]]].
  unfold findCorrelation_c. cbn [weights_c fst snd].
  destruct (loop_products p c (N_datasets (ds c)) 0 (getWeights w it2)) as [m [E [Hm Ho]]].
  destruct (findCorrelation_loop_c p c (N_datasets (ds c)) 0 (getWeights w it2)) as [[it4 r] q]. cbn [fst snd] in *. subst q.
  rewrite Hwl, map_length in Hm, Ho. rewrite Hw.
  destruct r as [[]|e|u|]; cbn [on_it_c charge snd fst];
    [|(split; [constructor; cbn; nia|split; [reflexivity|discriminate]])..].
  split; [constructor; cbn; nia|]. split; [reflexivity|]. intros _.
  exists [length sel]. rewrite Ho by reflexivity. split; [|cbn; repeat split; lia].
  constructor; [|constructor]. exists sel, dts. split; [exact Hp|reflexivity].
Qed.

Lemma calculate_at_cost kk i :
  let x := calculateStandardCorrelation_at_c p c kk i in
  bounded (M_datapoints (ds c) * (Nat.log2 (M_datapoints (ds c)) + 3)) (M_datapoints (ds c)) (N_datasets (ds c)) (snd x) /\
  started (snd x) = 1 /\
  (snd (fst x) = Ok tt -> ran p (ds c) (naturalSelectionFunctionIdx p (ds c)) [kk] (snd x)).
Proof.
  unfold calculateStandardCorrelation_at_c. apply (one_lag_cost natural_sel) with (w := fractionWeightFunction (alpha c)) (i := i).
  - exact natural_sel_ok.
  - symmetry. apply naturalSelection_e.
  - rewrite naturalSelection_e. apply natural_closed.
  - destruct Hds as [_ [<- _]]. apply natural_cheap.
  - intros it2. right. reflexivity.
Qed.

(** the comparisons of a lag, by the name of the selection function *)
Definition search_cost (sel : string) (M : nat) : nat :=
  if String.eqb sel "fast" then M + (Nat.log2 M + 2) else M * (Nat.log2 M + 3).

Lemma find_at_cost sel wgt kk i :
  let x := find_correlation_at_c p sel wgt c kk i in
  bounded (search_cost sel (M_datapoints (ds c))) (M_datapoints (ds c)) (N_datasets (ds c)) (snd x) /\
  started (snd x) = 1 /\
  (snd (fst x) = Ok tt -> exists f, selection_function p sel (ds c) = Some f /\ ran p (ds c) f [kk] (snd x)).
Proof.
  unfold find_correlation_at_c, SELECTION_FUNCTIONS_c, search_cost, selection_function.
  assert (Hr : exists w, forall it2 : cor_it,
    match WEIGHT_FUNCTIONS wgt with
    | None => ((c, Throw PyKeyError), free)
    | Some w => let x := weights_c (w c) it2 in
        charge (snd x) (on_it_c c (findCorrelation_c p c (fst x)) (fun it4 => (addCorrelationData c it4 i, free)))
    end = (c, Throw PyKeyError, free) \/
    match WEIGHT_FUNCTIONS wgt with
    | None => ((c, Throw PyKeyError), free)
    | Some w => let x := weights_c (w c) it2 in
        charge (snd x) (on_it_c c (findCorrelation_c p c (fst x)) (fun it4 => (addCorrelationData c it4 i, free)))
    end = charge (snd (weights_c (getWeights w) it2))
       (on_it_c c (findCorrelation_c p c (fst (weights_c (getWeights w) it2))) (fun it4 => (addCorrelationData c it4 i, free)))).
  { unfold WEIGHT_FUNCTIONS.
    destruct (String.eqb wgt "gaussian"); [exists (gaussianWeightFunction (alpha c)); intros it2; right; reflexivity|].
    destruct (String.eqb wgt "fractional"); [exists (fractionWeightFunction (alpha c)); intros it2; right; reflexivity|].
    destruct (String.eqb wgt "fractional_squared"); [exists (fractionSquaredWeightFunction (alpha c)); intros it2; right; reflexivity|].
    exists (fun x => x). intros it2. left. reflexivity. }
  destruct Hr as [w Hr].
  destruct (String.eqb_spec sel "fast") as [->|Hsel].
  - change (String.eqb "fast" "natural") with false. cbv iota.
    destruct (one_lag_cost fast_sel (fastSelection_c p (ds c) (CorrelationIterator kk (N_datasets (ds c))))
                (fastSelectionFunctionIdx p (ds c)) w
                (M_datapoints (ds c) + (Nat.log2 (M_datapoints (ds c)) + 2)) kk i _ fast_sel_ok
                ltac:(symmetry; apply fastSelection_e)
                ltac:(rewrite fastSelection_e; apply fast_closed)
                ltac:(destruct Hds as [_ [<- _]]; apply fast_cheap) Hr) as [H1 [H2 H3]].
    split; [exact H1|]. split; [exact H2|]. intros H. eexists. split; [reflexivity|]. apply H3. exact H.
  - destruct (String.eqb sel "natural").
    + destruct (one_lag_cost natural_sel (naturalSelection_c p (ds c) (CorrelationIterator kk (N_datasets (ds c))))
                (naturalSelectionFunctionIdx p (ds c)) w
                (M_datapoints (ds c) * (Nat.log2 (M_datapoints (ds c)) + 3)) kk i _ natural_sel_ok
                ltac:(symmetry; apply naturalSelection_e)
                ltac:(rewrite naturalSelection_e; apply natural_closed)
                ltac:(destruct Hds as [_ [<- _]]; apply natural_cheap) Hr) as [H1 [H2 H3]].
      split; [exact H1|]. split; [exact H2|]. intros H. eexists. split; [reflexivity|]. apply H3. exact H.
    + cbn [charge snd fst]. split; [constructor; cbn; lia|]. split; [reflexivity|discriminate].
Qed.

End OneLagCost.
End Bounds.
