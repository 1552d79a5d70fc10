(** Counters of type int: up to INT_MAX data points and datasets the methods of IntSize.v are those of the model; beyond, what happens. *)
From Coq Require Import String.
From Coq Require Import ZArith List Bool Arith Lia.
From Verif Require Import Num Mem MemFacts Spec DataStructure DSFacts Correlator Sacf Api CorrFacts LoopFacts MainFacts ConstrFacts IntIndex IntIndexFacts IntSize ExactFacts.
Import ListNotations.
Local Open Scope list_scope.

Notation small n := (Z.of_nat n <= INT_MAX)%Z.

Lemma wrap32_small z : (INT_MIN <= z <= INT_MAX)%Z -> wrap32 z = z.
Proof. unfold INT_MIN, INT_MAX, wrap32. intros H. rewrite Z.mod_small; lia. Qed.

Lemma index32_small M i j : small i -> small j -> index32 M (Z.of_nat i) (Z.of_nat j) = Z.of_nat (getVectorIndex M i j).
Proof. intros Hi Hj. unfold index32, getVectorIndex. rewrite !wrap32_small by (unfold INT_MIN; lia). lia. Qed.

Lemma index32_first M j : small j -> index32 M 0 (Z.of_nat j) = Z.of_nat (getVectorIndex M 0 j).
Proof. intros Hj. apply (index32_small M 0 j); [unfold INT_MAX; cbn; lia|exact Hj]. Qed.

Lemma zget_nat {X} (l : list X) n : zget l (Z.of_nat n) = lget l n.
Proof. unfold zget. destruct (Z.ltb_spec (Z.of_nat n) 0); [lia|]. rewrite Nat2Z.id. reflexivity. Qed.
Lemma zat_nat {X} (l : list X) n : zat l (Z.of_nat n) = lat l n.
Proof. unfold zat. destruct (Z.ltb_spec (Z.of_nat n) 0); [lia|]. rewrite Nat2Z.id. reflexivity. Qed.
Lemma zwrite_nat {X} (l : list X) n xs : zwrite l (Z.of_nat n) xs = write_slice l n xs.
Proof. unfold zwrite. destruct (Z.ltb_spec (Z.of_nat n) 0); [lia|]. rewrite Nat2Z.id. reflexivity. Qed.
Lemma zslice_nat {X} (l : list X) a b : a <= b -> zslice l (Z.of_nat a) (Z.of_nat b) = slice l a b.
Proof.
  intros H. unfold zslice. destruct (Z.ltb_spec (Z.of_nat a) 0); [lia|]. destruct (Z.ltb_spec (Z.of_nat b) (Z.of_nat a)); [lia|].
  cbn [orb]. rewrite !Nat2Z.id. reflexivity.
Qed.

Lemma mapI_fits {X} (f g : nat -> res X) n : forall j, small (j + n) -> (forall q, j <= q < j + n -> f q = g q) ->
  mapI f n j = mapM g (seq j n).
Proof.
  induction n as [|n IH]; intros j Hs H; [reflexivity|]. cbn [mapI seq mapM]. rewrite H by lia.
  destruct (g j) as [x|e|u|]; cbn [bind]; try reflexivity. rewrite iadd_ok by lia. cbn [bind].
  rewrite Nat.add_1_r. rewrite IH; [reflexivity|lia|]. intros q Hq. apply H. lia.
Qed.

Section Fits.
Context {A : Num}.

(** ** Construction and getters *)
Lemma slice_fits (data : list num) M j : small M -> small j ->
  zslice data (index32 M 0 (Z.of_nat j)) (index32 M (Z.of_nat M) (Z.of_nat j)) = slice data (getVectorIndex M 0 j) (getVectorIndex M M j).
Proof. intros HM Hj. rewrite index32_first, index32_small by assumption. apply zslice_nat. unfold getVectorIndex. lia. Qed.

Lemma setDataMean_fits data N M : small N -> small M -> setDataMean32 data N M = setDataMean data N M.
Proof.
  intros HN HM. unfold setDataMean32, setDataMean. apply mapI_fits; [exact HN|]. intros j Hj.
  unfold dataset_mean32, dataset_mean. rewrite slice_fits by (lia || exact HM). reflexivity.
Qed.

Lemma calcNormData_fits data means M : small M -> forall n j nd, small (j + n) ->
  calcNormData_loop32 data means M n j nd = calcNormData_loop data means M n j nd.
Proof.
  intros HM. induction n as [|n IH]; intros j nd Hs; [reflexivity|]. cbn [calcNormData_loop32 calcNormData_loop].
  rewrite slice_fits by (lia || exact HM). destruct (slice data _ _) as [xs|e|u|]; cbn [bind]; try reflexivity.
  destruct (lget means j) as [m|e|u|]; cbn [bind]; try reflexivity. rewrite index32_first, zwrite_nat by lia.
  destruct (write_slice nd _ _) as [nd'|e|u|]; cbn [bind]; try reflexivity. rewrite iadd_ok by lia. cbn [bind].
  rewrite Nat.add_1_r. apply IH. lia.
Qed.

Lemma setUp_fits t_in data err_in N M : small N -> small M -> setUp32 t_in data err_in N M = setUp t_in data err_in N M.
Proof.
  intros HN HM. unfold setUp32, setUp. destruct ((length data =? 0) || (length t_in =? 0)); [reflexivity|].
  destruct (negb (length data mod length t_in =? 0)); [reflexivity|]. rewrite setDataMean_fits by assumption.
  destruct (setDataMean data N M) as [means|e|u|]; cbn [bind]; try reflexivity.
  destruct (lback t_in) as [tm|e|u|]; cbn [bind]; try reflexivity. destruct (calcNormt t_in) as [nt|e|u|]; cbn [bind]; try reflexivity.
  unfold calcNormData32, calcNormData. rewrite calcNormData_fits by (exact HM || exact HN). reflexivity.
Qed.

Lemma SACF_1d_fits ts v e : small (length ts) -> SACF_1d32 ts v e = SACF_1d ts v e.
Proof. intros H. unfold SACF_1d32, SACF_1d, ds_1d, ds_1d_err. rewrite setUp_fits by (exact H || (unfold INT_MAX; cbn; lia)). destruct e; reflexivity. Qed.
Lemma SACF_2d_fits ts v e : small (length ts) -> small (length v) -> SACF_2d32 ts v e = SACF_2d ts v e.
Proof. intros H H'. unfold SACF_2d32, SACF_2d, ds_2d, ds_2d_err. rewrite setUp_fits by assumption. destruct e; reflexivity. Qed.

Lemma rows_fits v N M : small N -> small M -> rows_2d32 v N M = rows_2d v N M.
Proof.
  intros HN HM. unfold rows_2d32, rows_2d. apply mapI_fits; [exact HN|]. intros j Hj. apply mapI_fits; [exact HM|]. intros i Hi.
  rewrite index32_small by lia. apply zget_nat.
Qed.

Definition small_ds (d : dstruct) : Prop := small (N_datasets d) /\ small (M_datapoints d).

Lemma getters_fit d : small_ds d -> data_2d32 d = data_2d d /\ err_2d32 d = err_2d d /\ normalised_data_2d32 d = normalised_data_2d d.
Proof.
  intros [HN HM]. unfold data_2d32, data_2d, err_2d32, err_2d, normalised_data_2d32, normalised_data_2d. rewrite !rows_fits by assumption.
  auto.
Qed.

(** ** The correlator *)
Lemma norm_loop_fits d j : small j -> forall n i acc, small (i + n) -> norm_loop32 d j n i acc = norm_loop d j n i acc.
Proof.
  intros Hj. induction n as [|n IH]; intros i acc Hs; [reflexivity|]. cbn [norm_loop32 norm_loop]. rewrite index32_small, zat_nat by lia.
  destruct (lat (data_ d) _) as [x|e|u|]; cbn [bind]; try reflexivity. cbv zeta. rewrite iadd_ok by lia. cbn [bind]. rewrite Nat.add_1_r.
  destruct (nisnan (nf32 x)); [apply IH; lia|]. destruct (lget (data_mean d) j) as [m|e|u|]; cbn [bind]; try reflexivity. apply IH. lia.
Qed.

Lemma findMinDiff_fits (arr : list num) : small (length arr) -> findMinDiff32 arr = Ok (findMinDiff arr).
Proof.
  intros H. unfold findMinDiff32, findMinDiff. rewrite wrap32_small by (unfold INT_MIN; lia).
  destruct (Z.eqb_spec (Z.of_nat (length arr)) INT_MIN) as [E|_]; [unfold INT_MIN in E; lia|]. rewrite Nat2Z.id, firstn_all. reflexivity.
Qed.

Lemma new_Correlator_fits d : small_ds d -> length (norm_t d) = M_datapoints d -> new_Correlator32 d = new_Correlator d.
Proof.
  intros [HN HM] HL. unfold new_Correlator32, new_Correlator.
  rewrite (mapI_fits _ (fun j => norm_loop d j (M_datapoints d) 0 nzero)); [|exact HN|intros j Hj; apply norm_loop_fits; [lia|exact HM]].
  rewrite findMinDiff_fits by (rewrite HL; exact HM). reflexivity.
Qed.

Lemma natural_loop_fits p nt : forall n i it, small (i + n) -> natural_loop32 p nt n i it = natural_loop p nt n i it.
Proof.
  induction n as [|n IH]; intros i it Hs; [reflexivity|]. cbn [natural_loop32 natural_loop]. unfold mlift.
  destruct (vget p (shifted_timeseries it) i) as [s|e|u|]; cbn [mbind]; try reflexivity.
  destruct (natural_index p nt s) as [idx|e|u|]; cbn [mbind]; try reflexivity. rewrite iadd_ok by lia. cbn [mbind]. rewrite Nat.add_1_r. apply IH. lia.
Qed.

Lemma natural_fits p d kk n : small (length (norm_t d)) ->
  naturalSelectionFunctionIdx32 p d (CorrelationIterator kk n) = naturalSelectionFunctionIdx p d (CorrelationIterator kk n).
Proof.
  intros H. unfold naturalSelectionFunctionIdx32, naturalSelectionFunctionIdx, mlift. destruct (lback (norm_t d)) as [back|e|u|]; cbn [mbind]; try reflexivity.
  rewrite natural_loop_fits; [reflexivity|]. cbn [CorrelationIterator k shifted_timeseries set_shifted].
  destruct (natural_shift_live (norm_t d) back kk vempty vwf_empty) as [_ [_ ->]]. cbn [vsize vempty].
  pose proof (shifted_length_le (fun s => nlt back s) (norm_t d) kk). lia.
Qed.

Lemma fast_fill_fits idx : forall n i v, small (i + n) -> fast_fill32 idx n i v = fast_fill idx n i v.
Proof.
  induction n as [|n IH]; intros i v Hs; [reflexivity|]. cbn [fast_fill32 fast_fill]. destruct (vset v i (idx + i)) as [v'|e|u|]; cbn [bind]; try reflexivity.
  rewrite iadd_ok by lia. cbn [bind]. rewrite Nat.add_1_r. apply IH. lia.
Qed.

Lemma fast_fits p d kk n : small (length (norm_t d)) ->
  fastSelectionFunctionIdx32 p d (CorrelationIterator kk n) = fastSelectionFunctionIdx p d (CorrelationIterator kk n).
Proof.
  intros H. unfold fastSelectionFunctionIdx32, fastSelectionFunctionIdx, mlift. destruct (lback (norm_t d)) as [back|e|u|]; cbn [mbind]; try reflexivity.
  cbn [CorrelationIterator k shifted_timeseries set_shifted].
  destruct (fast_shift_live (norm_t d) back kk vempty vwf_empty) as [_ [_ Hv]]. cbn [vsize vempty] in Hv.
  pose proof (shifted_length_le (fun s => nle back s) (norm_t d) kk) as HS. f_equal.
  destruct (vsize (fast_shift (norm_t d) back kk vempty) =? 0); [reflexivity|].
  destruct (vget p _ 0) as [s|e|u|]; cbn [mbind]; try reflexivity. destruct (lower_bound (norm_t d) s) as [idx|e|u|]; cbn [mbind]; try reflexivity.
  destruct (lat (norm_t d) (idx + 1)) as [b|e|u|]; cbn [mbind]; try reflexivity. destruct (cabs p (nsub s b)) as [db|e|u|]; cbn [mbind]; try reflexivity.
  destruct (lat (norm_t d) idx) as [a|e|u|]; cbn [mbind]; try reflexivity. destruct (cabs p (nsub s a)) as [da|e|u|]; cbn [mbind]; try reflexivity.
  rewrite fast_fill_fits; [reflexivity|]. lia.
Qed.

Lemma deltaT_loop_fits p nt : forall vals i it, small (i + length vals) -> deltaT_loop32 p nt vals i it = deltaT_loop p nt vals i it.
Proof.
  induction vals as [|v vals IH]; intros i it Hs; [reflexivity|]. cbn [deltaT_loop32 deltaT_loop]. cbn [length] in Hs. unfold mlift.
  destruct (lat nt v) as [a|e|u|]; cbn [mbind]; try reflexivity. destruct (vget p _ i) as [s|e|u|]; cbn [mbind]; try reflexivity.
  destruct (cabs p (nsub a s)) as [dt|e|u|]; cbn [mbind]; try reflexivity. rewrite iadd_ok by lia. cbn [mbind]. rewrite Nat.add_1_r. apply IH. lia.
Qed.

Lemma deltaT_fits p d it : small (length (vlive (selection_indices it))) -> deltaT32 p d it = deltaT p d it.
Proof. intros H. unfold deltaT32, deltaT. rewrite deltaT_loop_fits by exact H. reflexivity. Qed.

Lemma weights_fits w : forall dts i v, small (i + length dts) -> weights_loop32 w dts i v = Ok (fold_left (fun v d => vpush v (w d)) dts v).
Proof.
  induction dts as [|x dts IH]; intros i v Hs; [reflexivity|]. cbn [weights_loop32 fold_left]. cbn [length] in Hs.
  rewrite iadd_ok by lia. cbn [bind]. rewrite Nat.add_1_r. apply IH. lia.
Qed.
Lemma getWeights_fits w it : small (length (vlive (delta_t it))) -> getWeights32 w it = (getWeights w it, Ok tt).
Proof. intros H. unfold getWeights32, getWeights. rewrite weights_fits by exact H. reflexivity. Qed.

Lemma sum_fits p d v j : small j -> vwf v -> (forall s, In s (vlive v) -> small s) -> small (length (vlive v)) ->
  forall ws i acc, i + length ws <= length (vlive v) -> findCorrelation_sum32 p d v j ws i acc = findCorrelation_sum p d v j ws i acc.
Proof.
  intros Hj Hw Hs Hl. induction ws as [|w ws IH]; intros i acc Hi; [reflexivity|]. cbn [findCorrelation_sum32 findCorrelation_sum]. cbn [length] in Hi.
  unfold mlift. rewrite index32_small, zat_nat by lia. destruct (lat (norm_data d) _) as [x|e|u|]; cbn [mbind]; try reflexivity.
  destruct (nth_error (vlive v) i) as [s|] eqn:Es; [|apply nth_error_None in Es; lia].
  rewrite (vget_live p v i s Hw Es). cbn [mbind]. pose proof (Hs s (nth_error_In _ _ Es)) as Hss. rewrite index32_small, zat_nat by lia.
  destruct (lat (norm_data d) _) as [y|e|u|]; cbn [mbind]; try reflexivity. rewrite iadd_ok by lia. cbn [mbind]. rewrite Nat.add_1_r. apply IH. lia.
Qed.

Lemma find_loop_fits p c : forall n j it, small (j + n) -> vwf (selection_indices it) -> (forall s, In s (vlive (selection_indices it)) -> small s) ->
  small (length (vlive (selection_indices it))) -> length (vlive (weights it)) <= length (vlive (selection_indices it)) ->
  findCorrelation_loop32 p c n j it = findCorrelation_loop p c n j it.
Proof.
  induction n as [|n IH]; intros j it Hn Hw Hs Hl Hwt; [reflexivity|]. cbn [findCorrelation_loop32 findCorrelation_loop]. unfold mlift.
  destruct (lget (correlation it) j) as [acc|e|u|]; cbn [mbind]; try reflexivity. cbv zeta.
  rewrite sum_fits by (assumption || lia). destruct (findCorrelation_sum p (ds c) (selection_indices it) j (vlive (weights it)) 0 acc) as [s r]. cbn [fst snd].
  destruct (lset (correlation it) j s) as [cs|e|u|]; cbn [mbind]; try reflexivity. destruct r as [[]|e|u|]; cbn [mbind]; try reflexivity.
  destruct (lget (Nvec c) j) as [Nj|e|u|]; cbn [mbind]; try reflexivity. destruct (lset cs j _) as [cs'|e|u|]; cbn [mbind]; try reflexivity.
  rewrite iadd_ok by lia. cbn [mbind]. rewrite Nat.add_1_r. apply IH; try assumption. lia.
Qed.

(** ** One lag *)
Lemma on_it_ext {R} c x (f g : cor_it -> meth correlator R) : (forall it, x = (it, Ok tt) -> f it = g it) -> on_it c x f = on_it c x g.
Proof. intros H. unfold on_it. destruct x as [it [[]|e|u|]]; try reflexivity. apply H. reflexivity. Qed.

Lemma deltas_length p nt sel S dts : length sel = length S -> deltas p nt sel S = Ok dts -> length dts = length sel.
Proof. intros HL H. apply mapM_Ok_inv in H. destruct H as [H _]. rewrite H, combine_length, <- HL. apply Nat.min_id. Qed.

Lemma rest_fits p c kk (sf : sel_fun) (m : meth cor_it unit) w1 (i : nat) :
  small (N_datasets (ds c)) -> small (length (norm_t (ds c))) -> 0 < length (norm_t (ds c)) -> sel_ok sf ->
  match sf p (norm_t (ds c)) kk with
  | Ok (sel, sh) => exists it, m = (it, Ok tt) /\ selected it kk (N_datasets (ds c)) sel sh
  | r => same_failure r (snd m)
  end ->
  on_it c m (fun it1 => on_it c (deltaT32 p (ds c) it1) (fun it2 => on_it c (getWeights32 w1 it2) (fun it3 => on_it c (findCorrelation32 p c it3) (fun it4 =>
    addCorrelationData_int c it4 i)))) =
  on_it c m (fun it1 => on_it c (deltaT p (ds c) it1) (fun it2 => let it3 := getWeights w1 it2 in on_it c (findCorrelation p c it3) (fun it4 =>
    addCorrelationData_int c it4 i))).
Proof.
  intros HN HM H0 Hok C. apply on_it_ext. intros it E. destruct (sf p (norm_t (ds c)) kk) as [[sel sh]|x|x|] eqn:HS;
    [|rewrite E in C; cbn in C; contradiction..].
  destruct C as [it' [E' Hsel]]. rewrite E in E'. injection E' as <-.
  destruct (Hok p (norm_t (ds c)) kk sel sh H0 HS) as [K1 [K2 K3]].
  assert (Hl : vlive (selection_indices it) = sel) by apply Hsel.
  rewrite deltaT_fits by (rewrite Hl; lia). apply on_it_ext. intros it2 E2.
  pose proof (deltaT_closed p (ds c) it kk (N_datasets (ds c)) sel sh Hsel K1) as D.
  destruct (deltas p (norm_t (ds c)) sel sh) as [dts|x|x|] eqn:HD; [|rewrite E2 in D; cbn in D; contradiction..].
  destruct D as [it2' [E2' Ho]]. rewrite E2 in E2'. injection E2' as <-.
  pose proof (deltas_length p _ sel sh dts K1 HD) as Ld.
  assert (Hd : vlive (delta_t it2) = dts) by apply Ho.
  rewrite getWeights_fits by (rewrite Hd, Ld; lia). unfold on_it at 1.
  pose proof (getWeights_closed w1 it2 kk (N_datasets (ds c)) sel dts Ho) as [_ [_ [W1 [W2 [_ W4]]]]].
  cbv zeta. unfold findCorrelation32, findCorrelation. rewrite find_loop_fits; [reflexivity|exact HN|exact W1| | |].
  - intros s Hs. rewrite W2 in Hs. specialize (K3 s Hs). lia.
  - rewrite W2. lia.
  - rewrite W2, W4, map_length, Ld. lia.
Qed.

Lemma std_at_fits p c kk i : small (N_datasets (ds c)) -> small (length (norm_t (ds c))) -> 0 < length (norm_t (ds c)) ->
  calculateStandardCorrelation_at32 p c kk i = calculateStandardCorrelation_at_int p c kk i.
Proof.
  intros HN HM H0. unfold calculateStandardCorrelation_at32, calculateStandardCorrelation_at_int. rewrite natural_fits by exact HM.
  apply (rest_fits p c kk natural_sel); try assumption; [exact natural_sel_ok|]. apply natural_closed.
Qed.

Lemma find_at_fits p sel wgt c kk i : small (N_datasets (ds c)) -> small (length (norm_t (ds c))) -> 0 < length (norm_t (ds c)) ->
  find_correlation_at32 p sel wgt c kk i = find_correlation_at_int p sel wgt c kk i.
Proof.
  intros HN HM H0. unfold find_correlation_at32, find_correlation_at_int, SELECTION_FUNCTIONS32, SELECTION_FUNCTIONS.
  assert (F : forall sf m, sel_ok sf ->
    match sf p (norm_t (ds c)) kk with
    | Ok (sel, sh) => exists it, m = (it, Ok tt) /\ selected it kk (N_datasets (ds c)) sel sh
    | r => same_failure r (snd m)
    end ->
    on_it c m (fun it1 => on_it c (deltaT32 p (ds c) it1) (fun it2 => match WEIGHT_FUNCTIONS32 wgt with None => (c, Throw PyKeyError)
      | Some w => on_it c (w c it2) (fun it3 => on_it c (findCorrelation32 p c it3) (fun it4 => addCorrelationData_int c it4 i)) end)) =
    on_it c m (fun it1 => on_it c (deltaT p (ds c) it1) (fun it2 => match WEIGHT_FUNCTIONS wgt with None => (c, Throw PyKeyError)
      | Some w => let it3 := w c it2 in on_it c (findCorrelation p c it3) (fun it4 => addCorrelationData_int c it4 i) end))).
  { intros sf m Hok C. unfold WEIGHT_FUNCTIONS32, WEIGHT_FUNCTIONS.
    destruct (String.eqb wgt "gaussian"); [apply (rest_fits p c kk sf m); assumption|].
    destruct (String.eqb wgt "fractional"); [apply (rest_fits p c kk sf m); assumption|].
    destruct (String.eqb wgt "fractional_squared"); [apply (rest_fits p c kk sf m); assumption|].
    apply on_it_ext. intros it E. destruct (sf p (norm_t (ds c)) kk) as [[se sh]|x|x|] eqn:HS; [|rewrite E in C; cbn in C; contradiction..].
    destruct C as [it' [E' Hsel]]. rewrite E in E'. injection E' as <-.
    destruct (Hok p (norm_t (ds c)) kk se sh H0 HS) as [K1 [K2 K3]].
    rewrite deltaT_fits; [reflexivity|]. replace (vlive (selection_indices it)) with se by (symmetry; apply Hsel). lia. }
  destruct (String.eqb sel "fast"); [rewrite fast_fits by exact HM; apply (F fast_sel); [exact fast_sel_ok|apply fast_closed]|].
  destruct (String.eqb sel "natural"); [rewrite natural_fits by exact HM; apply (F natural_sel); [exact natural_sel_ok|apply natural_closed]|].
  reflexivity.
Qed.

(** ** Calls *)
Definition fine (c : correlator) : Prop := small (N_datasets (ds c)) /\ small (length (norm_t (ds c))) /\ 0 < length (norm_t (ds c)).

Lemma add_ds c it i : ds (fst (addCorrelationData_int c it i)) = ds c.
Proof.
  unfold addCorrelationData_int, mlift. destruct (lset (timeseries_ c) i (k it)) as [x|e|u|]; cbn [mbind]; try reflexivity.
  destruct (add_loop_int _ _ _ _ _ _) as [x'|e|u|]; reflexivity.
Qed.
Lemma on_it_ds c m (f : cor_it -> meth correlator unit) : (forall it, ds (fst (f it)) = ds c) -> ds (fst (on_it c m f)) = ds c.
Proof. intros H. unfold on_it. destruct m as [it [[]|e|u|]]; try reflexivity. apply H. Qed.
Lemma std_at_ds p c kk i : ds (fst (calculateStandardCorrelation_at_int p c kk i)) = ds c.
Proof. unfold calculateStandardCorrelation_at_int. repeat (apply on_it_ds; intros). apply add_ds. Qed.
Lemma find_at_ds p sel wgt c kk i : ds (fst (find_correlation_at_int p sel wgt c kk i)) = ds c.
Proof.
  unfold find_correlation_at_int. destruct (SELECTION_FUNCTIONS p sel); [|reflexivity]. repeat (apply on_it_ds; intros).
  destruct (WEIGHT_FUNCTIONS wgt); [|reflexivity]. repeat (apply on_it_ds; intros). apply add_ds.
Qed.

Lemma std_loop_fits32 p : forall fuel kk pos i c, fine c -> std_loop32 p fuel kk pos i c = std_loop_int p fuel kk pos i c.
Proof.
  induction fuel as [|fuel IH]; intros kk pos i c Hf; [reflexivity|]. cbn [std_loop32 std_loop_int]. destruct (nle kk (max_lag c)); [|reflexivity]. cbv zeta.
  assert (Hn : forall kk' i' c', ds c' = ds c -> calculateStandardCorrelation_at32 p c' kk' i' = calculateStandardCorrelation_at_int p c' kk' i' /\
     ds (fst (calculateStandardCorrelation_at_int p c' kk' i')) = ds c).
  { intros kk' i' c' E. destruct Hf as [F1 [F2 F3]]. split; [apply std_at_fits; rewrite E; assumption|]. rewrite std_at_ds. exact E. }
  assert (Hf' : forall c', ds c' = ds c -> fine c') by (intros c' E; unfold fine; rewrite E; exact Hf).
  destruct (nlt nzero kk && _).
  - destruct (Hn nzero i c eq_refl) as [-> D1]. destruct (calculateStandardCorrelation_at_int p c nzero i) as [c1 [[]|e|u|]]; cbn [mbind]; try reflexivity.
    cbn [fst] in D1. unfold mlift. destruct (iadd i 1) as [i1|e|u|]; cbn [mbind]; try reflexivity.
    destruct (Hn kk i1 c1 D1) as [-> D2]. destruct (calculateStandardCorrelation_at_int p c1 kk i1) as [c2 [[]|e|u|]]; cbn [mbind]; try reflexivity.
    cbn [fst] in D2. destruct (iadd i1 1) as [i2|e|u|]; cbn [mbind]; try reflexivity. apply IH, Hf', D2.
  - destruct (Hn kk i c eq_refl) as [-> D1]. destruct (calculateStandardCorrelation_at_int p c kk i) as [c1 [[]|e|u|]]; cbn [mbind]; try reflexivity.
    cbn [fst] in D1. unfold mlift. destruct (iadd i 1) as [i1|e|u|]; cbn [mbind]; try reflexivity. apply IH, Hf', D1.
Qed.

Lemma find_loop_fits32 p sel wgt : forall fuel maxl resl g n last c, fine c ->
  find_loop32 p sel wgt fuel maxl resl g n last c = find_loop_int p sel wgt fuel maxl resl g n last c.
Proof.
  induction fuel as [|fuel IH]; intros maxl resl g n last c Hf; [reflexivity|]. cbn [find_loop32 find_loop_int].
  destruct (gen_next maxl resl g) as [[kk g']|]; [|reflexivity]. destruct Hf as [F1 [F2 F3]]. rewrite find_at_fits by assumption.
  pose proof (find_at_ds p sel wgt c kk n) as D. destruct (find_correlation_at_int p sel wgt c kk n) as [c1 [[]|e|u|]]; cbn [mbind]; try reflexivity.
  cbn [fst] in D. apply IH. unfold fine. rewrite D. auto.
Qed.

Lemma call32_fits p d mi ma re al sel wgt : small_ds d -> wf_ds d ->
  autocorrelation32 p d mi ma re al sel wgt = autocorrelation_int p d mi ma re al sel wgt.
Proof.
  intros Hs Hw. unfold autocorrelation32, autocorrelation_int. rewrite new_Correlator_fits by (exact Hs || apply Hw).
  destruct (new_Correlator d) as [c0|e|u|] eqn:E0; cbn [bind]; try reflexivity.
  assert (Hc : ds (set_up_correlation c0 mi ma re al) = d).
  { assert (E : ds c0 = d).
    { unfold new_Correlator in E0. apply bind_Ok in E0. destruct E0 as [N [_ E0]]. apply bind_Ok in E0. destruct E0 as [m [_ E0]].
      apply bind_Ok in E0. destruct E0 as [q [_ E0]]. apply bind_Ok in E0. destruct E0 as [nls [_ E0]]. destruct (nls <? 0)%Z; [discriminate|].
      injection E0 as <-. reflexivity. }
    rewrite <- E. destruct mi, ma, re, al; reflexivity. }
  assert (Hf : fine (set_up_correlation c0 mi ma re al)).
  { unfold fine. rewrite Hc. destruct Hs as [HN HM], Hw as [W1 [W2 _]]. rewrite W2. auto. }
  set (c1 := set_up_correlation c0 mi ma re al) in *.
  replace (calculateStandardCorrelation32 p c1) with (calculateStandardCorrelation_int p c1)
    by (unfold calculateStandardCorrelation32, calculateStandardCorrelation_int; rewrite std_loop_fits32 by exact Hf; reflexivity).
  replace (find_correlation32 p c1 sel wgt) with (find_correlation_int p c1 sel wgt)
    by (unfold find_correlation32, find_correlation_int; rewrite find_loop_fits32 by exact Hf; reflexivity).
  reflexivity.
Qed.

End Fits.

(** ** More than INT_MAX *)
Definition runs_or_ub {X} (r : res X) : Prop := (exists x, r = Ok x) \/ exists u, r = UB u.

Lemma iadd_over j : (INT_MAX < Z.of_nat (S j))%Z -> iadd j 1 = UB BadConversion.
Proof. intros H. unfold iadd. destruct (Z.leb_spec (Z.of_nat j + Z.of_nat 1) INT_MAX); [lia|reflexivity]. Qed.

Lemma mapI_over {X} (f : nat -> res X) : forall n j, small j -> (INT_MAX < Z.of_nat (j + n))%Z -> (forall q, j <= q < j + n -> runs_or_ub (f q)) ->
  exists u, mapI f n j = UB u.
Proof.
  induction n as [|n IH]; intros j Hj Hn Hf; [lia|]. cbn [mapI]. destruct (Hf j ltac:(lia)) as [[x ->]|[u ->]]; cbn [bind]; [|eauto].
  destruct (Z.le_gt_cases (Z.of_nat (S j)) INT_MAX) as [H|H].
  - rewrite iadd_ok by lia. cbn [bind]. rewrite Nat.add_1_r. destruct (IH (S j) H ltac:(lia)) as [u ->]; [intros q Hq; apply Hf; lia|]. cbn [bind]. eauto.
  - rewrite iadd_over by lia. cbn [bind]. eauto.
Qed.

Lemma slice_ub {X} (l : list X) a b : runs_or_ub (slice l a b).
Proof. unfold slice. destruct (b <=? length l); [left|right]; eauto. Qed.
Lemma zslice_ub {X} (l : list X) a b : runs_or_ub (zslice l a b).
Proof. unfold zslice. destruct (_ || _)%bool; [right; eauto|apply slice_ub]. Qed.
Lemma zget_ub {X} (l : list X) z : runs_or_ub (zget l z).
Proof. unfold zget, lget. destruct (z <? 0)%Z; [right; eauto|]. destruct (nth_error l _); [left|right]; eauto. Qed.

Section Over.
Context {A : Num}.

Lemma mean32_ub data M j : runs_or_ub (dataset_mean32 data M j).
Proof. unfold dataset_mean32. destruct (zslice_ub data (index32 M 0 (Z.of_nat j)) (index32 M (Z.of_nat M) (Z.of_nat j))) as [[x ->]|[u ->]]; cbn [bind]; [left|right]; eauto. Qed.

Lemma setUp32_over ts data er N M : length data <> 0 -> length ts <> 0 -> length data mod length ts = 0 -> (INT_MAX < Z.of_nat N)%Z ->
  exists u, setUp32 ts data er N M = UB u.
Proof.
  intros H1 H2 H3 HN. unfold setUp32. rewrite (proj2 (Nat.eqb_neq _ _) H1), (proj2 (Nat.eqb_neq _ _) H2), H3. cbn [orb Nat.eqb negb].
  unfold setDataMean32. destruct (mapI_over (dataset_mean32 data M) N 0) as [u ->]; [unfold INT_MAX; cbn; lia|exact HN|intros; apply mean32_ub|]. cbn [bind]. eauto.
Qed.

Lemma wrap32_neg z : (0 <= z)%Z -> (2147483648 <= z mod 4294967296)%Z -> (wrap32 z = z mod 4294967296 - 4294967296)%Z.
Proof.
  intros H0 H. unfold wrap32. pose proof (Z.mod_pos_bound z 4294967296 ltac:(lia)) as B.
  replace (z + 2147483648)%Z with ((z mod 4294967296 - 2147483648) + (z / 4294967296 + 1) * 4294967296)%Z by (pose proof (Z.div_mod z 4294967296 ltac:(lia)); lia).
  rewrite Z.mod_add by lia. rewrite Z.mod_small by lia. lia.
Qed.
Lemma wrap32_pos z : (0 <= z)%Z -> (z mod 4294967296 < 2147483648)%Z -> (wrap32 z = z mod 4294967296)%Z.
Proof.
  intros H0 H. unfold wrap32. pose proof (Z.mod_pos_bound z 4294967296 ltac:(lia)) as B.
  replace (z + 2147483648)%Z with ((z mod 4294967296 + 2147483648) + (z / 4294967296) * 4294967296)%Z by (pose proof (Z.div_mod z 4294967296 ltac:(lia)); lia).
  rewrite Z.mod_add by lia. rewrite Z.mod_small by lia. lia.
Qed.

Lemma zero_start M : index32 M 0 (Z.of_nat 0) = 0%Z.
Proof. reflexivity. Qed.
Lemma zero_end M : index32 M (Z.of_nat M) (Z.of_nat 0) = wrap32 (Z.of_nat M).
Proof. unfold index32. change (wrap32 (Z.of_nat 0)) with 0%Z. lia. Qed.

Lemma setUp32_negative ts data er N : length data <> 0 -> length ts <> 0 -> length data mod length ts = 0 -> 0 < N ->
  (2147483648 <= Z.of_nat (length ts) mod 4294967296)%Z -> setUp32 ts data er N (length ts) = UB OobRead.
Proof.
  intros H1 H2 H3 HN HM. unfold setUp32. rewrite (proj2 (Nat.eqb_neq _ _) H1), (proj2 (Nat.eqb_neq _ _) H2), H3. cbn [orb Nat.eqb negb].
  destruct N as [|N]; [lia|]. unfold setDataMean32. cbn [mapI]. unfold dataset_mean32. rewrite zero_start, zero_end, wrap32_neg by lia.
  unfold zslice. pose proof (Z.mod_pos_bound (Z.of_nat (length ts)) 4294967296 ltac:(lia)) as B.
  destruct (Z.ltb_spec (Z.of_nat (length ts) mod 4294967296 - 4294967296) 0); [|lia]. rewrite orb_true_r. reflexivity.
Qed.

Lemma setUp32_truncated ts data er : length data <> 0 -> length ts <> 0 -> length data mod length ts = 0 ->
  (Z.of_nat (length ts) mod 4294967296 < 2147483648)%Z ->
  exists d, setUp32 ts data er 1 (length ts) = Ok d /\ t d = ts /\ data_ d = data /\ err d = er /\ N_datasets d = 1 /\ M_datapoints d = length ts /\
    data_mean d = [mean (firstn (Z.to_nat (Z.of_nat (length ts) mod 4294967296)) data)].
Proof.
  intros H1 H2 H3 HM. set (m := Z.to_nat (Z.of_nat (length ts) mod 4294967296)).
  pose proof (Z.mod_pos_bound (Z.of_nat (length ts)) 4294967296 ltac:(lia)) as B.
  assert (Lm : m <= length data).
  { assert (length ts <= length data) by (destruct (Nat.le_gt_cases (length ts) (length data)) as [H|H]; [exact H|rewrite Nat.mod_small in H3 by exact H; lia]).
    pose proof (Z.mod_le (Z.of_nat (length ts)) 4294967296 ltac:(lia) ltac:(lia)). unfold m. lia. }
  assert (Hm : wrap32 (Z.of_nat (length ts)) = Z.of_nat m) by (rewrite wrap32_pos by lia; unfold m; rewrite Z2Nat.id; lia).
  assert (Sl : zslice data 0 (Z.of_nat m) = Ok (firstn m data)).
  { change 0%Z with (Z.of_nat 0). rewrite (zslice_nat data 0 m ltac:(lia)). unfold slice. rewrite (proj2 (Nat.leb_le m (length data)) Lm).
    cbn [skipn]. rewrite Nat.sub_0_r. reflexivity. }
  unfold setUp32. rewrite (proj2 (Nat.eqb_neq _ _) H1), (proj2 (Nat.eqb_neq _ _) H2), H3. cbn [orb Nat.eqb negb].
  unfold setDataMean32. cbn [mapI]. unfold dataset_mean32. rewrite zero_start, zero_end, Hm, Sl. cbn [bind].
  rewrite iadd_ok by (unfold INT_MAX; cbn; lia). cbn [bind].
  assert (Ht : ts <> []) by (intros ->; cbn in H2; lia). rewrite (lback_ok ts nzero Ht). cbn [bind].
  assert (Hn : exists t0, calcNormt ts = Ok (map (fun x => nsub x t0) ts)) by (destruct ts as [|t0 ts']; [congruence|exists t0; reflexivity]).
  destruct Hn as [t0 ->]. cbn [bind].
  unfold calcNormData32. cbn [calcNormData_loop32]. rewrite zero_start, zero_end, Hm, Sl. cbn [bind lget nth_error].
  change 0%Z with (Z.of_nat 0). rewrite zwrite_nat. unfold write_slice. rewrite map_length, firstn_length, repeat_length, Nat.min_l by exact Lm.
  cbn [Nat.add]. rewrite (proj2 (Nat.leb_le _ _) Lm). cbn [bind]. rewrite iadd_ok by (unfold INT_MAX; cbn; lia). cbn [bind].
  assert (Sm : forall nt : list num, nt <> [] -> exists v, settMedian nt = Ok v).
  { intros nt Hn. assert (0 < length nt) by (destruct nt; [congruence|cbn; lia]).
    assert (G : forall q, q < length nt -> exists v, lget nt q = Ok v).
    { intros q Hq. unfold lget. destruct (nth_error nt q) eqn:E; [eauto|]. apply nth_error_None in E. lia. }
    unfold settMedian. destruct (Nat.eqb_spec (length nt mod 2) 0) as [Ee|_].
    - pose proof (Nat.div_mod (length nt) 2 ltac:(lia)) as D. destruct (G (length nt / 2 - 1) ltac:(lia)) as [a ->]. cbn [bind].
      destruct (G (length nt / 2) ltac:(lia)) as [b ->]. cbn [bind]. eauto.
    - apply G. apply Nat.div_lt; lia. }
  destruct (Sm (map (fun x => nsub x t0) ts)) as [med ->]; [destruct ts; [congruence|discriminate]|]. cbn [bind].
  eexists. split; [reflexivity|]. cbn. repeat split.
Qed.

(** what the two constructors leave behind *)
Lemma setUp32_shape ts data er N M d : setUp32 ts data er N M = Ok d -> t d = ts /\ data_ d = data /\ err d = er /\ N_datasets d = N /\ M_datapoints d = M /\
  length data <> 0 /\ length ts <> 0 /\ length data mod length ts = 0 /\ length (data_mean d) = N /\ length (norm_data d) = length data.
Proof.
  unfold setUp32. destruct (Nat.eqb_spec (length data) 0); [discriminate|]. destruct (Nat.eqb_spec (length ts) 0); [discriminate|].
  destruct (Nat.eqb_spec (length data mod length ts) 0); [|discriminate]. cbn [orb negb]. intros H.
  apply bind_Ok in H. destruct H as [means [Hm H]]. apply bind_Ok in H. destruct H as [tm [_ H]]. apply bind_Ok in H. destruct H as [nt [_ H]].
  apply bind_Ok in H. destruct H as [nd [Hn H]]. apply bind_Ok in H. destruct H as [med [_ H]]. injection H as <-. cbn.
  repeat (split; [reflexivity || assumption|]). split.
  - assert (G : forall n j (ms : list num), mapI (dataset_mean32 data M) n j = Ok ms -> length ms = n).
    { induction n1 as [|n1 IH]; intros j ms H; [injection H as <-; reflexivity|].
      cbn [mapI] in H. apply bind_Ok in H. destruct H as [x [_ H]]. apply bind_Ok in H. destruct H as [j' [_ H]]. apply bind_Ok in H. destruct H as [xs [Hx H]].
      injection H as <-. cbn [length]. f_equal. exact (IH _ _ Hx). }
    exact (G _ _ _ Hm).
  - assert (G : forall n j nd0 nd1, calcNormData_loop32 data means M n j nd0 = Ok nd1 -> length nd1 = length nd0).
    { induction n1 as [|n1 IH]; intros j nd0 nd1 H; [injection H as <-; reflexivity|]. cbn [calcNormData_loop32] in H.
      apply bind_Ok in H. destruct H as [xs [_ H]]. apply bind_Ok in H. destruct H as [m [_ H]]. apply bind_Ok in H. destruct H as [nd' [Hw H]]. apply bind_Ok in H. destruct H as [j' [_ H]].
      rewrite (IH _ _ _ H). unfold zwrite in Hw. destruct (_ <? 0)%Z; [discriminate|]. unfold write_slice in Hw. destruct (Nat.leb_spec (Z.to_nat (index32 M 0 (Z.of_nat j)) + length (map (fun x => nsub x m) xs)) (length nd0)) as [L|]; [|discriminate].
      injection Hw as <-. rewrite !app_length, firstn_length, skipn_length. lia. }
    rewrite (G _ _ _ _ Hn). apply repeat_length.
Qed.

Definition constructed32 (d : dstruct) : Prop := (exists ts v e, SACF_1d32 ts v e = Ok d) \/ (exists ts v e, SACF_2d32 ts v e = Ok d).

Lemma shape32 d : constructed32 d -> 0 < N_datasets d /\ M_datapoints d = length (t d) /\ length (t d) <= length (data_ d) /\ length (data_mean d) = N_datasets d.
Proof.
  intros [[ts [v [e H]]]|[ts [v [e H]]]]; apply setUp32_shape in H; destruct H as [-> [-> [_ [-> [-> [H1 [H2 [H3 [H4 _]]]]]]]]].
  - split; [lia|]. split; [reflexivity|]. split; [|exact H4]. destruct (Nat.le_gt_cases (length ts) (length v)) as [L|L]; [exact L|]. rewrite Nat.mod_small in H3 by exact L. lia.
  - split; [destruct v; [cbn in H1; lia|cbn; lia]|]. split; [reflexivity|]. split; [|exact H4].
    destruct (Nat.le_gt_cases (length ts) (length (concat v))) as [L|L]; [exact L|]. rewrite Nat.mod_small in H3 by exact L. lia.
Qed.

Lemma rows_over v N M : 0 < N -> (INT_MAX < Z.of_nat M)%Z -> exists u, rows_2d32 v N M = UB u.
Proof.
  intros HN HM. destruct N as [|N]; [lia|]. unfold rows_2d32. cbn [mapI].
  destruct (mapI_over (fun i => zget v (index32 M (Z.of_nat i) (Z.of_nat 0))) M 0) as [u ->]; [unfold INT_MAX; cbn; lia|exact HM|intros; apply zget_ub|].
  cbn [bind]. eauto.
Qed.

Lemma norm_over d : length (data_mean d) <> 0 -> forall n i acc, small i -> (INT_MAX < Z.of_nat (i + n))%Z -> i + n <= length (data_ d) -> exists u, norm_loop32 d 0 n i acc = UB u.
Proof.
  intros Hm. induction n as [|n IH]; intros i acc Hi Hn HL; [lia|]. cbn [norm_loop32].
  assert (Hz : exists x, zat (data_ d) (index32 (M_datapoints d) (Z.of_nat i) (Z.of_nat 0)) = Ok x).
  { unfold index32. change (wrap32 (Z.of_nat 0)) with 0%Z. rewrite wrap32_small by (unfold INT_MIN; lia). rewrite Z.mul_0_l, Z.add_0_r, zat_nat.
    unfold lat. destruct (nth_error (data_ d) i) eqn:E; [eauto|]. apply nth_error_None in E. lia. }
  destruct Hz as [x ->]. cbn [bind]. cbv zeta.
  assert (Hg : exists m, lget (data_mean d) 0 = Ok m) by (destruct (data_mean d); [cbn in Hm; lia|cbn; eauto]). destruct Hg as [m ->].
  destruct (Z.le_gt_cases (Z.of_nat (S i)) INT_MAX) as [H|H].
  - rewrite iadd_ok by lia. cbn [bind]. rewrite Nat.add_1_r. destruct (nisnan (nf32 x)); apply IH; lia.
  - rewrite iadd_over by lia. cbn [bind]. destruct (nisnan (nf32 x)); eauto.
Qed.

Lemma large_ds d : constructed32 d -> (INT_MAX < Z.of_nat (length (t d)))%Z ->
  (exists u, data_2d32 d = UB u) /\ (exists u, normalised_data_2d32 d = UB u) /\ (err d <> [] -> exists u, err_2d32 d = UB u) /\
  (exists u, new_Correlator32 d = UB u) /\ forall p mi ma re al sel wgt, exists u, autocorrelation32 p d mi ma re al sel wgt = UB u.
Proof.
  intros Hc HM. destruct (shape32 d Hc) as [HN [EM [HL Hm]]]. rewrite <- EM in HM.
  assert (Hn : exists u, new_Correlator32 d = UB u).
  { unfold new_Correlator32. destruct (N_datasets d) as [|N]; [lia|]. cbn [mapI].
    destruct (norm_over d ltac:(lia) (M_datapoints d) 0 nzero) as [u ->]; [unfold INT_MAX; cbn; lia|exact HM|cbn; lia|]. cbn [bind]. eauto. }
  split; [apply rows_over; assumption|]. split; [apply rows_over; assumption|]. split.
  - intros He. unfold err_2d32. destruct (err d); [congruence|]. apply rows_over; assumption.
  - split; [exact Hn|]. intros. destruct Hn as [u Hn]. unfold autocorrelation32. rewrite Hn. cbn [bind]. eauto.
Qed.

Lemma accepted_wf d : accepted d -> wf_ds d.
Proof.
  intros H. destruct (accepted_setUp d H) as [ts [data [er [N [-> [H1 [_ [_ [H4 _]]]]]]]]].
  destruct (the_corr_ready ts data er N 0 H1 H4) as [R _]. exact R.
Qed.

End Over.
