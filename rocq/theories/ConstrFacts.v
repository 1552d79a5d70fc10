(** Lemmas behind the theorems about construction and derived data. *)
From Coq Require Import ZArith Reals List Bool Arith Lia Lra.
From Verif Require Import Num Mem MemFacts XR B64 Laws B64Facts Laws2 Spec SpecR DataStructure DSFacts Correlator Sacf Api
  CorrFacts LoopFacts MainFacts.
Import ListNotations.


Section Generic.
Context {A : Num}.

Lemma SACF_1d_setUp t v e :
  exists er, SACF_1d t v e = setUp t v er 1 (length t) /\ er = match e with None => [] | Some l => l end.
Proof. destruct e; eexists; split; reflexivity. Qed.

Lemma SACF_2d_setUp t v e :
  exists er, SACF_2d t v e = setUp t (concat v) er (length v) (length t) /\
    er = match e with None => [] | Some l => concat l end.
Proof. destruct e; eexists; split; reflexivity. Qed.

Lemma the_ds_data ts data er N : N * length ts <= length data ->
  data_2d (the_ds ts data er N) = Ok (recut N (length ts) data).
Proof. intros H. apply rows_2d_ok. exact H. Qed.

Lemma one_dataset (t v : list num) (e : option (list num)) :
  (SACF_1d t v e = Throw EmptyDataStructureException <-> t = [] \/ v = []) /\
  (SACF_1d t v e = Throw BadDataInputException <-> t <> [] /\ v <> [] /\ length v mod length t <> 0) /\
  (t <> [] -> v <> [] -> length v mod length t = 0 ->
     exists d, SACF_1d t v e = Ok d /\ timeseries d = t /\ data_2d d = Ok [firstn (length t) v] /\
       N_datasets d = 1 /\ M_datapoints d = length t).
Proof.
  destruct (SACF_1d_setUp t v e) as [er [E _]]. rewrite E.
  destruct (setUp_cases t v er 1 _ eq_refl) as [[H1 H2]|[[H1 H2]|[[H1 H2]|[H1 H2]]]]; rewrite H1.
  - split; [split; auto|]. split; [split; [discriminate|]|].
    + intros [G1 [G2 _]]. destruct H2; contradiction.
    + intros G1 G2. destruct H2; contradiction.
  - destruct H2 as [G1 [G2 G3]]. split; [split; [discriminate|intros [?|?]; contradiction]|].
    split; [split; auto|]. contradiction.
  - exfalso. destruct H2 as [G1 [G2 [G3 G4]]]. assert (0 < length v) by (destruct v; [congruence|cbn; lia]).
    rewrite Nat.mul_1_l in G4. rewrite Nat.mod_small in G3 by exact G4. lia.
  - destruct H2 as [G1 [G2 [G3 G4]]]. split; [split; [discriminate|intros [?|?]; contradiction]|].
    split; [split; [discriminate|intros [_ [_ ?]]; contradiction]|].
    intros _ _ _. eexists. split; [reflexivity|]. split; [reflexivity|].
    split; [rewrite the_ds_data by exact G4; reflexivity|]. split; reflexivity.
Qed.

Lemma recut_concat {X} M (rows : list (list X)) :
  (forall r, In r rows -> length r = M) -> recut (length rows) M (concat rows) = rows.
Proof.
  intros H. apply list_ext. intros j. rewrite nth_error_recut.
  destruct (Nat.ltb_spec j (length rows)) as [Hj|Hj].
  - destruct (nth_error_Some_ex rows j Hj) as [r Hr]. rewrite Hr. f_equal. apply piece_concat; assumption.
  - symmetry. apply nth_error_None. exact Hj.
Qed.

Lemma err_2d_out d :
  err_2d d = if length (err d) =? 0 then Ok []
             else if N_datasets d * M_datapoints d <=? length (err d)
             then Ok (recut (N_datasets d) (M_datapoints d) (err d)) else UB OobRead.
Proof.
  unfold err_2d. destruct (err d) as [|x l] eqn:E; [reflexivity|]. rewrite <- E.
  replace (length (err d) =? 0) with false by (rewrite E; reflexivity).
  destruct (Nat.leb_spec (N_datasets d * M_datapoints d) (length (err d))).
  - apply rows_2d_ok. assumption.
  - apply rows_2d_oob. assumption.
Qed.

Lemma two_d_round_trip (t : list num) (rows : list (list num)) (e : option (list (list num))) :
  t <> [] -> rows <> [] -> (forall r, In r rows -> length r = length t) ->
  exists d, SACF_2d t rows e = Ok d /\ timeseries d = t /\ data_2d d = Ok rows /\
    N_datasets d = length rows /\ M_datapoints d = length t /\
    (e = None -> err_2d d = Ok []) /\
    (forall er, e = Some er -> length er = length rows -> (forall r, In r er -> length r = length t) ->
       err_2d d = Ok er).
Proof.
  intros Ht Hr Hl. destruct (SACF_2d_setUp t rows e) as [er [E Eer]]. rewrite E.
  assert (Ht0 : 0 < length t) by (destruct t; [congruence|cbn; lia]).
  assert (Hr0 : 0 < length rows) by (destruct rows; [congruence|cbn; lia]).
  pose proof (concat_length (length t) rows Hl) as Hc.
  assert (Hd : concat rows <> []).
  { intros Hn. rewrite Hn in Hc. cbn in Hc. nia. }
  rewrite setUp_ok; try assumption; [|rewrite Hc, Nat.mod_mul by lia; reflexivity|lia].
  exists (the_ds t (concat rows) er (length rows)). split; [reflexivity|]. split; [reflexivity|].
  split; [rewrite the_ds_data by lia; f_equal; apply recut_concat; exact Hl|].
  split; [reflexivity|]. split; [reflexivity|]. rewrite err_2d_out. cbn [err the_ds N_datasets M_datapoints].
  split.
  - intros ->. rewrite Eer. reflexivity.
  - intros er0 -> H1 H2. rewrite Eer. rewrite (concat_length (length t)) by exact H2. rewrite H1.
    destruct (Nat.eqb_spec (length rows * length t) 0); [nia|].
    rewrite Nat.leb_refl. f_equal. rewrite <- H1. apply recut_concat. exact H2.
Qed.

Lemma concat_nil {X} (rows : list (list X)) : concat rows = [] <-> Forall (fun r => r = []) rows.
Proof.
  induction rows as [|r rows IH]; cbn; [split; auto|]. split.
  - intros H. apply app_eq_nil in H. constructor; [apply H|apply IH, H].
  - intros H. inversion H; subst. cbn. apply IH. assumption.
Qed.

Lemma two_d_ragged (t : list num) (rows : list (list num)) (e : option (list (list num))) :
  let total := length (concat rows) in
  (SACF_2d t rows e = Throw EmptyDataStructureException <-> t = [] \/ Forall (fun r => r = []) rows) /\
  (SACF_2d t rows e = Throw BadDataInputException <->
     t <> [] /\ ~ Forall (fun r => r = []) rows /\ total mod length t <> 0) /\
  (SACF_2d t rows e = UB OobRead <->
     t <> [] /\ ~ Forall (fun r => r = []) rows /\ total mod length t = 0 /\ total < length rows * length t) /\
  (t <> [] -> ~ Forall (fun r => r = []) rows -> total mod length t = 0 -> length rows * length t <= total ->
     exists d, SACF_2d t rows e = Ok d /\ timeseries d = t /\
       data_2d d = Ok (recut (length rows) (length t) (concat rows)) /\
       N_datasets d = length rows /\ M_datapoints d = length t).
Proof.
  cbv zeta. destruct (SACF_2d_setUp t rows e) as [er [E _]]. rewrite E. rewrite <- concat_nil.
  destruct (setUp_cases t (concat rows) er (length rows) _ eq_refl) as [[H1 H2]|[[H1 H2]|[[H1 H2]|[H1 H2]]]]; rewrite H1.
  - split; [split; auto|]. split; [split; [discriminate|]|split; [split; [discriminate|]|]];
      [intros [G1 [G2 _]]|intros [G1 [G2 _]]|intros G1 G2]; destruct H2; contradiction.
  - destruct H2 as [G1 [G2 G3]]. split; [split; [discriminate|intros [?|?]; contradiction]|].
    split; [split; auto|]. split; [split; [discriminate|intros [_ [_ [? _]]]; contradiction]|]. contradiction.
  - destruct H2 as [G1 [G2 [G3 G4]]]. split; [split; [discriminate|intros [?|?]; contradiction]|].
    split; [split; [discriminate|intros [_ [_ ?]]; contradiction]|].
    split; [split; auto|]. intros _ _ _ H. lia.
  - destruct H2 as [G1 [G2 [G3 G4]]]. split; [split; [discriminate|intros [?|?]; contradiction]|].
    split; [split; [discriminate|intros [_ [_ ?]]; contradiction]|].
    split; [split; [discriminate|intros [_ [_ [_ ?]]]; lia]|].
    intros _ _ _ _. eexists. split; [reflexivity|]. split; [reflexivity|].
    split; [apply the_ds_data; exact G4|]. split; reflexivity.
Qed.

Lemma setUp_errors ts data er er' N M :
  setUp ts data er' N M = do d <- setUp ts data er N M; Ok (with_errors d er').
Proof.
  unfold setUp. destruct (_ || _); [reflexivity|]. destruct (negb _); [reflexivity|].
  destruct (setDataMean data N M); cbn [bind]; try reflexivity.
  destruct (lback ts); cbn [bind]; try reflexivity.
  destruct (calcNormt ts); cbn [bind]; try reflexivity.
  destruct (calcNormData data _ N M); cbn [bind]; try reflexivity.
  destruct (settMedian _); reflexivity.
Qed.

Lemma errors_1d (t v e : list num) :
  SACF_1d t v (Some e) = (do d <- SACF_1d t v None; Ok (with_errors d e)) /\
  forall d, SACF_1d t v (Some e) = Ok d ->
    err_2d d = if length e =? 0 then Ok []
               else if length t <=? length e then Ok [firstn (length t) e] else UB OobRead.
Proof.
  split; [apply setUp_errors|]. intros d H. rewrite err_2d_out.
  destruct (setUp_cases t v e 1 _ H) as [[E _]|[[E _]|[[E _]|[E [H1 [H2 [H3 H4]]]]]]]; try discriminate.
  injection E as ->. cbn [err the_ds N_datasets M_datapoints]. rewrite Nat.mul_1_l. reflexivity.
Qed.

Lemma errors_2d (t : list num) (v e : list (list num)) :
  SACF_2d t v (Some e) = (do d <- SACF_2d t v None; Ok (with_errors d (concat e))) /\
  forall d, SACF_2d t v (Some e) = Ok d ->
    err_2d d = if length (concat e) =? 0 then Ok []
               else if length v * length t <=? length (concat e)
               then Ok (recut (length v) (length t) (concat e)) else UB OobRead.
Proof.
  split; [apply setUp_errors|]. intros d H. rewrite err_2d_out.
  destruct (setUp_cases t (concat v) (concat e) (length v) _ H) as [[E _]|[[E _]|[[E _]|[E _]]]]; try discriminate.
  injection E as ->. reflexivity.
Qed.

(** ** Derived data *)
Lemma mean_data_rows d : accepted d ->
  exists rows, data_2d d = Ok rows /\ length rows = N_datasets d /\
    (forall r, In r rows -> length r = M_datapoints d) /\
    mean_data d = map mean rows /\
    normalised_data_2d d = Ok (map (fun row => map (fun x => nsub x (mean row)) row) rows).
Proof.
  intros H. destruct (accepted_setUp d H) as [ts [data [er [N [-> [H1 [H2 [H3 [H4 H5]]]]]]]]].
  exists (recut N (length ts) data). split; [apply the_ds_data; exact H4|].
  split; [apply recut_length|].
  assert (Hrow : forall r, In r (recut N (length ts) data) -> length r = length ts).
  { intros r Hr. unfold recut in Hr. apply in_map_iff in Hr. destruct Hr as [j [<- Hj]]. apply in_seq in Hj.
    apply piece_length. nia. }
  split; [exact Hrow|].
  split; [reflexivity|]. unfold normalised_data_2d. cbn [norm_data the_ds N_datasets M_datapoints].
  assert (Hc : forall r, In r (map centred (recut N (length ts) data)) -> length r = length ts).
  { intros r Hr. apply in_map_iff in Hr. destruct Hr as [x [<- Hx]]. unfold centred. rewrite map_length. auto. }
  rewrite rows_2d_ok.
  - f_equal. apply list_ext. intros j. rewrite nth_error_recut, nth_error_map, nth_error_recut.
    destruct (Nat.ltb_spec j N) as [Hj|Hj]; [|reflexivity]. cbn [option_map]. f_equal.
    change (concat (map centred (recut N (length ts) data)) ++ repeat nzero (length data - N * length ts))
      with (norm_data (the_ds ts data er N)).
    rewrite norm_data_piece by assumption. reflexivity.
  - rewrite app_length, (concat_length (length ts)) by exact Hc. rewrite map_length, recut_length. lia.
Qed.

Lemma mean_ignores_missing d d' rows rows' :
  accepted d -> accepted d' -> data_2d d = Ok rows -> data_2d d' = Ok rows' ->
  Forall2 (fun r r' => valid r = valid r') rows rows' -> mean_data d = mean_data d'.
Proof.
  intros H H' E E' HF. destruct (mean_data_rows d H) as [r1 [E1 [_ [_ [Hm _]]]]].
  destruct (mean_data_rows d' H') as [r2 [E2 [_ [_ [Hm' _]]]]].
  rewrite E in E1. injection E1 as <-. rewrite E' in E2. injection E2 as <-. rewrite Hm, Hm'.
  clear -HF. induction HF as [|r r' l l' Hr _ IH]; [reflexivity|]. cbn. rewrite IH. unfold mean. rewrite Hr. reflexivity.
Qed.

End Generic.

(** a dataset without valid value has mean NaN *)
Lemma valid_all_nan {A : Num} (xs : list num) : (forall x, In x xs -> nisnan x = true) -> valid xs = [].
Proof.
  intros H. unfold valid. induction xs as [|x xs IH]; [reflexivity|]. cbn. rewrite (H x) by (left; reflexivity). cbn.
  apply IH. intros; apply H; right; assumption.
Qed.

Lemma mean_all_missing A : arith A -> forall xs : list num, (forall x, In x xs -> nisnan x = true) -> nisnan (mean xs) = true.
Proof.
  intros [e|] xs H; unfold mean; rewrite valid_all_nan by exact H.
  - reflexivity.
  - cbn. destruct (Reqb_spec 0 0) as [_|n]; [|congruence]. unfold xinf_sign. destruct (Reqb_spec 0 0); [reflexivity|congruence].
Qed.

Lemma mean_data_all_missing A : arith A -> forall (d : dstruct) (rows : list (list num)) (j : nat) (row : list num),
  accepted d -> data_2d d = Ok rows -> nth_error rows j = Some row -> (forall x, In x row -> nisnan x = true) ->
  exists m, nth_error (mean_data d) j = Some m /\ nisnan m = true.
Proof.
  intros HA d rows j row H E Ej Hn. destruct (mean_data_rows d H) as [r1 [E1 [_ [_ [Hm _]]]]].
  rewrite E in E1. injection E1 as <-. exists (mean row). split; [|exact (mean_all_missing A HA row Hn)].
  rewrite Hm, nth_error_map, Ej. reflexivity.
Qed.

(** ** Times (order laws) *)
Section Times.
Context {A : Num} {L : NumLaws A}.

Lemma ordered_nth (l : list num) i a : ordered l -> nth_error l i = Some a -> nisnan a = false.
Proof. intros H E. apply (l_le_nan a a). eapply H; [apply Nat.le_refl|exact E|exact E]. Qed.

Lemma rel_times_nth ts t0 i x : nth_error ts 0 = Some t0 -> nth_error ts i = Some x ->
  nth_error (rel_times ts) i = Some (nsub x t0).
Proof.
  destruct ts as [|y ts]; [discriminate|]. cbn [nth_error]. intros E Ei. injection E as ->.
  unfold rel_times. rewrite nth_error_map, Ei. reflexivity.
Qed.

Lemma rel_times_nth_inv ts i y : nth_error (rel_times ts) i = Some y ->
  exists t0 x, nth_error ts 0 = Some t0 /\ nth_error ts i = Some x /\ y = nsub x t0.
Proof.
  destruct ts as [|t0 ts]; [destruct i; discriminate|]. unfold rel_times. rewrite nth_error_map.
  intros H. destruct (nth_error (t0 :: ts) i) as [x|]; [|discriminate]. injection H as <-. exists t0, x. auto.
Qed.

Lemma rel_times_ordered ts : ordered ts -> (forall x, In x ts -> finite x) -> ordered (rel_times ts).
Proof.
  intros Ho Hf i j a b Hij Ea Eb.
  destruct (rel_times_nth_inv _ _ _ Ea) as [t0 [x [E0 [Ex ->]]]].
  destruct (rel_times_nth_inv _ _ _ Eb) as [t0' [y [E0' [Ey ->]]]].
  rewrite E0 in E0'. injection E0' as <-.
  assert (F : forall z q, nth_error ts q = Some z -> nfin z = true).
  { intros z q Hz. apply finite_nfin, Hf. eapply nth_error_In. exact Hz. }
  apply l_sub_mono; [eapply Ho; eassumption| |]; apply l_sub_fin; eauto.
Qed.

Lemma ordered_le_0 ts : ordered ts -> forall x, In x ts -> forall t0, nth_error ts 0 = Some t0 -> nle t0 x = true.
Proof.
  intros Ho x Hx t0 E0. apply In_nth_error in Hx. destruct Hx as [i Hi]. eapply (Ho 0 i); eauto. lia.
Qed.

Lemma normalised_times (d : dstruct) : accepted d ->
  ordered (timeseries d) -> (forall x, In x (timeseries d) -> finite x) ->
  let nt := normalised_timeseries d in
  length nt = length (timeseries d) /\
  nth_error nt 0 = Some nzero /\
  (forall i x t0, nth_error (timeseries d) i = Some x -> nth_error (timeseries d) 0 = Some t0 ->
     nth_error nt i = Some (nsub x t0)) /\
  ordered nt /\
  (forall y, In y nt -> nle nzero y = true).
Proof.
  intros Ha Ho Hf. destruct (accepted_setUp d Ha) as [ts [data [er [N [-> [H1 _]]]]]].
  cbv zeta. unfold timeseries, normalised_timeseries in *. cbn [t norm_t the_ds] in *.
  split; [apply rel_times_length|].
  assert (E0 : nth_error (rel_times ts) 0 = Some nzero).
  { destruct ts as [|t0 ts]; [congruence|]. cbn. f_equal. apply l_sub_self. apply finite_nfin, Hf. left; reflexivity. }
  split; [exact E0|]. split; [intros i x t0 Ei E; apply rel_times_nth; assumption|].
  pose proof (rel_times_ordered ts Ho Hf) as Hr. split; [exact Hr|].
  intros y Hy. apply (ordered_le_0 _ Hr y Hy). exact E0.
Qed.

Lemma ordered_last (l : list num) x z : ordered l -> In x l -> nle x (last l z) = true.
Proof.
  intros Ho Hx. assert (0 < length l) by (destruct l; [destruct Hx|cbn; lia]).
  apply In_nth_error in Hx. destruct Hx as [i Hi].
  rewrite last_nth. apply (Ho i (length l - 1)).
  - assert (i < length l) by (apply nth_error_Some; congruence). lia.
  - exact Hi.
  - apply nth_error_nth_eq. lia.
Qed.

End Times.

Section LagDefaults.
Context {A : Num}.

Lemma default_lags (d : dstruct) (c : correlator) : accepted d -> new_Correlator d = Ok c ->
  lback (timeseries d) = Ok (max_time d) /\
  lback (normalised_timeseries d) = Ok (max_lag c) /\ min_lag c = nneg (max_lag c) /\
  alpha c = median_time d.
Proof.
  intros Ha Hc. destruct (new_Correlator_accepted d c Ha Hc) as [ts [data [er [N [n [-> [H1 [H2 [H3 [H4 ->]]]]]]]]]].
  unfold timeseries, normalised_timeseries, max_time. cbn [t norm_t the_ds t_max].
  split; [apply lback_ok; exact H1|]. split; [apply lback_ok, rel_times_nil, H1|]. split; reflexivity.
Qed.

End LagDefaults.

Section LagOrder.
Context {A : Num} {L : NumLaws A}.

Lemma max_time_largest (d : dstruct) : accepted d -> ordered (timeseries d) ->
  In (max_time d) (timeseries d) /\ forall x, In x (timeseries d) -> nle x (max_time d) = true.
Proof.
  intros Ha Ho. destruct (accepted_setUp d Ha) as [ts [data [er [N [-> [H1 _]]]]]].
  unfold timeseries, max_time in *. cbn [t t_max the_ds] in *. split.
  - rewrite last_nth. apply nth_In. destruct ts; [congruence|cbn; lia].
  - intros x Hx. apply ordered_last; assumption.
Qed.

Lemma max_lag_largest (d : dstruct) (c : correlator) : accepted d -> new_Correlator d = Ok c ->
  ordered (timeseries d) -> (forall x, In x (timeseries d) -> finite x) ->
  forall y, In y (normalised_timeseries d) -> nle y (max_lag c) = true.
Proof.
  intros Ha Hc Ho Hf y Hy. destruct (new_Correlator_accepted d c Ha Hc) as [ts [data [er [N [n [-> [H1 [H2 [H3 [H4 ->]]]]]]]]]].
  unfold timeseries, normalised_timeseries in *. cbn [t norm_t the_ds max_lag the_corr] in *.
  apply ordered_last; [|exact Hy]. apply rel_times_ordered; assumption.
Qed.

(** smallest adjacent difference *)
Lemma findMinDiff_loop_spec l m : nisnan m = false ->
  let r := findMinDiff_loop l m in
  nle r m = true /\
  (forall i a b, nth_error l i = Some a -> nth_error l (S i) = Some b -> nisnan (nsub b a) = false -> nle r (nsub b a) = true) /\
  (r = m \/ exists i a b, nth_error l i = Some a /\ nth_error l (S i) = Some b /\ r = nsub b a /\ nlt r m = true).
Proof.
  revert m. induction l as [|a l IH]; intros m Hm; cbn [findMinDiff_loop].
  - cbv zeta. split; [apply le_refl; exact Hm|]. split; [intros i x y Hx; destruct i; discriminate|left; reflexivity].
  - destruct l as [|b l].
    + cbv zeta. split; [apply le_refl; exact Hm|]. split; [intros i x y Hx Hy; destruct i as [|[|i]]; discriminate|left; reflexivity].
    + cbv zeta. set (m' := if nlt (nsub b a) m then nsub b a else m).
      assert (Hm' : nisnan m' = false /\ nle m' m = true /\ (nisnan (nsub b a) = false -> nle m' (nsub b a) = true)).
      { unfold m'. destruct (nlt (nsub b a) m) eqn:E.
        - destruct (lt_nan _ _ E) as [E1 _]. split; [exact E1|]. split; [apply lt_le; exact E|intros; apply le_refl; assumption].
        - split; [exact Hm|]. split; [apply le_refl; exact Hm|]. intros Hn. apply nlt_le; assumption. }
      destruct Hm' as [Hn [Hle Hlt]]. destruct (IH m' Hn) as [I1 [I2 I3]].
      split; [eapply l_le_trans; eassumption|]. split.
      * intros i x y Hx Hy Hxy. destruct i as [|i].
        -- injection Hx as ->. injection Hy as ->. eapply l_le_trans; [exact I1|]. apply Hlt. exact Hxy.
        -- apply (I2 i); assumption.
      * destruct I3 as [I3|[i [x [y [Hx [Hy [Hr Hlt']]]]]]].
        -- rewrite I3. unfold m'. destruct (nlt (nsub b a) m) eqn:E; [|left; reflexivity].
           right. exists 0, a, b. auto.
        -- right. exists (S i), x, y. repeat split; try assumption. eapply lt_le_trans; eassumption.
Qed.

Lemma dblmax_nan A' : arith A' -> @nisnan A' ndblmax = false.
Proof. intros [e|]; reflexivity. Qed.

End LagOrder.
