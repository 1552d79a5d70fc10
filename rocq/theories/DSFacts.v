(** Closed form of the DataStructure constructors and getters. *)
From Coq Require Import ZArith List Bool Arith Lia.
From Verif Require Import Num Mem MemFacts Spec DataStructure.
Import ListNotations.

Lemma piece_length {X} M (l : list X) j : (j + 1) * M <= length l -> length (piece M l j) = M.
Proof. intros H. unfold piece. rewrite firstn_length_le; [reflexivity|]. rewrite skipn_length. lia. Qed.

Lemma nth_error_piece {X} M (l : list X) j i :
  nth_error (piece M l j) i = if i <? M then nth_error l (j * M + i) else None.
Proof. unfold piece. rewrite nth_error_firstn, nth_error_skipn. reflexivity. Qed.

Lemma recut_length {X} N M (l : list X) : length (recut N M l) = N.
Proof. unfold recut. rewrite map_length, seq_length. reflexivity. Qed.

Lemma nth_error_recut {X} N M (l : list X) j :
  nth_error (recut N M l) j = if j <? N then Some (piece M l j) else None.
Proof.
  unfold recut. rewrite nth_error_map, nth_error_seq. destruct (j <? N); reflexivity.
Qed.

(** cutting the concatenation of rows of equal length gives the rows back *)
Lemma piece_concat {X} M (rows : list (list X)) j r :
  (forall r', In r' rows -> length r' = M) -> nth_error rows j = Some r -> piece M (concat rows) j = r.
Proof.
  revert j. induction rows as [|r0 rows IH]; intros j Hl Hj; [destruct j; discriminate|].
  assert (H0 : length r0 = M) by (apply Hl; left; reflexivity).
  destruct j as [|j]; cbn in Hj.
  - injection Hj as ->. unfold piece. cbn. rewrite firstn_app, <- H0, Nat.sub_diag, firstn_all.
    cbn. apply app_nil_r.
  - rewrite <- (IH j (fun r' H => Hl r' (or_intror H)) Hj). unfold piece. cbn [concat].
    f_equal. rewrite skipn_app. rewrite skipn_all2 by (rewrite H0; cbn; lia). cbn [app].
    f_equal. rewrite H0. cbn. lia.
Qed.

Lemma concat_length {X} M (rows : list (list X)) :
  (forall r, In r rows -> length r = M) -> length (concat rows) = length rows * M.
Proof.
  induction rows as [|r rows IH]; intros H; [reflexivity|]. cbn. rewrite app_length, IH.
  - rewrite (H r) by (left; reflexivity). reflexivity.
  - intros; apply H; right; assumption.
Qed.

Lemma recut_concat {X} M (rows : list (list X)) :
  (forall r, In r rows -> length r = M) -> recut (length rows) M (concat rows) = rows.
Proof.
  intros H. apply list_ext. intros j. rewrite nth_error_recut.
  destruct (Nat.ltb_spec j (length rows)) as [Hj|Hj].
  - destruct (nth_error_Some_ex rows j Hj) as [r Hr]. rewrite Hr. f_equal.
    apply piece_concat; assumption.
  - symmetry. apply nth_error_None. exact Hj.
Qed.

Lemma recut_1 {X} (l : list X) M : recut 1 M l = [firstn M l].
Proof. reflexivity. Qed.

Section DSFacts.
Context {A : Num}.

Lemma rows_2d_ok v N M : N * M <= length v -> rows_2d v N M = Ok (recut N M v).
Proof.
  intros H. unfold rows_2d, recut. apply mapM_Ok_map. intros j Hj. apply in_seq in Hj.
  unfold piece. apply mapM_lget.
  - intros i Hi. unfold getVectorIndex. lia.
  - nia.
Qed.

Lemma rows_2d_oob v N M : length v < N * M -> rows_2d v N M = UB OobRead.
Proof.
  intros H. unfold rows_2d.
  assert (HM : 0 < M) by (destruct M; lia).
  set (m := length v / M).
  assert (Hm : m < N) by (unfold m; apply Nat.div_lt_upper_bound; lia).
  assert (Hm1 : m * M <= length v) by (unfold m; rewrite Nat.mul_comm; apply Nat.mul_div_le; lia).
  assert (Hm2 : length v < (m + 1) * M).
  { unfold m. pose proof (Nat.mul_succ_div_gt (length v) M). lia. }
  replace (seq 0 N) with (seq 0 m ++ m :: seq (S m) (N - S m)).
  2:{ replace N with (m + S (N - S m)) at 2 by lia. rewrite seq_app. reflexivity. }
  apply mapM_UB.
  - intros j Hj. apply in_seq in Hj. eexists. apply (mapM_lget v (j * M) M).
    + intros i Hi. unfold getVectorIndex. lia.
    + nia.
  - apply (mapM_lget_oob v (m * M) M); try lia. intros i Hi. unfold getVectorIndex. lia.
Qed.

Lemma dataset_mean_ok data M j : (j + 1) * M <= length data ->
  dataset_mean data M j = Ok (mean (piece M data j)).
Proof.
  intros H. unfold dataset_mean, slice, getVectorIndex.
  destruct (Nat.leb_spec (M + j * M) (length data)) as [Hle|Hle]; [|lia].
  cbn [bind]. unfold mean, sum, valid, piece.
  replace (M + j * M - (0 + j * M)) with M by lia. reflexivity.
Qed.

Lemma dataset_mean_oob data M j : length data < (j + 1) * M -> dataset_mean data M j = UB OobRead.
Proof.
  intros H. unfold dataset_mean, slice, getVectorIndex.
  destruct (Nat.leb_spec (M + j * M) (length data)) as [Hle|Hle]; [lia|reflexivity].
Qed.

Lemma setDataMean_ok data N M : N * M <= length data ->
  setDataMean data N M = Ok (map mean (recut N M data)).
Proof.
  intros H. unfold setDataMean, recut. rewrite map_map. apply mapM_Ok_map.
  intros j Hj. apply in_seq in Hj. apply dataset_mean_ok. nia.
Qed.

Lemma setDataMean_oob data N M : length data < N * M -> setDataMean data N M = UB OobRead.
Proof.
  intros H. unfold setDataMean.
  assert (HM : 0 < M) by (destruct M; lia).
  set (m := length data / M).
  assert (Hm : m < N) by (unfold m; apply Nat.div_lt_upper_bound; lia).
  assert (Hm1 : m * M <= length data) by (unfold m; rewrite Nat.mul_comm; apply Nat.mul_div_le; lia).
  assert (Hm2 : length data < (m + 1) * M).
  { unfold m. pose proof (Nat.mul_succ_div_gt (length data) M). lia. }
  replace (seq 0 N) with (seq 0 m ++ m :: seq (S m) (N - S m)).
  2:{ replace N with (m + S (N - S m)) at 2 by lia. rewrite seq_app. reflexivity. }
  apply mapM_UB.
  - intros j Hj. apply in_seq in Hj. eexists. apply dataset_mean_ok. nia.
  - apply dataset_mean_oob. exact Hm2.
Qed.

(** value minus mean, for every row *)
Definition centred (xs : list num) : list num := map (fun x => nsub x (mean xs)) xs.

Lemma calcNormData_loop_ok data N M n j :
  N * M <= length data -> j + n = N ->
  calcNormData_loop data (map mean (recut N M data)) M n j
    (concat (map centred (recut j M data)) ++ repeat nzero (length data - j * M)) =
  Ok (concat (map centred (recut N M data)) ++ repeat nzero (length data - N * M)).
Proof.
  intros HN. revert j. induction n as [|n IH]; intros j Hj.
  - assert (j = N) as -> by lia. reflexivity.
  - cbn [calcNormData_loop]. unfold slice, getVectorIndex.
    destruct (Nat.leb_spec (M + j * M) (length data)) as [Hle|Hle]; [|nia].
    cbn [bind]. replace (M + j * M - (0 + j * M)) with M by lia.
    change (firstn M (skipn (0 + j * M) data)) with (piece M data j).
    unfold lget at 1. rewrite nth_error_map, nth_error_recut.
    destruct (Nat.ltb_spec j N) as [HjN|HjN]; [|lia]. cbn [option_map bind].
    assert (Hlen : length (concat (map centred (recut j M data))) = j * M).
    { rewrite (concat_length M).
      - rewrite map_length, recut_length. reflexivity.
      - intros r Hr. apply in_map_iff in Hr. destruct Hr as [x [<- Hx]].
        unfold centred. rewrite map_length. unfold recut in Hx. apply in_map_iff in Hx.
        destruct Hx as [i [<- Hi]]. apply in_seq in Hi. apply piece_length. nia. }
    unfold write_slice. rewrite map_length, piece_length by nia.
    rewrite app_length, Hlen, repeat_length.
    destruct (Nat.leb_spec (0 + j * M + M) (j * M + (length data - j * M))) as [H1|H1]; [|nia].
    cbn [bind]. rewrite <- IH with (j := S j) by lia. f_equal.
    cbn [Nat.add]. rewrite firstn_app, Hlen, Nat.sub_diag. cbn [firstn]. rewrite app_nil_r.
    rewrite firstn_all2 by lia. rewrite skipn_app. rewrite skipn_all2 by lia. cbn [app].
    rewrite Hlen.
    replace (j * M + M - j * M) with M by lia.
    assert (Hrec : recut (S j) M data = recut j M data ++ [piece M data j]).
    { unfold recut. rewrite seq_S, map_app. reflexivity. }
    rewrite Hrec, map_app, concat_app. cbn [map concat]. rewrite app_nil_r, <- app_assoc.
    f_equal. f_equal.
    replace (length data - j * M) with (M + (length data - S j * M)) by nia.
    rewrite repeat_app, skipn_app, repeat_length, skipn_all2 by (rewrite repeat_length; lia).
    rewrite Nat.sub_diag. reflexivity.
Qed.

Lemma calcNormData_ok data N M : N * M <= length data ->
  calcNormData data (map mean (recut N M data)) N M =
  Ok (concat (map centred (recut N M data)) ++ repeat nzero (length data - N * M)).
Proof.
  intros H. unfold calcNormData.
  rewrite <- (calcNormData_loop_ok data N M N 0 H eq_refl). cbn [Nat.mul recut map seq concat app].
  rewrite Nat.sub_0_r. reflexivity.
Qed.

(** median as computed: middle entry or half-sum of the middle entries *)
Definition middle (l : list num) (d : num) : num :=
  if length l mod 2 =? 0
  then ndiv (nadd (nth (length l / 2 - 1) l d) (nth (length l / 2) l d)) ntwo
  else nth (length l / 2) l d.

Lemma settMedian_ok nt d : nt <> [] -> settMedian nt = Ok (middle nt d).
Proof.
  intros H. unfold settMedian, middle.
  assert (0 < length nt) as Hl by (destruct nt; [congruence|cbn; lia]).
  pose proof (Nat.div_lt (length nt) 2 Hl ltac:(lia)) as Hd.
  destruct (_ =? 0).
  - rewrite (lget_ok _ _ d) by lia. cbn [bind]. rewrite (lget_ok _ _ d) by lia. reflexivity.
  - apply lget_ok. lia.
Qed.

(** times relative to the first *)
Definition rel_times (ts : list num) : list num :=
  match ts with [] => [] | t0 :: _ => map (fun x => nsub x t0) ts end.

Lemma rel_times_length ts : length (rel_times ts) = length ts.
Proof. destruct ts; [reflexivity|]. unfold rel_times. apply map_length. Qed.

(** the data structure built from accepted input *)
Definition the_ds (ts data er : list num) (N : nat) : dstruct :=
  {| t := ts; data_ := data; err := er;
     data_mean := map mean (recut N (length ts) data);
     t_median := middle (rel_times ts) nzero;
     t_max := last ts nzero;
     norm_t := rel_times ts;
     norm_data := concat (map centred (recut N (length ts) data)) ++
                  repeat nzero (length data - N * length ts);
     N_datasets := N; M_datapoints := length ts |}.

Lemma setUp_empty ts data er N M :
  ts = [] \/ data = [] -> setUp ts data er N M = Throw EmptyDataStructureException.
Proof.
  intros [->| ->]; unfold setUp; cbn; [|reflexivity]. rewrite orb_true_r. reflexivity.
Qed.

Lemma setUp_bad ts data er N M :
  ts <> [] -> data <> [] -> length data mod length ts <> 0 ->
  setUp ts data er N M = Throw BadDataInputException.
Proof.
  intros Ht Hd Hm. unfold setUp. destruct data as [|x data]; [congruence|].
  destruct ts as [|y ts]; [congruence|]. cbn [length Nat.eqb orb].
  apply Nat.eqb_neq in Hm. cbn [length] in Hm. rewrite Hm. reflexivity.
Qed.

Lemma setUp_oob ts data er N :
  ts <> [] -> data <> [] -> length data mod length ts = 0 -> length data < N * length ts ->
  setUp ts data er N (length ts) = UB OobRead.
Proof.
  intros Ht Hd Hm Hlt. unfold setUp. destruct data as [|x data]; [congruence|].
  destruct ts as [|y ts]; [congruence|]. set (D := x :: data) in *. set (T := y :: ts) in *.
  replace (length D =? 0) with false by reflexivity.
  replace (length T =? 0) with false by reflexivity. cbn [orb].
  apply Nat.eqb_eq in Hm. rewrite Hm. cbn [negb].
  rewrite setDataMean_oob by exact Hlt. reflexivity.
Qed.

Lemma setUp_ok ts data er N :
  ts <> [] -> data <> [] -> length data mod length ts = 0 -> N * length ts <= length data ->
  setUp ts data er N (length ts) = Ok (the_ds ts data er N).
Proof.
  intros Ht Hd Hm Hlt. unfold setUp.
  replace (length data =? 0) with false by (destruct data; [congruence|reflexivity]).
  replace (length ts =? 0) with false by (destruct ts; [congruence|reflexivity]).
  cbn [orb]. apply Nat.eqb_eq in Hm. rewrite Hm. cbn [negb].
  rewrite setDataMean_ok by exact Hlt. cbn [bind].
  rewrite (lback_ok ts nzero Ht). cbn [bind].
  assert (Hn : calcNormt ts = Ok (rel_times ts)).
  { unfold calcNormt. destruct ts as [|t0 ts]; [congruence|]. reflexivity. }
  rewrite Hn. cbn [bind]. rewrite calcNormData_ok by exact Hlt. cbn [bind].
  rewrite (settMedian_ok _ nzero).
  - reflexivity.
  - intros E. apply Ht. apply length_zero_iff_nil. rewrite <- rel_times_length, E. reflexivity.
Qed.

(** complete case distinction *)
Lemma setUp_cases ts data er N r : setUp ts data er N (length ts) = r ->
  (r = Throw EmptyDataStructureException /\ (ts = [] \/ data = [])) \/
  (r = Throw BadDataInputException /\ ts <> [] /\ data <> [] /\ length data mod length ts <> 0) \/
  (r = UB OobRead /\ ts <> [] /\ data <> [] /\ length data mod length ts = 0 /\
     length data < N * length ts) \/
  (r = Ok (the_ds ts data er N) /\ ts <> [] /\ data <> [] /\ length data mod length ts = 0 /\
     N * length ts <= length data).
Proof.
  intros <-.
  destruct ts as [|t0 ts']; [left; split; [apply setUp_empty; left; reflexivity|left; reflexivity]|].
  destruct data as [|d0 data']; [left; split; [apply setUp_empty; right; reflexivity|right; reflexivity]|].
  set (ts := t0 :: ts'). set (data := d0 :: data').
  assert (Ht : ts <> []) by discriminate. assert (Hd : data <> []) by discriminate.
  destruct (Nat.eq_dec (length data mod length ts) 0) as [Hm|Hm].
  - destruct (Nat.lt_ge_cases (length data) (N * length ts)) as [Hlt|Hge].
    + right; right; left. split; [apply setUp_oob; assumption|auto].
    + right; right; right. split; [apply setUp_ok; assumption|auto].
  - right; left. split; [apply setUp_bad; assumption|auto].
Qed.

End DSFacts.
