(** Theorems: counters and positions of type int over data points and datasets (C88). *)
From Coq Require Import String.
From Coq Require Import ZArith List Bool Arith Lia.
From Flocq Require Import Core BinarySingleNaN.
From Verif Require Import Num Mem MemFacts XR B64 Spec DataStructure Correlator Sacf Api Examples DSFacts CorrFacts MainFacts ConstrFacts IntIndex IntIndexFacts IntSize IntSizeFacts.
Import ListNotations.
Local Open Scope list_scope.

(** ** C88: up to INT_MAX data points and datasets the int counters make no difference *)
Theorem C88_construct {A : Num} (ts v : list num) (vs : list (list num)) (e : option (list num)) (es : option (list (list num))) :
  (Z.of_nat (length ts) <= INT_MAX)%Z -> (Z.of_nat (length vs) <= INT_MAX)%Z ->
  SACF_1d32 ts v e = SACF_1d ts v e /\ SACF_2d32 ts vs es = SACF_2d ts vs es.
Proof. intros H H'. split; [exact (SACF_1d_fits ts v e H)|exact (SACF_2d_fits ts vs es H H')]. Qed.
Print Assumptions C88_construct.

Theorem C88_calls {A : Num} (p : platform) (d : dstruct) (mi ma re al : option num) (sel wgt : string) :
  accepted d -> (Z.of_nat (N_datasets d) <= INT_MAX)%Z -> (Z.of_nat (length (timeseries d)) <= INT_MAX)%Z ->
  data_2d32 d = data_2d d /\ err_2d32 d = err_2d d /\ normalised_data_2d32 d = normalised_data_2d d /\
  new_Correlator32 d = new_Correlator d /\
  autocorrelation32 p d mi ma re al sel wgt = autocorrelation_int p d mi ma re al sel wgt /\
  (forall c0, new_Correlator d = Ok c0 -> (Z.of_nat (N_datasets d) * Z.of_nat (length (lag_timeseries c0)) <= INT_MAX + 1)%Z ->
    autocorrelation32 p d mi ma re al sel wgt = autocorrelation p d mi ma re al sel wgt).
Proof.
  intros Ha HN HM. pose proof (accepted_wf d Ha) as Hw.
  assert (EM : M_datapoints d = length (timeseries d)) by (destruct (accepted_setUp d Ha) as [ts [data [er [N [-> _]]]]]; reflexivity).
  assert (Hs : small_ds d) by (split; [exact HN|rewrite EM; exact HM]).
  destruct (getters_fit d Hs) as [G1 [G2 G3]]. split; [exact G1|]. split; [exact G2|]. split; [exact G3|].
  split; [apply new_Correlator_fits; [exact Hs|apply Hw]|]. pose proof (call32_fits p d mi ma re al sel wgt Hs Hw) as C. split; [exact C|].
  intros c0 H0 H. rewrite C. exact (autocorrelation_fits p d c0 mi ma re al sel wgt Ha H0 H).
Qed.
Print Assumptions C88_calls.

Example C88_case : exists (d : @dstruct BB) c0,
  SACF_2d (ints [0; 1; 3]%Z) [ints [1; 2; 4]%Z; ints [0; -1; 5]%Z] None = Ok d /\ accepted d /\ new_Correlator d = Ok c0 /\
  (Z.of_nat (N_datasets d) <= INT_MAX)%Z /\ (Z.of_nat (length (timeseries d)) <= INT_MAX)%Z /\
  (Z.of_nat (N_datasets d) * Z.of_nat (length (lag_timeseries c0)) <= INT_MAX + 1)%Z.
Proof.
  destruct (ok_with_ok (SACF_2d (ints [0; 1; 3]%Z) [ints [1; 2; 4]%Z; ints [0; -1; 5]%Z] None) (fun d => (N_datasets d =? 2) && (length (timeseries d) =? 3) &&
      ok_with (new_Correlator d) (fun c0 => (length (lag_timeseries c0) =? 9)))) as [d [E H]]; [vm_compute; reflexivity|].
  apply andb_prop in H. destruct H as [H H2]. apply andb_prop in H. destruct H as [H0 H1]. apply Nat.eqb_eq in H0, H1.
  apply ok_with_ok in H2. destruct H2 as [c0 [E0 H2]]. apply Nat.eqb_eq in H2. exists d, c0.
  split; [exact E|]. split; [right; eauto|]. split; [exact E0|]. rewrite H0, H1, H2. unfold INT_MAX. split; [|split]; cbn; lia.
Qed.

(** ** Beyond INT_MAX *)
(** the low 32 bits of the number of points are a negative int: construction runs off the data *)
Theorem C88_negative {A : Num} (ts : list num) (vs : list (list num)) (es : option (list (list num))) (v : list num) (e : option (list num)) :
  ts <> [] -> (2 ^ 31 <= Z.of_nat (length ts) mod 2 ^ 32)%Z ->
  (v <> [] -> length v mod length ts = 0 -> SACF_1d32 ts v e = UB OobRead) /\
  (concat vs <> [] -> length (concat vs) mod length ts = 0 -> SACF_2d32 ts vs es = UB OobRead).
Proof.
  intros Ht HM. assert (N0 : forall X (l : list X), l <> [] -> length l <> 0) by (intros X [|x l] H; [congruence|discriminate]).
  split; intros Hv Hm; unfold SACF_1d32, SACF_2d32; apply setUp32_negative; auto. destruct vs; [destruct Hv; reflexivity|cbn; lia].
Qed.
Print Assumptions C88_negative.

(** otherwise one dataset is accepted, and its mean is that of the values at the low 32 bits *)
Theorem C88_truncated {A : Num} (ts v : list num) (e : option (list num)) :
  ts <> [] -> v <> [] -> length v mod length ts = 0 -> (Z.of_nat (length ts) mod 2 ^ 32 < 2 ^ 31)%Z ->
  exists d, SACF_1d32 ts v e = Ok d /\ mean_data d = [mean (firstn (Z.to_nat (Z.of_nat (length ts) mod 2 ^ 32)) v)].
Proof.
  intros Ht Hv Hm HM. assert (N0 : forall X (l : list X), l <> [] -> length l <> 0) by (intros X [|x l] H; [congruence|discriminate]).
  destruct (setUp32_truncated ts v (match e with None => [] | Some e => e end) (N0 _ _ Hv) (N0 _ _ Ht) Hm HM) as [d [E [_ [_ [_ [_ [_ H]]]]]]].
  exists d. split; [exact E|exact H].
Qed.
Print Assumptions C88_truncated.

(** more than INT_MAX datasets: construction is undefined *)
Theorem C88_many_datasets {A : Num} (ts : list num) (vs : list (list num)) (es : option (list (list num))) :
  ts <> [] -> concat vs <> [] -> length (concat vs) mod length ts = 0 -> (INT_MAX < Z.of_nat (length vs))%Z ->
  exists u, SACF_2d32 ts vs es = UB u.
Proof.
  intros Ht Hv Hm HN. assert (N0 : forall X (l : list X), l <> [] -> length l <> 0) by (intros X [|x l] H; [congruence|discriminate]).
  apply setUp32_over; auto.
Qed.
Print Assumptions C88_many_datasets.

(** more than INT_MAX points: if construction succeeds, every getter that loops over the points and every call is undefined *)
Theorem C88_many_points {A : Num} (d : dstruct) :
  (exists ts v e, SACF_1d32 ts v e = Ok d) \/ (exists ts v e, SACF_2d32 ts v e = Ok d) -> (INT_MAX < Z.of_nat (length (timeseries d)))%Z ->
  (exists u, data_2d32 d = UB u) /\ (exists u, normalised_data_2d32 d = UB u) /\ (err d <> [] -> exists u, err_2d32 d = UB u) /\
  (exists u, new_Correlator32 d = UB u) /\ forall p mi ma re al sel wgt, exists u, autocorrelation32 p d mi ma re al sel wgt = UB u.
Proof. exact (large_ds d). Qed.
Print Assumptions C88_many_points.

Lemma valid_nans (n : nat) (l : list b64) : valid (A := BB) (repeat (B754_nan : b64) n ++ l) = valid (A := BB) l.
Proof. induction n as [|n IH]; [reflexivity|]. cbn [repeat app]. unfold valid in *. cbn [filter]. exact IH. Qed.

Lemma big_list (n : nat) : Z.of_nat n = 4294967298%Z ->
  let ts := map (fun i => fl (Z.of_nat i)) (seq 0 n) in
  let v := ints [1; 3]%Z ++ repeat (B754_nan : b64) (n - 3) ++ ints [8]%Z in
  ts <> [] /\ v <> [] /\ length ts = n /\ length v = n /\ length v mod length ts = 0 /\ mean (A := BB) v = fl 4 /\ firstn 2 v = ints [1; 3]%Z.
Proof.
  intros Hn ts v. assert (Lt : length ts = n) by (unfold ts; rewrite map_length, seq_length; reflexivity).
  assert (Lv : length v = n) by (unfold v; rewrite !app_length, repeat_length; cbn [length map ints]; lia).
  split; [intros C; rewrite C in Lt; cbn in Lt; lia|]. split; [intros C; rewrite C in Lv; cbn in Lv; lia|]. split; [exact Lt|]. split; [exact Lv|].
  split; [rewrite Lt, Lv; apply Nat.mod_same; lia|]. split; [|reflexivity].
  unfold mean. replace (valid (A := BB) v) with (ints [1; 3; 8]%Z).
  - assert (S : same (ndiv (sum (A := BB) (ints [1; 3; 8]%Z)) (nofZ (Z.of_nat (length (ints [1; 3; 8]%Z))))) (fl 4) = true) by (vm_compute; reflexivity).
    apply same_eq in S. exact S.
  - unfold v. pose proof (valid_nans (n - 3) (ints [8]%Z)) as V. unfold valid in *. rewrite filter_app, V. reflexivity.
Qed.

(** without the bound it is false: at 2^32 + 2 points with values 1, 3, missing, ..., missing, 8 the mean is 2 instead of 4 *)
Theorem C88_any_size_refuted : exists (ts v : list b64) (d : @dstruct BB),
  (Z.of_nat (length ts) = 2 ^ 32 + 2)%Z /\ SACF_1d32 ts v None = Ok d /\ mean_data d = [fl 2] /\
  exists d', SACF_1d ts v None = Ok d' /\ mean_data d' = [fl 4].
Proof.
  assert (Hn : exists n, Z.of_nat n = 4294967298%Z) by (exists (Z.to_nat 4294967298); rewrite Z2Nat.id; lia). destruct Hn as [n Hn].
  destruct (big_list n Hn) as [H1 [H2 [H3 [H3' [H4 [H5 H6]]]]]]. revert H1 H2 H3 H3' H4 H5 H6.
  set (ts := map (fun i => fl (Z.of_nat i)) (seq 0 n)). set (v := ints [1; 3]%Z ++ repeat (B754_nan : b64) (n - 3) ++ ints [8]%Z). clearbody ts v. intros H1 H2 H3 H3' H4 H5 H6.
  change (@num BB) with b64 in *. assert (L : Z.of_nat (length ts) = 4294967298%Z) by (rewrite H3; exact Hn).
  exists ts, v. destruct (C88_truncated (A := BB) ts v None H1 H2 H4) as [d [E M]]; [change (@num BB) with b64; rewrite L; reflexivity|].
  exists d. split; [exact L|]. split; [exact E|]. split.
  - change (@num BB) with b64 in M. rewrite L in M. rewrite M. change (Z.to_nat (4294967298 mod 2 ^ 32)) with 2. rewrite H6.
    assert (S : sames [mean (A := BB) (ints [1; 3]%Z)] [fl 2] = true) by (vm_compute; reflexivity). apply sames_eq in S. exact S.
  - destruct (proj2 (proj2 (one_dataset (A := BB) ts v None)) H1 H2 H4) as [d' [E' [_ [K _]]]]. exists d'. split; [exact E'|].
    destruct (mean_data_rows (A := BB) d') as [rows [K' [_ [_ [Hm _]]]]]; [left; eauto|]. rewrite K in K'. injection K' as <-.
    rewrite Hm. cbn [map]. rewrite (firstn_all2 v) by (rewrite H3'; apply Nat.eq_le_incl; symmetry; exact H3). rewrite H5. reflexivity.
Qed.
Print Assumptions C88_any_size_refuted.

(** 2^31 points, and 2^31 datasets of one point *)
Example C88_large_case : exists ts v : list b64, exists vs : list (list b64),
  ts <> [] /\ v <> [] /\ length v mod length ts = 0 /\ (2 ^ 31 <= Z.of_nat (length ts) mod 2 ^ 32)%Z /\
  [fl 0] <> [] /\ concat vs <> [] /\ length (concat vs) mod length [fl 0] = 0 /\ (INT_MAX < Z.of_nat (length vs))%Z.
Proof.
  assert (Hn : exists n, Z.of_nat n = 2147483648%Z) by (exists (Z.to_nat 2147483648); rewrite Z2Nat.id; lia). destruct Hn as [n Hn].
  assert (H0 : n <> 0) by (intros ->; discriminate).
  exists (repeat (fl 0) n), (repeat (fl 1) n), (repeat [fl 1] n). rewrite !repeat_length, Hn.
  assert (R : forall X (x : X), repeat x n <> []) by (intros X x; destruct n; [congruence|discriminate]).
  split; [apply R|]. split; [apply R|]. split; [apply Nat.mod_same; exact H0|]. split; [cbn; lia|]. split; [discriminate|].
  split; [destruct n; [congruence|discriminate]|]. split; [apply Nat.mod_1_r|reflexivity].
Qed.
