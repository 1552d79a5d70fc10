(** Theorems: integer time stamps, other lag settings on the same data, positions computed in int (C75, C76, C77). *)
From Coq Require Import String.
From Coq Require Import ZArith Reals List Bool Arith Lia Lra.
From Flocq Require Import Core BinarySingleNaN.
From Verif Require Import Num Mem MemFacts XR B64 Spec SpecR SpecExt DataStructure Correlator Sacf Api IntIndex Examples Laws2 DSFacts MainFacts RelFacts IntTimes CropFacts IntIndexFacts.
Import ListNotations.
Local Open Scope list_scope.

(** ** C75: integer time stamps *)
Theorem C75_integer_times {A : Num} (HA : arith A) (p p' : platform) (d : dstruct) (mi ma re al : option num) (sel wgt : string) :
  p_checked p = p_checked p' -> accepted d -> (forall t, In t (timeseries d) -> whole (2 ^ 27) t) -> ordered (timeseries d) ->
  opt_whole (2 ^ 28) mi -> opt_whole (2 ^ 28) ma -> opt_whole (2 ^ 28) re -> (forall r, re = Some r -> nle nzero r = true) ->
  visible (autocorrelation p d mi ma re al sel wgt) = visible (autocorrelation p' d mi ma re al sel wgt).
Proof. exact (int_times_lemma HA p p' d mi ma re al sel wgt). Qed.
Print Assumptions C75_integer_times.

Lemma whole_int n z : (Z.abs z <= n)%Z -> @neqb BB (b64_ofZ z) (b64_ofZ z) = true -> whole (A := BB) n (b64_ofZ z).
Proof. intros H H'. exists z. split; assumption. Qed.

(** unequal steps, lags with step 2; the two compilers *)
Example C75_case : p_checked gcc = p_checked clang /\ p_abs gcc <> p_abs clang /\ exists d : @dstruct BB,
  SACF_1d (ints [-3; 0; 1; 5; 12]%Z) (ints [1; 2; -1; 4; 0]%Z) None = Ok d /\ accepted d /\
  (forall t, In t (timeseries d) -> whole (2 ^ 27) t) /\ ordered (timeseries d) /\ opt_whole (2 ^ 28) (Some (b64_ofZ 2)) /\ nle (nzero : @num BB) (b64_ofZ 2) = true /\
  ok_with (visible (autocorrelation gcc d None None (Some (b64_ofZ 2)) None "natural" "gaussian")) (fun r => 10 <? length (fst r)) = true.
Proof.
  split; [reflexivity|]. split; [discriminate|].
  destruct (ok_with_ok (SACF_1d (ints [-3; 0; 1; 5; 12]%Z) (ints [1; 2; -1; 4; 0]%Z) None)
    (fun d => sames (ints [-3; 0; 1; 5; 12]%Z) (timeseries d) && ok_with (visible (autocorrelation gcc d None None (Some (b64_ofZ 2)) None "natural" "gaussian")) (fun r => 10 <? length (fst r))))
    as [d [E H]]; [vm_compute; reflexivity|].
  apply andb_prop in H. destruct H as [H1 H2]. apply sames_eq in H1. exists d. split; [exact E|]. split; [left; eauto|]. rewrite <- H1.
  split; [|split; [apply orderedb_ok; vm_compute; reflexivity|split; [|split; [vm_compute; reflexivity|exact H2]]]].
  - intros t Hin. apply in_map_iff in Hin. destruct Hin as [z [<- Hz]]. repeat (destruct Hz as [<-|Hz]; [apply whole_int; [lia|vm_compute; reflexivity]|]). destruct Hz.
  - apply whole_int; [lia|vm_compute; reflexivity].
Qed.

Definition quarter (z : Z) : @num BB := Bdiv mode_NE (b64_ofZ z) (b64_ofZ 4).

(** with quarters as time stamps and as lag resolution the two compilers give different correlations *)
Theorem C75_any_times_refuted : exists d : @dstruct BB, SACF_1d [quarter 0; quarter 3; quarter 8] (ints [1; 2; 3]%Z) None = Ok d /\ accepted d /\ ordered (timeseries d) /\
  exists lags a b, visible (autocorrelation gcc d (Some (quarter 1)) (Some (quarter 1)) None None "natural" "fractional") = Ok (lags, Flat a) /\
    visible (autocorrelation clang d (Some (quarter 1)) (Some (quarter 1)) None None "natural" "fractional") = Ok (lags, Flat b) /\ a <> b.
Proof.
  destruct (ok_with_ok (SACF_1d [quarter 0; quarter 3; quarter 8] (ints [1; 2; 3]%Z) None) (fun d => orderedb (timeseries d) &&
      ok_with (visible (autocorrelation gcc d (Some (quarter 1)) (Some (quarter 1)) None None "natural" "fractional")) (fun x =>
      ok_with (visible (autocorrelation clang d (Some (quarter 1)) (Some (quarter 1)) None None "natural" "fractional")) (fun y =>
        sames (fst x) (fst y) && match snd x, snd y with Flat a, Flat b => sames a a && negb (sames a b) | _, _ => false end)))) as [d [E H]]; [vm_compute; reflexivity|].
  apply andb_prop in H. destruct H as [H0 H]. apply ok_with_ok in H. destruct H as [[lags x] [Ex H]]. apply ok_with_ok in H. destruct H as [[lags' y] [Ey H]].
  apply andb_prop in H. destruct H as [H1 H]. cbn [fst snd] in *. apply sames_eq in H1. subst lags'. destruct x as [a|a]; [|discriminate]. destruct y as [b|b]; [|discriminate].
  apply andb_prop in H. destruct H as [Hs H]. exists d. split; [exact E|]. split; [left; eauto|]. split; [apply orderedb_ok; exact H0|].
  exists lags, a, b. split; [exact Ex|]. split; [exact Ey|]. intros ->. rewrite Hs in H. discriminate.
Qed.
Print Assumptions C75_any_times_refuted.

(** ** C76: other lag settings on the same data *)
Theorem C76_same_lag {A : Num} (p : platform) (d : dstruct) (mi ma re mi' ma' re' al : option num) (sel wgt : string) (lags lags' : list num) (corr corr' : py_corr)
  (i i' : nat) (x : num) (j : nat) : accepted d ->
  visible (autocorrelation p d mi ma re al sel wgt) = Ok (lags, corr) ->
  visible (autocorrelation p d mi' ma' re' al sel wgt) = Ok (lags', corr') ->
  nth_error lags i = Some x -> nth_error lags' i' = Some x -> corr_at corr j i = corr_at corr' j i'.
Proof. exact (same_lag p d mi ma re mi' ma' re' al sel wgt lags corr lags' corr' i i' x j). Qed.
Print Assumptions C76_same_lag.

Theorem C76_smaller_max {A : Num} (HA : arith A) (p : platform) (d : dstruct) (c0 : correlator) (mi ma re al : option num) (sel wgt : string) (lags : list num) (corr : py_corr) (y : num) :
  accepted d -> new_Correlator d = Ok c0 -> visible (autocorrelation p d mi ma re al sel wgt) = Ok (lags, corr) ->
  nle y (opt_or ma (max_lag c0)) = true -> nle (opt_or mi (min_lag c0)) y = true ->
  exists n, visible (autocorrelation p d mi (Some y) re al sel wgt) = Ok (firstn n lags, crop n corr) /\
    lag_grid (opt_or mi (min_lag c0)) (opt_or re (lag_resolution c0)) y (firstn n lags).
Proof. exact (@smaller_max A (arith_laws A HA) p d c0 mi ma re al sel wgt lags corr y). Qed.
Print Assumptions C76_smaller_max.

(** the full call on two datasets, the call up to lag 1, and the call from lag -2 in steps of 2 *)
Example C76_case : exists (d : @dstruct BB) c0 lags corr lags' corr',
  SACF_2d (ints [0; 1; 3]%Z) [ints [1; 2; 4]%Z; ints [0; -1; 5]%Z] None = Ok d /\ accepted d /\ new_Correlator d = Ok c0 /\
  visible (autocorrelation clang d None None None None "natural" "gaussian") = Ok (lags, corr) /\
  visible (autocorrelation clang d (Some (b64_ofZ (-2))) None (Some (b64_ofZ 2)) None "natural" "gaussian") = Ok (lags', corr') /\
  nth_error lags 1 = Some (b64_ofZ (-2)) /\ nth_error lags' 0 = Some (b64_ofZ (-2)) /\
  nth_error lags 5 = Some (b64_ofZ 2) /\ nth_error lags' 2 = Some (b64_ofZ 2) /\
  nle (b64_ofZ 1 : @num BB) (max_lag c0) = true /\ nle (min_lag c0) (b64_ofZ 1 : @num BB) = true.
Proof.
  destruct (ok_with_ok (SACF_2d (ints [0; 1; 3]%Z) [ints [1; 2; 4]%Z; ints [0; -1; 5]%Z] None) (fun d =>
      ok_with (new_Correlator d) (fun c0 => nle (b64_ofZ 1 : @num BB) (max_lag c0) && nle (min_lag c0) (b64_ofZ 1 : @num BB)) &&
      ok_with (visible (autocorrelation clang d None None None None "natural" "gaussian")) (fun x => sames (fst x) (ints [-3; -2; -1; 0; 1; 2; 3]%Z)) &&
      ok_with (visible (autocorrelation clang d (Some (b64_ofZ (-2))) None (Some (b64_ofZ 2)) None "natural" "gaussian")) (fun x => sames (fst x) (ints [-2; 0; 2]%Z)))) as [d [E H]]; [vm_compute; reflexivity|].
  apply andb_prop in H. destruct H as [H H3]. apply andb_prop in H. destruct H as [H1 H2].
  apply ok_with_ok in H1. destruct H1 as [c0 [E0 H1]]. apply andb_prop in H1. destruct H1 as [H1 H1'].
  apply ok_with_ok in H2. destruct H2 as [[lags corr] [E2 H2]]. apply ok_with_ok in H3. destruct H3 as [[lags' corr'] [E3 H3]].
  cbn [fst] in *. apply sames_eq in H2, H3. exists d, c0, lags, corr, lags', corr'. rewrite E2, E3, H2, H3.
  repeat (split; [first [reflexivity|exact E|exact E0|right; eauto|exact H1]|]). exact H1'.
Qed.

(** ** C77: positions in the result buffers are computed in int *)
Theorem C77_exact {A : Num} (p : platform) (d : dstruct) (c0 : correlator) (mi ma re al : option num) (sel wgt : string) (lags : list num) (corr : py_corr) (c : correlator) :
  accepted d -> new_Correlator d = Ok c0 -> autocorrelation p d mi ma re al sel wgt = Ok (lags, corr, c) ->
  autocorrelation_int p d mi ma re al sel wgt =
  if (Z.of_nat (N_datasets d - 1) * Z.of_nat (length (lag_timeseries c0)) + Z.of_nat (length lags - 1) <=? INT_MAX)%Z
  then Ok (lags, corr, c) else UB BadConversion.
Proof. exact (autocorrelation_exact p d c0 mi ma re al sel wgt lags corr c). Qed.
Print Assumptions C77_exact.

Theorem C77_small {A : Num} (p : platform) (d : dstruct) (c0 : correlator) (mi ma re al : option num) (sel wgt : string) :
  accepted d -> new_Correlator d = Ok c0 -> (Z.of_nat (N_datasets d) * Z.of_nat (length (lag_timeseries c0)) <= INT_MAX + 1)%Z ->
  autocorrelation_int p d mi ma re al sel wgt = autocorrelation p d mi ma re al sel wgt.
Proof. exact (autocorrelation_fits p d c0 mi ma re al sel wgt). Qed.
Print Assumptions C77_small.

Theorem C77_histories {A : Num} (p : platform) (d : dstruct) (c0 : correlator) (os : list op) (c : correlator) (o : op) :
  accepted d -> new_Correlator d = Ok c0 -> (Z.of_nat (N_datasets d) * Z.of_nat (length (lag_timeseries c0)) <= INT_MAX + 1)%Z -> after p c0 os c ->
  correlations_int c = correlations c /\
  (run_op_int p c o = run_op p c o \/ exists i u v, o = CleanData i /\ snd (run_op_int p c o) = UB u /\ snd (run_op p c o) = UB v).
Proof. intros H1 H2 H3 H4. split; [exact (history_reads p d c0 os c H1 H2 H3 H4)|exact (history_fits p d c0 os c o H1 H2 H3 H4)]. Qed.
Print Assumptions C77_histories.

Example C77_case : exists (d : @dstruct BB) c0,
  SACF_2d (ints [0; 1; 3]%Z) [ints [1; 2; 4]%Z; ints [0; -1; 5]%Z] None = Ok d /\ accepted d /\ new_Correlator d = Ok c0 /\
  (Z.of_nat (N_datasets d) * Z.of_nat (length (lag_timeseries c0)) <= INT_MAX + 1)%Z /\
  after clang c0 [Calculate; Find "natural" "gaussian"; Clear] (clearCorrelation (fst (find_correlation clang (fst (calculateStandardCorrelation clang c0)) "natural" "gaussian"))).
Proof.
  destruct (ok_with_ok (SACF_2d (ints [0; 1; 3]%Z) [ints [1; 2; 4]%Z; ints [0; -1; 5]%Z] None) (fun d => (N_datasets d =? 2) &&
      ok_with (new_Correlator d) (fun c0 => (length (lag_timeseries c0) =? 9) && ok_with (snd (calculateStandardCorrelation clang c0)) (fun _ => true) &&
        ok_with (snd (find_correlation clang (fst (calculateStandardCorrelation clang c0)) "natural" "gaussian")) (fun _ => true)))) as [d [E H]]; [vm_compute; reflexivity|].
  apply andb_prop in H. destruct H as [H0 H]. apply Nat.eqb_eq in H0. apply ok_with_ok in H. destruct H as [c0 [E0 H]]. apply andb_prop in H. destruct H as [H H2].
  apply andb_prop in H. destruct H as [H H1]. apply Nat.eqb_eq in H. exists d, c0. split; [exact E|]. split; [right; eauto|]. split; [exact E0|].
  split; [rewrite H0, H; cbn; lia|]. apply ok_with_ok in H1, H2. destruct H1 as [[] [H1 _]], H2 as [[] [H2 _]].
  apply (after_snoc clang c0 [Calculate; Find "natural" "gaussian"] (fst (find_correlation clang (fst (calculateStandardCorrelation clang c0)) "natural" "gaussian")) Clear _ (Ok tt)); [|reflexivity|auto].
  apply (after_snoc clang c0 [Calculate] (fst (calculateStandardCorrelation clang c0)) (Find "natural" "gaussian") _ (Ok tt)); [|rewrite <- H2; apply surjective_pairing|auto].
  apply (after_snoc clang c0 [] c0 Calculate _ (Ok tt)); [constructor|rewrite <- H1; apply surjective_pairing|auto].
Qed.

(** without the bound on the size it is false: three datasets at times 0, 1, 2^29 and the single lag 0; 2^30 + 3 steps are allotted for
    every dataset, the result of the third goes to a position above INT_MAX *)
Theorem C77_any_size_refuted : exists (d : @dstruct BB) r,
  SACF_2d (ints [0; 1; 536870912]%Z) [ints [1; 2; 4]%Z; ints [0; -1; 5]%Z; ints [3; 2; 2]%Z] None = Ok d /\
  autocorrelation clang d (Some nzero) (Some nzero) None None "natural" "fractional" = Ok r /\ length (fst (fst r)) = 1 /\
  autocorrelation_int clang d (Some nzero) (Some nzero) None None "natural" "fractional" = UB BadConversion.
Proof.
  set (ts := ints [0; 1; 536870912]%Z).
  destruct (ok_with_ok (SACF_2d ts [ints [1; 2; 4]%Z; ints [0; -1; 5]%Z; ints [3; 2; 2]%Z] None) (fun d => sames ts (timeseries d) && (N_datasets d =? 3))) as [d [E H]]; [vm_compute; reflexivity|].
  apply andb_prop in H. destruct H as [Hts HN]. apply sames_eq in Hts. apply Nat.eqb_eq in HN. exists d.
  assert (Ha : accepted d) by (right; eauto).
  destruct (accepted_values d Ha) as [ts' [data [er [N [Hd [G1 [G2 [G3 G4]]]]]]]]. rewrite Hd in Hts, HN. change (ts = ts') in Hts. change (N = 3) in HN. rewrite <- Hts in *. subst N. clear ts' Hts.
  assert (Hal : allot (rel_times ts) = Ok (Z.to_nat 1073741827)).
  { unfold allot. destruct (ok_with_ok (lback (rel_times ts)) (fun m => match to_int (nfloor (ndiv (nsub m (nneg m)) (findMinDiff (rel_times ts)))) with Ok q => (q =? 1073741824)%Z | _ => false end)) as [m [Em H]]; [vm_compute; reflexivity|].
    rewrite Em. cbn [bind]. destruct (to_int _) as [q|e|u|]; try discriminate. apply Z.eqb_eq in H. subst q. reflexivity. }
  assert (Hn : exists c0, new_Correlator d = Ok c0 /\ Z.of_nat (length (lag_timeseries c0)) = 1073741827%Z).
  { rewrite Hd. rewrite new_Correlator_closed by assumption. rewrite Hal. cbn [bind]. eexists. split; [reflexivity|].
    cbn [lag_timeseries the_corr timeseries_]. rewrite repeat_length, Z2Nat.id by lia. reflexivity. }
  destruct Hn as [c0 [Hn Hl]].
  assert (Hc : ok_with (visible (autocorrelation clang d (Some nzero) (Some nzero) None None "natural" "fractional")) (fun x => length (fst x) =? 1) = true).
  { rewrite Hd. rewrite visible_core by assumption.
    destruct (ok_with_ok (acf_core clang ts (Some nzero) (Some nzero) None None "natural" "fractional") (fun gF => length (fst gF) =? 1)) as [gF [Eg Hg]].
    { unfold acf_core. rewrite Hal. cbn [bind]. replace (Z.to_nat 1073741827) with (S (S (Z.to_nat 1073741825))) by (rewrite <- !Z2Nat.inj_succ by lia; reflexivity).
      generalize (Z.to_nat 1073741825). intros m. unfold ts. vm_compute. reflexivity. }
    rewrite Eg. cbn [bind ok_with fst]. exact Hg. }
  apply ok_with_ok in Hc. destruct Hc as [[lags corr] [Ec Hlen]]. cbn [fst] in Hlen. apply Nat.eqb_eq in Hlen.
  unfold visible in Ec. apply bind_Ok in Ec. destruct Ec as [[[lg cr] c] [Ec Ex]]. injection Ex as <- <-.
  exists (lg, cr, c). split; [exact E|]. split; [exact Ec|]. split; [exact Hlen|].
  rewrite (C77_exact _ _ _ _ _ _ _ _ _ _ _ _ Ha Hn Ec). rewrite Hl, Hlen. replace (N_datasets d) with 3 by (rewrite Hd; reflexivity). reflexivity.
Qed.
Print Assumptions C77_any_size_refuted.
