(** Theorems: the work done by a call (C108). *)
From Coq Require Import String.
From Coq Require Import ZArith List Bool Arith Lia.
From Verif Require Import Num Mem Spec DataStructure Correlator Sacf Api Examples Cost CostFacts CostMain.
Import ListNotations.
Local Open Scope list_scope.

(** ** Counting changes nothing *)
Theorem C108_same_outcome {A : Num} (p : platform) (d : dstruct) (mi ma re al : option num) (sel wgt : string) :
  fst (autocorrelation_c p d mi ma re al sel wgt) = autocorrelation p d mi ma re al sel wgt.
Proof. exact (autocorrelation_e p d mi ma re al sel wgt). Qed.
Print Assumptions C108_same_outcome.

(** ** Bounds for every call, whether it returns or not *)
Theorem C108_bounds {A : Num} (HA : arith A) (p : platform) (d : dstruct) (rows : list (list num)) (mi ma re al : option num) (sel wgt : string) :
  accepted d -> data_2d d = Ok rows ->
  let n := snd (autocorrelation_c p d mi ma re al sel wgt) in
  let M := length (timeseries d) in
  (sel <> "fast"%string -> compared n <= started n * (M * (Nat.log2 M + 3))) /\
  (sel = "fast"%string -> compared n <= started n * (M + Nat.log2 M + 2)) /\
  weighed n <= started n * M /\ multiplied n <= length rows * weighed n /\
  (forall c, new_Correlator d = Ok c -> started n <= num_lag_steps c + 1).
Proof.
  intros Ha Hd n M. destruct (call_cost HA p d rows mi ma re al sel wgt Ha Hd) as [H1 [H2 [H3 [_ [H5 _]]]]]. fold n M in H1, H2, H3, H5.
  unfold search_cost in H1. destruct (String.eqb_spec sel "fast") as [E|E].
  - split; [contradiction|]. split; [intros _; rewrite <- Nat.add_assoc; exact H1|]. split; [exact H2|]. split; [exact H3|].
    intros c Hc. rewrite Nat.add_1_r. apply H5. exact Hc.
  - split; [intros _; exact H1|]. split; [contradiction|]. split; [exact H2|]. split; [exact H3|].
    intros c Hc. rewrite Nat.add_1_r. apply H5. exact Hc.
Qed.
Print Assumptions C108_bounds.

(** ** The work of a call that returns: every lag once, every pair of it weighed once, and multiplied once per dataset *)
Theorem C108_exact {A : Num} (HA : arith A) (p : platform) (d : dstruct) (rows : list (list num)) (mi ma re al : option num) (sel wgt : string)
  (lags : list num) (corr : py_corr) (c : correlator) :
  accepted d -> data_2d d = Ok rows -> autocorrelation p d mi ma re al sel wgt = Ok (lags, corr, c) ->
  let n := snd (autocorrelation_c p d mi ma re al sel wgt) in
  exists f pairs, selection_function p sel d = Some f /\
    Forall2 (fun kk s => exists os, pairs_by p d f kk (length rows) = Ok (s, os)) lags pairs /\
    started n = length lags /\ weighed n = length (concat pairs) /\ multiplied n = length rows * length (concat pairs).
Proof.
  intros Ha Hd E n. destruct (call_cost HA p d rows mi ma re al sel wgt Ha Hd) as [_ [_ [_ [_ [_ H]]]]]. fold n in H.
  destruct (H lags corr c) as [f [Ef [ns [H1 [H2 [H3 H4]]]]]]. { rewrite autocorrelation_e. exact E. }
  destruct (accepted_rows d Ha) as [rows' [E' [Hl _]]]. rewrite Hd in E'. injection E' as <-. rewrite <- Hl in *.
  assert (K : exists pairs, Forall2 (fun kk s => exists os, pairs_by p d f kk (length rows) = Ok (s, os)) lags pairs /\ length (concat pairs) = list_sum ns).
  { clear -H1. induction H1 as [|kk m ks ms [s [os [E <-]]] _ [pairs [IH1 IH2]]]; [exists []; split; [constructor|reflexivity]|].
    exists (s :: pairs). split; [constructor; [exists os; exact E|exact IH1]|]. cbn [concat list_sum fold_right]. rewrite app_length, IH2. reflexivity. }
  destruct K as [pairs [K1 K2]]. exists f, pairs. rewrite K2. auto.
Qed.
Print Assumptions C108_exact.

(** ** The constructor of the correlator copies the vector of means twice for every value *)
Theorem C108_copies {A : Num} (HA : arith A) (p : platform) (d : dstruct) (rows : list (list num)) (mi ma re al : option num) (sel wgt : string) :
  accepted d -> data_2d d = Ok rows ->
  copied (snd (autocorrelation_c p d mi ma re al sel wgt)) =
    2 * length rows * length (filter (fun x => negb (nisnan x)) (concat rows)).
Proof. intros Ha Hd. exact (proj1 (proj2 (proj2 (proj2 (call_cost HA p d rows mi ma re al sel wgt Ha Hd))))). Qed.
Print Assumptions C108_copies.

(** two datasets at the times 0, 1, 3, 4: nine lags, with both selection functions *)
Definition counts (n : cost) : list nat := [started n; compared n; weighed n; multiplied n; copied n].
Definition nats_eqb (l m : list nat) : bool := if list_eq_dec Nat.eq_dec l m then true else false.
Definition case_test (d : @dstruct BB) : bool :=
  ok_with (autocorrelation (A := BB) clang d None None None None "natural" "gaussian") (fun r => length (fst (fst r)) =? 9) &&
  ok_with (data_2d d) (fun rows => length rows =? 2) && (length (timeseries d) =? 4) &&
  nats_eqb (counts (snd (autocorrelation_c (A := BB) clang d None None None None "natural" "gaussian"))) [9; 120; 28; 56; 32] &&
  nats_eqb (counts (snd (autocorrelation_c (A := BB) clang d None None None None "fast" "gaussian"))) [9; 59; 24; 48; 32].
Lemma case_tested (d : @dstruct BB) : case_test d = true -> exists rows lags corr c,
  data_2d d = Ok rows /\ length rows = 2 /\ length (timeseries d) = 4 /\
  autocorrelation (A := BB) clang d None None None None "natural" "gaussian" = Ok (lags, corr, c) /\ length lags = 9 /\
  counts (snd (autocorrelation_c (A := BB) clang d None None None None "natural" "gaussian")) = [9; 120; 28; 56; 32] /\
  counts (snd (autocorrelation_c (A := BB) clang d None None None None "fast" "gaussian")) = [9; 59; 24; 48; 32].
Proof.
  unfold case_test, nats_eqb. intros H.
  apply andb_prop in H. destruct H as [H H5]. apply andb_prop in H. destruct H as [H H4].
  apply andb_prop in H. destruct H as [H H3]. apply andb_prop in H. destruct H as [H1 H2].
  apply ok_with_ok in H1. destruct H1 as [[[lags corr] c] [E1 L1]]. apply ok_with_ok in H2. destruct H2 as [rows [E2 L2]].
  apply Nat.eqb_eq in L1. apply Nat.eqb_eq in L2. apply Nat.eqb_eq in H3.
  destruct (list_eq_dec Nat.eq_dec (counts (snd (autocorrelation_c clang d None None None None "natural" "gaussian"))) _) as [C1|]; [|discriminate H4].
  destruct (list_eq_dec Nat.eq_dec (counts (snd (autocorrelation_c clang d None None None None "fast" "gaussian"))) _) as [C2|]; [|discriminate H5].
  exists rows, lags, corr, c. split; [exact E2|]. split; [exact L2|]. split; [exact H3|]. split; [exact E1|]. split; [exact L1|]. split; assumption.
Qed.
Example C108_case : exists (d : @dstruct BB) rows lags corr c,
  accepted d /\ data_2d d = Ok rows /\ length rows = 2 /\ length (timeseries d) = 4 /\
  autocorrelation (A := BB) clang d None None None None "natural" "gaussian" = Ok (lags, corr, c) /\ length lags = 9 /\
  counts (snd (autocorrelation_c (A := BB) clang d None None None None "natural" "gaussian")) = [9; 120; 28; 56; 32] /\
  counts (snd (autocorrelation_c (A := BB) clang d None None None None "fast" "gaussian")) = [9; 59; 24; 48; 32].
Proof.
  assert (K : ok_with (SACF_2d (A := BB) (ints [0; 1; 3; 4]%Z) [ints [1; 2; 4; 3]%Z; ints [5; 3; 2; 2]%Z] None) case_test = true) by (vm_compute; reflexivity).
  apply ok_with_ok in K. destruct K as [d [Ed K]]. apply case_tested in K. destruct K as (rows & lags & corr & c & K).
  exists d, rows, lags, corr, c. split; [right; eexists _, _, _; exact Ed|exact K].
Qed.
