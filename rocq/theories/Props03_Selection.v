(** Theorems: the selection functions and the time offsets (C17 - C20, C39 - C41). *)
From Coq Require Import String.
From Coq Require Import ZArith Reals List Bool Arith Lia.
From Flocq Require Import Core BinarySingleNaN.
From Verif Require Import Num Mem MemFacts XR B64 Spec SpecR DataStructure Correlator Sacf Api Examples
  Laws B64Facts Laws2 SelFacts SelThms FastFacts SafeFacts Props01_Construction Props02_Lags.
Import ListNotations.
Local Open Scope list_scope.

(** ** C17: number of selected points *)
Theorem C17_natural_count {A : Num} (p : platform) (d : dstruct) (kk : num) (n : nat) : accepted d ->
  let nt := normalised_timeseries d in
  exists back m, nth_error nt (length nt - 1) = Some back /\ cut_at (fun x => nlt back (nadd x kk)) nt m /\
  let run := naturalSelectionFunctionIdx p d (CorrelationIterator kk n) in
  (snd run = Ok tt \/ snd run = UB BadConversion) /\
  (p_abs p = AbsFloat -> snd run = Ok tt) /\
  (snd run = Ok tt -> length (selection (fst run)) = m /\ forall s, In s (selection (fst run)) -> s < length nt).
Proof.
  intros Ha nt. destruct (natural_selection_count p d kk n Ha) as [back [m [Hb [Hm H]]]].
  exists back, m. split; [exact (proj2 (back_In _ _ Hb))|]. split; [exact Hm|exact H].
Qed.
Print Assumptions C17_natural_count.

(** for ordered times these are exactly the points whose shifted time is not beyond the last *)
Theorem C17_natural_retained {A : Num} (HA : arith A) (p : platform) (d : dstruct) (kk back : num) (n : nat) (it : cor_it) :
  accepted d -> times_ok d -> nisnan kk = false ->
  let nt := normalised_timeseries d in
  nth_error nt (length nt - 1) = Some back ->
  naturalSelectionFunctionIdx p d (CorrelationIterator kk n) = (it, Ok tt) ->
  forall i x, nth_error nt i = Some x -> (i < length (selection it) <-> nle (nadd x kk) back = true).
Proof.
  intros Ha Ht Hk nt Hb Hrun. pose proof (arith_laws A HA) as L1. pose proof (arith_laws2 A HA) as L2.
  destruct (natural_selection_count p d kk n Ha) as [back' [m [Hb' [Hm [_ [_ H]]]]]].
  pose proof (proj2 (back_In _ _ Hb')) as Hb2. unfold nt in Hb. rewrite Hb in Hb2. injection Hb2 as <-.
  rewrite Hrun in H. destruct (H eq_refl) as [HL _]. cbn [fst] in HL. unfold selection. rewrite HL.
  apply (natural_retained d kk back m); try assumption.
Qed.
Print Assumptions C17_natural_retained.

(** with a NaN lag every point is retained *)
Example C17_case : snd (naturalSelectionFunctionIdx clang example_ds (CorrelationIterator (fl 1) 1)) = Ok tt /\
  selection (fst (naturalSelectionFunctionIdx clang example_ds (CorrelationIterator (fl 1) 1))) = [1; 1; 2] /\
  selection (fst (naturalSelectionFunctionIdx clang example_ds (CorrelationIterator (ndiv (fl 0) (fl 0)) 1))) = [0; 0; 0; 0].
Proof. repeat split; vm_compute; reflexivity. Qed.

(** ** C18: nearest point *)
Theorem C18_nearest {A : Num} (HA : arith A) (p : platform) (d : dstruct) (kk : num) (n : nat) (it : cor_it) :
  accepted d -> times_ok d -> p_abs p = AbsFloat -> nisnan kk = false ->
  naturalSelectionFunctionIdx p d (CorrelationIterator kk n) = (it, Ok tt) ->
  let nt := normalised_timeseries d in
  forall i s, nth_error (selection it) i = Some s ->
  exists x y, nth_error nt i = Some x /\ nth_error nt s = Some y /\
    forall z, In z nt -> nle (nabs (nsub (nadd x kk) y)) (nabs (nsub (nadd x kk) z)) = true.
Proof. exact (@natural_nearest A (arith_laws A HA) (arith_laws2 A HA) p d kk n it). Qed.
Print Assumptions C18_nearest.

Example C18_case : nisnan (fl 1) = false /\ snd (naturalSelectionFunctionIdx clang example_ds (CorrelationIterator (fl 1) 1)) = Ok tt.
Proof. split; vm_compute; reflexivity. Qed.

(** times 0, 0.5, 2 and lag 0.25 on GCC: the first shifted time 0.25 is paired with 0.5 although both
    distances are equal, and with times 0, 0.75, 2 it is paired with 0.75 although 0 is nearer *)
Definition gcc_ds : @dstruct BB :=
  match SACF_1d [quarter 0; quarter 3; quarter 8] (ints [1; 2; 3]%Z) None with Ok d => d | _ => example_ds end.
Definition nearest_at (p : platform) (d : @dstruct BB) (kk : @num BB) (i : nat) : bool :=
  let nt := normalised_timeseries d in
  let it := fst (naturalSelectionFunctionIdx p d (CorrelationIterator kk 1)) in
  match nth_error (selection it) i, nth_error nt i with
  | Some s, Some x => match nth_error nt s with
                      | Some y => forallb (fun z => nle (nabs (nsub (nadd x kk) y)) (nabs (nsub (nadd x kk) z))) nt
                      | None => false
                      end
  | _, _ => false
  end.

Theorem C18_integer_abs_refuted :
  accepted gcc_ds /\ times_ok gcc_ds /\ p_abs gcc = AbsInt /\
  snd (naturalSelectionFunctionIdx gcc gcc_ds (CorrelationIterator (quarter 1) 1)) = Ok tt /\
  nth_error (selection (fst (naturalSelectionFunctionIdx gcc gcc_ds (CorrelationIterator (quarter 1) 1)))) 0 = Some 1 /\
  nearest_at gcc gcc_ds (quarter 1) 0 = false /\ nearest_at clang gcc_ds (quarter 1) 0 = true.
Proof.
  assert (E : SACF_1d [quarter 0; quarter 3; quarter 8] (ints [1; 2; 3]%Z) None = Ok gcc_ds).
  { unfold gcc_ds. destruct (ok_with_ok (SACF_1d [quarter 0; quarter 3; quarter 8] (ints [1; 2; 3]%Z) None) (fun _ => true)) as [d [E _]];
      [vm_compute; reflexivity|]. rewrite E. reflexivity. }
  split; [left; eauto|]. split.
  { split; [apply orderedb_ok; vm_compute; reflexivity|]. split; apply all_finite_ok; vm_compute; reflexivity. }
  repeat split; vm_compute; reflexivity.
Qed.
Print Assumptions C18_integer_abs_refuted.

(** ** C19: order is preserved *)
Theorem C19_monotone {A : Num} (HA : arith A) (p : platform) (d : dstruct) (kk : num) (n : nat) (it : cor_it) :
  accepted d -> times_ok d ->
  naturalSelectionFunctionIdx p d (CorrelationIterator kk n) = (it, Ok tt) ->
  forall i j s s', i <= j -> nth_error (selection it) i = Some s -> nth_error (selection it) j = Some s' -> s <= s'.
Proof. exact (@natural_monotone A (arith_laws A HA) (arith_laws2 A HA) p d kk n it). Qed.
Print Assumptions C19_monotone.

Example C19_case : selection (fst (naturalSelectionFunctionIdx gcc example_ds (CorrelationIterator (fl (-3)) 1))) = [0; 0; 1; 2].
Proof. vm_compute. reflexivity. Qed.

(** ** C20: the offsets are read from a cleared vector *)
Theorem C20_offsets_natural {A : Num} (p : platform) (d : dstruct) (kk : num) (n : nat) (it : cor_it) : accepted d ->
  naturalSelectionFunctionIdx p d (CorrelationIterator kk n) = (it, Ok tt) ->
  (p_checked p = true -> selection it <> [] -> snd (deltaT p d it) = UB StaleRead) /\
  (p_checked p = false -> p_abs p = AbsFloat ->
     exists it', deltaT p d it = (it', Ok tt) /\ length (offsets it') = length (selection it) /\
     forall i s x y, nth_error (selection it) i = Some s ->
       nth_error (normalised_timeseries d) i = Some x -> nth_error (normalised_timeseries d) s = Some y ->
       nth_error (offsets it') i = Some (nabs (nsub y (nadd x kk)))) /\
  (p_checked p = false -> p_abs p = AbsInt -> snd (deltaT p d it) = Ok tt \/ snd (deltaT p d it) = UB BadConversion).
Proof. exact (offsets_after_selection p false d kk n it). Qed.
Print Assumptions C20_offsets_natural.

Theorem C20_offsets_fast {A : Num} (p : platform) (d : dstruct) (kk : num) (n : nat) (it : cor_it) : accepted d ->
  fastSelectionFunctionIdx p d (CorrelationIterator kk n) = (it, Ok tt) ->
  (p_checked p = true -> selection it <> [] -> snd (deltaT p d it) = UB StaleRead) /\
  (p_checked p = false -> p_abs p = AbsFloat ->
     exists it', deltaT p d it = (it', Ok tt) /\ length (offsets it') = length (selection it) /\
     forall i s x y, nth_error (selection it) i = Some s ->
       nth_error (normalised_timeseries d) i = Some x -> nth_error (normalised_timeseries d) s = Some y ->
       nth_error (offsets it') i = Some (nabs (nsub y (nadd x kk)))) /\
  (p_checked p = false -> p_abs p = AbsInt -> snd (deltaT p d it) = Ok tt \/ snd (deltaT p d it) = UB BadConversion).
Proof. exact (offsets_after_selection p true d kk n it). Qed.
Print Assumptions C20_offsets_fast.

(** in a checked build the only lags of a call that returns are those at which no point is retained *)
Theorem C20_checked_build {A : Num} (p : platform) (d : dstruct) (mi ma re al : option num) (sel wgt : string)
  (lags : list num) (corr : py_corr) (c : correlator) :
  accepted d -> p_checked p = true ->
  autocorrelation p d mi ma re al sel wgt = Ok (lags, corr, c) ->
  forall kk, In kk lags -> exists back x,
    nth_error (normalised_timeseries d) (length (normalised_timeseries d) - 1) = Some back /\
    nth_error (normalised_timeseries d) 0 = Some x /\
    (if String.eqb sel "fast" then nle back (nadd x kk) else nlt back (nadd x kk)) = true.
Proof.
  intros Ha Hc E kk Hk. destruct (checked_build_lags p d mi ma re al sel wgt (lags, corr, c) Ha Hc E kk Hk) as [back [x [H1 [H2 H3]]]].
  exists back, x. split; [exact (proj2 (back_In _ _ H1))|]. split; [exact H2|exact H3].
Qed.
Print Assumptions C20_checked_build.

(** so for ordered times and the natural selection nothing but an empty list of lags is returned *)
Theorem C20_checked_empty {A : Num} (HA : arith A) (p : platform) (d : dstruct) (mi ma re al : option num) (wgt : string)
  (lags : list num) (corr : py_corr) (c : correlator) :
  accepted d -> times_ok d -> p_checked p = true ->
  autocorrelation p d mi ma re al "natural" wgt = Ok (lags, corr, c) -> lags = [].
Proof. exact (checked_empty A HA p d mi ma re al wgt (lags, corr, c)). Qed.
Print Assumptions C20_checked_empty.

Example C20_case : undefined (autocorrelation gcc_checked example_ds None None None None "natural" "fractional") = Some StaleRead /\
  undefined (autocorrelation gcc_checked example_ds None None None None "fast" "gaussian") = Some StaleRead /\
  lags_are (autocorrelation gcc_checked example_ds (Some (fl (-9))) (Some (fl (-10))) None None "natural" "fractional") [] = true.
Proof. repeat split; vm_compute; reflexivity. Qed.
(** a checked build returns when there is no lag *)
Example C20_case_returns :
  lags_are (autocorrelation gcc_checked example_ds (Some (fl (-9))) (Some (fl (-10))) None None "natural" "fractional") [] = true.
Proof. vm_compute. reflexivity. Qed.

(** ** C39: the fast selection *)
Theorem C39_fast_selection {A : Num} (HA : arith A) (p : platform) (d : dstruct) (kk : num) (n : nat) : accepted d -> times_ok d ->
  let nt := normalised_timeseries d in
  exists back m, nth_error nt (length nt - 1) = Some back /\ cut_at (fun x => nle back (nadd x kk)) nt m /\
  let s0 := nadd nzero kk in let idx := length (filter (fun x => nlt x s0) nt) in
  let run := fastSelectionFunctionIdx p d (CorrelationIterator kk n) in
  (snd run = Throw OutOfRange <->
     nle back s0 = false /\
     (length nt = 1 \/ exists y, nth_error nt (length nt - 2) = Some y /\ nlt y s0 = true)) /\
  (snd run = Ok tt \/ snd run = Throw OutOfRange \/ (p_abs p = AbsInt /\ snd run = UB BadConversion)) /\
  (snd run = Ok tt -> selection (fst run) = map (fun i => if idx + i <? m then idx + i else 0) (seq 0 m)).
Proof.
  intros Ha Ht nt. pose proof (arith_laws A HA) as L1. pose proof (arith_laws2 A HA) as L2.
  destruct (fast_selection p d kk n Ha Ht) as [back [m [Hb [Hm H]]]].
  exists back, m. split; [exact (proj2 (back_In _ _ Hb))|]. split; [exact Hm|exact H].
Qed.
Print Assumptions C39_fast_selection.

(** times 0, 0.5, 3.5, 7.5: at lag 3 the anchor is 3.5 and only one of the three retained points is shifted along *)
Example C39_case : selection (fst (fastSelectionFunctionIdx gcc example_ds (CorrelationIterator (fl 3) 1))) = [2; 0; 0] /\
  snd (fastSelectionFunctionIdx gcc example_ds (CorrelationIterator (fl 4) 1)) = Throw OutOfRange /\
  snd (fastSelectionFunctionIdx gcc example_ds (CorrelationIterator (fl 8) 1)) = Ok tt.
Proof. repeat split; vm_compute; reflexivity. Qed.

(** ** C40, C41: the fast selection at negative lags and at lag zero *)
Theorem C40_fast_negative_selection {A : Num} (HA : arith A) (p : platform) (d : dstruct) (kk : num) (n : nat) (it : cor_it) :
  accepted d -> times_ok d -> increasing (normalised_timeseries d) ->
  nlt kk nzero = true -> fastSelectionFunctionIdx p d (CorrelationIterator kk n) = (it, Ok tt) ->
  let nt := normalised_timeseries d in
  (selection it = seq 0 (length nt) \/ selection it = seq 0 (length nt - 1)) /\
  (forall back, nth_error nt (length nt - 1) = Some back -> nlt (nadd back kk) back = true -> selection it = seq 0 (length nt)).
Proof.
  intros Ha Ht Hi Hk Hr nt. pose proof (arith_laws A HA) as L1. pose proof (arith_laws2 A HA) as L2.
  destruct (fast_negative p d kk n it Ha Ht Hi Hk Hr) as [H1 H2]. split; [exact H1|].
  intros back Hb. apply H2. exact (lback_nth _ _ Hb).
Qed.
Print Assumptions C40_fast_negative_selection.

Theorem C41_fast_zero_selection {A : Num} (HA : arith A) (p : platform) (d : dstruct) (kk : num) (n : nat) (it : cor_it) :
  accepted d -> times_ok d -> increasing (normalised_timeseries d) ->
  neqb kk nzero = true -> fastSelectionFunctionIdx p d (CorrelationIterator kk n) = (it, Ok tt) ->
  selection it = seq 0 (length (normalised_timeseries d) - 1).
Proof. exact (@fast_zero A (arith_laws A HA) (arith_laws2 A HA) p d kk n it). Qed.
Print Assumptions C41_fast_zero_selection.

Example C40_C41_case : increasing (normalised_timeseries example_ds) /\
  selection (fst (fastSelectionFunctionIdx gcc example_ds (CorrelationIterator (fl (-3)) 1))) = [0; 1; 2; 3] /\
  selection (fst (fastSelectionFunctionIdx gcc example_ds (CorrelationIterator (fl 0) 1))) = [0; 1; 2].
Proof. split; [exact (proj2 C10_case)|]. split; vm_compute; reflexivity. Qed.
