(** Theorems: positional and keyword arguments of SACF() and autocorrelation(), function names and return_correlator of any type (C92). *)
From Coq Require Import String.
From Coq Require Import ZArith List Bool Arith Ascii Lia Permutation.
From Flocq Require Import Core BinarySingleNaN.
From Verif Require Import Num Mem B64 Spec DataStructure Correlator Sacf FileReader PyBind PyCall SpecPy SpecCall Api Examples FileExamples PyCallFacts
  Props01_Construction.
Import ListNotations.
Local Open Scope list_scope.

(** ** C92 *)
(** in a proper call every parameter has exactly one value, *)
Theorem C92_one_value {A : Num} (pos : list (@pyval A)) (kws : list (string * @pyval A)) (x : string) :
  (well_called SACF_parameters pos kws -> In x (map fst (@SACF_parameters A)) -> exists! v, receives SACF_parameters pos kws x v) /\
  (well_called autocorrelation_parameters pos kws -> In x (map fst (@autocorrelation_parameters A)) -> exists! v, receives autocorrelation_parameters pos kws x v).
Proof. split; intros W; [exact (receives_one _ pos kws x sig_SACF_nodup W)|exact (receives_one _ pos kws x sig_auto_nodup W)]. Qed.
Print Assumptions C92_one_value.

(** and the result is determined by these values *)
Theorem C92_SACF {A : Num} {D : Dec A} open_file (pos : list pyval) (kws : list (string * pyval)) (t v e f : pyval) :
  well_called SACF_parameters pos kws ->
  receives SACF_parameters pos kws "timeseries" t -> receives SACF_parameters pos kws "values" v ->
  receives SACF_parameters pos kws "errors" e -> receives SACF_parameters pos kws "filename" f ->
  call_SACF open_file pos kws = py_SACF open_file t v e f.
Proof. exact (SACF_values open_file pos kws t v e f). Qed.
Print Assumptions C92_SACF.

(** the correlator is the third element of the tuple if return_correlator is true *)
Theorem C92_autocorrelation {A : Num} hashable (p : platform) (d : dstruct) (pos : list pyval) (kws : list (string * pyval))
  (mi ma re al rc : pyval) (x1 x2 x3 x4 : option num) (sel wgt : string) (b : bool) :
  let R := receives autocorrelation_parameters pos kws in
  well_called autocorrelation_parameters pos kws ->
  R "min_lag"%string mi -> R "max_lag"%string ma -> R "lag_resolution"%string re -> R "alpha"%string al ->
  R "selection_function"%string (PyStr (list_ascii_of_string sel)) -> R "weight_function"%string (PyStr (list_ascii_of_string wgt)) ->
  R "return_correlator"%string rc ->
  optional mi x1 -> optional ma x2 -> optional re x3 -> optional al x4 -> truth_value rc b ->
  call_autocorrelation hashable p d pos kws =
  match autocorrelation p d x1 x2 x3 x4 sel wgt with
  | Ok (lags, corr, c) => Ok (if b then Triple lags corr c else Pair lags corr)
  | Throw x => Throw x
  | UB u => UB u
  | Diverge => Diverge
  end.
Proof.
  intros R W H1 H2 H3 H4 H5 H6 H7 O1 O2 O3 O4 T. unfold R in *.
  rewrite (call_named hashable p d pos kws mi ma re al x1 x2 x3 x4 sel wgt rc b W H1 H2 H3 H4 H5 H6 H7 O1 O2 O3 O4 T).
  destruct (autocorrelation p d x1 x2 x3 x4 sel wgt) as [[[? ?] ?]| | |]; reflexivity.
Qed.
Print Assumptions C92_autocorrelation.

(** an array of several elements as return_correlator: ValueError, after the calculation *)
Theorem C92_ambiguous {A : Num} hashable (p : platform) (d : dstruct) (pos : list pyval) (kws : list (string * pyval))
  (mi ma re al u v : pyval) (l : list pyval) (x1 x2 x3 x4 : option num) (sel wgt : string) r :
  let R := receives autocorrelation_parameters pos kws in
  well_called autocorrelation_parameters pos kws ->
  R "min_lag"%string mi -> R "max_lag"%string ma -> R "lag_resolution"%string re -> R "alpha"%string al ->
  R "selection_function"%string (PyStr (list_ascii_of_string sel)) -> R "weight_function"%string (PyStr (list_ascii_of_string wgt)) ->
  R "return_correlator"%string (PyArray (u :: v :: l)) ->
  optional mi x1 -> optional ma x2 -> optional re x3 -> optional al x4 -> autocorrelation p d x1 x2 x3 x4 sel wgt = Ok r ->
  call_autocorrelation hashable p d pos kws = Throw PyValueError.
Proof. exact (call_ambiguous hashable p d pos kws mi ma re al x1 x2 x3 x4 sel wgt u v l r). Qed.
Print Assumptions C92_ambiguous.

(** too many arguments, an unknown keyword, or two values for a parameter: TypeError *)
Theorem C92_bad_call {A : Num} {D : Dec A} open_file hashable (p : platform) (d : dstruct) (pos : list pyval) (kws : list (string * pyval)) :
  (~ well_called SACF_parameters pos kws -> call_SACF open_file pos kws = Throw PyTypeError) /\
  (~ well_called autocorrelation_parameters pos kws -> call_autocorrelation hashable p d pos kws = Throw PyTypeError).
Proof.
  split; intros H.
  - destruct (call_SACF_spec open_file pos kws) as [[W _]|[_ E]]; [contradiction|exact E].
  - destruct (call_auto_spec hashable p d pos kws) as [[W _]|[_ E]]; [contradiction|exact E].
Qed.
Print Assumptions C92_bad_call.

(** the order of the keywords does not matter *)
Theorem C92_order {A : Num} {D : Dec A} open_file hashable (p : platform) (d : dstruct) (pos : list pyval) (kws kws' : list (string * pyval)) :
  Permutation kws kws' ->
  call_SACF open_file pos kws = call_SACF open_file pos kws' /\
  call_autocorrelation hashable p d pos kws = call_autocorrelation hashable p d pos kws'.
Proof.
  intros H. unfold call_SACF, call_autocorrelation. rewrite (bind_permuted sig_SACF pos kws kws' sig_SACF_nodup H), (bind_permuted sig_autocorrelation pos kws kws' sig_auto_nodup H). auto.
Qed.
Print Assumptions C92_order.

(** nor does it matter whether the last argument given by position is given by name *)
Theorem C92_position_or_name {A : Num} {D : Dec A} open_file hashable (p : platform) (d : dstruct) (pos : list pyval) (kws : list (string * pyval)) (x : string) (v : pyval) :
  (nth_error (map fst (@SACF_parameters A)) (length pos) = Some x ->
     call_SACF open_file (pos ++ [v]) kws = call_SACF open_file pos ((x, v) :: kws)) /\
  (nth_error (map fst (@autocorrelation_parameters A)) (length pos) = Some x ->
     call_autocorrelation hashable p d (pos ++ [v]) kws = call_autocorrelation hashable p d pos ((x, v) :: kws)).
Proof.
  split; intros H.
  - unfold call_SACF. change sig_SACF with (@SACF_parameters A). rewrite (bind_last SACF_parameters pos kws x v sig_SACF_nodup H). reflexivity.
  - unfold call_autocorrelation. change sig_autocorrelation with (@autocorrelation_parameters A). rewrite (bind_last autocorrelation_parameters pos kws x v sig_auto_nodup H). reflexivity.
Qed.
Print Assumptions C92_position_or_name.

(** or whether a default is written out *)
Theorem C92_default {A : Num} {D : Dec A} open_file hashable (p : platform) (d : dstruct) (pos : list pyval) (kws : list (string * pyval)) (i : nat) (x : string) (v : pyval) :
  length pos <= i -> ~ In x (map fst kws) ->
  (nth_error (@SACF_parameters A) i = Some (x, v) -> call_SACF open_file pos ((x, v) :: kws) = call_SACF open_file pos kws) /\
  (nth_error (@autocorrelation_parameters A) i = Some (x, v) -> call_autocorrelation hashable p d pos ((x, v) :: kws) = call_autocorrelation hashable p d pos kws).
Proof.
  intros Hp Hx. split; intros H.
  - unfold call_SACF. change sig_SACF with (@SACF_parameters A). rewrite (bind_default SACF_parameters pos kws i x v sig_SACF_nodup H Hp Hx). reflexivity.
  - unfold call_autocorrelation. change sig_autocorrelation with (@autocorrelation_parameters A). rewrite (bind_default autocorrelation_parameters pos kws i x v sig_auto_nodup H Hp Hx). reflexivity.
Qed.
Print Assumptions C92_default.

(** anything but the str names of the functions: never a result *)
Theorem C92_not_a_name {A : Num} hashable (p : platform) (d : dstruct) (pos : list pyval) (kws : list (string * pyval)) (sel wgt : pyval) r :
  let R := receives autocorrelation_parameters pos kws in
  well_called autocorrelation_parameters pos kws -> R "selection_function"%string sel -> R "weight_function"%string wgt ->
  (~ is_str sel "natural" /\ ~ is_str sel "fast") \/ (~ is_str wgt "gaussian" /\ ~ is_str wgt "fractional" /\ ~ is_str wgt "fractional_squared") ->
  call_autocorrelation hashable p d pos kws <> Ok r.
Proof. exact (call_bad_name hashable p d pos kws sel wgt r). Qed.
Print Assumptions C92_not_a_name.

(** for the selection function KeyError or TypeError; KeyError for None, numbers and strings *)
Theorem C92_selection_object {A : Num} hashable (p : platform) (d : dstruct) (c0 : correlator) (pos : list pyval) (kws : list (string * pyval))
  (mi ma re al sel : pyval) (x1 x2 x3 x4 : option num) :
  let R := receives autocorrelation_parameters pos kws in
  well_called autocorrelation_parameters pos kws ->
  R "min_lag"%string mi -> R "max_lag"%string ma -> R "lag_resolution"%string re -> R "alpha"%string al -> R "selection_function"%string sel ->
  optional mi x1 -> optional ma x2 -> optional re x3 -> optional al x4 -> new_Correlator d = Ok c0 ->
  ~ is_str sel "natural" -> ~ is_str sel "fast" -> nle (opt_or x1 (min_lag c0)) (opt_or x2 (max_lag c0)) = true ->
  (call_autocorrelation hashable p d pos kws = Throw PyKeyError \/ call_autocorrelation hashable p d pos kws = Throw PyTypeError) /\
  (sel = PyNone \/ (exists x, sel = PyFloat x) \/ (exists z, sel = PyInt z) \/ (exists s, sel = PyStr s) \/ (exists s, sel = PyBytes s) ->
   call_autocorrelation hashable p d pos kws = Throw PyKeyError).
Proof.
  intros R W H1 H2 H3 H4 H5 O1 O2 O3 O4 Hn N1 N2 Hle. unfold R in *.
  rewrite (call_bad_selection hashable p d c0 pos kws mi ma re al x1 x2 x3 x4 sel W H1 H2 H3 H4 H5 O1 O2 O3 O4 Hn N1 N2 Hle). split.
  - destruct (bad_key_exn hashable sel) as [->| ->]; auto.
  - intros [->|[[x ->]|[[z ->]|[[s ->]|[s ->]]]]]; reflexivity.
Qed.
Print Assumptions C92_selection_object.

(** sacf.autocorrelation(-2, alpha=3, return_correlator=True, selection_function="natural", max_lag=2) and wrong calls *)
Section Cases.
Let P := @autocorrelation_parameters BB.
Let pos : list (@pyval BB) := [PyInt (-2)].
Let kws : list (string * @pyval BB) := [("alpha", PyInt 3); ("return_correlator", PyInt 1); ("selection_function", PyStr (txt "natural")); ("max_lag", PyFloat (fl 2))]%string.
Let R := receives P pos kws.

Example C92_case : well_called P pos kws /\ R "min_lag"%string (PyInt (-2)) /\ R "max_lag"%string (PyFloat (fl 2)) /\ R "lag_resolution"%string PyNone /\
  R "alpha"%string (PyInt 3) /\ R "selection_function"%string (PyStr (list_ascii_of_string "natural")) /\
  R "weight_function"%string (PyStr (list_ascii_of_string "fractional")) /\ R "return_correlator"%string (PyInt 1) /\
  optional (PyInt (-2)) (Some (fl (-2))) /\ optional (A := BB) PyNone None /\ truth_value (A := BB) (PyInt 1) true /\
  ok_with (call_autocorrelation (fun _ => true) gcc example_ds pos kws) (fun r =>
    match r with Triple lags _ c => sames lags (map half [-4; -3; -2; -1; 0; 1; 2; 3; 4]%Z) && same (alpha c) (fl 3) | Pair _ _ => false end) = true.
Proof.
  split.
  { split; [cbn; lia|]. split; [repeat constructor; cbn; intuition discriminate|].
    intros x Hx. cbn in Hx. destruct Hx as [<-|[<-|[<-|[<-|[]]]]]; [exists 3|exists 6|exists 4|exists 1]; (split; [cbn; lia|reflexivity]). }
  split; [apply (by_position _ _ _ _ _ 0); reflexivity|]. split; [apply by_keyword; cbn; tauto|].
  split; [apply (by_default _ _ _ _ _ 2); [reflexivity|cbn; lia|cbn; intuition discriminate]|].
  split; [apply by_keyword; cbn; tauto|]. split; [apply by_keyword; cbn; tauto|].
  split; [apply (by_default _ _ _ _ _ 5); [reflexivity|cbn; lia|cbn; intuition discriminate]|].
  split; [apply by_keyword; cbn; tauto|].
  split; [repeat constructor; vm_compute; discriminate|]. split; [constructor|]. split; [apply (truth_int 1)|]. vm_compute. reflexivity.
Qed.

(** SACF(times, values, filename=None); an unknown keyword, a parameter given twice, too many arguments; None as function name *)
Example C92_case_SACF : let T := PySeq [PyInt 0; PyInt 1] in let V := PySeq [PyInt 5; PyInt 7] in
  well_called (@SACF_parameters BB) [T; V] [("filename", PyNone)]%string /\
  receives (@SACF_parameters BB) [T; V] [("filename", PyNone)]%string "errors" PyNone /\
  ~ well_called (@SACF_parameters BB) [T; V] [("error", V)]%string /\ ~ well_called (@SACF_parameters BB) [T; V] [("values", V)]%string /\
  ~ well_called (@SACF_parameters BB) [T; V; V; V; V] [] /\
  well_called P [] [("selection_function", PyNone)]%string /\ receives P [] [("selection_function", PyNone)]%string "selection_function" PyNone /\
  ~ is_str (@PyNone BB) "natural" /\ ~ is_str (@PyNone BB) "fast".
Proof.
  intros T V. split.
  { split; [cbn; lia|]. split; [repeat constructor; cbn; intuition discriminate|]. intros x [<-|[]]. exists 3. split; [cbn; lia|reflexivity]. }
  split; [apply (by_default _ _ _ _ _ 2); [reflexivity|cbn; lia|cbn; intuition discriminate]|].
  split; [intros [_ [_ H]]; destruct (H "error"%string (or_introl eq_refl)) as [i [_ Hi]]; apply nth_error_In in Hi; cbn in Hi; intuition discriminate|].
  split; [intros [_ [_ H]]; destruct (H "values"%string (or_introl eq_refl)) as [i [G Hi]]; cbn in G; destruct i as [|[|[|[|[|i]]]]]; cbn in Hi; try discriminate; lia|].
  split; [intros [H _]; cbn in H; lia|].
  split; [split; [cbn; lia|]; split; [repeat constructor; cbn; tauto|]; intros x [<-|[]]; exists 4; split; [cbn; lia|reflexivity]|].
  split; [apply by_keyword; left; reflexivity|]. split; discriminate.
Qed.
End Cases.
