(** Affine changes of the values, in exact arithmetic. *)
From Coq Require Import String.
From Coq Require Import ZArith Reals List Bool Arith Lia Lra.
From Flocq Require Import Core.
From Verif Require Import Num Mem MemFacts XR B64 Spec SpecR DataStructure DSFacts Correlator Sacf Api CorrFacts LoopFacts MainFacts
  Laws Laws2 ConstrFacts SelFacts SelThms FastFacts TimeFacts WeightFacts ValFacts ExactFacts StateFacts RelFacts.
Import ListNotations.
Local Open Scope list_scope.
Local Open Scope R_scope.

(** ** Scaling by a positive number *)
Lemma pos_zero c x : 0 < c -> c * x = 0 -> x = 0.
Proof. intros Hc H. apply Rmult_integral in H. destruct H; lra. Qed.
Lemma inf_scale neg c r : 0 < c -> xinf_sign neg (c * r) = xinf_sign neg r.
Proof.
  intros Hc. unfold xinf_sign, Reqb, Rltb.
  destruct (Req_EM_T (c * r) 0) as [E|E], (Req_EM_T r 0) as [F|F]; try reflexivity.
  - elim F. exact (pos_zero c r Hc E).
  - elim E. rewrite F. ring.
  - assert (K : c * r < 0 <-> r < 0) by (split; intros; nra).
    destruct (Rlt_dec (c * r) 0), (Rlt_dec r 0); try reflexivity; tauto.
Qed.
Lemma inf_pos neg c : 0 < c -> xinf_sign neg c = if neg then NInf else PInf.
Proof.
  intros Hc. unfold xinf_sign, Reqb, Rltb. destruct (Req_EM_T c 0); [lra|]. destruct (Rlt_dec c 0); [lra|]. destruct neg; reflexivity.
Qed.

Definition sc (c : R) (x : xr) : xr := xmul (Fin c) x.

Lemma sc_add c x y : 0 < c -> sc c (xadd x y) = xadd (sc c x) (sc c y).
Proof.
  intros Hc. unfold sc. destruct x, y; cbn [xadd xmul]; rewrite ?(inf_pos _ c Hc); try reflexivity. f_equal. ring.
Qed.

(** ** multiplication is commutative and associative *)
Lemma xmul_comm x y : xmul x y = xmul y x.
Proof. destruct x, y; cbn; try reflexivity. f_equal. ring. Qed.

Lemma inf_mul neg x y : xmul (xinf_sign neg x) (Fin y) = xinf_sign neg (x * y).
Proof.
  unfold xinf_sign, Reqb, Rltb.
  destruct (Req_EM_T x 0) as [E|E]; [subst x; rewrite Rmult_0_l; destruct (Req_EM_T 0 0); [reflexivity|congruence]|].
  destruct (Req_EM_T (x * y) 0) as [F|F].
  - apply Rmult_integral in F. destruct F as [F|F]; [congruence|]. subst y.
    destruct (Rlt_dec x 0); destruct neg; cbn; unfold xinf_sign, Reqb; destruct (Req_EM_T 0 0); congruence.
  - assert (Hy : y <> 0) by (intros ->; apply F; ring).
    destruct (Rlt_dec x 0) as [G|G], (Rlt_dec (x * y) 0) as [H|H]; destruct neg; cbn;
      unfold xinf_sign, Reqb, Rltb; destruct (Req_EM_T y 0); try congruence;
      destruct (Rlt_dec y 0); cbn; try reflexivity; exfalso; assert (0 < x \/ x < 0) by lra; assert (0 < y \/ y < 0) by lra; nra.
Qed.

Definition inf_of (neg : bool) : xr := if neg then NInf else PInf.
Lemma inf_inf n m x : xmul (xinf_sign n x) (inf_of m) = xinf_sign (xorb n m) x.
Proof. unfold xinf_sign. destruct (Reqb x 0); [reflexivity|]. destruct n, m, (Rltb x 0); reflexivity. Qed.
Lemma mul_Fin_inf x n : xmul (Fin x) (inf_of n) = xinf_sign n x.
Proof. destruct n; reflexivity. Qed.
Lemma mul_inf_Fin x n : xmul (inf_of n) (Fin x) = xinf_sign n x.
Proof. destruct n; reflexivity. Qed.
Lemma mul_inf_inf n m : xmul (inf_of n) (inf_of m) = inf_of (xorb n m).
Proof. destruct n, m; reflexivity. Qed.

Lemma mul_Fin_Fin x y : xmul (Fin x) (Fin y) = Fin (x * y).
Proof. reflexivity. Qed.
Lemma inf_mul_r neg x y : xmul (Fin y) (xinf_sign neg x) = xinf_sign neg (x * y).
Proof. rewrite xmul_comm. apply inf_mul. Qed.
Lemma inf_inf_r n m x : xmul (inf_of m) (xinf_sign n x) = xinf_sign (xorb n m) x.
Proof. rewrite xmul_comm. apply inf_inf. Qed.

Lemma xr_ind4 (P : xr -> Prop) : P NaN -> (forall r, P (Fin r)) -> (forall n, P (inf_of n)) -> forall x, P x.
Proof. intros H1 H2 H3 [r| | |]; [apply H2|apply (H3 false)|apply (H3 true)|exact H1]. Qed.
Lemma xmul_NaN_r x : xmul x NaN = NaN.
Proof. destruct x; reflexivity. Qed.
Lemma xmul_NaN_l x : xmul NaN x = NaN.
Proof. reflexivity. Qed.

Lemma xmul_assoc x y z : xmul (xmul x y) z = xmul x (xmul y z).
Proof.
  induction x as [|x|nx] using xr_ind4; [reflexivity| |];
  (induction y as [|y|ny] using xr_ind4; [rewrite ?xmul_NaN_r; reflexivity| |]);
  (induction z as [|z|nz] using xr_ind4; [rewrite !xmul_NaN_r; reflexivity| |]);
  repeat (rewrite ?mul_inf_inf, ?mul_Fin_inf, ?mul_inf_Fin, ?mul_Fin_Fin, ?inf_mul, ?inf_inf, ?inf_mul_r, ?inf_inf_r);
  try reflexivity; f_equal; try ring; try (destruct nx, ny; reflexivity); try (destruct ny, nz; reflexivity); try (destruct nx, nz; reflexivity);
  destruct nx, ny, nz; reflexivity.
Qed.

Lemma sc_r u a v : xmul u (sc a v) = sc a (xmul u v).
Proof. unfold sc. rewrite <- xmul_assoc, (xmul_comm u), xmul_assoc. reflexivity. Qed.
Lemma sc_l a u v : xmul (sc a u) v = sc a (xmul u v).
Proof. apply xmul_assoc. Qed.
Lemma sc_sc a b v : sc a (sc b v) = sc (a * b) v.
Proof. unfold sc. rewrite <- xmul_assoc. reflexivity. Qed.
Lemma mul_both w x y a : xmul (xmul w (sc a x)) (sc a y) = sc (a * a) (xmul (xmul w x) y).
Proof. rewrite !sc_r, sc_l, sc_sc. reflexivity. Qed.

(** ** scaling the sum of products and its quotient *)
Lemma sc_zero c : sc c (@nzero XR) = @nzero XR.
Proof. cbn. f_equal. ring. Qed.

Lemma pair_sum_scale a xs i sidx ws acc : a <> 0 ->
  pair_sum (A := XR) (map (sc a) xs) i sidx ws (sc (a * a) acc) = sc (a * a) (pair_sum (A := XR) xs i sidx ws acc).
Proof.
  intros Ha. assert (Hc : 0 < a * a) by (apply Rlt_0_sqr; exact Ha).
  revert i ws acc. induction sidx as [|s sidx IH]; intros i ws acc; [reflexivity|].
  destruct ws as [|w ws]; [reflexivity|]. cbn [pair_sum]. rewrite <- IH. f_equal.
  rewrite <- (sc_zero a) at 1 2. rewrite !map_nth. cbn [nadd nmul XR]. rewrite mul_both. symmetry. apply sc_add. exact Hc.
Qed.

Lemma quotient_scale c s N : 0 < c -> xmul (sc c s) (xdiv (Fin 1) (Fin (c * N))) = xmul s (xdiv (Fin 1) (Fin N)).
Proof.
  intros Hc. rewrite sc_l, <- sc_r. f_equal. cbn [xdiv]. unfold Reqb.
  destruct (Req_EM_T (c * N) 0) as [E|E], (Req_EM_T N 0) as [F|F].
  - rewrite inf_pos by lra. unfold sc. cbn. apply inf_pos. exact Hc.
  - elim F. exact (pos_zero c N Hc E).
  - elim E. rewrite F. ring.
  - unfold sc. cbn. f_equal. field. split; [exact F|lra].
Qed.

(** ** affine image of a row *)
Definition affine (a b : R) (row : list (option R)) : list (option R) := map (option_map (fun v => a * v + b)) row.

Lemma present_affine a b row : present (affine a b row) = map (fun v => a * v + b) (present row).
Proof. induction row as [|[v|] row IH]; cbn; [reflexivity| |]; [f_equal|]; exact IH. Qed.

Lemma rsum_affine a b l : rsum (map (fun v => a * v + b) l) = a * rsum l + INR (length l) * b.
Proof.
  induction l as [|x l IH]; [cbn; ring|]. cbn [map length]. rewrite S_INR.
  change (rsum (a * x + b :: map (fun v => a * v + b) l)) with (a * x + b + rsum (map (fun v => a * v + b) l)).
  change (rsum (x :: l)) with (x + rsum l). rewrite IH. ring.
Qed.

Lemma rmean_affine a b l : l <> [] -> rmean (map (fun v => a * v + b) l) = a * rmean l + b.
Proof.
  intros H. unfold rmean. rewrite rsum_affine, map_length. field.
  destruct l as [|x l]; [congruence|]. apply not_0_INR. discriminate.
Qed.

Lemma mean_missing row : present row = [] -> mean (A := XR) (map cell row) = NaN.
Proof.
  intros H. unfold mean. rewrite valid_cells, H. cbn. unfold xinf_sign, Reqb. destruct (Req_EM_T 0 0); [reflexivity|congruence].
Qed.

Lemma centred_affine a b row : centred (A := XR) (map cell (affine a b row)) = map (sc a) (centred (A := XR) (map cell row)).
Proof.
  unfold centred. set (m' := mean (A := XR) (map cell (affine a b row))). set (m := mean (A := XR) (map cell row)).
  unfold affine. rewrite !map_map. apply map_ext. intros o. unfold m', m. clear m' m.
  destruct (present row) as [|x l] eqn:E.
  - rewrite (mean_missing row E). rewrite mean_missing by (rewrite present_affine, E; reflexivity). destruct o; reflexivity.
  - assert (Hn : present row <> []) by (rewrite E; discriminate).
    rewrite !mean_exact by (rewrite ?present_affine, E; discriminate). rewrite present_affine, rmean_affine by exact Hn.
    destruct o as [v|]; [|reflexivity]. cbn. f_equal. ring.
Qed.

Lemma norm_affine a b row : Forall single (present row) -> Forall single (map (fun v => a * v + b) (present row)) ->
  exists N, norm_of (A := XR) (map cell row) = Fin N /\ norm_of (A := XR) (map cell (affine a b row)) = Fin (a * a * N).
Proof.
  intros H1 H2. rewrite !norm_of_sum_sq. unfold sum_sq32. rewrite !valid_cells, present_affine.
  destruct (present row) as [|x l] eqn:E.
  - exists 0. cbn. split; [reflexivity|]. f_equal. ring.
  - rewrite !mean_exact by (rewrite ?present_affine, E; discriminate). rewrite present_affine, rmean_affine, E by (rewrite E; discriminate).
    exists (sq_dev (x :: l)). rewrite !map_map. set (m := rmean (x :: l)).
    assert (K : forall (l' : list R) (g : R -> R), (forall v, In v l' -> f32R (g v) = g v) -> forall m',
      map (fun v => @nmul XR (@nsub XR (@nf32 XR (Fin (g v))) (Fin m')) (@nsub XR (@nf32 XR (Fin (g v))) (Fin m'))) l' =
      map Fin (map (fun v => (g v - m') * (g v - m')) l')).
    { intros l' g Hg m'. rewrite map_map. apply map_ext_in. intros v Hv. cbn. rewrite (Hg v Hv). reflexivity. }
    split.
    + rewrite (K (x :: l) (fun v => v)), sum_Fin; [reflexivity|]. rewrite Forall_forall in H1. exact H1.
    + rewrite (K (x :: l) (fun v => a * v + b)), sum_Fin.
      * f_equal. unfold sq_dev. fold m.
        rewrite (map_ext _ (fun v => a * a * ((v - m) * (v - m)))) by (intros; ring).
        rewrite !rsum_list. apply rsum_n_scal.
      * intros v Hv. rewrite Forall_forall in H2. apply H2. apply in_map_iff. exists v. split; [reflexivity|exact Hv].
Qed.

Lemma corr_value_affine a b row sidx ws : a <> 0 ->
  Forall single (present row) -> Forall single (map (fun v => a * v + b) (present row)) ->
  corr_value (A := XR) (centred (A := XR) (map cell (affine a b row))) sidx ws (norm_of (A := XR) (map cell (affine a b row))) =
  corr_value (A := XR) (centred (A := XR) (map cell row)) sidx ws (norm_of (A := XR) (map cell row)).
Proof.
  intros Ha H1 H2. destruct (norm_affine a b row H1 H2) as [N [-> ->]]. rewrite centred_affine. unfold corr_value.
  rewrite <- (sc_zero (a * a)), pair_sum_scale by exact Ha. rewrite sc_zero. apply quotient_scale. apply Rlt_0_sqr. exact Ha.
Qed.

(** ** calls *)
Lemma acf_core_forms {A : Num} p ts mi ma re al sel wgt g Fs : acf_core p ts mi ma re al sel wgt = Ok (g, Fs) ->
  Forall (fun F : row_fun => exists sidx ws, forall row, F row = corr_value (centred row) sidx ws (norm_of row)) Fs.
Proof.
  intros E. unfold acf_core in E. apply bind_Ok in E. destruct E as [n [_ E]]. cbv zeta in E.
  set (L := fst _) in E. set (f := named_acf _ _ _ _ _) in E.
  assert (K : exists Fs0, run_room f L n = Ok Fs0 /\ Fs0 = Fs).
  { destruct L, (String.eqb sel "natural" && String.eqb wgt "fractional"); try discriminate;
      apply bind_Ok in E; destruct E as [Fs0 [E1 E2]]; injection E2 as _ <-; eauto. }
  destruct K as [Fs0 [K ->]]. apply run_room_mapM in K. clear E. revert Fs K. induction L as [|kk L IH]; intros Fs K; cbn in K.
  - injection K as <-. constructor.
  - apply bind_Ok in K. destruct K as [F [K1 K]]. apply bind_Ok in K. destruct K as [Fs' [K2 K3]]. injection K3 as <-.
    constructor; [|apply IH; exact K2]. unfold f, named_acf in K1. destruct (sel_named sel) as [sf|]; [|discriminate].
    destruct (weight_named wgt _) as [w|].
    + unfold acf_at in K1. apply bind_Ok in K1. destruct K1 as [sS [_ K1]]. apply bind_Ok in K1. destruct K1 as [dts [_ K1]].
      injection K1 as <-. eauto.
    + apply bind_Ok in K1. destruct K1 as [sS [_ K1]]. apply bind_Ok in K1. destruct K1 as [dts [_ K1]]. discriminate.
Qed.

Lemma affine_call p (d d' : @dstruct XR) rows rows' mi ma re al sel wgt j row a b :
  accepted d -> accepted d' -> timeseries d = timeseries d' -> data_2d d = Ok rows -> data_2d d' = Ok rows' ->
  nth_error rows j = Some (map cell row) -> nth_error rows' j = Some (map cell (affine a b row)) ->
  a <> 0 -> Forall single (present row) -> Forall single (present (affine a b row)) ->
  same_outcome (fun x y => fst x = fst y /\
      exists out, nth_error (rows_of (snd x)) j = Some out /\ nth_error (rows_of (snd y)) j = Some out)
    (visible (autocorrelation (A := XR) p d mi ma re al sel wgt)) (visible (autocorrelation (A := XR) p d' mi ma re al sel wgt)).
Proof.
  intros Ha Ha' Ht Hr Hr' Hj Hj' Hnz H1 H2. rewrite present_affine in H2.
  destruct (accepted_values d Ha) as [ts [data [er [N [-> [G1 [G2 [G3 G4]]]]]]]].
  destruct (accepted_values d' Ha') as [ts' [data' [er' [N' [-> [G1' [G2' [G3' G4']]]]]]]].
  cbn in Ht. subst ts'. rewrite Hr in G4. injection G4 as ->. rewrite Hr' in G4'. injection G4' as ->.
  rewrite !visible_core by assumption.
  destruct (acf_core (A := XR) p ts mi ma re al sel wgt) as [[g Fs]|e|u|] eqn:E; cbn [bind same_outcome fst snd]; auto.
  split; [reflexivity|]. exists (map (fun F => F (map cell row)) Fs).
  rewrite !rows_of_pack by (intros E'; apply map_eq_nil in E'; revert E'; apply recut_nil; assumption).
  rewrite !nth_error_map. change (@num XR) with xr in *. rewrite Hj, Hj'. split; [reflexivity|]. cbn [option_map]. f_equal.
  apply map_ext_in. intros F HF. pose proof (@acf_core_forms XR p ts mi ma re al sel wgt g Fs E) as K. rewrite Forall_forall in K.
  destruct (K F HF) as [sidx [ws Q]]. rewrite !Q. apply corr_value_affine; assumption.
Qed.
