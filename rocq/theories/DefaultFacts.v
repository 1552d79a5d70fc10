(** The default lag grid fits into the result buffers. *)
From Coq Require Import String.
From Coq Require Import ZArith Reals List Bool Arith Lia Lra.
From Flocq Require Import Core BinarySingleNaN Relative Plus_error.
From Verif Require Import Num Mem MemFacts XR B64 Laws B64Facts Laws2 Spec SpecR DataStructure DSFacts Correlator Sacf Api
  CorrFacts LoopFacts MainFacts ConstrFacts SelFacts SelThms GridFacts SafeFacts.
Import ListNotations.
Local Open Scope list_scope.

Section First.
Context {A : Num}.

Lemma first_stop (a r b : num) m : (forall i, i <= m -> nle (steps a r i) b = true) \/ exists n, n <= m /\ stops_at a r b n.
Proof.
  induction m as [|m [IH|[n [Hn IH]]]].
  - destruct (nle a b) eqn:E; [left|right].
    + intros i Hi. replace i with 0 by lia. exact E.
    + exists 0. split; [lia|]. split; [lia|exact E].
  - destruct (nle (steps a r (S m)) b) eqn:E; [left|right].
    + intros i Hi. destruct (Nat.eq_dec i (S m)) as [->|]; [exact E|apply IH; lia].
    + exists (S m). split; [lia|]. split; [intros i Hi; apply IH; lia|exact E].
  - right. exists n. split; [lia|exact IH].
Qed.

Lemma stops_fits a r b m room : (~ forall i, i <= m -> nle (steps a r i) b = true) -> S m <= room ->
  exists g, lag_grid a r b g /\ length g <= room.
Proof.
  intros H Hm. destruct (first_stop a r b m) as [K|[n [Hn K]]]; [contradiction|].
  exists (with_zero (map (steps a r) (seq 0 n))). split; [exists n; auto|].
  pose proof (with_zero_length (map (steps a r) (seq 0 n))) as HL. rewrite map_length, seq_length in HL. lia.
Qed.

End First.

Local Open Scope R_scope.

(** ** exact arithmetic *)
Lemma steps_exact a r n : steps (A := XR) (Fin a) (Fin r) n = Fin (a + INR n * r).
Proof.
  induction n as [|n IH]; [cbn; f_equal; ring|]. rewrite steps_next, IH. cbn [nadd XR xadd]. f_equal. rewrite S_INR. ring.
Qed.

Lemma default_fits_exact (d : @dstruct XR) c0 : accepted d -> times_ok d -> new_Correlator d = Ok c0 ->
  exists g, lag_grid (min_lag c0) (lag_resolution c0) (max_lag c0) g /\ (length g <= length (lag_timeseries c0))%nat.
Proof.
  intros Ha Ht Hn. destruct (times_ok_norm d Ha Ht) as [Ko [Kf [K0 Kp]]].
  destruct (default_lags d c0 Ha Hn) as [_ [Hb [Hm _]]]. destruct (back_In _ _ Hb) as [Bin Bnth].
  destruct (default_resolution d c0 Ha Ht Hn (dblmax_pos _ arith_exact)) as [R0 _].
  destruct (allotted d c0 Ha Hn) as [q [Hq Hroom]]. rewrite Hm in *.
  pose proof (Kp _ Bin) as Bp. pose proof (Kf _ Bin) as Bf.
  destruct (max_lag c0) as [B| | |]; try discriminate. destruct (lag_resolution c0) as [R| | |] eqn:ER; try discriminate.
  2: { cbn in Hq. discriminate || (injection Hq as <-). exfalso. revert ER Hn. clear -Ha. intros ER Hn.
       destruct (new_Correlator_accepted d c0 Ha Hn) as [ts [data [er [N [n [-> [_ [_ [_ [_ ->]]]]]]]]]]. cbn in ER.
       destruct (findMinDiff_loop_spec (rel_times ts) (@ndblmax XR) eq_refl) as [S1 _].
       fold (findMinDiff (rel_times ts)) in S1. rewrite ER in S1. discriminate. }
  cbn in Bp, R0. apply Rleb_true in Bp, R0.
  cbn [nsub nneg ndiv XR xsub xneg xadd xdiv nfloor] in Hq. rewrite Ropp_involutive in Hq.
  destruct (Reqb_spec R 0) as [E0|E0].
  { unfold xinf_sign in Hq. destruct (Reqb _ 0); [discriminate|]. destruct (xorb _ _); discriminate. }
  injection Hq as Hq. assert (Rp : 0 < R) by lra.
  assert (Q0 : (0 <= q)%Z). { subst q. apply Zfloor_lub. apply Rmult_le_pos; [lra|]. apply Rlt_le, Rinv_0_lt_compat. exact Rp. }
  apply (stops_fits _ _ _ (Z.to_nat (q + 1))); [|lia]. intros Hall. specialize (Hall _ (le_n _)).
  change (@nneg XR (Fin B)) with (Fin (- B)) in Hall. rewrite steps_exact in Hall. cbn in Hall. apply Rleb_true in Hall.
  rewrite INR_IZR_INZ, Z2Nat.id, plus_IZR in Hall by lia.
  pose proof (Zfloor_ub ((B + B) / R)) as Hub. rewrite Hq in Hub.
  apply (Rmult_lt_compat_r R) in Hub; [|exact Rp]. unfold Rdiv in Hub. rewrite Rmult_assoc, Rinv_l, Rmult_1_r in Hub by lra.
  lra.
Qed.

(** ** binary64 *)
Definition u64 : R := bpow radix2 (-53).

Lemma u64_val : u64 = / 9007199254740992.
Proof. unfold u64. cbn. f_equal. Qed.

Lemma u_ro_64 : u_ro radix2 53 = u64.
Proof. unfold u_ro, u64. change (-53 + 1)%Z with (1 + -53)%Z. rewrite bpow_plus. cbn [bpow]. cbn. field. Qed.

(** rounded sum: error relative to the result *)
Lemma plus_err (x y : b64) : exists e, Rabs e <= u64 /\ B2R x + B2R y = rnd (B2R x + B2R y) * (1 + e).
Proof.
  destruct (FLT_plus_error_N_round_ex radix2 (-1074) 53 (fun z => negb (Z.even z)) (B2R x) (B2R y)) as [e [He E]];
    [apply (generic_format_B2R 53 1024)..|]. rewrite u_ro_64 in He. exists e. split; [exact He|exact E].
Qed.

Lemma rndE_Fin r s : rndE (Fin r) = Fin s -> s = rnd r.
Proof. cbn. destruct (Rltb _ _); [congruence|]. destruct (Rltb _ _); discriminate. Qed.

Section B.
Variable exp64 : b64 -> b64.
Notation BN := (B64 exp64).

(** as long as the lags stay below [B] each step loses at most [u64 * B] *)
Lemma steps_drift (a r b : @num BN) (m : nat) B R :
  toE a = Fin (- B) -> toE b = Fin B -> toE r = Fin R -> 0 <= R -> 0 <= B ->
  (forall i, (i <= m)%nat -> nle (steps (A := BN) a r i) b = true) ->
  exists S, toE (steps (A := BN) a r m) = Fin S /\ - B <= S <= B /\ - B + INR m * R - INR m * (u64 * B) <= S.
Proof.
  intros Ea Eb Er R0 B0. induction m as [|m IH]; intros H.
  - exists (- B). split; [exact Ea|]. cbn [INR]. split; lra.
  - destruct IH as [S [ES [Sb SI]]]; [intros i Hi; apply H; lia|].
    pose proof (H (Datatypes.S m) (le_n _)) as Hm. rewrite steps_next in Hm |- *.
    set (s := steps (A := BN) a r m) in *. cbn [nle nadd B64] in *. rewrite Bleb_toE, toE_plus, ES, Er, Eb in Hm. rewrite toE_plus, ES, Er.
    cbn [xadd] in *. destruct (rndE (Fin (S + R))) as [S'| | |] eqn:ES'; try discriminate.
    + apply rndE_Fin in ES'. exists S'. split; [reflexivity|]. cbn in Hm. apply Rleb_true in Hm.
      destruct (toE_Fin s S ES) as [_ Fs]. destruct (toE_Fin r R Er) as [_ Fr].
      assert (Hge : S <= S'). { rewrite ES'. pose proof (rnd_fix s) as Fx. rewrite Fs in Fx. apply Rle_trans with (rnd S); [rewrite Fx; lra|apply rnd_le; lra]. }
      split; [lra|]. destruct (plus_err s r) as [e [He Ee]]. rewrite Fs, Fr, <- ES' in Ee.
      assert (He2 : S' * e <= B * u64).
      { apply Rle_trans with (Rabs (S' * e)); [apply Rle_abs|]. rewrite Rabs_mult. apply Rmult_le_compat; try apply Rabs_pos; [|exact He].
        apply Rabs_le. lra. }
      rewrite S_INR. lra.
    + exfalso. revert ES'. cbn [rndE]. destruct (Rltb_spec (Rabs (rnd (S + R))) big) as [K1|K1]; [discriminate|].
      destruct (Rltb_spec (S + R) 0) as [K|K]; [|discriminate]. intros _. apply K1. destruct (toE_Fin s S ES) as [_ Fs].
      assert (K2 : S <= rnd (S + R)). { pose proof (rnd_fix s) as Fx. rewrite Fs in Fx. apply Rle_trans with (rnd S); [rewrite Fx; lra|apply rnd_le; lra]. }
      assert (K3 : rnd (S + R) <= 0). { rewrite <- rnd_0. apply rnd_le. lra. }
      pose proof (abs_B2R_lt_emax 53 1024 s) as K4. rewrite Fs in K4. unfold big.
      rewrite Rabs_left1 by exact K3. rewrite Rabs_left1 in K4 by lra. lra.
Qed.

Lemma div_zero_floor (x y : b64) : toE y = Fin 0 -> b64_floor (Bdiv mode_NE x y) = None.
Proof.
  intros H. destruct (toE_Fin y 0 H) as [F E]. destruct y as [s|s| |s m e He]; try discriminate.
  - destruct x as [[|]|[|]| |[|] m e He], s; reflexivity.
  - exfalso. pose proof (B2R_finite_sign s m e He) as K. destruct s; lra.
Qed.

Lemma default_fits_b64 (d : @dstruct BN) c0 : accepted d -> times_ok d -> new_Correlator d = Ok c0 ->
  (Z.of_nat (length (lag_timeseries c0)) <= 100000000)%Z ->
  exists g, lag_grid (min_lag c0) (lag_resolution c0) (max_lag c0) g /\ (length g <= length (lag_timeseries c0))%nat.
Proof.
  intros Ha Ht Hn Hbig. destruct (times_ok_norm d Ha Ht) as [Ko [Kf [K0 Kp]]].
  destruct (default_lags d c0 Ha Hn) as [_ [Hb [Hm _]]]. destruct (back_In _ _ Hb) as [Bin Bnth].
  destruct (default_resolution d c0 Ha Ht Hn (dblmax_pos _ (arith_binary64 exp64))) as [R0 R1].
  destruct (allotted d c0 Ha Hn) as [q [Hq Hroom]]. rewrite Hm in *.
  pose proof (Kp _ Bin) as Bp. pose proof (Kf _ Bin) as Bf.
  assert (Rm : nle (lag_resolution c0) ndblmax = true).
  { destruct (new_Correlator_accepted d c0 Ha Hn) as [ts [data [er [N [n [-> [_ [_ [_ [_ ->]]]]]]]]]].
    apply (findMinDiff_loop_spec (rel_times ts) (@ndblmax BN) eq_refl). }
  set (b := max_lag c0) in *. set (r := lag_resolution c0) in *. clearbody b r.
  change (@num BN) with b64 in b, r.
  unfold nzero in Bp, R0. cbn [nle nofZ nsub nneg ndiv nfloor B64 ndblmax] in *. rewrite Bleb_toE in Bp, R0, Rm.
  rewrite fin_toE in Bf. change (toE (b64_ofZ 0)) with (Fin 0) in *.
  destruct (toE b) as [B| | |] eqn:EB; try discriminate.
  destruct (toE r) as [R| | |] eqn:ER; try discriminate.
  cbn in Bp, R0. apply Rleb_true in Bp, R0.
  destruct (Req_dec R 0) as [E0|E0]; [subst R; rewrite div_zero_floor in Hq by exact ER; discriminate|].
  assert (Rp : 0 < R) by lra. clear Rm R0 E0.
  rewrite b64_floor_E, toE_div, toE_minus, toE_opp, EB, ER in Hq by (rewrite ER; intros K; injection K; lra).
  cbn [xneg xsub xadd] in Hq. rewrite Ropp_involutive in Hq.
  destruct (rndE (Fin (B + B))) as [D| | |] eqn:ED.
  2, 3, 4: exfalso; revert Hq; cbn [xdiv]; try (destruct (Rltb R 0)); cbn [rndE]; discriminate.
  apply rndE_Fin in ED. cbn [xdiv] in Hq. destruct (Reqb_spec R 0) as [E0|_]; [lra|].
  destruct (rndE (Fin (D / R))) as [Q| | |] eqn:EQ; try discriminate. apply rndE_Fin in EQ. injection Hq as Hq.
  destruct (toE_Fin b B EB) as [_ Fb].
  assert (DB : B <= D). { rewrite ED. pose proof (rnd_fix b) as Fx. rewrite Fb in Fx. apply Rle_trans with (rnd B); [rewrite Fx; lra|apply rnd_le; lra]. }
  assert (Q0 : 0 <= Q). { rewrite EQ, <- rnd_0. apply rnd_le. apply Rmult_le_pos; [lra|apply Rlt_le, Rinv_0_lt_compat; exact Rp]. }
  assert (q0 : (0 <= q)%Z) by (subst q; apply Zfloor_lub; exact Q0).
  apply (stops_fits _ _ _ (Z.to_nat (q + 2))); [|lia]. intros Hall.
  destruct (steps_drift (Bopp b) r b (Z.to_nat (q + 2)) B R) as [S [_ [Sb SI]]];
    [rewrite toE_opp, EB; reflexivity|exact EB|exact ER|lra|exact Bp|exact Hall|].
  rewrite INR_IZR_INZ, Z2Nat.id in SI by lia.
  set (m := IZR (q + 2)) in *.
  assert (Hm2 : 2 <= m) by (apply IZR_le; lia). assert (Hmb : m <= 100000000) by (apply IZR_le; lia).
  assert (HQ : Q < m - 1). { unfold m. rewrite plus_IZR. pose proof (Zfloor_ub Q) as K. rewrite Hq in K. lra. }
  assert (Hineq : m * R <= 2 * B + m * u64 * B) by lra.
  pose proof u64_val as Eu.
  assert (Rle : R <= B).
  { destruct R1 as [R1|R1].
    - exfalso. rewrite R1 in Bnth. change (1 - 1)%nat with 0%nat in Bnth. rewrite K0 in Bnth. injection Bnth as Eb.
      rewrite <- Eb in EB. change (toE (b64_ofZ 0)) with (Fin 0) in EB. injection EB as EB. rewrite <- EB in Hineq.
      assert (0 < m * R) by (apply Rmult_lt_0_compat; lra). lra.
    - rewrite Bleb_toE, ER, EB in R1. apply Rleb_true in R1. exact R1. }
  assert (HB : 0 < B) by lra.
  (* relative errors of the allotted number *)
  destruct (plus_err b b) as [e1 [He1 E1]]. rewrite Fb, <- ED in E1.
  assert (E2 : Rabs (Q - D / R) <= u64 * Q).
  { pose proof (relative_error_N_FLT_round radix2 (-1074) 53 eq_refl (fun z => negb (Z.even z)) (D / R)) as K.
    change (round radix2 (FLT_exp (-1074) 53) ZnearestE (D / R)) with (rnd (D / R)) in K. rewrite <- EQ in K.
    rewrite (Rabs_pos_eq _ Q0) in K. eapply Rle_trans; [apply K|].
    - assert (1 <= D / R). { apply Rmult_le_reg_r with R; [exact Rp|]. unfold Rdiv. rewrite Rmult_assoc, Rinv_l by lra. lra. }
      rewrite Rabs_pos_eq by lra. apply Rle_trans with 1; [|assumption]. change 1 with (bpow radix2 0). apply bpow_le. lia.
    - apply Req_le. f_equal. rewrite <- u_ro_64. reflexivity. }
  assert (He1' : D * e1 <= D * u64). { apply Rmult_le_compat_l; [lra|]. apply Rle_trans with (Rabs e1); [apply Rle_abs|exact He1]. }
  assert (E2' : D <= R * (Q * (1 + u64))).
  { assert (D / R <= Q * (1 + u64)). { apply Rabs_def2b in E2 || apply Rabs_le_inv in E2. lra. }
    apply Rmult_le_reg_r with (/ R); [apply Rinv_0_lt_compat; exact Rp|].
    replace (R * (Q * (1 + u64)) * / R) with (Q * (1 + u64)) by (field; lra). exact H. }
  assert (H2B : 2 * B <= R * (Q * ((1 + u64) * (1 + u64)))).
  { apply Rle_trans with (D * (1 + u64)); [lra|].
    replace (R * (Q * ((1 + u64) * (1 + u64)))) with (R * (Q * (1 + u64)) * (1 + u64)) by ring.
    apply Rmult_le_compat_r; [rewrite Eu; lra|exact E2']. }
  assert (Hfin : m * R <= R * (Q * ((1 + u64) * (1 + u64)) * (1 + m * u64 / 2))).
  { apply Rle_trans with (2 * B * (1 + m * u64 / 2)); [apply Req_le_sym in Hineq || idtac; nra|].
    rewrite <- Rmult_assoc. apply Rmult_le_compat_r; [|exact H2B]. assert (0 <= m * u64) by (apply Rmult_le_pos; [lra|rewrite Eu; lra]). lra. }
  assert (Hlast : m <= Q * ((1 + u64) * (1 + u64)) * (1 + m * u64 / 2)).
  { apply Rmult_le_reg_l with R; [exact Rp|]. lra. }
  assert (Hu : 0 < u64) by (rewrite Eu; lra).
  assert (Hcon : (m - 1) * ((1 + u64) * (1 + u64)) * (1 + m * u64 / 2) < m).
  { assert (U1 : u64 <= / 8000000000000000) by (rewrite Eu; lra).
    assert (U2 : m * u64 <= / 80000000). { apply Rle_trans with (100000000 * u64); [apply Rmult_le_compat_r; lra|lra]. }
    assert (U3 : (1 + u64) * (1 + u64) <= 1 + 3 * u64) by nra.
    assert (U4 : 0 <= m * u64) by (apply Rmult_le_pos; lra).
    assert (U5 : (1 + u64) * (1 + u64) * (1 + m * u64 / 2) <= 1 + / 100000000).
    { apply Rle_trans with ((1 + 3 * u64) * (1 + m * u64 / 2)); [apply Rmult_le_compat_r; lra|].
      assert (3 * u64 * (m * u64 / 2) <= 3 * u64). { rewrite <- (Rmult_1_r (3 * u64)) at 2. apply Rmult_le_compat_l; lra. } lra. }
    replace ((m - 1) * ((1 + u64) * (1 + u64)) * (1 + m * u64 / 2)) with ((m - 1) * ((1 + u64) * (1 + u64) * (1 + m * u64 / 2))) by ring.
    apply Rle_lt_trans with ((m - 1) * (1 + / 100000000)); [|lra].
    apply Rmult_le_compat_l; [lra|]. exact U5. }
  assert (0 < (1 + u64) * (1 + u64) * (1 + m * u64 / 2)).
  { apply Rmult_lt_0_compat; [nra|]. assert (0 <= m * u64) by (apply Rmult_le_pos; lra). lra. }
  assert (Q * ((1 + u64) * (1 + u64) * (1 + m * u64 / 2)) <= (m - 1) * ((1 + u64) * (1 + u64) * (1 + m * u64 / 2))).
  { apply Rmult_le_compat_r; lra. }
  lra.
Qed.

End B.

(** ** Calls never read outside a vector, and only write outside when the grid is too long *)
Section Benign.
Context {A : Num}.

Definition benign {X} (r : res X) : Prop := r <> UB OobRead /\ r <> UB OobWrite.

Lemma benign_Ok {X} (x : X) : benign (Ok x).
Proof. split; discriminate. Qed.
Lemma benign_Throw {X} e : benign (Throw e : res X).
Proof. split; discriminate. Qed.
Lemma bind_benign {X Y} (r : res X) (f : X -> res Y) : benign r -> (forall x, r = Ok x -> benign (f x)) -> benign (bind r f).
Proof. intros [H1 H2] H. destruct r; cbn; [apply H; reflexivity|apply benign_Throw|split; congruence|split; discriminate]. Qed.
Lemma mapM_benign {X Y} (f : X -> res Y) l : (forall x, benign (f x)) -> benign (mapM f l).
Proof.
  intros H. induction l as [|x l IH]; cbn; [apply benign_Ok|].
  apply bind_benign; [apply H|]. intros. apply bind_benign; [exact IH|]. intros. apply benign_Ok.
Qed.
Lemma lat_benign {X} (l : list X) i : benign (lat l i).
Proof. unfold lat. destruct (nth_error l i); [apply benign_Ok|apply benign_Throw]. Qed.
Lemma cabs_benign p x : benign (cabs p x).
Proof. destruct (cabs_outcome p x) as [[y ->]| ->]; split; discriminate. Qed.
Lemma lower_bound_benign l v : benign (lower_bound l v).
Proof. destruct (lower_bound_split l v) as [i [-> _]]. apply benign_Ok. Qed.
Lemma lback_benign (nt : list num) : nt <> [] -> benign (lback nt).
Proof. intros H. rewrite (lback_ok nt nzero H). apply benign_Ok. Qed.

Lemma natural_sel_benign p nt kk : nt <> [] -> benign (natural_sel p nt kk).
Proof.
  intros H. unfold natural_sel. apply bind_benign; [apply lback_benign; exact H|]. intros.
  apply bind_benign; [|intros; apply benign_Ok]. apply mapM_benign. intros s. unfold natural_index.
  apply bind_benign; [apply lower_bound_benign|]. intros i _. destruct (i =? 0)%nat; [apply benign_Ok|].
  repeat (apply bind_benign; [first [apply lat_benign|apply cabs_benign]|intros]). apply benign_Ok.
Qed.

Lemma fast_sel_benign p nt kk : nt <> [] -> benign (fast_sel p nt kk).
Proof.
  intros H. unfold fast_sel. apply bind_benign; [apply lback_benign; exact H|]. intros b _.
  destruct (shifted _ nt kk); [apply benign_Ok|].
  repeat (apply bind_benign; [first [apply lat_benign|apply cabs_benign|apply lower_bound_benign]|intros]). apply benign_Ok.
Qed.

Lemma deltas_benign p nt sel S : benign (deltas p nt sel S).
Proof.
  unfold deltas. apply mapM_benign. intros x. unfold delta_of. apply bind_benign; [apply lat_benign|]. intros.
  apply bind_benign; [|intros; apply cabs_benign]. destruct (p_checked p); [split; discriminate|apply benign_Ok].
Qed.

Lemma named_acf_benign sel wgt al p ts kk : ts <> [] -> benign (named_acf sel wgt al p ts kk).
Proof.
  intros Ht. pose proof (rel_times_nil ts Ht) as Hn. unfold named_acf. destruct (sel_named sel) as [sf|] eqn:E; [|apply benign_Throw].
  assert (Hs : benign (sf p (rel_times ts) kk)).
  { unfold sel_named in E. destruct (String.eqb sel "fast"); [injection E as <-; apply fast_sel_benign; exact Hn|].
    destruct (String.eqb sel "natural"); [injection E as <-; apply natural_sel_benign; exact Hn|discriminate]. }
  destruct (weight_named wgt al); [unfold acf_at|];
    (apply bind_benign; [exact Hs|]; intros; apply bind_benign; [apply deltas_benign|]; intros; [apply benign_Ok || apply benign_Throw]).
Qed.

Lemma run_room_benign {X} (f : num -> res X) ks room : (forall kk, benign (f kk)) ->
  run_room f ks room <> UB OobRead /\ (length ks <= room -> run_room f ks room <> UB OobWrite)%nat.
Proof.
  intros H. revert room. induction ks as [|kk ks IH]; intros room; cbn; [split; discriminate|].
  destruct (H kk) as [H1 H2]. destruct (f kk); cbn; try (split; congruence).
  destruct room as [|room]; [split; [discriminate|intros Hl; lia]|]. destruct (IH room) as [I1 I2].
  destruct (run_room f ks room); cbn; try (split; congruence). split; [congruence|]. intros Hl. specialize (I2 ltac:(lia)). congruence.
Qed.

Lemma call_in_bounds p d c0 mi ma re al sel wgt : accepted d -> new_Correlator d = Ok c0 ->
  let call := autocorrelation p d mi ma re al sel wgt in
  call <> UB OobRead /\
  ((exists g, lag_grid (opt_or mi (min_lag c0)) (opt_or re (lag_resolution c0)) (opt_or ma (max_lag c0)) g /\
     (length g <= length (lag_timeseries c0))%nat) -> call <> UB OobWrite).
Proof.
  intros Ha Hn. cbv zeta. destruct (new_Correlator_accepted d c0 Ha Hn) as [ts [data [er [N [n [-> [H1 [H4 [H5 [Hal ->]]]]]]]]]].
  rewrite auto_core by assumption. unfold acf_core. rewrite Hal. cbn [bind]. cbv zeta.
  cbn [min_lag lag_resolution max_lag the_corr lag_timeseries timeseries_]. rewrite repeat_length.
  set (Lg := lag_list _ _ _ _ _).
  set (f := named_acf _ _ _ _ _).
  destruct (run_room_benign f (fst Lg) n) as [B1 B2]; [intros; apply named_acf_benign; exact H1|].
  assert (K : forall e : res (list num * list row_fun),
    (e <> UB OobRead) ->
    (do gF <- e; (let rows := map (fun row => map (fun F => F row) (snd gF)) (recut N (length ts) data) in
        Ok (fst gF, pack rows, final_corr ts data er N n mi ma re al (fst gF) rows))) <> UB OobRead).
  { intros e He. destruct e; cbn; congruence. }
  assert (K2 : forall e : res (list num * list row_fun),
    (e <> UB OobWrite) ->
    (do gF <- e; (let rows := map (fun row => map (fun F => F row) (snd gF)) (recut N (length ts) data) in
        Ok (fst gF, pack rows, final_corr ts data er N n mi ma re al (fst gF) rows))) <> UB OobWrite).
  { intros e He. destruct e; cbn; congruence. }
  assert (M : forall u, run_room f (fst Lg) n <> UB u ->
    (match fst Lg with
     | [] => if String.eqb sel "natural" && String.eqb wgt "fractional" then do Fs <- run_room f (fst Lg) n; Ok (fst Lg, Fs) else Throw PyUnboundLocalError
     | _ :: _ => do Fs <- run_room f (fst Lg) n; Ok (fst Lg, Fs)
     end) <> UB u).
  { intros u Hu. assert (M0 : (do Fs <- run_room f (fst Lg) n; Ok (fst Lg, Fs)) <> UB u) by (destruct (run_room f (fst Lg) n); cbn; congruence).
    destruct (fst Lg); [destruct (_ && _); [exact M0|discriminate]|exact M0]. }
  split.
  - apply K. apply M in B1. exact B1.
  - intros [g [Hg Hl]]. apply K2. apply (M OobWrite). apply B2. unfold Lg.
    rewrite (grid_lag_list (S n) _ _ _ g Hg ltac:(lia)). exact Hl.
Qed.

End Benign.

(** ** The default call *)
Lemma sub_neg_le A (HA : arith A) (b z : @num A) : nle (nsub b (nneg b)) z = nle (nadd b b) z.
Proof.
  destruct HA as [e|].
  - cbn [nle nsub nneg nadd B64]. rewrite !Bleb_toE, toE_minus, toE_plus, toE_opp.
    destruct (toE b) as [x| | |]; try reflexivity. cbn [xneg xsub xadd]. rewrite Ropp_involutive. reflexivity.
  - destruct b as [x| | |]; try reflexivity. cbn [nle nsub nneg nadd XR xneg xsub xadd]. rewrite Ropp_involutive. reflexivity.
Qed.

Section Default.
Context {A : Num} (HA : arith A) {L : NumLaws A} {L2 : NumLaws2 A}.

(** lags within the default range keep all distances within [int] when twice the time span does *)
Lemma abs_defined_range p d c0 kk : accepted d -> times_ok d -> new_Correlator d = Ok c0 ->
  (p_abs p = AbsInt -> nle (nadd (max_lag c0) (max_lag c0)) (nofZ INT_MAX) = true) ->
  nle (min_lag c0) kk = true -> nle kk (max_lag c0) = true -> abs_defined p d kk.
Proof.
  intros Ha Ht Hn Hs K1 K2 E x y Hx Hy. specialize (Hs E).
  destruct (times_ok_norm d Ha Ht) as [Ko [Kf [K0 Kp]]].
  destruct (default_lags d c0 Ha Hn) as [_ [Hb [Hm _]]]. destruct (back_In _ _ Hb) as [Bin Bnth].
  assert (Hle : forall z, In z (normalised_timeseries d) -> nle z (max_lag c0) = true).
  { intros z Hz. apply In_nth_error in Hz. destruct Hz as [i Hi].
    assert (i < length (normalised_timeseries d))%nat by (apply nth_error_Some; congruence).
    eapply (Ko i _ z (max_lag c0)); [|exact Hi|exact Bnth]. lia. }
  rewrite Hm in K1. set (b := max_lag c0) in *. clearbody b.
  pose proof (Kf _ Bin) as Fb. pose proof (Kf _ Hx) as Fx. pose proof (Kf _ Hy) as Fy.
  assert (Fk : nfin kk = true) by (apply (l_fin_between (nneg b) kk b K1 K2); [rewrite l_neg_fin|]; exact Fb).
  pose proof (l_fin_nan _ Fk) as Nk. pose proof (l_fin_nan _ Fb) as Nb.
  assert (Nbb : nisnan (nadd b b) = false) by (apply l_add_fin; assumption).
  (* the shifted time *)
  assert (S1 : nle (nadd x kk) (nadd b b) = true).
  { apply (l_le_trans _ (nadd b kk)); [apply l_add_mono; [apply Hle; exact Hx|apply l_add_fin; assumption..]|].
    apply l_add_mono_r; [exact K2|apply l_add_fin; assumption..]. }
  assert (S2 : nle (nneg b) (nadd x kk) = true).
  { apply (l_le_trans _ (nadd nzero kk)).
    - apply (l_le_trans _ kk); [exact K1|]. apply (eq_le _ _ (l_add_0_l kk Nk)).
    - apply l_add_mono; [apply Kp; exact Hx|apply l_add_fin; [apply l_fin_Z0|exact Fk]|apply l_add_fin; assumption]. }
  assert (Imax : in_int INT_MAX = true) by reflexivity.
  pose proof (l_trunc_ofZ _ Imax) as Tm. pose proof (l_fin_trunc _ _ Tm) as Fm.
  assert (Fs : nfin (nadd x kk) = true).
  { apply (l_fin_between (nneg b) _ (nofZ INT_MAX)); [exact S2|exact (l_le_trans _ _ _ S1 Hs)|rewrite l_neg_fin; exact Fb|exact Fm]. }
  set (s := nadd x kk) in *. clearbody s. pose proof (l_fin_nan _ Fs) as Ns.
  assert (D1 : nle (nsub s y) (nofZ INT_MAX) = true).
  { apply (l_le_trans _ (nsub s nzero)); [apply l_sub_anti; [apply Kp; exact Hy|apply l_sub_fin; [exact Fs|apply l_fin_Z0 || exact Fy]..]|].
    apply (l_le_trans _ s); [apply (eq_le _ _ (l_sub_0_r s Ns))|]. exact (l_le_trans _ _ _ S1 Hs). }
  assert (D2 : nle (nsub y s) (nofZ INT_MAX) = true).
  { apply (l_le_trans _ (nsub b s)); [apply l_sub_mono; [apply Hle; exact Hy|apply l_sub_fin; assumption..]|].
    apply (l_le_trans _ (nsub b (nneg b))); [apply l_sub_anti; [exact S2|apply l_sub_fin; try assumption; rewrite l_neg_fin; exact Fb..]|].
    rewrite (sub_neg_le A HA). exact Hs. }
  assert (NP : forall u v, nfin u = true -> nfin v = true -> nle (nsub u v) (nofZ INT_MAX) = true -> nle (nsub v u) (nofZ INT_MAX) = true ->
    exists z, ntrunc (nsub u v) = Some z).
  { intros u v Fu Fv Hu Hv. destruct (l_le_total u v (l_fin_nan _ Fu) (l_fin_nan _ Fv)) as [Hc|Hc].
    - destruct (l_trunc_fin (nsub v u)) as [z Ez]; [|exists (- z)%Z; rewrite l_trunc_sub, Ez; reflexivity].
      apply (l_fin_between nzero _ (nofZ INT_MAX)); [apply sub_nonneg; assumption|exact Hv|apply l_fin_Z0|exact Fm].
    - apply l_trunc_fin. apply (l_fin_between nzero _ (nofZ INT_MAX)); [apply sub_nonneg; assumption|exact Hu|apply l_fin_Z0|exact Fm]. }
  destruct (NP s y Fs Fy D1 D2) as [z Ez]. exists z. split; [exact Ez|].
  pose proof (l_trunc_mono _ _ _ _ D1 Ez Tm) as Z1.
  assert (Ez2 : ntrunc (nsub y s) = Some (- z)%Z) by (rewrite l_trunc_sub, Ez; reflexivity).
  pose proof (l_trunc_mono _ _ _ _ D2 Ez2 Tm) as Z2. lia.
Qed.

Lemma default_returns p d c0 wgt : accepted d -> times_ok d -> new_Correlator d = Ok c0 ->
  (exists g, lag_grid (min_lag c0) (lag_resolution c0) (max_lag c0) g /\ (length g <= length (lag_timeseries c0))%nat) ->
  p_checked p = false -> known_weight wgt ->
  (p_abs p = AbsInt -> nle (nadd (max_lag c0) (max_lag c0)) (nofZ INT_MAX) = true) ->
  exists r, autocorrelation p d None None None None "natural" wgt = Ok r.
Proof.
  intros Ha Ht Hn Hg Hc Hw Hs.
  destruct (default_lags d c0 Ha Hn) as [_ [Hb [Hm _]]]. destruct (times_ok_norm d Ha Ht) as [Ko [Kf [K0 Kp]]].
  destruct (back_In _ _ Hb) as [Bin Bnth]. pose proof (Kp _ Bin) as Bp.
  assert (Ap : nle (min_lag c0) nzero = true).
  { rewrite Hm. apply (l_le_trans _ (nneg nzero)); [apply l_neg_anti; exact Bp|]. apply (eq_le _ _ l_neg_0). }
  destruct Hg as [g [Hg Hl]].
  pose proof (natural_call_outcome p d c0 None None None None wgt Ha Hn Hc Hw) as K. cbv zeta in K. cbn [opt_or] in K.
  apply K.
  - apply (abs_defined_range p d c0); assumption.
  - intros n _ Hle. apply (abs_defined_range p d c0); try assumption.
    + destruct Hg as [N [HN _]]. apply (steps_ge _ _ (max_lag c0) N); [exact HN|].
      destruct (Nat.lt_ge_cases n N) as [Hi|Hi]; [exact Hi|]. destruct HN as [_ HN]. rewrite (Hle N Hi) in HN. discriminate.
    + apply Hle. lia.
  - exists g. split; [exact Hg|]. split; [exact Hl|]. left. intros ->.
    destruct (default_zero d c0 [] Ha Ht Hn (dblmax_pos A HA) Hg) as [i [x [Hx _]]]. destruct i; discriminate.
Qed.

End Default.

(** ** Accuracy of the lags *)
Section Accuracy.
Variable exp64 : b64 -> b64.
Notation BN := (B64 exp64).

Lemma steps_accurate (a r b : @num BN) N : is_finite a = true -> is_finite b = true -> is_finite r = true ->
  stops_at (A := BN) a r b N -> forall n, (n < N)%nat ->
  is_finite (steps (A := BN) a r n) = true /\
  Rabs (B2R (steps (A := BN) a r n) - (B2R a + INR n * B2R r)) <= INR n * Rmax (Rabs (B2R a)) (Rabs (B2R b)) * bpow radix2 (-53).
Proof.
  intros Fa Fb Fr HN. fold u64.
  assert (Hin : forall n, (n < N)%nat -> is_finite (steps (A := BN) a r n) = true /\ B2R a <= B2R (steps (A := BN) a r n) <= B2R b).
  { intros n Hn. pose proof (proj1 HN n Hn) as H1. pose proof (steps_ge (A := BN) a r b N n HN Hn) as H2.
    cbn [nle B64] in H1, H2. rewrite Bleb_toE, (toE_finite _ Fa) in H2. rewrite Bleb_toE, (toE_finite _ Fb) in H1.
    destruct (toE (steps (A := BN) a r n)) as [S| | |] eqn:ES; try discriminate.
    destruct (toE_Fin _ _ ES) as [F1 F2]. rewrite F2. cbn in H1, H2. apply Rleb_true in H1, H2. auto. }
  induction n as [|n IH]; intros Hn.
  - split; [exact Fa|]. change (steps (A := BN) a r 0) with a. replace (B2R a - (B2R a + INR 0 * B2R r)) with 0 by (cbn [INR]; ring).
    rewrite Rabs_R0. cbn [INR]. lra.
  - destruct (Hin _ Hn) as [F1 [L1 U1]]. split; [exact F1|]. destruct IH as [F0 IH]; [lia|].
    rewrite steps_next in *. set (s := steps (A := BN) a r n) in *. cbn [nadd B64] in *.
    assert (E : B2R (Bplus mode_NE s r) = rnd (B2R s + B2R r)).
    { pose proof (toE_plus s r) as E. rewrite (toE_finite _ F1), (toE_finite _ F0), (toE_finite _ Fr) in E. cbn [xadd] in E.
      symmetry in E. apply rndE_Fin in E. exact E. }
    destruct (plus_err s r) as [e [He Ee]]. rewrite <- E in Ee. set (s' := B2R (Bplus mode_NE s r)) in *.
    assert (Hm : Rabs s' <= Rmax (Rabs (B2R a)) (Rabs (B2R b))).
    { apply Rabs_le. pose proof (Rmax_l (Rabs (B2R a)) (Rabs (B2R b))). pose proof (Rmax_r (Rabs (B2R a)) (Rabs (B2R b))).
      pose proof (Rle_abs (B2R b)). pose proof (Rle_abs (- B2R a)). rewrite Rabs_Ropp in *. lra. }
    set (M := Rmax _ _) in *. rewrite S_INR.
    assert (Hd : Rabs (s' - (B2R s + B2R r)) <= M * u64).
    { replace (s' - (B2R s + B2R r)) with (- (s' * e)) by (rewrite Ee; ring). rewrite Rabs_Ropp, Rabs_mult.
      apply Rmult_le_compat; try apply Rabs_pos; assumption. }
    replace (s' - (B2R a + (INR n + 1) * B2R r)) with (s' - (B2R s + B2R r) + (B2R s - (B2R a + INR n * B2R r))) by ring.
    eapply Rle_trans; [apply Rabs_triang|]. lra.
Qed.

Lemma lags_accurate p d a b r al sel wgt res : accepted d -> is_finite a = true -> is_finite b = true -> is_finite r = true ->
  autocorrelation (A := BN) p d (Some a) (Some b) (Some r) al sel wgt = Ok res ->
  forall i x, nth_error (fst (fst res)) i = Some x ->
  B2R x = 0 \/ exists n, (n = i \/ S n = i) /\
    Rabs (B2R x - (B2R a + INR n * B2R r)) <= INR n * Rmax (Rabs (B2R a)) (Rabs (B2R b)) * bpow radix2 (-53).
Proof.
  intros Ha Fa Fb Fr E i x Hx.
  assert (exists c0, new_Correlator d = Ok c0) as [c0 Hn].
  { unfold autocorrelation in E. apply bind_Ok in E. destruct E as [c0 [E _]]. eauto. }
  destruct (returned_grid p d c0 (Some a) (Some b) (Some r) al sel wgt res Ha Hn E) as [[N [HN Hg]] _]. cbn [opt_or] in *.
  rewrite Hg in Hx. destruct (with_zero_nth _ _ _ Hx) as [->|[K|[K0 K]]].
  - left. reflexivity.
  - right. rewrite nth_steps in K. destruct (Nat.ltb_spec i N); [|discriminate]. injection K as <-.
    exists i. split; [auto|]. apply (steps_accurate a r b N); assumption.
  - right. rewrite nth_steps in K. destruct (Nat.ltb_spec (i - 1) N); [|discriminate]. injection K as <-.
    exists (i - 1)%nat. split; [right; lia|]. apply (steps_accurate a r b N); assumption.
Qed.

End Accuracy.

Lemma new_Correlator_benign {A : Num} d : accepted d -> benign (new_Correlator d).
Proof.
  intros Ha. destruct (accepted_setUp d Ha) as [ts [data [er [N [-> [H1 [H2 [H3 [H4 H5]]]]]]]]].
  rewrite new_Correlator_closed by assumption. apply bind_benign; [|intros; apply benign_Ok].
  unfold allot. apply bind_benign; [apply lback_benign, rel_times_nil; exact H1|]. intros.
  apply bind_benign. { unfold to_int. destruct (nfloor _); [destruct (in_int z)|]; split; discriminate. }
  intros. apply bind_benign. { unfold int_add. destruct (in_int _); split; discriminate. }
  intros z _. destruct (z <? 0)%Z; split; discriminate.
Qed.
