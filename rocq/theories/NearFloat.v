(** Only distances up to twice the lag matter, in binary64: time stamps on a binary grid (C112). *)
From Coq Require Import String.
From Coq Require Import ZArith Reals List Bool Arith Lia Lra.
From Flocq Require Import Core BinarySingleNaN.
From Verif Require Import Num Mem MemFacts XR B64 Spec SpecR SpecTime SpecNear DataStructure DSFacts Correlator Sacf Api CorrFacts LoopFacts MainFacts
  Laws B64Facts Laws2 ConstrFacts SelFacts SelThms FastFacts TimeFacts WeightFacts ValFacts ExactFacts AccFacts AccExact FixedFacts FixedThms PairBounds TimeCloseFacts UnsortedFacts CountFacts LagNumber GridFacts SafeFacts GridVals ValThms NearFacts.
Import ListNotations.
Local Open Scope list_scope.
Local Open Scope R_scope.

Section Float.
Variable exp64 : b64 -> b64.
Notation BN := (B64 exp64).

(** offsets have no sign *)
Lemma offsets_abs p (d : @dstruct BN) sel f kk n s (os : list b64) : accepted d -> p_abs p = AbsFloat -> selection_function (A := BN) p sel d = Some f ->
  pairs_by (A := BN) p d f kk n = Ok (s, os) -> forall o : b64, In o os -> exists y : b64, o = Babs y.
Proof.
  intros Ha Hp Hf HP o Ho. destruct (pairs_by_closed (A := BN) p d sel f kk n Ha Hf) as [sf [_ C]]. rewrite HP in C.
  destruct (sf p (normalised_timeseries d) kk) as [[se sh]| | |]; cbn [bind fst snd] in C; try contradiction C.
  destruct (deltas (A := BN) p (normalised_timeseries d) se sh) as [dts| | |] eqn:E; cbn [bind] in C; try contradiction C.
  cbn in C. injection C as _ Ed. subst dts. unfold deltas in E. destruct (mapM_Ok_inv _ _ _ E) as [Hl Hn].
  destruct (In_nth_error _ _ Ho) as [q Hq].
  destruct (nth_error (combine se sh) q) as [xs|] eqn:Ex.
  - destruct (Hn q xs Ex) as [b [Hb Hx]]. change (@num BN) with b64 in Hb. rewrite Hq in Hb. injection Hb as <-. unfold delta_of in Hx.
    apply bind_Ok in Hx. destruct Hx as [a [_ Hx]]. apply bind_Ok in Hx. destruct Hx as [b [_ Hx]].
    rewrite cabs_float in Hx by exact Hp. injection Hx as <-. eexists. reflexivity.
  - exfalso. apply nth_error_None in Ex. assert (q < length os)%nat by (apply nth_error_Some; congruence). rewrite <- Hl in Ex. change (@num BN) with b64 in Ex. lia.
Qed.

Lemma abs_exact_inj (x y : b64) : exact_of (Babs x) = exact_of (Babs y) -> Babs x = Babs y.
Proof.
  destruct x as [s|s| |s m e h], y as [s'|s'| |s' m' e' h']; intros E; try reflexivity; try discriminate E; cbn [Babs] in *; injection E as E.
  - symmetry in E. apply Rmult_integral in E. destruct E as [E|E]; [apply eq_IZR in E; discriminate E|]. pose proof (bpow_gt_0 radix2 e'). unfold Defs.Fexp in E. lra.
  - apply Rmult_integral in E. destruct E as [E|E]; [apply eq_IZR in E; discriminate E|]. pose proof (bpow_gt_0 radix2 e). unfold Defs.Fexp in E. lra.
  - apply B2R_inj; [reflexivity|reflexivity|exact E].
Qed.

(** the same time stamps as real numbers *)
Lemma twin (d : @dstruct BN) g : accepted d -> ordered (A := BN) (timeseries d) -> (forall t : b64, In t (timeseries d) -> fixed_point g 50 t) ->
  exists e : @dstruct XR, accepted e /\ times_ok (A := XR) e /\ timeseries e = map exact_of (timeseries d : list b64) /\ timeseries e = map Fin (map B2R (timeseries d : list b64)).
Proof.
  intros Ha Ho Hf. assert (Hnil : (timeseries d : list b64) <> []).
  { destruct (accepted_times d Ha) as [tx [data [er [N [-> [H1 _]]]]]]. exact H1. }
  set (ts := timeseries d : list b64) in *.
  assert (Ex : map exact_of ts = map Fin (map B2R ts)).
  { rewrite map_map. apply map_ext_in. intros t Ht. destruct (Hf t Ht) as [F _]. destruct t; try discriminate F; reflexivity. }
  destruct (one_dataset (A := XR) (map exact_of ts) (map exact_of ts) None) as [_ [_ H]].
  destruct H as (e & E & Et & _).
  - intros C. apply map_eq_nil in C. contradiction.
  - intros C. apply map_eq_nil in C. contradiction.
  - apply Nat.mod_same. rewrite map_length. destruct ts; [congruence|discriminate].
  - assert (Hae : accepted e) by (left; eauto). exists e. split; [exact Hae|]. split; [|split; [exact Et|rewrite Et; exact Ex]].
    rewrite Ex in Et. pose proof (norm_real e _ Hae Et) as En. split.
    + rewrite Et. intros i j x y Hij Hx Hy. rewrite !nth_error_map in Hx, Hy.
      destruct (nth_error ts i) as [a|] eqn:Ei; [|discriminate Hx]. destruct (nth_error ts j) as [b|] eqn:Ej; [|discriminate Hy].
      cbn in Hx, Hy. injection Hx as <-. injection Hy as <-. apply nle_Fin.
      pose proof (Ho i j a b Hij Ei Ej) as K. destruct (Hf a (nth_error_In _ _ Ei)) as [Fa _]. destruct (Hf b (nth_error_In _ _ Ej)) as [Fb _].
      change (Bleb a b = true) in K. rewrite (Bleb_correct _ _ a b Fa Fb) in K. destruct (Rle_bool_spec (B2R a) (B2R b)); [assumption|discriminate K].
    + split; [rewrite Et; apply fin_all|rewrite En; apply fin_all].
Qed.

Lemma near_pairs_float p (d d' : @dstruct BN) g (kk : b64) n n' s s' (os os' : list b64) : (-1073 <= g <= 960)%Z ->
  accepted d -> accepted d' -> ordered (A := BN) (timeseries d) -> ordered (A := BN) (timeseries d') ->
  (forall t : b64, In t (timeseries d) -> fixed_point g 50 t) -> (forall t : b64, In t (timeseries d') -> fixed_point g 50 t) -> fixed_point g 51 kk ->
  p_abs p = AbsFloat -> same_near (map B2R (timeseries d : list b64)) (map B2R (timeseries d' : list b64)) (2 * Rabs (B2R kk)) ->
  pairs_by (A := BN) p d (naturalSelectionFunctionIdx (A := BN) p d) kk n = Ok (s, os) ->
  pairs_by (A := BN) p d' (naturalSelectionFunctionIdx (A := BN) p d') kk n' = Ok (s', os') ->
  s' = s /\ os' = os.
Proof.
  intros Hg Ha Ha' Ho Ho' Hf Hf' Hk Hp HN HP HP'.
  destruct (twin d g Ha Ho Hf) as (e & Ae & Te & Ee & Re). destruct (twin d' g Ha' Ho' Hf') as (e' & Ae' & Te' & Ee' & Re').
  assert (Ek : exact_of kk = Fin (B2R kk)) by (destruct Hk as [F _]; destruct kk; try discriminate F; reflexivity).
  pose proof (fixed_pairs exp64 p d e g "natural" _ _ kk n n Hg Ha Ae Ee Hf Hk eq_refl eq_refl) as Q. rewrite HP, Ek in Q.
  pose proof (fixed_pairs exp64 p d' e' g "natural" _ _ kk n' n' Hg Ha' Ae' Ee' Hf' Hk eq_refl eq_refl) as Q'. rewrite HP', Ek in Q'.
  destruct (pairs_by (A := XR) p e (naturalSelectionFunctionIdx (A := XR) p e) (Fin (B2R kk)) n) as [[s1 o1]| | |] eqn:P1; cbn in Q; try contradiction Q.
  destruct (pairs_by (A := XR) p e' (naturalSelectionFunctionIdx (A := XR) p e') (Fin (B2R kk)) n') as [[s2 o2]| | |] eqn:P2; cbn in Q'; try contradiction Q'.
  destruct Q as [-> Eo]. destruct Q' as [-> Eo'].
  destruct (pairs_exact p e "natural" _ (B2R kk) n s o1 _ Ae Re eq_refl P1) as [_ [_ [_ F1]]].
  destruct (pairs_exact p e' "natural" _ (B2R kk) n' s' o2 _ Ae' Re' eq_refl P2) as [_ [_ [_ F2]]].
  assert (R1 : exists r1, o1 = map Fin r1 /\ length s = length r1).
  { eexists. split; [exact F1|]. rewrite map_length, seq_length. reflexivity. }
  assert (R2 : exists r2, o2 = map Fin r2 /\ length s' = length r2).
  { eexists. split; [exact F2|]. rewrite map_length, seq_length. reflexivity. }
  clear F1 F2. destruct R1 as [r1 [-> L1]]. destruct R2 as [r2 [-> L2]].
  destruct (near_pairs p e e' (B2R kk) n n' s s' r1 r2 _ _ Ae Te Ae' Te' Hp Re Re' HN P1 P2 L1 L2) as [-> ->].
  split; [reflexivity|]. rewrite Eo in Eo'.
  assert (N1 : forall o, In o os -> exists y : b64, o = Babs y) by (intros o; exact (offsets_abs p d "natural" _ kk n s os Ha Hp eq_refl HP o)).
  assert (N2 : forall o, In o os' -> exists y : b64, o = Babs y) by (intros o; exact (offsets_abs p d' "natural" _ kk n' s os' Ha' Hp eq_refl HP' o)).
  clear - Eo' N1 N2. revert os' Eo' N1 N2. induction os as [|o os IH]; intros [|o' os'] E N1 N2; try discriminate E; [reflexivity|].
  cbn [map] in E. injection E as E1 E2. destruct (N1 o (or_introl eq_refl)) as [y ->]. destruct (N2 o' (or_introl eq_refl)) as [y' ->].
  f_equal; [symmetry; apply abs_exact_inj; exact E1|]. apply IH; [exact E2| |]; intros z Hz; [apply N1|apply N2]; right; exact Hz.
Qed.

Lemma near_values_float p (d d' : @dstruct BN) g mi ma re al mi' ma' re' al' wgt lags corr c lags' corr' c' rows rows' j j' i i' (row : list b64) (kk : b64) : (-1073 <= g <= 960)%Z ->
  accepted d -> accepted d' -> ordered (A := BN) (timeseries d) -> ordered (A := BN) (timeseries d') ->
  (forall t : b64, In t (timeseries d) -> fixed_point g 50 t) -> (forall t : b64, In t (timeseries d') -> fixed_point g 50 t) -> fixed_point g 51 kk ->
  p_abs p = AbsFloat ->
  autocorrelation (A := BN) p d mi ma re al "natural" wgt = Ok (lags, corr, c) ->
  autocorrelation (A := BN) p d' mi' ma' re' al' "natural" wgt = Ok (lags', corr', c') ->
  data_2d d = Ok rows -> nth_error rows j = Some row -> data_2d d' = Ok rows' -> nth_error rows' j' = Some row ->
  nth_error lags i = Some kk -> nth_error lags' i' = Some kk -> opt_or (A := BN) al (median_time d) = opt_or (A := BN) al' (median_time d') ->
  same_near (map B2R (timeseries d : list b64)) (map B2R (timeseries d' : list b64)) (2 * Rabs (B2R kk)) ->
  exists r, corr_at corr j i = Some r /\ corr_at corr' j' i' = Some r.
Proof.
  intros Hg Ha Ha' Ho Ho' Hf Hf' Hk Hp E E' Hd Hj Hd' Hj' Hi Hi' Hal HN.
  destruct (call_value (A := BN) p d mi ma re al "natural" wgt lags corr c rows j i row kk Ha E Hd Hj Hi) as [sf [w [s [S1 [os [Hs [Hw [HS [HD [HV _]]]]]]]]]].
  destruct (call_value (A := BN) p d' mi' ma' re' al' "natural" wgt lags' corr' c' rows' j' i' row kk Ha' E' Hd' Hj' Hi') as [sf' [w' [s' [S2 [os' [Hs' [Hw' [HS' [HD' [HV' _]]]]]]]]]].
  assert (HP : pairs_by (A := BN) p d (naturalSelectionFunctionIdx (A := BN) p d) kk 1 = Ok (s, os)).
  { destruct (pairs_by_closed (A := BN) p d "natural" _ kk 1 Ha eq_refl) as [sg [Hsg C]]. rewrite Hs in Hsg. injection Hsg as <-.
    rewrite HS in C. cbn [bind fst snd] in C. rewrite HD in C. cbn [bind] in C.
    destruct (pairs_by (A := BN) p d _ kk 1) as [x| | |]; cbn in C; try contradiction C. subst x. reflexivity. }
  assert (HP' : pairs_by (A := BN) p d' (naturalSelectionFunctionIdx (A := BN) p d') kk 1 = Ok (s', os')).
  { destruct (pairs_by_closed (A := BN) p d' "natural" _ kk 1 Ha' eq_refl) as [sg [Hsg C]]. rewrite Hs' in Hsg. injection Hsg as <-.
    rewrite HS' in C. cbn [bind fst snd] in C. rewrite HD' in C. cbn [bind] in C.
    destruct (pairs_by (A := BN) p d' _ kk 1) as [x| | |]; cbn in C; try contradiction C. subst x. reflexivity. }
  destruct (near_pairs_float p d d' g kk 1 1 s s' os os' Hg Ha Ha' Ho Ho' Hf Hf' Hk Hp HN HP HP') as [-> ->].
  rewrite <- Hal, Hw in Hw'. injection Hw' as <-. eexists. split; [exact HV|exact HV'].
Qed.

End Float.
