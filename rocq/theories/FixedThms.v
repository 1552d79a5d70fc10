(** Calls with time stamps on a binary grid: binary64 and exact arithmetic. *)
From Coq Require Import String.
From Coq Require Import ZArith Reals List Bool Arith Lia Lra.
From Flocq Require Import Core BinarySingleNaN.
From Verif Require Import Num Mem MemFacts XR B64 Spec SpecR DataStructure Correlator Sacf Api Laws B64Facts Laws2 DSFacts CorrFacts LoopFacts MainFacts
  RelFacts ConstrFacts TimeFacts SelFacts WeightFacts DefaultFacts WeightAcc ValFacts ExactFacts AccFacts OffFacts AccThms SimFacts FixedFacts GridVals GridCall AccExact.
Import ListNotations.
Local Open Scope list_scope.
Local Open Scope R_scope.

(** the pairs by closed forms *)
Lemma pairs_by_closed {A : Num} (p : platform) (d : dstruct) sel f kk n : accepted d -> selection_function p sel d = Some f ->
  exists sf, sel_named sel = Some sf /\
  same_outcome eq (do sS <- sf p (normalised_timeseries d) kk; do dts <- deltas p (normalised_timeseries d) (fst sS) (snd sS); Ok (fst sS, dts)) (pairs_by p d f kk n).
Proof.
  intros Ha Hf.
  assert (Hpos : (0 < length (normalised_timeseries d))%nat).
  { destruct (accepted_times d Ha) as [ts [data [er [N [E1 [H1 [_ [_ [_ Hlen]]]]]]]]]. subst d.
    change (0 < length (rel_times ts))%nat. rewrite Hlen. destruct ts; [congruence|cbn; lia]. }
  assert (G : forall sf, sel_named sel = Some sf ->
     match sf p (norm_t d) kk with
     | Ok (se, sh) => exists it, f (CorrelationIterator kk n) = (it, Ok tt) /\ selected it kk n se sh
     | r => same_failure r (snd (f (CorrelationIterator kk n))) end ->
     same_outcome eq (do sS <- sf p (normalised_timeseries d) kk; do dts <- deltas p (normalised_timeseries d) (fst sS) (snd sS); Ok (fst sS, dts)) (pairs_by p d f kk n)).
  { intros sf Hs C. unfold pairs_by. change (norm_t d) with (normalised_timeseries d) in C.
    destruct (sf p (normalised_timeseries d) kk) as [[se sh]|x|x|] eqn:E; cbn [bind fst snd].
    - destruct C as [it [-> Hit]]. cbn [bind]. destruct (sel_named_ok sel sf Hs p _ kk se sh Hpos E) as [K1 _].
      pose proof (deltaT_closed p d it kk n se sh Hit K1) as D. change (norm_t d) with (normalised_timeseries d) in D.
      destruct (deltas p (normalised_timeseries d) se sh) as [dts|x|x|]; cbn [bind].
      + destruct D as [it' [-> Ho]]. cbn [bind same_outcome]. destruct Ho as [_ [_ [_ [O1 [_ [O2 _]]]]]]. unfold selection, offsets. rewrite O1, O2. reflexivity.
      + destruct (deltaT p d it) as [it' []]; cbn in *; try contradiction; exact D.
      + destruct (deltaT p d it) as [it' []]; cbn in *; try contradiction; exact D.
      + destruct (deltaT p d it) as [it' []]; cbn in *; try contradiction; exact D.
    - destruct (f (CorrelationIterator kk n)) as [it []]; cbn in *; try contradiction; exact C.
    - destruct (f (CorrelationIterator kk n)) as [it []]; cbn in *; try contradiction; exact C.
    - destruct (f (CorrelationIterator kk n)) as [it []]; cbn in *; try contradiction; exact C. }
  unfold selection_function in Hf. unfold sel_named in *.
  destruct (String.eqb_spec sel "natural") as [->|Hne].
  - injection Hf as <-. exists natural_sel. split; [reflexivity|]. apply G; [reflexivity|]. apply natural_closed.
  - destruct (String.eqb_spec sel "fast") as [->|]; [|discriminate]. injection Hf as <-. exists fast_sel. split; [reflexivity|]. apply G; [reflexivity|]. apply fast_closed.
Qed.

Lemma outcome_both {X Y} (R : X -> Y -> Prop) r r' q q' : same_outcome eq r q -> same_outcome eq r' q' -> same_outcome R r r' -> same_outcome R q q'.
Proof. destruct r, q; cbn; try contradiction; destruct r', q'; cbn; try contradiction; intros; subst; auto. Qed.

Section Fixed64.
Context (exp64 : b64 -> b64).
Notation BN := (B64 exp64).

Lemma fixed_times (d : @dstruct BN) (e : @dstruct XR) g : (-1073 <= g <= 960)%Z -> accepted d -> accepted e ->
  timeseries e = map exact_of (timeseries d : list b64) -> (forall t : b64, In t (timeseries d) -> fixed_point g 50 t) ->
  Forall2 (fx g 50) (timeseries d) (timeseries e) /\ Forall2 (fx g 51) (normalised_timeseries d) (normalised_timeseries e).
Proof.
  intros Hg Ha Ha' Et Hf.
  assert (Ht : Forall2 (fx g 50) (timeseries d : list b64) (timeseries e : list xr)).
  { rewrite Et. apply fixed_all. exact Hf. }
  split; [exact Ht|].
  destruct (accepted_times d Ha) as [tx [data [er [M [Ed _]]]]]. destruct (accepted_times e Ha') as [tx' [data' [er' [M' [Ed' _]]]]].
  rewrite Ed, Ed' in Ht |- *. change (Forall2 (fx g 50) (tx : list b64) (tx' : list xr)) in Ht.
  change (Forall2 (fx g (50 + 1)) (rel_times (A := BN) tx : list b64) (rel_times (A := XR) tx' : list xr)).
  apply fx_rel_times; [exact Hg|lia|exact Ht].
Qed.

Lemma opt_fixed g n (o : option b64) : (forall x, o = Some x -> fixed_point g n x) -> opt_rel (fx g n) o (option_map exact_of o).
Proof. intros H. destruct o as [x|]; cbn; [apply fixed_fx, H; reflexivity|exact I]. Qed.

(** ** the lags *)
Lemma fixed_lags (p : platform) (d : @dstruct BN) (e : @dstruct XR) g (mi ma re al : option b64) (al' : option xr) sel wgt : (-1073 <= g <= 960)%Z ->
  accepted d -> accepted e -> timeseries e = map exact_of (timeseries d : list b64) ->
  (forall t : b64, In t (timeseries d) -> fixed_point g 50 t) -> (2 <= length (timeseries d))%nat -> ordered (A := BN) (timeseries d) ->
  (forall x, mi = Some x -> fixed_point g 51 x) -> (forall x, ma = Some x -> fixed_point g 51 x) ->
  (forall x, re = Some x -> fixed_point g 51 x /\ 0 <= B2R x) ->
  same_outcome (fun x y => (fst y : list xr) = map exact_of (fst x : list b64) /\ forall l : b64, In l (fst x) -> fixed_point g 51 l)
    (visible (autocorrelation (A := BN) p d mi ma re al sel wgt))
    (visible (autocorrelation (A := XR) p e (option_map exact_of mi) (option_map exact_of ma) (option_map exact_of re) al' sel wgt)).
Proof.
  intros Hg Ha Ha' Et Hf Hl Ho Hmi Hma Hre. destruct (fixed_times d e g Hg Ha Ha' Et Hf) as [Ht _].
  destruct (accepted_values d Ha) as [ts [data [er [N [-> [H1 [H2 [H3 H4]]]]]]]].
  destruct (accepted_values e Ha') as [ts' [data' [er' [N' [-> [H1' [H2' [H3' H4']]]]]]]].
  rewrite !visible_core by assumption. change (Forall2 (fx g 50) (ts : list b64) (ts' : list xr)) in Ht. change (2 <= length ts)%nat in Hl. change (ordered (A := BN) ts) in Ho.
  pose proof (fx_core exp64 g Hg p ts ts' mi (option_map exact_of mi) ma (option_map exact_of ma) re (option_map exact_of re) al al' sel wgt Ht Hl Ho
    (opt_fixed g 51 mi Hmi) (opt_fixed g 51 ma Hma)) as K.
  assert (Kr : opt_rel (fun x y => fx g 51 x y /\ 0 <= B2R x) re (option_map exact_of re)).
  { destruct re as [x|]; cbn; [|exact I]. destruct (Hre x eq_refl) as [R1 R2]. split; [apply fixed_fx; exact R1|exact R2]. }
  specialize (K Kr). change (@num XR) with xr in *. change (@num BN) with b64 in *.
  destruct (acf_core (A := BN) p ts mi ma re al sel wgt) as [[l F]|x|x|]; destruct (acf_core (A := XR) p ts' _ _ _ al' sel wgt) as [[l' F']|y|y|];
    cbn in K; try contradiction; cbn [bind same_outcome fst snd]; auto.
  destruct K as [K _]. split; [exact (fx_all g 51 l l' K)|].
  intros z Hz. apply In_nth_error in Hz. destruct Hz as [q Hq]. pose proof (Forall2_nth_error _ _ _ q K) as Kq. change (@num BN) with b64 in *. rewrite Hq in Kq.
  change (@num XR) with xr in *. destruct (nth_error l' q); [|contradiction]. destruct Kq as [F1 [_ F2]]. split; assumption.
Qed.

(** ** the pairs at a lag *)
Lemma fixed_pairs (p : platform) (d : @dstruct BN) (e : @dstruct XR) g sel f f' (kk : b64) n n' : (-1073 <= g <= 960)%Z ->
  accepted d -> accepted e -> timeseries e = map exact_of (timeseries d : list b64) ->
  (forall t : b64, In t (timeseries d) -> fixed_point g 50 t) -> fixed_point g 51 kk ->
  selection_function (A := BN) p sel d = Some f -> selection_function (A := XR) p sel e = Some f' ->
  same_outcome (fun x y => fst y = fst x /\ (snd y : list xr) = map exact_of (snd x : list b64))
    (pairs_by (A := BN) p d f kk n) (pairs_by (A := XR) p e f' (exact_of kk) n').
Proof.
  intros Hg Ha Ha' Et Hf Hk Hs Hs'. destruct (fixed_times d e g Hg Ha Ha' Et Hf) as [_ Hn].
  destruct (pairs_by_closed (A := BN) p d sel f kk n Ha Hs) as [sf [S1 C1]]. destruct (pairs_by_closed (A := XR) p e sel f' (exact_of kk) n' Ha' Hs') as [sf' [S2 C2]].
  pose proof (fx_pairs_rel exp64 p g _ _ kk (exact_of kk) sel sf sf' Hg Hn (fixed_fx _ _ _ Hk) S1 S2) as [_ R].
  pose proof (outcome_both _ _ _ _ _ C1 C2 R) as Q.
  destruct (pairs_by (A := BN) p d f kk n) as [[s1 o1]| | |], (pairs_by (A := XR) p e f' (exact_of kk) n') as [[s2 o2]| | |]; cbn in Q |- *; try contradiction; auto.
  destruct Q as [Q1 Q2]. split; [congruence|]. exact (fx_all g 53 _ _ Q2).
Qed.

(** ** the median *)
Lemma fixed_median (d : @dstruct BN) (e : @dstruct XR) g : (-1073 <= g <= 960)%Z -> accepted d -> accepted e ->
  timeseries e = map exact_of (timeseries d : list b64) -> (forall t : b64, In t (timeseries d) -> fixed_point g 50 t) ->
  is_finite (median_time d : b64) = true /\ median_time e = Fin (B2R (median_time d : b64)).
Proof.
  intros Hg Ha Ha' Et Hf. destruct (fixed_times d e g Hg Ha Ha' Et Hf) as [_ Hn].
  destruct (accepted_times d Ha) as [ts [data [er [M [-> _]]]]]. destruct (accepted_times e Ha') as [ts' [data' [er' [M' [-> _]]]]].
  change (is_finite (middle (A := BN) (rel_times (A := BN) ts) (b64_ofZ 0) : b64) = true /\
    middle (A := XR) (rel_times (A := XR) ts') (Fin 0) = Fin (B2R (middle (A := BN) (rel_times (A := BN) ts) (b64_ofZ 0) : b64))).
  change (Forall2 (fx g 51) (rel_times (A := BN) ts : list b64) (rel_times (A := XR) ts' : list xr)) in Hn.
  set (nt := rel_times (A := BN) ts : list b64) in *. set (nt' := rel_times (A := XR) ts' : list xr) in *.
  assert (G : forall i, fx g 51 (nth i nt (b64_ofZ 0)) (nth i nt' (Fin 0))).
  { intros i. pose proof (Forall2_nth_error _ _ _ i Hn) as K. destruct (nth_error nt i) as [x|] eqn:E1, (nth_error nt' i) as [y|] eqn:E2; try contradiction.
    - rewrite (nth_error_nth nt i _ E1), (nth_error_nth nt' i _ E2). exact K.
    - rewrite nth_overflow by (apply nth_error_None; exact E1). rewrite nth_overflow by (apply nth_error_None; exact E2). apply fx_zero. }
  unfold middle. change (@num XR) with xr in *. change (@num BN) with b64 in *. rewrite <- (Forall2_len _ _ _ Hn).
  destruct (length nt mod 2 =? 0)%nat.
  - pose proof (fx_add g Hg 51 _ _ _ _ ltac:(lia) (G (length nt / 2 - 1)%nat) (G (length nt / 2)%nat)) as S.
    change (nadd (Num := BN)) with (Bplus mode_NE : b64 -> b64 -> b64). change (nadd (Num := XR)) with xadd.
    set (s := Bplus mode_NE _ _ : b64) in *. set (s' := xadd _ _) in *.
    change (is_finite (Bdiv mode_NE s (b64_ofZ 2) : b64) = true /\ xdiv s' (Fin 2) = Fin (B2R (Bdiv mode_NE s (b64_ofZ 2) : b64))).
    destruct S as [Fs [-> [k [Hk Ek]]]]. 
    destruct (E_fin _ _ (toE_ofZ_small 2 ltac:(cbn; lia))) as [F2 E2].
    assert (HR : IZR k * bpow radix2 g / 2 = IZR k * bpow radix2 (g - 1)).
    { unfold Z.sub. rewrite bpow_plus. change (bpow radix2 (-(1))) with (/ 2). unfold Rdiv. ring. }
    assert (Hk53 : (Z.abs k <= 2 ^ 53)%Z) by (change (2 ^ (51 + 1))%Z with 4503599627370496%Z in Hk; change (2 ^ 53)%Z with 9007199254740992%Z; lia).
    assert (RR : rnd (B2R s / 2) = B2R s / 2).
    { rewrite Ek, HR. apply round_generic; [apply valid_rnd_N|]. apply format_k; [exact Hk53|lia]. }
    assert (LT : Rabs (B2R s / 2) < big).
    { apply Rle_lt_trans with (Rabs (B2R s)); [|rewrite Ek; apply k_lt; assumption]. unfold Rdiv. rewrite Rabs_mult, (Rabs_pos_eq (/ 2)) by lra. pose proof (Rabs_pos (B2R s)). lra. }
    destruct (div_fin s (b64_ofZ 2) Fs F2) as [D1 D2]; [rewrite E2; lra|rewrite E2, RR; exact LT|]. split; [exact D1|].
    rewrite D2, E2, RR. cbn. destruct (Reqb_spec 2 0); [lra|reflexivity].
  - destruct (G (length nt / 2)%nat) as [F1 [F2 _]]. split; [exact F1|exact F2].
Qed.


(** ** the values *)
Lemma fixed_value (p : platform) (d : @dstruct BN) (e : @dstruct XR) g (mi ma re al : option b64) sel wgt (lags : list b64) corr c rows rows' : (-1073 <= g <= 960)%Z ->
  accepted d -> accepted e -> timeseries e = map exact_of (timeseries d : list b64) ->
  (forall t : b64, In t (timeseries d) -> fixed_point g 50 t) -> (2 <= length (timeseries d))%nat -> ordered (A := BN) (timeseries d) ->
  (forall x, mi = Some x -> fixed_point g 51 x) -> (forall x, ma = Some x -> fixed_point g 51 x) ->
  (forall x, re = Some x -> fixed_point g 51 x /\ 0 <= B2R x) ->
  autocorrelation (A := BN) p d mi ma re al sel wgt = Ok (lags, corr, c) ->
  data_2d d = Ok rows -> data_2d e = Ok rows' ->
  let a : b64 := opt_or (A := BN) al (median_time d) in
  is_finite a = true -> 0 < B2R a -> proper_alpha (A := BN) wgt a ->
  finite (A := BN) (if String.eqb wgt "gaussian" then nmul (Num := BN) (nmul (Num := BN) (b64_ofZ 2) a) a else a) ->
  exists corr' c',
    autocorrelation (A := XR) p e (option_map exact_of mi) (option_map exact_of ma) (option_map exact_of re) (option_map exact_of al) sel wgt
      = Ok (map exact_of lags, corr', c') /\
    forall j j' (row : list b64) b om i, nth_error rows j = Some row -> nth_error rows' j' = Some (map exact_of row) -> (i < length lags)%nat ->
      weight_error exp64 wgt (B2R a) om ->
      (-149 <= b <= 100)%Z -> (forall x : b64, In x row -> is_finite x = true /\ Rabs (B2R x) <= bpow radix2 b) ->
      let n := INR (length row) in
      let N := sq_dev32 (map B2R row) in
      let K := n * (bpow radix2 b * bpow radix2 b) / N in
      bpow radix2 (-700) <= N -> (n + 1) * K <= bpow radix2 48 ->
      exists (v : b64) (v' : R), corr_at corr j i = Some v /\ corr_at corr' j' i = Some (Fin v') /\ is_finite v = true /\
        Rabs (B2R v - v') <= 50 * (n + 10) * bpow radix2 (-53) * (K * K + K) + 5 * om * K + bpow radix2 (-110).
Proof.
  intros Hg Ha Ha' Et Hf Hl Ho Hmi Hma Hre E Hd Hd' a Fa Pa Hp Hfa.
  pose proof (fixed_lags p d e g mi ma re al (option_map exact_of al) sel wgt Hg Ha Ha' Et Hf Hl Ho Hmi Hma Hre) as L.
  rewrite E in L. unfold visible at 1 in L. cbn [bind fst] in L.
  destruct (autocorrelation (A := XR) p e (option_map exact_of mi) (option_map exact_of ma) (option_map exact_of re) (option_map exact_of al) sel wgt)
    as [[[lags' corr'] c']| | |] eqn:E'; try contradiction. cbn in L. destruct L as [-> Lf].
  exists corr', c'. split; [reflexivity|]. intros j j' row b om i Hj Hj' Hi Hom Hb Hx n N K HN HK.
  destruct (fixed_times d e g Hg Ha Ha' Et Hf) as [Ht _].
  assert (Ea : opt_or (A := XR) (option_map exact_of al) (median_time e) = Fin (B2R a)).
  { unfold a in *. destruct al as [x|]; cbn [option_map opt_or] in *.
    - rewrite exact_toE. apply toE_finite. exact Fa.
    - apply (fixed_median d e g Hg Ha Ha' Et Hf). }
  destruct (nth_error lags i) as [kk|] eqn:Ek; [|apply nth_error_None in Ek; lia].
  assert (Ek' : nth_error (map exact_of lags) i = Some (exact_of kk)) by (rewrite nth_error_map, Ek; reflexivity).
  exact (value_vs exp64 p d e mi ma re al _ _ _ _ sel wgt lags _ corr corr' c c' rows rows' j j' i row kk g b om Hg Ha Ha' Ht E E' Hd Hd' Hj Hj' Ek Ek'
    (fixed_fx _ _ _ (Lf kk (nth_error_In _ _ Ek))) Fa Pa Ea Hp Hfa Hom Hb Hx HN HK).
Qed.


(** ** an evenly sampled grid, all defaults *)
Lemma exact_rows (ts row : list b64) : ts <> [] -> length row = length ts ->
  exists e : @dstruct XR, accepted e /\ timeseries e = map exact_of ts /\ data_2d e = Ok [map exact_of row].
Proof.
  intros Hn Hl. destruct (@one_dataset XR (map exact_of ts) (map exact_of row) None) as [_ [_ H]].
  destruct H as [e [E [Et [Ed _]]]].
  - intros C. apply map_eq_nil in C. contradiction.
  - intros C. apply map_eq_nil in C. subst row. destruct ts; [congruence|discriminate].
  - change (@num XR) with xr. rewrite !map_length, Hl. apply Nat.mod_same. destruct ts; [congruence|discriminate].
  - exists e. split; [left; eauto|]. split; [exact Et|]. rewrite Ed. f_equal. f_equal. change (@num XR) with xr. rewrite map_length, <- Hl, <- (map_length exact_of row). apply firstn_all.
Qed.

Lemma grid64 (p : platform) (d : @dstruct BN) wgt g t0 dd M rows : (-1073 <= g <= 960)%Z ->
  accepted d -> (forall t : b64, In t (timeseries d) -> fixed_point g 50 t) -> map B2R (timeseries d : list b64) = grid t0 dd M ->
  (2 <= M)%nat -> 0 < dd -> (2 * Z.of_nat M + 1 <= INT_MAX)%Z -> p_checked p = false -> known_weight wgt ->
  (p_abs p = AbsInt -> 2 * (INR (M - 1) * dd) <= IZR INT_MAX) -> data_2d d = Ok rows ->
  exists (lags : list b64) corr c,
    autocorrelation (A := BN) p d None None None None "natural" wgt = Ok (lags, corr, c) /\
    (forall x, In x lags -> is_finite x = true) /\ map B2R lags = map (fun i => (INR i - INR (M - 1)) * dd) (seq 0 (2 * M - 1)) /\
    let a : b64 := median_time d in
    is_finite a = true /\ B2R a = INR (M - 1) / 2 * dd /\
    (proper_alpha (A := BN) wgt a ->
     finite (A := BN) (if String.eqb wgt "gaussian" then nmul (Num := BN) (nmul (Num := BN) (b64_ofZ 2) a) a else a) ->
     forall j (row : list b64) b om, nth_error rows j = Some row -> weight_error exp64 wgt (B2R a) om ->
      (-149 <= b <= 100)%Z -> (forall x : b64, In x row -> is_finite x = true /\ Rabs (B2R x) <= bpow radix2 b) ->
      let rs := map B2R row in
      let n := INR M in
      let N := sq_dev32 rs in
      let K := n * (bpow radix2 b * bpow radix2 b) / N in
      bpow radix2 (-700) <= N -> (n + 1) * K <= bpow radix2 48 ->
      let err := 50 * (n + 10) * bpow radix2 (-53) * (K * K + K) + 5 * om * K + bpow radix2 (-110) in
      let r := fun m => rsum_n (M - m) (fun q => dev rs q * dev rs (q + m)) in
      forall m, (m < M)%nat -> exists v v' : b64,
        corr_at corr j (M - 1 + m) = Some v /\ is_finite v = true /\ Rabs (B2R v - r m / N) <= err /\
        corr_at corr j (M - 1 - m) = Some v' /\ is_finite v' = true /\
        Rabs (B2R v' - (r m + dev rs 0 * rsum_n m (fun q => rweight wgt (B2R a) (dist p (INR (m - q) * dd)) * dev rs q)) / N) <= err).
Proof.
  intros Hg Ha Hf Eg HM Hdd Hint Hc Hw Hs Hd.
  assert (Hlen : length (timeseries d : list b64) = M) by (rewrite <- (map_length B2R), Eg; unfold grid; rewrite map_length, seq_length; reflexivity).
  assert (Hne : (timeseries d : list b64) <> []) by (intros C; rewrite C in Hlen; cbn in Hlen; lia).
  assert (Fin_ts : forall t : b64, In t (timeseries d) -> is_finite t = true) by (intros t Ht; apply (Hf t Ht)).
  assert (Etg : map exact_of (timeseries d : list b64) = map Fin (grid t0 dd M)) by (rewrite exact_Fin by exact Fin_ts; rewrite Eg; reflexivity).
  assert (Ho : ordered (A := BN) (timeseries d)).
  { pose proof (proj1 (grid_increasing t0 dd M Hdd)) as O. rewrite <- Etg in O. intros i j x y Hij Hi Hj.
    change (@num BN) with b64 in *. specialize (O i j (exact_of x) (exact_of y) Hij). change (@num XR) with xr in O. rewrite !nth_error_map, Hi, Hj in O. specialize (O eq_refl eq_refl).
    change (Bleb x y = true). rewrite Bleb_toE, <- !exact_toE. exact O. }
  assert (Hmax : INR (M - 1) * dd <= dbl_max).
  { assert (Hi : forall i, (i < M)%nat -> Rabs (t0 + INR i * dd) <= IZR (2 ^ 50) * bpow radix2 g).
    { intros i Hi. assert (Ei : nth_error (map B2R (timeseries d : list b64)) i = Some (t0 + INR i * dd)).
      { rewrite Eg. unfold grid. rewrite nth_error_map, nth_error_seq. destruct (Nat.ltb_spec i M); [reflexivity|lia]. }
      rewrite nth_error_map in Ei. change (@num BN) with b64 in *. destruct (nth_error (timeseries d : list b64) i) as [t|] eqn:Et; [|discriminate]. injection Ei as <-.
      destruct (Hf t (nth_error_In _ _ Et)) as [_ [k [Hk ->]]]. rewrite Rabs_mult, (Rabs_pos_eq (bpow radix2 g)) by apply bpow_ge_0. rewrite <- abs_IZR.
      apply Rmult_le_compat_r; [apply bpow_ge_0|]. apply IZR_le. exact Hk. }
    pose proof (Hi 0%nat ltac:(lia)) as H0. pose proof (Hi (M - 1)%nat ltac:(lia)) as H1. cbn [INR] in H0. apply Rabs_le_inv in H0, H1.
    apply Rle_trans with (bpow radix2 1023).
    - apply Rle_trans with (2 * (IZR (2 ^ 50) * bpow radix2 g)); [lra|]. change (IZR (2 ^ 50)) with (bpow radix2 50). change 2 with (bpow radix2 1). rewrite <- !bpow_plus. apply bpow_le. lia.
    - unfold dbl_max. pose proof (bpow_gt_0 radix2 1023) as P. rewrite <- (Rmult_1_l (bpow radix2 1023)) at 1. apply Rmult_le_compat_r; [lra|].
      assert (bpow radix2 (-52) <= 1) by (change 1 with (bpow radix2 0); apply bpow_le; lia). lra. }
  assert (L2 : (2 <= length (timeseries d))%nat) by (change (@num BN) with b64; rewrite Hlen; exact HM).
  destruct (exact_rows (timeseries d) (timeseries d) Hne eq_refl) as [e0 [A0 [T0 D0]]].
  assert (T0' := T0). rewrite Etg in T0'.
  destruct (grid_call p e0 wgt t0 dd M _ A0 T0' HM Hdd Hmax Hint Hc Hw Hs D0) as [corr0 [c0 [E0 _]]].
  pose proof (fixed_lags p d e0 g None None None None None "natural" wgt Hg Ha A0 T0 Hf L2 Ho ltac:(discriminate) ltac:(discriminate) ltac:(discriminate)) as L.
  cbn [option_map] in L. change (@num XR) with xr in *. change (@num BN) with b64 in *. rewrite E0 in L.
  match type of L with same_outcome _ (visible ?r) _ => destruct r as [[[lags corr] c]| | |] eqn:E; unfold visible in L; cbn [bind same_outcome fst] in L; try contradiction end.
  destruct L as [L1 L3].
  exists lags, corr, c. split; [reflexivity|]. assert (FL : forall x : b64, In x lags -> is_finite x = true) by (intros x Hx; apply (L3 x Hx)). split; [exact FL|].
  assert (ML : map B2R lags = map (fun i => (INR i - INR (M - 1)) * dd) (seq 0 (2 * M - 1))).
  { rewrite exact_Fin in L1 by exact FL. rewrite <- (map_map (fun i => (INR i - INR (M - 1)) * dd) Fin) in L1.
    clear - L1. revert L1. generalize (map B2R lags) as u, (map (fun i => (INR i - INR (M - 1)) * dd) (seq 0 (2 * M - 1))) as w.
    induction u as [|x u IH]; intros [|y w] H; try discriminate; [reflexivity|]. injection H as H1 H2. f_equal; [congruence|apply IH; exact H2]. }
  split; [exact ML|]. intros a.
  destruct (fixed_median d e0 g Hg Ha A0 T0 Hf) as [Fa Ea]. fold a in Fa, Ea.
  destruct (grid_defaults e0 t0 dd M A0 T0' HM Hdd Hmax Hint) as [_ [_ [_ [_ [_ [Em _]]]]]]. rewrite Ea in Em. injection Em as Em.
  split; [exact Fa|]. split; [exact Em|]. intros Hp Hfa j row b om Hj Hom Hb Hx rs n N K HN HK err r m Hm.
  assert (Pa : 0 < B2R a).
  { rewrite Em. apply Rmult_lt_0_compat; [|exact Hdd]. assert (0 < INR (M - 1)) by (apply lt_0_INR; lia). lra. }
  assert (Hlr : length row = M).
  { destruct (@value_parts BN p d None None None None "natural" wgt lags corr c rows j 0 row) with (kk := nth 0 lags (b64_ofZ 0)) as [sf1 [w1 [si1 [S1 [dt1 [_ [_ [_ [_ [HL _]]]]]]]]]]; try assumption.
    - apply nth_error_nth'. apply (f_equal (@length R)) in ML. rewrite !map_length, seq_length in ML. change (@num BN) with b64. lia.
    - change (@num BN) with b64 in *. rewrite HL. rewrite <- Hlen. destruct (accepted_times d Ha) as [tx [data [er [Mx [-> [_ [_ [_ [_ Hlx]]]]]]]]]. exact Hlx. }
  destruct (exact_rows (timeseries d) row Hne ltac:(congruence)) as [e [A1 [T1 D1]]].
  assert (T1' := T1). rewrite Etg in T1'.
  destruct (fixed_value p d e g None None None None "natural" wgt lags corr c rows [map exact_of row] Hg Ha A1 T1 Hf L2 Ho ltac:(discriminate) ltac:(discriminate) ltac:(discriminate)
    E Hd D1 Fa Pa Hp Hfa) as [corr' [c' [E' HV]]]. cbn [option_map] in E'.
  destruct (grid_call p e wgt t0 dd M _ A1 T1' HM Hdd Hmax Hint Hc Hw Hs D1) as [corr2 [c2 [E2 GV]]].
  change (@num XR) with xr in *. rewrite E' in E2. injection E2 as _ <- <-.
  assert (Fx : forall x : b64, In x row -> is_finite x = true) by (intros x Hin; apply (Hx x Hin)).
  destruct (GV 0%nat rs ltac:(cbn; rewrite exact_Fin by exact Fx; reflexivity)) as [_ G]. cbv zeta in G. destruct (G m Hm) as [G1 G2].
  assert (Ll : length lags = (2 * M - 1)%nat) by (apply (f_equal (@length R)) in ML; rewrite !map_length, seq_length in ML; exact ML).
  assert (N0 : N <> 0) by (pose proof (bpow_gt_0 radix2 (-700)); lra).
  assert (En : INR (length row) = n) by (unfold n; rewrite Hlr; reflexivity).
  destruct (HV j 0%nat row b om (M - 1 + m)%nat Hj eq_refl ltac:(change (@num BN) with b64 in *; rewrite Ll; lia) Hom Hb Hx HN ltac:(rewrite En; exact HK)) as [v [z [V1 [V2 [V3 V4]]]]].
  destruct (HV j 0%nat row b om (M - 1 - m)%nat Hj eq_refl ltac:(change (@num BN) with b64 in *; rewrite Ll; lia) Hom Hb Hx HN ltac:(rewrite En; exact HK)) as [v' [z' [V1' [V2' [V3' V4']]]]].
  rewrite En in V4, V4'. fold rs N in V4, V4'. fold K in V4, V4'. fold err in V4, V4'.
  rewrite V2 in G1. rewrite V2' in G2. cbn in G1, G2. fold N in G1, G2. destruct (Reqb_spec N 0); [contradiction|]. injection G1 as ->. injection G2 as ->.
  rewrite <- Em in V4'.
  exists v, v'. repeat split; assumption.
Qed.

End Fixed64.
