(** Facts about the reader of data files. *)
From Coq Require Import String.
From Coq Require Import ZArith List Bool Arith Ascii Lia.
From Verif Require Import Num Mem DataStructure FileReader SpecFile.
Import ListNotations.
Local Open Scope list_scope.

(** ** Characters *)
Lemma digit_char d : d < 10 ->
  is_digit (char_of_digit d) = true /\ (code (char_of_digit d) - 48 = Z.of_nat d)%Z /\
  is_sign (char_of_digit d) = false /\ is_space (char_of_digit d) = false /\
  Ascii.eqb (char_of_digit d) ch_dot = false /\ Ascii.eqb (char_of_digit d) ch_comma = false /\
  Ascii.eqb (char_of_digit d) ch_e = false /\ Ascii.eqb (char_of_digit d) ch_E = false /\
  Ascii.eqb (char_of_digit d) ch_hash = false /\ Ascii.eqb (char_of_digit d) NL = false /\
  Ascii.eqb (char_of_digit d) ch_minus = false /\ Ascii.eqb (char_of_digit d) ch_plus = false /\
  Ascii.eqb (char_of_digit d) ch_0 = (d =? 0).
Proof. intros H. do 10 (destruct d as [|d]; [repeat split; reflexivity|]). lia. Qed.

Ltac dchar d H := destruct (digit_char d H) as (?&?&?&?&?&?&?&?&?&?&?&?&?).

Lemma text_of_digits_app a b : text_of_digits (a ++ b) = text_of_digits a ++ text_of_digits b.
Proof. apply map_app. Qed.

Lemma digits_value_text ds : digits_ok ds -> digits_value (text_of_digits ds) = value_of_digits ds.
Proof.
  unfold digits_value, value_of_digits. generalize 0%Z. induction ds as [|d ds IH]; intros a H; [reflexivity|].
  inversion H as [|? ? Hd H']; subst. dchar d Hd. cbn [text_of_digits map fold_left]. rewrite H1. apply IH. exact H'.
Qed.

(** what ends a literal *)
Definition stops (r : bytes) : Prop :=
  match r with
  | [] => True
  | c :: _ => is_digit c = false /\ Ascii.eqb c ch_dot = false /\ Ascii.eqb c ch_e = false /\ Ascii.eqb c ch_E = false
  end.

Lemma take_body_stop fm fd fs r : stops r -> take_body fm fd fs r = ([], r).
Proof.
  destruct r as [|c r]; [reflexivity|]. cbn [stops take_body]. intros (-> & -> & -> & ->). reflexivity.
Qed.

Lemma take_body_digits ds : digits_ok ds -> forall fm fd fs r,
  take_body fm fd fs (text_of_digits ds ++ r) =
  (text_of_digits ds ++ fst (take_body (fm || negb (length ds =? 0)) fd fs r),
   snd (take_body (fm || negb (length ds =? 0)) fd fs r)).
Proof.
  induction ds as [|d ds IH]; intros H fm fd fs r.
  - cbn [text_of_digits map app length Nat.eqb negb]. rewrite orb_false_r. apply surjective_pairing.
  - inversion H as [|? ? Hd H']; subst. dchar d Hd. cbn [text_of_digits map app take_body].
    rewrite H0. change (map char_of_digit ds) with (text_of_digits ds). rewrite (IH H').
    cbn [length Nat.eqb negb]. rewrite orb_true_r. cbn [orb]. reflexivity.
Qed.

Definition set_mark (e : exponent) : exponent := {| e_mark := ch_e; e_sign := e_sign e; e_digits := e_digits e |}.
Definition frac_text (f : option digits) : bytes :=
  match f with Some f => ch_dot :: text_of_digits f | None => [] end.
Definition exp_text (e : option exponent) : bytes :=
  match e with Some e => text_of_exponent e | None => [] end.
Definition exp_ok (e : option exponent) : Prop :=
  match e with
  | Some e => (e_mark e = ch_e \/ e_mark e = ch_E) /\ digits_ok (e_digits e) /\ e_digits e <> []
  | None => True
  end.

Lemma take_body_exp fd e r : exp_ok e -> stops r ->
  take_body true fd false (exp_text e ++ r) = (exp_text (option_map set_mark e), r).
Proof.
  intros He Hr. destruct e as [e|]; cbn [exp_text option_map app].
  2:{ apply take_body_stop. exact Hr. }
  destruct e as [mk sg ds]. destruct He as (Hm & Hd & Hn). cbn [e_mark e_sign e_digits] in *.
  unfold text_of_exponent. cbn [set_mark e_mark e_sign e_digits]. cbn [app].
  assert (E : forall s, take_body true fd false (mk :: s) =
     match s with
     | d :: r1 =>
         if is_sign d
         then let (x, r') := take_body true fd true r1 in (ch_e :: d :: x, r')
         else let (x, r') := take_body true fd true s in (ch_e :: x, r')
     | [] => ([ch_e], [])
     end).
  { intro s. destruct Hm as [-> | ->]; reflexivity. }
  rewrite E. destruct sg; cbn [text_of_sign app].
  - destruct ds as [|d ds]; [congruence|]. inversion Hd as [|? ? Hd1 Hd2]; subst. dchar d Hd1.
    cbn [text_of_digits map app]. rewrite H1. change (char_of_digit d :: map char_of_digit ds ++ r) with
      (text_of_digits (d :: ds) ++ r). rewrite take_body_digits by assumption. rewrite take_body_stop by assumption.
    cbn [fst snd]. rewrite app_nil_r. reflexivity.
  - cbn [is_sign]. change (is_sign "+") with true. cbn iota. rewrite take_body_digits by assumption.
    rewrite take_body_stop by assumption. cbn [fst snd]. rewrite app_nil_r. reflexivity.
  - change (is_sign "-") with true. cbn iota. rewrite take_body_digits by assumption.
    rewrite take_body_stop by assumption. cbn [fst snd]. rewrite app_nil_r. reflexivity.
Qed.

Lemma take_body_frac fm f e r : digits_ok (match f with Some f => f | None => [] end) -> exp_ok e -> stops r ->
  (fm = true \/ match f with Some f => f | None => [] end <> []) ->
  take_body fm false false (frac_text f ++ exp_text e ++ r) = (frac_text f ++ exp_text (option_map set_mark e), r).
Proof.
  intros Hf He Hr Hn. destruct f as [f|]; cbn [frac_text app].
  - cbn [take_body]. change (is_digit ch_dot) with false. change (Ascii.eqb ch_dot ch_dot) with true.
    cbn iota. cbn [andb negb]. rewrite take_body_digits by assumption.
    replace (fm || negb (length f =? 0)) with true.
    2:{ destruct Hn as [->|Hn]; [reflexivity|]. destruct f; [congruence|]. rewrite orb_true_r. reflexivity. }
    rewrite take_body_exp by assumption. reflexivity.
  - destruct Hn as [-> | Hn]; [|congruence]. apply take_body_exp; assumption.
Qed.

(** ** Leading zeros *)
Lemma value_zeros n ds : value_of_digits (repeat 0 n ++ ds) = value_of_digits ds.
Proof.
  unfold value_of_digits. rewrite fold_left_app. f_equal.
  induction n as [|n IH]; [reflexivity|]. cbn [repeat fold_left]. exact IH.
Qed.

Definition no_zero (r : bytes) : Prop := match r with [] => True | c :: _ => Ascii.eqb c ch_0 = false end.

Lemma take_zeros_true ds r : digits_ok ds -> no_zero r -> exists n ds',
  ds = repeat 0 n ++ ds' /\ take_zeros true (text_of_digits ds ++ r) = ([], true, text_of_digits ds' ++ r).
Proof.
  induction ds as [|d ds IH]; intros H Hr.
  - exists 0, []. split; [reflexivity|]. cbn [text_of_digits map app]. destruct r as [|c r]; [reflexivity|].
    cbn in Hr. cbn [take_zeros]. rewrite Hr. reflexivity.
  - inversion H as [|? ? Hd H']; subst. dchar d Hd. cbn [text_of_digits map app take_zeros].
    rewrite H12. destruct d as [|d]; cbn [Nat.eqb].
    + destruct (IH H' Hr) as (n & ds' & E & Et). exists (S n), ds'. split; [cbn; f_equal; exact E|].
      change (map char_of_digit ds) with (text_of_digits ds). rewrite Et. reflexivity.
    + exists 0, (S d :: ds). split; reflexivity.
Qed.

(** the integer digits as they are kept: [z] by the loop over the zeros, [ds'] by the main loop *)
Lemma take_zeros_false ds r : digits_ok ds -> no_zero r -> exists z ds',
  take_zeros false (text_of_digits ds ++ r) = (text_of_digits z, negb (length z =? 0), text_of_digits ds' ++ r) /\
  digits_ok (z ++ ds') /\ (forall f, value_of_digits (z ++ ds' ++ f) = value_of_digits (ds ++ f)) /\
  (z ++ ds' = [] <-> ds = []).
Proof.
  intros H Hr. destruct ds as [|d ds].
  - exists [], []. cbn [text_of_digits map app]. repeat split; try constructor; try reflexivity.
    destruct r as [|c r]; [reflexivity|]. cbn in Hr. cbn [take_zeros]. rewrite Hr. reflexivity.
  - inversion H as [|? ? Hd H']; subst. dchar d Hd. cbn [text_of_digits map app take_zeros].
    rewrite H12. destruct d as [|d]; cbn [Nat.eqb].
    + destruct (take_zeros_true ds r H' Hr) as (n & ds' & E & Et).
      exists [0], ds'. change (map char_of_digit ds) with (text_of_digits ds). rewrite Et.
      split; [reflexivity|]. subst ds. split; [|split].
      * constructor; [lia|]. apply Forall_app in H'. tauto.
      * intro f. transitivity (value_of_digits (ds' ++ f)); [exact (value_zeros 1 (ds' ++ f))|].
        transitivity (value_of_digits (repeat 0 (S n) ++ ds' ++ f)); [symmetry; apply value_zeros|].
        cbn [repeat app]. rewrite app_assoc. reflexivity.
      * split; discriminate.
    + exists [], (S d :: ds). split; [reflexivity|]. split; [exact H|]. split; [reflexivity|]. split; discriminate.
Qed.

(** the literal as accumulated *)
Lemma text_of_literal_eq l :
  text_of_literal l = text_of_sign (l_sign l) ++ text_of_digits (l_int l) ++ frac_text (l_frac l) ++ exp_text (l_exp l).
Proof. reflexivity. Qed.

Lemma no_zero_frac f e r : exp_ok e -> stops r -> no_zero (frac_text f ++ exp_text e ++ r).
Proof.
  intros He Hr. destruct f as [f|]; [reflexivity|]. destruct e as [e|]; cbn [frac_text exp_text app].
  - destruct He as ([E|E] & _); unfold text_of_exponent; cbn [app no_zero]; rewrite E; reflexivity.
  - destruct r as [|c r]; [exact I|]. cbn [no_zero]. destruct Hr as (Hr & _).
    destruct (Ascii.eqb_spec c ch_0); [subst; discriminate|reflexivity].
Qed.

Lemma take_sign_literal sg s : (match s with [] => True | c :: _ => is_sign c = false end) ->
  take_sign (text_of_sign sg ++ s) = (text_of_sign sg, s).
Proof.
  intros H. destruct sg; try reflexivity. cbn [text_of_sign app]. destruct s as [|c s]; [reflexivity|].
  cbn [take_sign]. rewrite H. reflexivity.
Qed.

Lemma is_sign_eqb c : is_sign c = false -> Ascii.eqb c ch_minus = false /\ Ascii.eqb c ch_plus = false.
Proof. unfold is_sign. intros H. apply orb_false_iff in H. tauto. Qed.

Lemma sign_and_rest_text sg s : (match s with [] => True | c :: _ => is_sign c = false end) ->
  sign_and_rest (text_of_sign sg ++ s) = (negative sg, s).
Proof.
  intros H. destruct sg; try reflexivity. cbn [text_of_sign app negative]. destruct s as [|c s]; [reflexivity|].
  cbn [sign_and_rest]. apply is_sign_eqb in H as [-> ->]. reflexivity.
Qed.

Lemma digits_no_sign ds f e r : digits_ok ds -> exp_ok e -> (ds ++ match f with Some f => f | None => [] end <> []) ->
  match text_of_digits ds ++ frac_text f ++ exp_text e ++ r with [] => True | c :: _ => is_sign c = false end.
Proof.
  intros H He Hn. destruct ds as [|d ds].
  - destruct f as [f|]; [reflexivity|]. cbn in Hn. congruence.
  - inversion H as [|? ? Hd H']; subst. dchar d Hd. exact H2.
Qed.

Lemma take_float_literal l r : literal_ok l -> stops r -> exists l',
  take_float (text_of_literal l ++ r) = (text_of_literal l', r) /\ literal_ok l' /\
  (forall e, l_exp l' = Some e -> e_mark e = ch_e) /\
  l_sign l' = l_sign l /\ mantissa l' = mantissa l /\ scale l' = scale l.
Proof.
  intros (Hi & Hf & Hn & He) Hr. rewrite text_of_literal_eq. destruct l as [sg ip fp ex].
  unfold frac_digits in *. cbn [l_sign l_int l_frac l_exp] in *.
  assert (He' : exp_ok ex) by exact He. clear He.
  unfold take_float. rewrite <- !app_assoc. rewrite take_sign_literal by (apply digits_no_sign; assumption).
  destruct (take_zeros_false ip (frac_text fp ++ exp_text ex ++ r) Hi (no_zero_frac fp ex r He' Hr))
    as (z & ds' & Et & Hzd & Hv & Hnil).
  rewrite Et. rewrite take_body_digits by (apply Forall_app in Hzd; tauto).
  rewrite take_body_frac; try assumption.
  2:{ destruct z as [|? z]; [|left; reflexivity]. destruct ds' as [|? ds']; [|left; reflexivity].
      right. cbn [app] in Hnil. destruct Hnil as [Hnil _]. rewrite (Hnil eq_refl) in Hn. exact Hn. }
  cbn [fst snd].
  exists {| l_sign := sg; l_int := z ++ ds'; l_frac := fp; l_exp := option_map set_mark ex |}.
  split; [|split; [|split; [|split; [|split]]]].
  - rewrite text_of_literal_eq. cbn [l_sign l_int l_frac l_exp]. rewrite text_of_digits_app, <- !app_assoc. reflexivity.
  - unfold literal_ok, frac_digits. cbn [l_sign l_int l_frac l_exp]. split; [exact Hzd|]. split; [exact Hf|]. split.
    + intros E. apply app_eq_nil in E as [E1 E2]. apply Hnil in E1. subst ip. apply Hn. exact E2.
    + destruct ex as [e|]; cbn [option_map]; [|exact I]. destruct He' as (_ & Hd & Hne). split; [left; reflexivity|].
      split; assumption.
  - cbn [l_exp]. intros e E. destruct ex; cbn in E; [|discriminate]. injection E as <-. reflexivity.
  - reflexivity.
  - unfold mantissa, frac_digits. cbn [l_int l_frac]. rewrite <- app_assoc. apply Hv.
  - unfold scale, frac_digits. cbn [l_int l_frac l_exp]. destruct ex; reflexivity.
Qed.

(** ** strtod *)
Lemma span_digits_text ds r : digits_ok ds -> (match r with [] => True | c :: _ => is_digit c = false end) ->
  span_digits (text_of_digits ds ++ r) = (text_of_digits ds, r).
Proof.
  intros H Hr. induction ds as [|d ds IH].
  - cbn [text_of_digits map app]. destruct r as [|c r]; [reflexivity|]. cbn [span_digits]. rewrite Hr. reflexivity.
  - inversion H as [|? ? Hd H']; subst. dchar d Hd. cbn [text_of_digits map app span_digits]. rewrite H0.
    change (map char_of_digit ds) with (text_of_digits ds). rewrite (IH H'). reflexivity.
Qed.

Lemma strtod_exp (neg : bool) (m e0 : Z) (e : option exponent) : exp_ok e -> (forall x, e = Some x -> e_mark x = ch_e) ->
  match exp_text e return option (bool * Z * Z) with
  | [] => Some (neg, m, e0)
  | c :: r3 =>
      if Ascii.eqb c ch_e then
        let (eneg, r4) := sign_and_rest r3 in
        let (ep, r5) := span_digits r4 in
        match ep, r5 with
        | _ :: _, [] =>
            let ev := digits_value ep in
            Some (neg, m, (if eneg then - ev else ev) + e0)%Z
        | _, _ => None
        end
      else None
  end = Some (neg, m, (match e with
                       | Some e => if negative (e_sign e) then - value_of_digits (e_digits e) else value_of_digits (e_digits e)
                       | None => 0 end + e0)%Z).
Proof.
  intros He Hm. destruct e as [e|]; cbn [exp_text].
  2:{ rewrite Z.add_0_l. reflexivity. }
  unfold text_of_exponent. rewrite (Hm e eq_refl). change (Ascii.eqb ch_e ch_e) with true. cbn iota.
  destruct e as [mk sg ds]. cbn [e_sign e_digits]. destruct He as (_ & Hd & Hn). cbn [e_digits] in Hd, Hn.
  rewrite sign_and_rest_text.
  2:{ destruct ds as [|d ds]; [exact I|]. inversion Hd as [|? ? Hd1 Hd2]; subst. dchar d Hd1. exact H1. }
  rewrite <- (app_nil_r (text_of_digits ds)), span_digits_text by (try exact I; exact Hd).
  destruct ds as [|d ds]; [congruence|]. cbn [text_of_digits map]. change (char_of_digit d :: map char_of_digit ds) with
    (text_of_digits (d :: ds)). cbv zeta. rewrite digits_value_text by exact Hd. reflexivity.
Qed.

Lemma text_of_digits_length ds : length (text_of_digits ds) = length ds.
Proof. apply map_length. Qed.

Lemma frac_part f e : digits_ok (match f with Some f => f | None => [] end) -> exp_ok e ->
  (match frac_text f ++ exp_text e with
   | c :: r' => if Ascii.eqb c ch_dot then span_digits r' else ([], frac_text f ++ exp_text e)
   | [] => ([], frac_text f ++ exp_text e)
   end) = (text_of_digits (match f with Some f => f | None => [] end), exp_text e).
Proof.
  intros Hf He. destruct f as [f|]; cbn [frac_text app].
  - change (Ascii.eqb ch_dot ch_dot) with true. cbn iota. apply span_digits_text; [exact Hf|].
    destruct e as [e|]; [|exact I]. cbn. destruct He as ([E|E] & _); rewrite E; reflexivity.
  - destruct e as [e|]; [|reflexivity]. cbn. destruct He as ([E|E] & _); rewrite E; reflexivity.
Qed.

Lemma strtod_literal l : literal_ok l -> (forall e, l_exp l = Some e -> e_mark e = ch_e) ->
  strtod_all (text_of_literal l) = Some (negative (l_sign l), mantissa l, scale l).
Proof.
  intros (Hi & Hf & Hn & He) Hm. rewrite text_of_literal_eq. destruct l as [sg ip fp ex].
  unfold frac_digits, mantissa, scale in *. unfold frac_digits. cbn [l_sign l_int l_frac l_exp] in *.
  assert (He' : exp_ok ex) by exact He. clear He.
  unfold strtod_all. rewrite sign_and_rest_text.
  2:{ pose proof (digits_no_sign ip fp ex [] Hi He' Hn) as X. rewrite app_nil_r in X. exact X. }
  rewrite span_digits_text; try assumption.
  2:{ destruct fp as [fp|]; [reflexivity|]. destruct ex as [e|]; [|exact I]. cbn.
      destruct He' as ([E|E] & _); rewrite E; reflexivity. }
  rewrite frac_part by assumption.
  rewrite <- text_of_digits_app.
  rewrite !digits_value_text.
  2:{ apply Forall_app. split; assumption. }
  rewrite !text_of_digits_length.
  match goal with |- match ?x with _ => _ end = _ => destruct x as [|c w] eqn:Ew end.
  { exfalso. apply map_eq_nil in Ew. exact (Hn Ew). }
  cbv zeta. rewrite strtod_exp by assumption. f_equal.
Qed.

(** ** One extraction *)
Section Extract.
Context {A : Num} {D : Dec A}.

Lemma skip_ws_spaces sp s : forallb is_space sp = true -> skip_ws (sp ++ s) = skip_ws s.
Proof.
  induction sp as [|c sp IH]; intros H; [reflexivity|]. cbn in H. apply andb_prop in H as [H1 H2].
  cbn [app skip_ws]. rewrite H1. apply IH. exact H2.
Qed.

Lemma literal_head l r : literal_ok l -> exists c s, text_of_literal l ++ r = c :: s /\ is_space c = false.
Proof.
  intros (Hi & Hf & Hn & He). rewrite text_of_literal_eq. destruct l as [sg ip fp ex]. unfold frac_digits in *.
  cbn [l_sign l_int l_frac l_exp] in *. destruct sg; cbn [text_of_sign app].
  - destruct ip as [|d ip].
    + destruct fp as [fp|]; [|cbn in Hn; congruence]. cbn [text_of_digits map app frac_text]. eexists _, _. split; reflexivity.
    + inversion Hi as [|? ? Hd H']; subst. dchar d Hd. eexists _, _. split; [reflexivity|]. assumption.
  - eexists _, _. split; reflexivity.
  - eexists _, _. split; reflexivity.
Qed.

Lemma extract_literal sp l r : forallb is_space sp = true -> literal_ok l -> fits l -> stops r ->
  extract (sp ++ text_of_literal l ++ r) = Some (value_of l, r).
Proof.
  intros Hs Hl Hfit Hr. unfold extract. rewrite skip_ws_spaces by exact Hs.
  destruct (literal_head l r Hl) as (c & s & E & Hc).
  destruct (take_float_literal l r Hl Hr) as (l' & Et & Hl' & Hm & Es & Emant & Esc).
  rewrite E in *. cbn [skip_ws]. rewrite Hc. rewrite Et. rewrite (strtod_literal l' Hl' Hm). rewrite Es, Emant, Esc.
  cbv zeta. unfold fits, value_of in *. destruct (nfloor (ndec (negative (l_sign l)) (mantissa l) (scale l))); [reflexivity|congruence].
Qed.

Lemma extract_spaces sp : forallb is_space sp = true -> extract sp = None.
Proof. intros H. unfold extract. rewrite <- (app_nil_r sp), skip_ws_spaces by exact H. reflexivity. Qed.

Definition number_start (c : ascii) : bool := is_digit c || is_sign c || Ascii.eqb c ch_dot.

Lemma extract_other sp c r : forallb is_space sp = true -> is_space c = false -> number_start c = false ->
  extract (sp ++ c :: r) = None.
Proof.
  intros H Hc Hn. unfold extract. rewrite skip_ws_spaces by exact H. cbn [skip_ws]. rewrite Hc.
  unfold number_start in Hn. apply orb_false_iff in Hn as [Hn H3]. apply orb_false_iff in Hn as [H1 H2].
  unfold take_float. cbn [take_sign]. rewrite H2. cbn [take_zeros].
  destruct (Ascii.eqb_spec c ch_0) as [->|_]; [discriminate|]. cbn [take_body]. rewrite H1, H3.
  cbn [andb negb]. rewrite andb_false_r. reflexivity.
Qed.

(** what an extraction leaves is shorter *)
Lemma take_body_length s : forall fm fd fs x r, take_body fm fd fs s = (x, r) -> length x + length r <= length s.
Proof.
  remember (length s) as n eqn:E. revert s E. induction n as [n IH] using (well_founded_induction lt_wf).
  intros s E fm fd fs x r H. destruct s as [|c s]; [injection H as <- <-; cbn; lia|].
  cbn [take_body] in H. cbn [length] in E.
  destruct (is_digit c).
  { destruct (take_body true fd fs s) as [x1 r1] eqn:E1. injection H as <- <-.
    apply (IH (length s)) in E1; [cbn [length]; lia|lia|reflexivity]. }
  destruct (Ascii.eqb c ch_dot && negb fd && negb fs).
  { destruct (take_body fm true fs s) as [x1 r1] eqn:E1. injection H as <- <-.
    apply (IH (length s)) in E1; [cbn [length]; lia|lia|reflexivity]. }
  destruct ((Ascii.eqb c ch_e || Ascii.eqb c ch_E) && negb fs && fm).
  2:{ injection H as <- <-. cbn [length]; lia. }
  destruct s as [|d s]; [injection H as <- <-; cbn [length] in *; lia|]. cbn [length] in E.
  destruct (is_sign d).
  - destruct (take_body fm fd true s) as [x1 r1] eqn:E1. injection H as <- <-.
    apply (IH (length s)) in E1; [cbn [length]; lia|lia|reflexivity].
  - destruct (take_body fm fd true (d :: s)) as [x1 r1] eqn:E1. injection H as <- <-.
    apply (IH (length (d :: s))) in E1; [cbn [length] in *; lia|cbn [length]; lia|reflexivity].
Qed.

Lemma take_zeros_length s : forall fm x f r, take_zeros fm s = (x, f, r) -> length x + length r <= length s.
Proof.
  induction s as [|c s IH]; intros fm x f r H; cbn [take_zeros] in H; [injection H as <- <- <-; cbn; lia|].
  destruct (Ascii.eqb c ch_0).
  - destruct (take_zeros true s) as [[x1 f1] r1] eqn:E. injection H as <- <- <-. apply IH in E.
    destruct fm; cbn [length]; lia.
  - injection H as <- <- <-. cbn; lia.
Qed.

Lemma take_float_length s x r : take_float s = (x, r) -> length x + length r <= length s.
Proof.
  unfold take_float. destruct (take_sign s) as [x1 r1] eqn:E1. destruct (take_zeros false r1) as [[x2 f] r2] eqn:E2.
  destruct (take_body f false false r2) as [x3 r3] eqn:E3. intros H. injection H as <- <-.
  apply take_zeros_length in E2. apply take_body_length in E3. rewrite !app_length.
  assert (length x1 + length r1 <= length s).
  { destruct s as [|c s]; cbn [take_sign] in E1; [injection E1 as <- <-; cbn; lia|].
    destruct (is_sign c); injection E1 as <- <-; cbn; lia. }
  lia.
Qed.

Lemma skip_ws_length s : length (skip_ws s) <= length s.
Proof. induction s as [|c s IH]; [reflexivity|]. cbn [skip_ws]. destruct (is_space c); cbn [length]; lia. Qed.

Lemma extract_shorter s v r : extract s = Some (v, r) -> length r < length s.
Proof.
  unfold extract. pose proof (skip_ws_length s) as Hl. destruct (skip_ws s) as [|c s1] eqn:E; [discriminate|].
  destruct (take_float (c :: s1)) as [x r1] eqn:Et. apply take_float_length in Et.
  destruct (strtod_all x) as [[[neg m] e]|] eqn:Es; [|discriminate]. cbv zeta.
  destruct (nfloor (ndec neg m e)); [|discriminate]. intros H. injection H as _ <-.
  destruct x as [|c1 x]; [discriminate|]. cbn [length] in *. lia.
Qed.

(** ** Reading numbers one after the other *)
Inductive reads : bytes -> list num -> Prop :=
| reads_stop s : extract s = None -> reads s []
| reads_next s v s' l : extract s = Some (v, s') -> reads s' l -> reads s (v :: l).

Lemma reads_exists s : exists l, reads s l.
Proof.
  remember (length s) as n eqn:E. revert s E. induction n as [n IH] using (well_founded_induction lt_wf).
  intros s E. destruct (extract s) as [[v s']|] eqn:Ex.
  - pose proof (extract_shorter _ _ _ Ex). destruct (IH (length s') ltac:(lia) s' eq_refl) as [l Hl].
    exists (v :: l). econstructor; eassumption.
  - exists []. constructor. exact Ex.
Qed.

Lemma reads_length s l : reads s l -> length l <= length s.
Proof. induction 1 as [|s v s' l E _ IH]; [cbn; lia|]. apply extract_shorter in E. cbn [length]. lia. Qed.

Definition isnil {X} (l : list X) : bool := match l with [] => true | _ => false end.

Lemma read_errors_true s l : reads s l -> forall fuel st, length l < fuel -> has_errors st = true ->
  read_errors fuel s st =
  Ok ({| t_in := t_in st; data_in := data_in st; data_err_in := data_err_in st ++ l;
         has_errors := true; update_has_errors := if isnil l then update_has_errors st else false |}, None).
Proof.
  induction 1 as [s E|s v s' l E H IH]; intros fuel st Hf Hh.
  - destruct fuel; [lia|]. cbn [read_errors]. rewrite E, app_nil_r. destruct st; cbn in *; subst; reflexivity.
  - destruct fuel; [cbn in Hf; lia|]. cbn [read_errors]. rewrite E, Hh. rewrite IH; [|cbn [length] in Hf; lia|reflexivity].
    cbn [t_in data_in data_err_in has_errors update_has_errors isnil]. rewrite <- app_assoc. cbn [app].
    destruct l; reflexivity.
Qed.

Lemma read_points_true s l fuel st : reads s l -> length l < fuel -> has_errors st = true ->
  read_points fuel s st =
  Ok match l with
     | a :: b :: r =>
         {| t_in := t_in st ++ [a]; data_in := data_in st ++ [b]; data_err_in := data_err_in st ++ r;
            has_errors := negb (isnil r && update_has_errors st);
            update_has_errors := isnil r && update_has_errors st |}
     | _ => st
     end.
Proof.
  intros H Hf Hh. destruct fuel as [|fuel]; [lia|].
  destruct H as [s E|s v s1 l E H]; cbn [read_points]; rewrite E; [reflexivity|].
  destruct H as [s1 E1|s1 v1 s2 l E1 H]; rewrite E1; [reflexivity|].
  rewrite (read_errors_true s2 l H); [|cbn [length] in Hf; lia|exact Hh]. cbn [bind fst snd].
  cbn [t_in data_in data_err_in has_errors update_has_errors].
  destruct l; cbn [isnil andb]; [|reflexivity]. destruct (update_has_errors st); reflexivity.
Qed.

Lemma read_points_false s l : reads s l -> forall fuel st, length l < fuel -> has_errors st = false ->
  update_has_errors st = true ->
  read_points fuel s st =
  Ok {| t_in := t_in st ++ map fst (points_of l); data_in := data_in st ++ map snd (points_of l);
        data_err_in := data_err_in st; has_errors := false; update_has_errors := true |}.
Proof.
  intros H fuel. revert s l H. induction fuel as [fuel IH] using (well_founded_induction lt_wf).
  intros s l H st Hf Hh Hu. destruct fuel as [|fuel]; [lia|].
  destruct H as [s E|s v s1 l E H]; cbn [read_points]; rewrite E.
  { cbn [points_of map]. rewrite !app_nil_r. destruct st; cbn in *; subst; reflexivity. }
  destruct H as [s1 E1|s1 v1 s2 l E1 H]; rewrite E1.
  { cbn [points_of map]. rewrite !app_nil_r. destruct st; cbn in *; subst; reflexivity. }
  cbn [length] in Hf. destruct fuel as [|fuel]; [lia|]. cbn [read_errors].
  destruct H as [s2 E2|s2 v2 s3 l E2 H]; rewrite E2.
  - cbn [bind fst snd t_in data_in data_err_in has_errors update_has_errors]. rewrite Hu. reflexivity.
  - cbn [has_errors]. rewrite Hh. cbn [bind fst snd update_has_errors]. rewrite Hu.
    rewrite (IH (S fuel) ltac:(lia) _ _ H); [|cbn [length] in Hf; lia|reflexivity|reflexivity].
    cbn [t_in data_in data_err_in has_errors update_has_errors points_of map fst snd]. rewrite <- !app_assoc. reflexivity.
Qed.

(** ** Lines *)
Definition commented (line : bytes) : bool := match line with c :: _ => Ascii.eqb c ch_hash | [] => false end.
Definition uncomma (s : bytes) : bytes := map (fun c => if Ascii.eqb c ch_comma then ch_space else c) s.

(** the numbers of a line of the file *)
Definition line_reads (line : bytes) (l : list num) : Prop :=
  if commented line then l = [] else reads (uncomma line) l.

Lemma line_reads_exists line : exists l, line_reads line l.
Proof. unfold line_reads. destruct (commented line); [exists []; reflexivity|apply reads_exists]. Qed.

Lemma read_line_true line l st : line_reads line l -> has_errors st = true ->
  read_line st line =
  Ok match l with
     | a :: b :: r =>
         {| t_in := t_in st ++ [a]; data_in := data_in st ++ [b]; data_err_in := data_err_in st ++ r;
            has_errors := negb (isnil r && update_has_errors st);
            update_has_errors := isnil r && update_has_errors st |}
     | _ => st
     end.
Proof.
  unfold line_reads, read_line. fold (commented line). destruct (commented line); intros H Hh.
  - subst l. reflexivity.
  - cbv zeta. fold (uncomma line). rewrite (read_points_true _ l); [reflexivity|exact H| |exact Hh].
    apply reads_length in H. lia.
Qed.

Lemma read_line_false line l st : line_reads line l -> has_errors st = false -> update_has_errors st = true ->
  read_line st line =
  Ok {| t_in := t_in st ++ map fst (points_of l); data_in := data_in st ++ map snd (points_of l);
        data_err_in := data_err_in st; has_errors := false; update_has_errors := true |}.
Proof.
  unfold line_reads, read_line. fold (commented line). destruct (commented line); intros H Hh Hu.
  - subst l. cbn [points_of map]. rewrite !app_nil_r. destruct st; cbn in *; subst; reflexivity.
  - cbv zeta. fold (uncomma line). rewrite (read_points_false _ l); [reflexivity|exact H| |exact Hh|exact Hu].
    apply reads_length in H. lia.
Qed.

Lemma read_lines_false ls ns : Forall2 line_reads ls ns -> forall st, has_errors st = false -> update_has_errors st = true ->
  read_lines ls st =
  Ok {| t_in := t_in st ++ map fst (flat_map points_of ns); data_in := data_in st ++ map snd (flat_map points_of ns);
        data_err_in := data_err_in st; has_errors := false; update_has_errors := true |}.
Proof.
  induction 1 as [|line l ls ns H _ IH]; intros st Hh Hu; cbn [read_lines flat_map].
  - cbn [map]. rewrite !app_nil_r. destruct st; cbn in *; subst; reflexivity.
  - rewrite (read_line_false line l) by assumption. cbn [bind]. rewrite IH by reflexivity.
    cbn [t_in data_in data_err_in has_errors update_has_errors]. rewrite !map_app, <- !app_assoc. reflexivity.
Qed.

Lemma data_line_form (l : list num) : is_data l = true -> exists a b r, l = a :: b :: r.
Proof. destruct l as [|a [|b r]]; try discriminate. intros _. eauto. Qed.
Lemma not_data_line {X} (l : list num) (f : num -> num -> list num -> X) (x : X) : is_data l = false ->
  match l with a :: b :: r => f a b r | _ => x end = x.
Proof. destruct l as [|a [|b r]]; try reflexivity. discriminate. Qed.

(** with errors: the flag [update_has_errors] is down *)
Lemma read_lines_errors ls ns : Forall2 line_reads ls ns -> forall st, has_errors st = true -> update_has_errors st = false ->
  read_lines ls st =
  Ok {| t_in := t_in st ++ times_col (filter is_data ns); data_in := data_in st ++ values_col (filter is_data ns);
        data_err_in := data_err_in st ++ errors_col (filter is_data ns);
        has_errors := true; update_has_errors := false |}.
Proof.
  induction 1 as [|line l ls ns H _ IH]; intros st Hh Hu; cbn [read_lines filter].
  - cbn [times_col values_col errors_col map concat]. rewrite !app_nil_r. destruct st; cbn in *; subst; reflexivity.
  - rewrite (read_line_true line l) by assumption. cbn [bind]. destruct (is_data l) eqn:Ed.
    + destruct (data_line_form l Ed) as (a & b & r & ->). rewrite Hu, andb_false_r. cbn [negb].
      rewrite IH by reflexivity. cbn [t_in data_in data_err_in has_errors update_has_errors].
      rewrite <- !app_assoc. reflexivity.
    + rewrite (not_data_line l) by exact Ed. apply IH; assumption.
Qed.

Definition first_errors (dl : list (list num)) : bool := match dl with l :: _ => 3 <=? length l | [] => false end.

Lemma points_of_data ns : flat_map points_of ns = flat_map points_of (filter is_data ns).
Proof.
  induction ns as [|l ns IH]; [reflexivity|]. cbn [flat_map filter]. destruct (is_data l) eqn:E.
  - cbn [flat_map]. rewrite IH. reflexivity.
  - rewrite IH. destruct l as [|a [|b r]]; try reflexivity. discriminate.
Qed.

Lemma read_lines_start ls ns : Forall2 line_reads ls ns -> forall st, st = rstart -> exists st',
  read_lines ls st = Ok st' /\
  let dl := filter is_data ns in
  if first_errors dl then
    t_in st' = times_col dl /\ data_in st' = values_col dl /\ data_err_in st' = errors_col dl /\ has_errors st' = true
  else
    t_in st' = map fst (flat_map points_of dl) /\ data_in st' = map snd (flat_map points_of dl) /\
    data_err_in st' = [].
Proof.
  induction 1 as [|line l ls ns H HH IH]; intros st ->; cbn [read_lines filter].
  - eexists. split; [reflexivity|]. cbn. repeat split; reflexivity.
  - rewrite (read_line_true line l) by (assumption || reflexivity). cbn [bind]. destruct (is_data l) eqn:Ed.
    + destruct (data_line_form l Ed) as (a & b & r & ->). cbn [rstart t_in data_in data_err_in update_has_errors app].
      rewrite andb_true_r. destruct r as [|c r]; cbn [isnil negb].
      * rewrite (read_lines_false ls ns HH) by reflexivity. eexists. split; [reflexivity|]. cbv zeta.
        cbn [first_errors length Nat.leb t_in data_in data_err_in]. cbn [flat_map points_of app map].
        rewrite points_of_data. repeat split; reflexivity.
      * rewrite (read_lines_errors ls ns HH) by reflexivity. eexists. split; [reflexivity|]. cbv zeta.
        cbn [first_errors length Nat.leb t_in data_in data_err_in has_errors].
        repeat split; reflexivity.
    + rewrite (not_data_line l) by exact Ed. apply IH. reflexivity.
Qed.

Definition file_times (dl : list (list num)) : list num :=
  if first_errors dl then times_col dl else map fst (flat_map points_of dl).
Definition file_values (dl : list (list num)) : list num :=
  if first_errors dl then values_col dl else map snd (flat_map points_of dl).
Definition file_errors (dl : list (list num)) : list num := if first_errors dl then errors_col dl else [].

(** every file, in terms of the numbers on its lines *)
Lemma ds_file_reads s ns : Forall2 line_reads (lines s) ns ->
  ds_file (Some s) = ds_1d_err (file_times (filter is_data ns)) (file_values (filter is_data ns)) (file_errors (filter is_data ns)).
Proof.
  intros H. unfold ds_file. destruct (read_lines_start _ _ H rstart eq_refl) as (st & E & Hst). rewrite E. cbn [bind].
  unfold ds_1d_err, file_times, file_values, file_errors. cbv zeta in Hst. destruct (first_errors (filter is_data ns)).
  - destruct Hst as (-> & -> & -> & ->). reflexivity.
  - destruct Hst as (-> & -> & ->). destruct (has_errors st); reflexivity.
Qed.

Lemma lines_reads_exists (ls : list bytes) : exists ns, Forall2 line_reads ls ns.
Proof.
  induction ls as [|l ls [ns IH]]; [exists []; constructor|]. destruct (line_reads_exists l) as [n Hn].
  exists (n :: ns). constructor; assumption.
Qed.

(** ** The text of rows *)
Lemma separator_space c : separator c -> is_space (if Ascii.eqb c ch_comma then ch_space else c) = true.
Proof. unfold separator. intros [->|[->|[->|[->|[->| ->]]]]]; reflexivity. Qed.
Lemma separators_spaces s : Forall separator s -> forallb is_space (uncomma s) = true.
Proof.
  induction 1 as [|c s H _ IH]; [reflexivity|]. cbn [uncomma map forallb]. rewrite separator_space by exact H. exact IH.
Qed.
Lemma not_separator c : ~ separator c -> c <> NL -> Ascii.eqb c ch_comma = false /\ is_space c = false.
Proof.
  intros H Hn. split.
  - destruct (Ascii.eqb_spec c ch_comma); [|reflexivity]. subst. exfalso. apply H. left. reflexivity.
  - destruct (is_space c) eqn:E; [|reflexivity]. exfalso.
    assert (K : c = " "%char \/ c = "009"%char \/ c = "010"%char \/ c = "011"%char \/ c = "012"%char \/ c = "013"%char).
    { clear H Hn. unfold is_space, code in E. rewrite <- (ascii_nat_embedding c) in *. revert E.
      generalize (nat_ascii_bounded c). generalize (nat_of_ascii c). intros n Hb E.
      rewrite nat_ascii_embedding in E by exact Hb.
      assert (n = 32 \/ n = 9 \/ n = 10 \/ n = 11 \/ n = 12 \/ n = 13).
      { apply orb_prop in E as [E|E]; [apply Z.eqb_eq in E; lia|]. apply andb_prop in E as [E1 E2].
        apply Z.leb_le in E1, E2. lia. }
      intuition (subst; auto). }
    unfold separator in H. change NL with "010"%char in Hn. tauto.
Qed.

Lemma starts_number_false c : starts_number c = false -> number_start c = false.
Proof.
  intros H. unfold number_start. destruct (is_digit c) eqn:E1.
  - exfalso. unfold is_digit, code in E1. rewrite <- (ascii_nat_embedding c) in *. revert E1 H.
    generalize (nat_ascii_bounded c). generalize (nat_of_ascii c). intros n Hb E H.
    rewrite nat_ascii_embedding in E by exact Hb.
    assert (n = 48 \/ n = 49 \/ n = 50 \/ n = 51 \/ n = 52 \/ n = 53 \/ n = 54 \/ n = 55 \/ n = 56 \/ n = 57).
    { apply andb_prop in E as [E1 E2]. apply Z.leb_le in E1, E2. lia. }
    intuition (subst; discriminate).
  - cbn [orb]. destruct (is_sign c) eqn:E2.
    + exfalso. unfold is_sign in E2. apply orb_prop in E2 as [E|E]; apply Ascii.eqb_eq in E; subst; discriminate.
    + cbn [orb]. destruct (Ascii.eqb_spec c ch_dot); [subst; discriminate|reflexivity].
Qed.

Lemma uncomma_app a b : uncomma (a ++ b) = uncomma a ++ uncomma b.
Proof. apply map_app. Qed.

Lemma uncomma_digits ds : digits_ok ds -> uncomma (text_of_digits ds) = text_of_digits ds.
Proof.
  induction 1 as [|d ds H _ IH]; [reflexivity|]. cbn [text_of_digits map uncomma]. dchar d H. rewrite H5. f_equal. exact IH.
Qed.
Lemma uncomma_literal l : literal_ok l -> uncomma (text_of_literal l) = text_of_literal l.
Proof.
  intros (Hi & Hf & Hn & He). rewrite text_of_literal_eq. destruct l as [sg ip fp ex]. unfold frac_digits in *.
  cbn [l_sign l_int l_frac l_exp] in *. rewrite !uncomma_app. f_equal; [destruct sg; reflexivity|].
  f_equal; [apply uncomma_digits; exact Hi|]. f_equal.
  - destruct fp as [fp|]; [|reflexivity]. cbn [frac_text uncomma map]. f_equal. apply uncomma_digits. exact Hf.
  - destruct ex as [[mk sg2 ds]|]; [|reflexivity]. destruct He as (Hm & Hd & _). cbn [e_mark e_sign e_digits] in *.
    cbn [exp_text]. unfold text_of_exponent. cbn [e_mark e_sign e_digits].
    change (uncomma (mk :: text_of_sign sg2 ++ text_of_digits ds)) with
      ((if Ascii.eqb mk ch_comma then ch_space else mk) :: uncomma (text_of_sign sg2 ++ text_of_digits ds)).
    rewrite uncomma_app, (uncomma_digits ds) by exact Hd. f_equal; [destruct Hm as [-> | ->]; reflexivity|].
    destruct sg2; reflexivity.
Qed.

Lemma extract_unreadable s : unreadable s -> no_newline s -> extract (uncomma s) = None.
Proof.
  intros [s0 H|s0 c r H Hc Hn] Hnl.
  - apply extract_spaces, separators_spaces, H.
  - assert (c <> NL) by (intros ->; apply Hnl, in_or_app; right; left; reflexivity).
    destruct (not_separator c Hc H0) as [E1 E2]. rewrite uncomma_app. cbn [uncomma map]. rewrite E1.
    apply extract_other; [apply separators_spaces, H|exact E2|apply starts_number_false, Hn].
Qed.

Lemma stops_space c r : is_space c = true -> stops (c :: r).
Proof.
  intros H. cbn. unfold is_digit, is_space in *.
  destruct (Ascii.eqb_spec c ch_dot); [subst; discriminate|].
  destruct (Ascii.eqb_spec c ch_e); [subst; discriminate|].
  destruct (Ascii.eqb_spec c ch_E); [subst; discriminate|].
  repeat split; try reflexivity.
  destruct (48 <=? code c)%Z eqn:E; [|reflexivity]. apply Z.leb_le in E.
  apply orb_prop in H as [H|H]; [apply Z.eqb_eq in H; lia|]. apply andb_prop in H as [_ H]. apply Z.leb_le in H. lia.
Qed.

Lemma stops_tail s : unreadable s -> no_newline s -> no_exponent s -> stops (uncomma s).
Proof.
  intros H Hnl He.
  assert (K : match s with [] => True | c :: _ => separator c \/ (~ separator c /\ starts_number c = false) end).
  { destruct H as [s H|s c r H Hc Hn].
    - destruct H as [|c s H _]; [exact I|left; exact H].
    - destruct H as [|c1 s H _]; cbn [app]; [right; split; assumption|left; exact H]. }
  destruct s as [|c s]; [exact I|]. cbn [uncomma map]. destruct K as [K|[K1 K2]].
  - apply stops_space, separator_space, K.
  - assert (c <> NL) by (intros ->; apply Hnl; left; reflexivity).
    destruct (not_separator c K1 H0) as [E1 E2]. rewrite E1. apply starts_number_false in K2. unfold number_start in K2.
    apply orb_false_iff in K2 as [K2 K3]. apply orb_false_iff in K2 as [K2 K4]. cbn in He. destruct He as [He1 He2].
    cbn. repeat split; try assumption; apply Ascii.eqb_neq; assumption.
Qed.

Lemma stops_separators s r : Forall separator s -> s <> [] -> stops (uncomma s ++ r).
Proof.
  intros H Hn. destruct H as [|c s H _]; [congruence|]. cbn [uncomma map app]. apply stops_space, separator_space, H.
Qed.

Lemma reads_fields fs tail :
  Forall (fun f => Forall separator (fst f)) fs -> Forall (fun f => fst f <> []) (tl fs) ->
  Forall (fun f => literal_ok (snd f)) fs -> Forall (fun f => fits (snd f)) fs ->
  unreadable tail -> no_newline tail -> (fs <> [] -> no_exponent tail) ->
  reads (uncomma (concat (map (fun f => fst f ++ text_of_literal (snd f)) fs) ++ tail)) (map (fun f => value_of (snd f)) fs).
Proof.
  intros H1 H2 H3 H4 H5 H6 H7. induction fs as [|[sp l] fs IH].
  - cbn. apply reads_stop, extract_unreadable; assumption.
  - inversion H1 as [|? ? A1 A2]; subst. inversion H3 as [|? ? B1 B2]; subst. inversion H4 as [|? ? C1 C2]; subst.
    cbn [fst snd tl] in *. cbn [map concat fst snd]. rewrite !uncomma_app, (uncomma_literal l B1), <- !app_assoc.
    eapply reads_next.
    + apply extract_literal; [apply separators_spaces, A1|exact B1|exact C1|].
      destruct fs as [|[sp2 l2] fs].
      * cbn. apply stops_tail; try assumption. apply H7. discriminate.
      * inversion H2 as [|? ? E1 E2]; subst. inversion A2 as [|? ? F1 F2]; subst. cbn [fst] in *.
        cbn [map concat fst snd]. rewrite !uncomma_app, <- !app_assoc. apply stops_separators; assumption.
    + rewrite <- uncomma_app. apply IH; try assumption.
      * destruct fs; [constructor|]. inversion H2; assumption.
      * intros _. apply H7. discriminate.
Qed.

Lemma row_head r : row_ok r -> commented (text_of_row r) = false.
Proof.
  intros [H1 H2 H3 H4 H5 H6 H7]. unfold text_of_row. destruct r as [fs tail]. cbn [r_fields r_tail] in *.
  destruct fs as [|[sp l] fs].
  - cbn. destruct tail as [|c tail]; [reflexivity|]. cbn. apply Ascii.eqb_neq. apply H7. reflexivity.
  - cbn [map concat fst snd]. inversion H1 as [|? ? A1 A2]; subst. inversion H3 as [|? ? B1 B2]; subst. cbn [fst snd] in *.
    destruct A1 as [|c sp A1 _].
    + cbn [app]. rewrite <- app_assoc. destruct B1 as (Hi & Hf & Hn & He). rewrite text_of_literal_eq.
      destruct l as [sg ip fp ex]. unfold frac_digits in *. cbn [l_sign l_int l_frac l_exp] in *.
      destruct sg; [|reflexivity|reflexivity]. cbn [text_of_sign app]. destruct ip as [|d ip].
      * destruct fp as [fp|]; [reflexivity|]. cbn in Hn. congruence.
      * inversion Hi as [|? ? Hd H']; subst. dchar d Hd. cbn. assumption.
    + cbn [app commented]. unfold separator in A1. destruct A1 as [->|[->|[->|[->|[->| ->]]]]]; reflexivity.
Qed.

Lemma line_reads_line l : line_ok l -> Forall fits (literals_of l) -> line_reads (text_of_line l) (numbers_of l).
Proof.
  destruct l as [s|r]; intros Hl Hfit; unfold line_reads.
  - reflexivity.
  - cbn [text_of_line]. rewrite row_head by exact Hl. unfold text_of_row, numbers_of. cbn [literals_of]. rewrite map_map.
    destruct Hl. cbn [literals_of] in Hfit. apply reads_fields; try assumption. exact (proj1 (Forall_map snd fits (r_fields r)) Hfit).
Qed.

(** ** The lines of a file *)
Lemma lines_cons l s : no_newline l -> lines (l ++ NL :: s) = l :: lines s.
Proof.
  intros H. induction l as [|c l IH]; [reflexivity|]. cbn [app lines].
  destruct (Ascii.eqb_spec c NL) as [->|_]; [exfalso; apply H; left; reflexivity|].
  rewrite IH; [reflexivity|]. intros Hi. apply H. right. exact Hi.
Qed.
Lemma lines_last l : no_newline l -> lines l = match l with [] => [] | _ => [l] end.
Proof.
  intros H. induction l as [|c l IH]; [reflexivity|]. cbn [lines].
  destruct (Ascii.eqb_spec c NL) as [->|_]; [exfalso; apply H; left; reflexivity|].
  rewrite IH; [|intros Hi; apply H; right; exact Hi]. destruct l; reflexivity.
Qed.

Lemma digits_no_newline ds : digits_ok ds -> no_newline (text_of_digits ds).
Proof.
  intros H Hi. apply in_map_iff in Hi as (d & E & Hd). unfold digits_ok in H. rewrite Forall_forall in H.
  dchar d (H d Hd). rewrite E in *. discriminate.
Qed.

Lemma no_newline_app a b : no_newline a -> no_newline b -> no_newline (a ++ b).
Proof. unfold no_newline. intros H1 H2 H. apply in_app_or in H. tauto. Qed.
Lemma sign_no_newline s : no_newline (text_of_sign s).
Proof. destruct s; cbn; intros H; [exact H| |]; destruct H as [H|H]; [discriminate|exact H|discriminate|exact H]. Qed.
Lemma separators_no_newline s : Forall separator s -> no_newline s.
Proof.
  intros H Hi. rewrite Forall_forall in H. apply H in Hi. unfold separator in Hi.
  destruct Hi as [E|[E|[E|[E|[E|E]]]]]; discriminate.
Qed.
Lemma literal_no_newline l : literal_ok l -> no_newline (text_of_literal l).
Proof.
  intros (Hi & Hf & Hn & He). rewrite text_of_literal_eq. destruct l as [sg ip fp ex]. unfold frac_digits in *.
  cbn [l_sign l_int l_frac l_exp] in *. repeat apply no_newline_app.
  - apply sign_no_newline.
  - apply digits_no_newline, Hi.
  - destruct fp as [fp|]; [|intros []]. cbn [frac_text]. intros [E|E]; [discriminate|]. revert E. apply digits_no_newline, Hf.
  - destruct ex as [[mk sg2 ds]|]; [|intros []]. destruct He as (Hm & Hd & _). cbn [e_mark e_sign e_digits] in *.
    cbn [exp_text]. unfold text_of_exponent. cbn [e_mark e_sign e_digits]. intros [E|E].
    + destruct Hm as [Hm|Hm]; rewrite Hm in E; discriminate.
    + revert E. apply no_newline_app; [apply sign_no_newline|apply digits_no_newline, Hd].
Qed.

Lemma line_no_newline l : line_ok l -> no_newline (text_of_line l).
Proof.
  destruct l as [s|r]; cbn [line_ok text_of_line].
  - intros H [E|E]; [discriminate|]. exact (H E).
  - intros [H1 H2 H3 H4 H5 H6 H7]. unfold text_of_row. apply no_newline_app; [|exact H6].
    clear H2 H4 H5 H6 H7. induction (r_fields r) as [|[sp l] fs IH]; [intros []|].
    inversion H1 as [|? ? A1 A2]; subst. inversion H3 as [|? ? B1 B2]; subst. cbn [map concat fst snd] in *.
    apply no_newline_app; [apply no_newline_app; [apply separators_no_newline, A1|apply literal_no_newline, B1]|apply IH; assumption].
Qed.

Lemma lines_text ls s : Forall line_ok ls -> lines (text_of_lines ls ++ s) = map text_of_line ls ++ lines s.
Proof.
  induction 1 as [|l ls H _ IH]; [reflexivity|]. unfold text_of_lines. cbn [map concat]. rewrite <- !app_assoc. cbn [app].
  rewrite lines_cons by (apply line_no_newline, H). f_equal. exact IH.
Qed.

Lemma lines_reads ls : Forall line_ok ls -> Forall (fun l => Forall fits (literals_of l)) ls ->
  Forall2 line_reads (map text_of_line ls) (map numbers_of ls).
Proof.
  induction 1 as [|l ls H _ IH]; intros Hf; [constructor|]. inversion Hf; subst. constructor.
  - apply line_reads_line; assumption.
  - apply IH; assumption.
Qed.

(** a file given line by line, then anything *)
Lemma file_app ls s : Forall line_ok ls -> Forall (fun l => Forall fits (literals_of l)) ls ->
  exists ns, Forall2 line_reads (lines s) ns /\
  let dl := data_lines ls ++ filter is_data ns in
  ds_file (Some (text_of_lines ls ++ s)) = ds_1d_err (file_times dl) (file_values dl) (file_errors dl).
Proof.
  intros H1 H2. destruct (lines_reads_exists (lines s)) as [ns Hns]. exists ns. split; [exact Hns|].
  cbv zeta. unfold data_lines. rewrite <- filter_app. apply ds_file_reads. rewrite lines_text by exact H1.
  apply Forall2_app; [apply lines_reads; assumption|exact Hns].
Qed.

Lemma file_lines ls : Forall line_ok ls -> Forall (fun l => Forall fits (literals_of l)) ls ->
  let dl := data_lines ls in
  ds_file (Some (text_of_lines ls)) = ds_1d_err (file_times dl) (file_values dl) (file_errors dl).
Proof.
  intros H1 H2. destruct (file_app ls [] H1 H2) as (ns & Hns & E). inversion Hns; subst. cbv zeta in *.
  rewrite !app_nil_r in E. exact E.
Qed.

(** the last line may lack its newline *)
Lemma file_last_line ls l : Forall line_ok (ls ++ [l]) ->
  lines (text_of_lines ls ++ text_of_line l) = map text_of_line ls ++ match text_of_line l with [] => [] | _ => [text_of_line l] end.
Proof.
  intros H. apply Forall_app in H as [H1 H2]. inversion H2; subst. rewrite lines_text by exact H1.
  rewrite lines_last by (apply line_no_newline; assumption). reflexivity.
Qed.

Lemma file_no_last_newline ls l : Forall line_ok (ls ++ [l]) ->
  ds_file (Some (text_of_lines ls ++ text_of_line l)) = ds_file (Some (text_of_lines (ls ++ [l]))).
Proof.
  intros H. unfold ds_file. rewrite file_last_line by exact H.
  rewrite <- (app_nil_r (text_of_lines (ls ++ [l]))), lines_text by exact H. cbn [lines]. rewrite map_app, app_nil_r. cbn [map].
  destruct (text_of_line l) eqn:E; [|reflexivity].
  assert (X : forall ls st, read_lines (ls ++ []) st = read_lines (ls ++ [[]]) st).
  { clear. intros ls. induction ls as [|l ls IH]; intros st; [reflexivity|]. cbn [app read_lines].
    destruct (read_line st l); cbn [bind]; try reflexivity. apply IH. }
  rewrite X. reflexivity.
Qed.

End Extract.
