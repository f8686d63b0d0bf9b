(** Proofs about int(), float() and version strings. *)
From Verif Require Import PyBase PyNum Unicode SpecUnicode UnicodeFacts PyFacts Json JsonText SpecText TextFacts Version VersionFacts SpecTags Tags TagFacts SpecNums.
From Coq Require Import SpecFloat.
Open Scope string_scope.
Open Scope list_scope.

(** ** Blanks *)
Lemma is_space_white : forall c, is_space c = true <-> white c.
Proof.
  intros c. unfold is_space, white. rewrite !orb_true_iff, !in_range_iff, !N.eqb_eq. tauto.
Qed.
Lemma white_all : forall l, Forall white l <-> all_in is_space l.
Proof. intros l. unfold all_in. split; intros H; (eapply Forall_impl; [ | exact H]); intros c; apply is_space_white. Qed.
Lemma is_blank_skipped : forall c, is_blank c = true <-> skipped c.
Proof.
  intros c. unfold is_blank, skipped. rewrite !orb_true_iff, !in_range_iff, !N.eqb_eq. tauto.
Qed.
Lemma skipped_all : forall l, Forall skipped l <-> all_in is_blank l.
Proof. intros l. unfold all_in. split; intros H; (eapply Forall_impl; [ | exact H]); intros c; apply is_blank_skipped. Qed.
Lemma skipped_white : forall c, skipped c -> white c.
Proof. unfold skipped, white. intros c H. lia. Qed.
Lemma lstrip_spec : forall f l, exists b, l = b ++ lstrip f l /\ all_in f b /\ (forall c r, lstrip f l = c :: r -> f c = false).
Proof.
  intros f. induction l as [ | c l (b & E & F & N)]; cbn [lstrip].
  - exists []. repeat split; auto. constructor. discriminate.
  - destruct (f c) eqn:Ec.
    + exists (c :: b). cbn [app]. rewrite <- E. repeat split; auto. constructor; auto.
    + exists []. repeat split; auto. constructor. intros ? ? H. injection H as <- _. auto.
Qed.
Lemma strip_spec : forall f l, exists b1 b2, l = b1 ++ strip_by f l ++ b2 /\ all_in f b1 /\ all_in f b2.
Proof.
  intros f l. unfold strip_by. destruct (lstrip_spec f l) as (b1 & E1 & F1 & _). destruct (lstrip_spec f (rev (lstrip f l))) as (b2 & E2 & F2 & _).
  exists b1, (rev b2). split; [ | split; auto; apply Forall_rev; auto].
  rewrite E1 at 1. f_equal. rewrite <- (rev_involutive (lstrip f l)) at 1. rewrite E2 at 1. rewrite rev_app_distr. auto.
Qed.
Definition solid (c : ascii) : Prop := is_space c = false.
Lemma solid_blank : forall c, solid c -> is_blank c = false.
Proof.
  intros c H. destruct (is_blank c) eqn:E; auto. apply is_blank_skipped, skipped_white, is_space_white in E. unfold solid in H. congruence.
Qed.
Lemma strip_around : forall b1 w b2, all_in is_space b1 -> all_in is_space b2 -> Forall solid w -> w <> [] -> strip (b1 ++ w ++ b2) = w.
Proof.
  intros b1 w b2 H1 H2 S N. apply strip_blanks; auto.
  - destruct w as [ | c l]; [congruence | ]. inversion S; subst. eauto.
  - destruct (exists_last N) as (l & c & ->). apply Forall_app in S as [_ S]. inversion S; subst. eauto.
Qed.
Lemma trim_around : forall b1 w b2, all_in is_blank b1 -> all_in is_blank b2 -> Forall solid w -> w <> [] -> trim (b1 ++ w ++ b2) = w.
Proof.
  intros b1 w b2 H1 H2 S N. apply strip_blanks; auto.
  - destruct w as [ | c l]; [congruence | ]. inversion S; subst. eauto using solid_blank.
  - destruct (exists_last N) as (l & c & ->). apply Forall_app in S as [_ S]. inversion S; subst. eauto using solid_blank.
Qed.

(** ** Numerals *)
Lemma numeral_digits : forall t ds, numeral t ds -> Forall digit ds /\ ds <> [].
Proof. intros t ds H. induction H; split; try discriminate; try (constructor; tauto). auto. Qed.
Lemma numeral_head : forall t ds, numeral t ds -> exists c l m, t = c :: l /\ ds = c :: m /\ digit c.
Proof. intros t ds H. destruct H; eauto 7. Qed.
Lemma digit_solid : forall c, digit c -> solid c.
Proof. intros c H. unfold solid. destruct (is_space c) eqn:E; auto. apply is_space_white in E. unfold digit, white in *. lia. Qed.
Lemma numeral_solid : forall t ds, numeral t ds -> Forall solid t.
Proof. intros t ds H. induction H; repeat constructor; auto; apply digit_solid; auto. Qed.

Lemma digits_val_numeral : forall t ds, numeral t ds -> forall a b, digits_val digit_val 10 a b t = Some (decimal_from a ds).
Proof.
  intros t ds H. induction H as [c D | c t ds D H IH | c t ds D H IH]; intros a b; cbn [digits_val];
    destruct (digit_ok c D) as (_ & _ & _ & E); rewrite E; unfold decimal_from; cbn [fold_left].
  - f_equal. lia.
  - rewrite IH. unfold decimal_from. do 2 f_equal. lia.
  - change (digit_val "_") with (@None N). cbn [Ascii.eqb Bool.eqb andb]. rewrite IH. unfold decimal_from. do 2 f_equal. lia.
Qed.
Lemma digit_val_some : forall c n, digit_val c = Some n -> digit c /\ n = (code c - 48)%N.
Proof. intros c n H. unfold digit_val in H. destruct (is_digit c) eqn:E; [ | discriminate]. injection H as <-. apply is_digit_digit in E. auto. Qed.
Lemma digits_val_sound : forall l a b n, digits_val digit_val 10 a b l = Some n ->
  if b then (l = [] /\ n = a) \/ (exists ds, numeral l ds /\ n = decimal_from a ds) \/
            (exists t ds, l = "_"%char :: t /\ numeral t ds /\ n = decimal_from a ds)
  else exists ds, numeral l ds /\ n = decimal_from a ds.
Proof.
  induction l as [ | c l IH]; intros a b n H; cbn [digits_val] in H.
  - destruct b; [ | discriminate]. injection H as <-. auto.
  - destruct (digit_val c) as [d | ] eqn:Ed.
    + apply digit_val_some in Ed as [D ->]. apply IH in H.
      assert (X : exists ds, numeral (c :: l) ds /\ n = decimal_from a ds).
      { assert (E : forall ds, decimal_from (a * 10 + (code c - 48)) ds = decimal_from a (c :: ds)).
        { intros ds. unfold decimal_from. cbn [fold_left]. f_equal. lia. }
        destruct H as [[-> ->] | [(ds & N & ->) | (t & ds & -> & N & ->)]].
        - exists [c]. split; [constructor; auto | unfold decimal_from; cbn [fold_left]; lia].
        - exists (c :: ds). split; [constructor; auto | apply E].
        - exists (c :: ds). split; [apply nu_under; auto | apply E]. }
      destruct b; auto.
    + destruct (Ascii.eqb_spec c "_"); [subst | discriminate]. destruct b; [ | discriminate]. cbn [andb] in H.
      apply IH in H as (ds & N & ->). right. right. eauto.
Qed.
Lemma digits_val_iff : forall l n, digits_val digit_val 10 0 false l = Some n <-> exists ds, numeral l ds /\ n = decimal_value ds.
Proof.
  intros l n. split.
  - intros H. apply digits_val_sound in H. auto.
  - intros (ds & N & ->). apply digits_val_numeral. auto.
Qed.

(** ** int() *)
Lemma py_int_eq : forall s, py_int s =
  match trim s with
  | [] => None
  | c :: l => if Ascii.eqb c "-" then option_map (fun n => - Z.of_N n)%Z (digits_val digit_val 10 0 false l)
              else if Ascii.eqb c "+" then option_map Z.of_N (digits_val digit_val 10 0 false l)
              else option_map Z.of_N (digits_val digit_val 10 0 false (c :: l))
  end.
Proof.
  intros s. unfold py_int. destruct (trim s) as [ | c l]; auto.
  destruct (Ascii.eqb_spec c "-"); [subst; auto | ]. destruct (Ascii.eqb_spec c "+"); [subst; auto | ].
  each_ascii c; try congruence; reflexivity.
Qed.
Lemma option_map_some : forall A B (f : A -> B) o b, option_map f o = Some b <-> exists a, o = Some a /\ b = f a.
Proof. intros A B f [a | ] b; cbn; split; [intros [= <-]; eauto | intros (a' & [= <-] & ->); auto | discriminate | intros (? & [=] & _)]. Qed.
Lemma sign_solid : forall sg neg, sign_text sg neg -> Forall solid sg.
Proof. intros sg neg H. destruct H; repeat constructor. Qed.
Lemma py_int_iff : forall s z, py_int s = Some z <-> int_text s z.
Proof.
  intros s z. rewrite py_int_eq. split.
  - destruct (strip_spec is_blank s) as (b1 & b2 & E & F1 & F2). apply skipped_all in F1, F2. fold (trim s) in E. destruct (trim s) as [ | c l]; [discriminate | ].
    destruct (Ascii.eqb_spec c "-"); [subst c | destruct (Ascii.eqb_spec c "+"); [subst c | ]];
      intros H; apply option_map_some in H as (n' & H & ->); apply digits_val_iff in H as (ds & N & ->).
    + exists b1, b2, ["-"%char], true, l, ds. repeat split; auto. constructor.
    + exists b1, b2, ["+"%char], false, l, ds. repeat split; auto. constructor.
    + exists b1, b2, [], false, (c :: l), ds. repeat split; auto. constructor.
  - intros (b1 & b2 & sg & neg & t & ds & F1 & F2 & S & N & -> & ->). apply skipped_all in F1, F2.
    rewrite (app_assoc sg t b2), trim_around; auto.
    2:{ apply Forall_app. split; [eapply sign_solid | eapply numeral_solid]; eauto. }
    2:{ destruct (numeral_head t ds N) as (c & l & m & -> & _). destruct sg; discriminate. }
    assert (V : digits_val digit_val 10 0 false t = Some (decimal_value ds)) by (apply digits_val_iff; eauto).
    destruct S; cbn [app Ascii.eqb Bool.eqb]; try (rewrite V; reflexivity).
    destruct (numeral_head t ds N) as (c & l & m & -> & -> & D).
    replace (Ascii.eqb c "-") with false by (digits D; reflexivity). replace (Ascii.eqb c "+") with false by (digits D; reflexivity).
    rewrite V. reflexivity.
Qed.

(** ** float() *)
Lemma drop_cons : forall b c l, Ascii.eqb c "_" = false -> drop_underscores b (c :: l) = option_map (cons c) (drop_underscores (is_digit c) l).
Proof. intros b c l H. cbn [drop_underscores]. rewrite H. auto. Qed.
(** a run of digits *)
Lemma drop_run : forall n l c u, (length l <= n)%nat -> digit c -> drop_underscores true l = Some u ->
  exists t ds r v, l = t ++ r /\ numeral (c :: t) (c :: ds) /\ u = ds ++ v /\ drop_underscores false r = Some v /\
    match v with d :: _ => ~ digit d | [] => True end.
Proof.
  induction n as [ | n IH]; intros l c u L D H.
  { destruct l; [ | cbn in L; lia]. injection H as <-. exists [], [], [], []. repeat split; auto. constructor; auto. }
  destruct l as [ | d l]; [apply (IH [] c u); auto; cbn; lia | ]. cbn in L.
  destruct (Ascii.eqb d "_") eqn:Ed.
  - cbn [drop_underscores] in H. rewrite Ed in H. apply Ascii.eqb_eq in Ed as ->.
    destruct l as [ | d l]; [discriminate | ]. destruct (is_digit d) eqn:E; [ | discriminate].
    assert (Dd : digit d) by (apply is_digit_digit; auto). rewrite drop_cons in H by (apply digit_ok; auto). rewrite E in H.
    apply option_map_some in H as (u' & H & ->).
    destruct (IH l d u') as (t & ds & r & v & -> & N & -> & X & Y); auto; [cbn in L; lia | ].
    exists ("_"%char :: d :: t), (d :: ds), r, v. repeat split; auto. apply nu_under; auto.
  - assert (H' := H). rewrite drop_cons in H by auto. destruct (is_digit d) eqn:E.
    + assert (Dd : digit d) by (apply is_digit_digit; auto). apply option_map_some in H as (u' & H & ->).
      destruct (IH l d u') as (t & ds & r & v & -> & N & -> & X & Y); auto; [lia | ].
      exists (d :: t), (d :: ds), r, v. repeat split; auto. constructor; auto.
    + exists [], [], (d :: l), u. rewrite drop_cons by auto. rewrite E. repeat split; auto; [constructor; auto | ].
      apply option_map_some in H as (u' & H & ->). rewrite <- is_digit_digit. congruence.
Qed.
Lemma drop_split : forall l u, drop_underscores false l = Some u ->
  exists t ds r v, l = t ++ r /\ opt_numeral t ds /\ u = ds ++ v /\ drop_underscores false r = Some v /\
    match v with d :: _ => ~ digit d | [] => True end.
Proof.
  intros [ | c l] u H.
  - injection H as <-. exists [], [], [], []. repeat split; auto. constructor.
  - assert (H' := H). destruct (Ascii.eqb c "_") eqn:Ec; [cbn [drop_underscores] in H; rewrite Ec in H; discriminate | ].
    rewrite drop_cons in H by auto. apply option_map_some in H as (u' & H & ->). destruct (is_digit c) eqn:E.
    + assert (D : digit c) by (apply is_digit_digit; auto).
      destruct (drop_run (length l) l c u') as (t & ds & r & v & -> & N & -> & X & Y); auto.
      exists (c :: t), (c :: ds), r, v. repeat split; auto. constructor; auto.
    + exists [], [], (c :: l), (c :: u'). repeat split; auto; [constructor | ]. rewrite <- is_digit_digit. congruence.
Qed.
Lemma drop_head : forall l c u, drop_underscores false l = Some (c :: u) -> is_digit c = false -> exists r, l = c :: r /\ drop_underscores false r = Some u.
Proof.
  intros [ | d l] c u H E; [discriminate | ].
  destruct (Ascii.eqb d "_") eqn:Ed; [cbn [drop_underscores] in H; rewrite Ed in H; discriminate | ].
  rewrite drop_cons in H by auto. apply option_map_some in H as (u' & H & [= -> ->]). rewrite E in H. eauto.
Qed.
Lemma drop_nil : forall l, drop_underscores false l = Some [] -> l = [].
Proof.
  intros [ | d l] H; auto. destruct (Ascii.eqb d "_") eqn:Ed; [cbn [drop_underscores] in H; rewrite Ed in H; discriminate | ].
  rewrite drop_cons in H by auto. apply option_map_some in H as (u' & _ & [=]).
Qed.
Lemma drop_letters : forall u l, drop_underscores false l = Some u -> Forall (fun c => is_digit c = false) u -> l = u.
Proof.
  induction u as [ | c u IH]; intros l H F; [apply drop_nil; auto | ]. inversion F; subst.
  apply drop_head in H as (r & -> & H); auto. f_equal. auto.
Qed.
Lemma opt_numeral_digits : forall t ds, opt_numeral t ds -> Forall digit ds.
Proof. intros t ds [ | t' ds' H]; auto. apply numeral_digits in H. tauto. Qed.
Lemma take_run : forall ds v a n, Forall digit ds -> match v with d :: _ => ~ digit d | [] => True end ->
  take_digits a n (ds ++ v) = (decimal_from a ds, (n + length ds)%nat, v).
Proof. intros. apply take_digits_text; auto. Qed.

Lemma parse_exp_eq : forall l, parse_exp l =
  match l with
  | [] => Some 0%Z
  | c :: l' =>
      if Ascii.eqb (lower c) "e" then
        let neg := match l' with s :: _ => Ascii.eqb s "-" | [] => false end in
        let l'' := match l' with s :: r => if (Ascii.eqb s "-" || Ascii.eqb s "+")%bool then r else l' | [] => [] end in
        let '(x, n, rest) := take_digits 0 0 l'' in
        match n, rest with
        | O, _ => None
        | _, [] => Some (if neg then (- Z.of_N x)%Z else Z.of_N x)
        | _, _ => None
        end
      else None
  end.
Proof.
  intros [ | c l]; auto. cbn [parse_exp]. destruct (Ascii.eqb (lower c) "e"); auto. destruct l as [ | s r]; auto.
  destruct (Ascii.eqb_spec s "-"); [subst; auto | ]. destruct (Ascii.eqb_spec s "+"); [subst; auto | ].
  cbn [orb]. each_ascii s; try congruence; reflexivity.
Qed.
Lemma lower_e : forall c, Ascii.eqb (lower c) "e" = true -> In c ["e"; "E"]%char.
Proof. intros c. each_ascii c; cbn; intros H; try discriminate; auto. Qed.
Lemma parse_exp_sound : forall l u z, drop_underscores false l = Some u -> parse_exp u = Some z -> exponent_text l z.
Proof.
  intros l u z H P. rewrite parse_exp_eq in P. destruct u as [ | c u].
  { apply drop_nil in H as ->. injection P as <-. constructor. }
  destruct (Ascii.eqb (lower c) "e") eqn:Ee; [ | discriminate]. apply lower_e in Ee.
  assert (Nc : is_digit c = false) by (destruct Ee as [<- | [<- | []]]; reflexivity).
  apply drop_head in H as (r & -> & H); auto.
  set (neg := match u with s :: _ => Ascii.eqb s "-" | [] => false end) in P.
  set (u' := match u with s :: r => if (Ascii.eqb s "-" || Ascii.eqb s "+")%bool then r else u | [] => [] end) in P.
  assert (S : exists sg r', sign_text sg neg /\ r = sg ++ r' /\ drop_underscores false r' = Some u').
  { destruct u as [ | s u].
    - exists [], r. repeat split; auto. constructor.
    - subst neg u'. destruct (Ascii.eqb_spec s "-") as [-> | N1]; [ | destruct (Ascii.eqb_spec s "+") as [-> | N2]]; cbn [orb].
      + apply drop_head in H as (r' & -> & H); auto. exists ["-"%char], r'. repeat split; auto. constructor.
      + apply drop_head in H as (r' & -> & H); auto. exists ["+"%char], r'. repeat split; auto. constructor.
      + exists [], r. repeat split; auto. constructor. }
  clearbody neg u'. destruct S as (sg & r' & S & -> & H'). clear H u.
  destruct (drop_split r' u' H') as (t & ds & w & v & -> & N & -> & Dw & Y).
  cbv zeta in P. rewrite take_run in P; auto; [ | eapply opt_numeral_digits; eauto]. cbn [Nat.add] in P.
  destruct N as [ | t ds N]; [discriminate | ]. destruct (length ds) eqn:El; [destruct (numeral_head _ _ N) as (? & ? & ? & -> & -> & _); discriminate | ].
  destruct v; [ | discriminate]. apply drop_nil in Dw as ->. rewrite app_nil_r. injection P as <-. change (decimal_from 0 ds) with (decimal_value ds).
  constructor; auto.
Qed.

Lemma lower_same : forall c, same_letter c (lower c).
Proof.
  intros c. unfold same_letter, lower. destruct (in_range 65 90 (code c)) eqn:E; auto. right. apply in_range_iff in E. split; auto.
  apply code_of_N. lia.
Qed.
Lemma same_lower : forall c d, same_letter c d -> (97 <= code d <= 122)%N -> lower c = d.
Proof.
  intros c d [-> | [L U]] H; unfold lower; destruct (in_range 65 90 (code _)) eqn:E; auto.
  - apply in_range_iff in E. lia.
  - apply code_inj. rewrite code_of_N; [auto | lia].
  - assert (X : in_range 65 90 (code c) = true) by (apply in_range_iff; auto). congruence.
Qed.
Lemma lower_word : forall w t, Forall (fun d => (97 <= code d <= 122)%N) (chars w) -> (seqb (unchars (map lower t)) w = true <-> word_text w t).
Proof.
  intros w t F. unfold word_text, seqb. rewrite String.eqb_eq. split.
  - intros <-. rewrite chars_unchars. induction t as [ | c t IH]; cbn; constructor; [apply lower_same | ]. apply IH.
    rewrite chars_unchars in F |- *. cbn in F. inversion F; auto.
  - intros H. apply chars_inj. rewrite chars_unchars. induction H as [ | c d t l S H IH]; auto. inversion F; subst. cbn [map]. f_equal; auto.
    apply same_lower; auto.
Qed.
Lemma word_letters : forall w t, Forall (fun d => (97 <= code d <= 122)%N) (chars w) -> word_text w t ->
  Forall (fun c => is_digit c = false /\ Ascii.eqb c "_" = false /\ is_space c = false /\ Ascii.eqb c "-" = false /\ Ascii.eqb c "+" = false /\ Ascii.eqb c "." = false) t.
Proof.
  intros w t F H. unfold word_text in H. induction H as [ | c d t l S H IH]; auto. inversion F; subst. constructor; auto.
  assert (R : (65 <= code c <= 90)%N \/ (97 <= code c <= 122)%N) by (destruct S as [-> | [L _]]; auto).
  clear - R. assert (U : code "_" = 95%N /\ code "-" = 45%N /\ code "+" = 43%N /\ code "." = 46%N) by (repeat split). destruct U as (U1 & U2 & U3 & U4).
  repeat split.
  - destruct (is_digit c) eqn:E; auto. apply is_digit_digit in E. unfold digit in E. lia.
  - destruct (Ascii.eqb_spec c "_"); auto. subst. lia.
  - destruct (is_space c) eqn:E; auto. apply is_space_white in E. unfold white in E. lia.
  - destruct (Ascii.eqb_spec c "-"); auto. subst. lia.
  - destruct (Ascii.eqb_spec c "+"); auto. subst. lia.
  - destruct (Ascii.eqb_spec c "."); auto. subst. lia.
Qed.
Lemma inf_letters : Forall (fun d => (97 <= code d <= 122)%N) (chars "inf").
Proof. repeat (constructor; [vm_compute; split; discriminate | ]). constructor. Qed.
Lemma infinity_letters : Forall (fun d => (97 <= code d <= 122)%N) (chars "infinity").
Proof. repeat (constructor; [vm_compute; split; discriminate | ]). constructor. Qed.
Lemma nan_letters : Forall (fun d => (97 <= code d <= 122)%N) (chars "nan").
Proof. repeat (constructor; [vm_compute; split; discriminate | ]). constructor. Qed.

(** the part after the integer digits *)
Definition after_point (ip : N) (rest : list ascii) : N * nat * list ascii :=
  match rest with
  | c :: r => if Ascii.eqb c "." then take_digits ip 0 r else (ip, 0%nat, rest)
  | [] => (ip, 0%nat, rest)
  end.
Lemma parse_unsigned_eq : forall neg l, parse_unsigned neg l =
  let low := unchars (map lower l) in
  if seqb low "inf" || seqb low "infinity" then Some (S754_infinity neg)
  else if seqb low "nan" then Some S754_nan
  else
    let '(ip, ni, rest) := take_digits 0 0 l in
    let '(m, nf, rest') := after_point ip rest in
    if Nat.eqb (ni + nf) 0 then None
    else match parse_exp rest' with
         | Some x => Some (float_of_decimal neg m (x - Z.of_nat nf))
         | None => None
         end.
Proof.
  intros neg l. unfold parse_unsigned. cbv zeta. destruct (_ || _)%bool; auto. destruct (seqb _ "nan"); auto.
  destruct (take_digits 0 0 l) as [[ip ni] rest]. unfold after_point. destruct rest as [ | c r]; auto.
  destruct (Ascii.eqb_spec c "."); [subst; auto | ]. each_ascii c; try congruence; reflexivity.
Qed.

Lemma parse_unsigned_sound : forall neg l u f, drop_underscores false l = Some u -> parse_unsigned neg u = Some f -> float_body neg l f.
Proof.
  intros neg l u f H P. rewrite parse_unsigned_eq in P. cbv zeta in P.
  destruct (seqb (unchars (map lower u)) "inf") eqn:E1.
  { apply lower_word in E1; [ | apply inf_letters]. rewrite (drop_letters u l H).
    - injection P as <-. constructor; auto.
    - eapply Forall_impl; [ | eapply word_letters; [apply inf_letters | eauto]]. cbn. tauto. }
  destruct (seqb (unchars (map lower u)) "infinity") eqn:E2.
  { apply lower_word in E2; [ | apply infinity_letters]. rewrite (drop_letters u l H).
    - injection P as <-. apply fb_infinity; auto.
    - eapply Forall_impl; [ | eapply word_letters; [apply infinity_letters | eauto]]. cbn. tauto. }
  cbn [orb] in P.
  destruct (seqb (unchars (map lower u)) "nan") eqn:E3.
  { apply lower_word in E3; [ | apply nan_letters]. rewrite (drop_letters u l H).
    - injection P as <-. apply fb_nan; auto.
    - eapply Forall_impl; [ | eapply word_letters; [apply nan_letters | eauto]]. cbn. tauto. }
  clear E1 E2 E3. destruct (drop_split l u H) as (t & ds & r & v & -> & N & -> & Dr & Y).
  rewrite take_run in P; auto; [ | eapply opt_numeral_digits; eauto]. cbn [Nat.add] in P.
  destruct v as [ | c v].
  { cbn [after_point] in P. destruct (Nat.eqb_spec (length ds + 0) 0); [discriminate | ].
    destruct (parse_exp []) eqn:Pe; [ | discriminate]. injection P as <-.
    change (decimal_from 0 ds) with (decimal_value ds). rewrite <- (app_nil_r ds) at 1. rewrite <- (app_nil_l r).
    change 0%nat with (@length ascii []). apply fb_number; auto.
    - constructor.
    - eapply parse_exp_sound; eauto.
    - rewrite app_nil_r. intros ->. cbn in n. lia. }
  cbn [after_point] in P. destruct (Ascii.eqb_spec c ".").
  - subst c. apply drop_head in Dr as (r' & -> & Dr); auto.
    destruct (drop_split r' v Dr) as (t2 & ds2 & r2 & v2 & -> & N2 & -> & Dr2 & Y2).
    rewrite take_run in P; auto; [ | eapply opt_numeral_digits; eauto]. cbn [Nat.add] in P.
    destruct (Nat.eqb_spec (length ds + length ds2) 0); [discriminate | ].
    destruct (parse_exp v2) eqn:Pe; [ | discriminate]. injection P as <-.
    replace (decimal_from (decimal_from 0 ds) ds2) with (decimal_value (ds ++ ds2)) by (unfold decimal_value, decimal_from; apply fold_left_app).
    change ("."%char :: t2 ++ r2) with (("."%char :: t2) ++ r2). apply fb_number; auto.
    + constructor; auto.
    + eapply parse_exp_sound; eauto.
    + intros X. apply app_eq_nil in X as [-> ->]. cbn in n. lia.
  - destruct (Nat.eqb_spec (length ds + 0) 0); [discriminate | ].
    destruct (parse_exp (c :: v)) eqn:Pe; [ | discriminate]. injection P as <-.
    change (decimal_from 0 ds) with (decimal_value ds). rewrite <- (app_nil_r ds) at 1. rewrite <- (app_nil_l r).
    change 0%nat with (@length ascii []). apply fb_number; auto.
    + constructor.
    + eapply parse_exp_sound; eauto.
    + rewrite app_nil_r. intros ->. cbn in n0. lia.
Qed.

(** the other direction *)
Definition no_under (l : list ascii) : Prop := match l with c :: _ => Ascii.eqb c "_" = false /\ ~ digit c | [] => True end.
Lemma drop_any : forall l b, no_under l -> drop_underscores b l = drop_underscores false l.
Proof. intros [ | c l] b H; auto. destruct H as [H _]. rewrite !drop_cons; auto. Qed.
Lemma drop_numeral : forall t ds, numeral t ds -> forall b r u, no_under r -> drop_underscores false r = Some u ->
  drop_underscores b (t ++ r) = Some (ds ++ u).
Proof.
  intros t ds H. induction H as [c D | c t ds D H IH | c t ds D H IH]; intros b r u N E; cbn [app].
  - rewrite drop_cons by (apply digit_ok; auto). rewrite drop_any by auto. rewrite E. auto.
  - rewrite drop_cons by (apply digit_ok; auto). rewrite (IH _ r u N E). auto.
  - rewrite drop_cons by (apply digit_ok; auto). replace (is_digit c) with true by (symmetry; apply is_digit_digit; auto).
    destruct (numeral_head _ _ H) as (d & l & m & -> & -> & Dd). cbn [app drop_underscores Ascii.eqb Bool.eqb].
    replace (is_digit d) with true by (symmetry; apply is_digit_digit; auto).
    cbn [app] in IH. pose proof (IH false r u N E) as X. cbn [drop_underscores] in X.
    replace (is_digit d) with true in X by (symmetry; apply is_digit_digit; auto). rewrite X. auto.
Qed.
Lemma drop_opt : forall t ds r u, opt_numeral t ds -> no_under r -> drop_underscores false r = Some u ->
  drop_underscores false (t ++ r) = Some (ds ++ u).
Proof. intros t ds r u [ | t' ds' H] N E; auto. apply drop_numeral; auto. Qed.
Lemma parse_exp_complete : forall x e, exponent_text x e -> exists u, drop_underscores false x = Some u /\ parse_exp u = Some e /\
  no_under x /\ match u with c :: _ => ~ digit c /\ Ascii.eqb c "." = false | [] => True end.
Proof.
  intros x e [ | c sg neg t ds Hc Sg N]; [exists []; repeat split; auto | ].
  assert (Ec : Ascii.eqb c "_" = false /\ is_digit c = false /\ Ascii.eqb (lower c) "e" = true /\ Ascii.eqb c "." = false)
    by (destruct Hc as [<- | [<- | []]]; repeat split).
  destruct Ec as (E1 & E2 & E3 & E4). exists (c :: sg ++ ds).
  assert (Dt : drop_underscores false t = Some ds) by (rewrite <- (app_nil_r t), <- (app_nil_r ds); apply drop_numeral; cbn; auto).
  repeat split; auto.
  - rewrite drop_cons, E2 by auto. destruct Sg; cbn [app]; [rewrite Dt; auto | ..]; rewrite drop_cons by auto;
      cbn [is_digit]; change (is_digit "+") with false; change (is_digit "-") with false; rewrite Dt; auto.
  - destruct (numeral_head _ _ N) as (d & l & m & -> & -> & D). apply numeral_digits in N as [Dm _].
    assert (Td : take_digits 0 0 (d :: m) = (decimal_value (d :: m), S (length m), [])).
    { rewrite <- (app_nil_r (d :: m)) at 1. rewrite take_run; cbn; auto. }
    rewrite parse_exp_eq, E3. destruct Sg; cbn [app]; cbv zeta; cbn [Ascii.eqb Bool.eqb orb]; try (rewrite Td; reflexivity).
    replace (Ascii.eqb d "-") with false by (digits D; reflexivity). replace (Ascii.eqb d "+") with false by (digits D; reflexivity).
    cbn [orb]. rewrite Td. reflexivity.
  - rewrite <- is_digit_digit. congruence.
  - rewrite <- is_digit_digit. congruence.
Qed.
Lemma not_word : forall w c r, Forall (fun d => (97 <= code d <= 122)%N) (chars w) -> digit c \/ c = "."%char -> seqb (unchars (map lower (c :: r))) w = false.
Proof.
  intros w c r F H. destruct (seqb _ _) eqn:E; auto. apply lower_word in E; auto. apply word_letters in E; auto.
  inversion E as [ | ? ? (A & _ & _ & _ & _ & B) _]; subst. destruct H as [H | ->]; [apply is_digit_digit in H; congruence | discriminate].
Qed.
Lemma parse_unsigned_complete : forall neg l f, float_body neg l f -> exists u, drop_underscores false l = Some u /\ parse_unsigned neg u = Some f.
Proof.
  assert (W : forall w t, Forall (fun d => (97 <= code d <= 122)%N) (chars w) -> word_text w t -> drop_underscores false t = Some t).
  { intros w t F H. apply word_letters in H; auto. clear F. induction H as [ | c t (A & B & _) H IH]; auto. rewrite drop_cons, A, IH; auto. }
  intros neg l f H. destruct H as [neg t H | neg t H | neg t H | neg i p x is ps e Hi Hp Hx N].
  - exists t. split; [eapply W; [apply inf_letters | eauto] | ]. rewrite parse_unsigned_eq. cbv zeta.
    apply lower_word in H; [ | apply inf_letters]. rewrite H. auto.
  - exists t. split; [eapply W; [apply infinity_letters | eauto] | ]. rewrite parse_unsigned_eq. cbv zeta.
    apply lower_word in H; [ | apply infinity_letters]. rewrite H, orb_true_r. auto.
  - exists t. split; [eapply W; [apply nan_letters | eauto] | ]. rewrite parse_unsigned_eq. cbv zeta.
    assert (E := H). apply lower_word in H; [ | apply nan_letters]. rewrite H.
    assert (Ew : unchars (map lower t) = "nan") by (apply String.eqb_eq; auto). rewrite Ew. auto.
  - destruct (parse_exp_complete x e Hx) as (ux & Dx & Px & Nx & Hux).
    assert (P : exists up, drop_underscores false (p ++ x) = Some up /\ no_under (p ++ x) /\
                  (forall ip, after_point ip up = (decimal_from ip ps, length ps, ux)) /\
                  (match up with c :: _ => ~ digit c | [] => True end) /\ (ps <> [] -> exists r, up = "."%char :: r)).
    { destruct Hp as [ | t ds Ht].
      - exists ux. cbn [app]. repeat split; auto.
        + intros ip. destruct ux as [ | c ux]; auto. cbn [after_point]. destruct Hux as [_ ->]. auto.
        + destruct ux; tauto.
        + congruence.
      - exists ("."%char :: ds ++ ux). cbn [app]. repeat split; auto.
        + rewrite drop_cons by auto. change (is_digit ".") with false. rewrite (drop_opt t ds x ux); auto.
        + apply dot_not_digit.
        + intros ip. cbn [after_point Ascii.eqb Bool.eqb]. rewrite take_run; auto; [eapply opt_numeral_digits; eauto | ]. destruct ux; tauto.
        + apply dot_not_digit.
        + eauto. }
    destruct P as (up & Dp & Np & Ap & Hup & Hdot). exists (is ++ up). split; [apply drop_opt; auto | ].
    rewrite parse_unsigned_eq. cbv zeta.
    assert (Hd : exists c r, is ++ up = c :: r /\ (digit c \/ c = "."%char)).
    { destruct Hi as [ | t ds Ht].
      - cbn [app] in *. destruct (Hdot N) as (r & ->). eauto.
      - destruct (numeral_head _ _ Ht) as (c & ? & m & _ & -> & D). cbn [app]. eauto. }
    destruct Hd as (c & r & Ec & Hc).
    assert (W3 : seqb (unchars (map lower (is ++ up))) "inf" = false /\ seqb (unchars (map lower (is ++ up))) "infinity" = false /\
                 seqb (unchars (map lower (is ++ up))) "nan" = false)
      by (rewrite Ec; repeat split; apply not_word; auto using inf_letters, infinity_letters, nan_letters).
    destruct W3 as (-> & -> & ->). cbn [orb].
    rewrite take_run; auto; [ | eapply opt_numeral_digits; eauto]. rewrite Ap. cbn [Nat.add].
    destruct (Nat.eqb_spec (length is + length ps) 0) as [Z | _].
    { exfalso. apply N. apply length_zero_iff_nil. rewrite app_length. auto. }
    rewrite Px. do 2 f_equal. unfold decimal_value, decimal_from. rewrite fold_left_app. auto.
Qed.

Lemma body_shape : forall neg t f, float_body neg t f -> t <> [] /\ Forall solid t /\
  match t with c :: _ => Ascii.eqb c "-" = false /\ Ascii.eqb c "+" = false | [] => True end.
Proof.
  assert (W : forall w t, Forall (fun d => (97 <= code d <= 122)%N) (chars w) -> w <> "" -> word_text w t ->
    t <> [] /\ Forall solid t /\ match t with c :: _ => Ascii.eqb c "-" = false /\ Ascii.eqb c "+" = false | [] => True end).
  { intros w t F N H. assert (L := word_letters w t F H). repeat split.
    - intros ->. inversion H. destruct w; [congruence | discriminate].
    - eapply Forall_impl; [ | exact L]. unfold solid. cbn. tauto.
    - destruct t; auto. inversion L; subst. tauto. }
  assert (O : forall t ds, opt_numeral t ds -> Forall solid t) by (intros t ds [ | ? ? H]; auto; eapply numeral_solid; eauto).
  intros neg t f H. destruct H as [neg t H | neg t H | neg t H | neg i p x is ps e Hi Hp Hx N].
  - apply (W "inf"); auto using inf_letters. discriminate.
  - apply (W "infinity"); auto using infinity_letters. discriminate.
  - apply (W "nan"); auto using nan_letters. discriminate.
  - assert (Sp : Forall solid p) by (destruct Hp; repeat constructor; eauto).
    assert (Sx : Forall solid x).
    { destruct Hx as [ | c sg neg' t ds Hc Sg Nt]; auto. constructor; [destruct Hc as [<- | [<- | []]]; reflexivity | ].
      apply Forall_app. split; [eapply sign_solid | eapply numeral_solid]; eauto. }
    destruct Hi as [ | t ds Ht].
    + destruct Hp as [ | t ds Ht]; [cbn in N; congruence | ]. cbn [app]. repeat split; auto; [discriminate | ].
      change ("."%char :: t ++ x) with (("."%char :: t) ++ x). apply Forall_app; auto.
    + assert (St := numeral_solid _ _ Ht). destruct (numeral_head _ _ Ht) as (c & ? & m & -> & -> & D). cbn [app]. repeat split; auto.
      * discriminate.
      * rewrite app_comm_cons. rewrite !Forall_app. auto.
      * digits D; reflexivity.
      * digits D; reflexivity.
Qed.
Lemma py_float_eq : forall s, py_float s =
  match drop_underscores false (trim s) with
  | None => None
  | Some [] => parse_unsigned false []
  | Some (c :: l) => if Ascii.eqb c "-" then parse_unsigned true l else if Ascii.eqb c "+" then parse_unsigned false l
                     else parse_unsigned false (c :: l)
  end.
Proof.
  intros s. unfold py_float. destruct (drop_underscores false (trim s)) as [[ | c l] | ]; auto.
  destruct (Ascii.eqb_spec c "-"); [subst; auto | ]. destruct (Ascii.eqb_spec c "+"); [subst; auto | ].
  each_ascii c; try congruence; reflexivity.
Qed.
Lemma py_float_iff : forall s f, py_float s = Some f <-> float_text s f.
Proof.
  intros s f. rewrite py_float_eq. split.
  - destruct (strip_spec is_blank s) as (b1 & b2 & E & F1 & F2). apply skipped_all in F1, F2. fold (trim s) in E. set (w := trim s) in *. clearbody w.
    destruct (drop_underscores false w) as [[ | c l] | ] eqn:D; [discriminate | | discriminate].
    destruct (Ascii.eqb_spec c "-"); [subst c | destruct (Ascii.eqb_spec c "+"); [subst c | ]]; intros H.
    + apply drop_head in D as (r & -> & D); auto. exists b1, b2, ["-"%char], true, r. repeat split; auto; [constructor | ].
      eapply parse_unsigned_sound; eauto.
    + apply drop_head in D as (r & -> & D); auto. exists b1, b2, ["+"%char], false, r. repeat split; auto; [constructor | ].
      eapply parse_unsigned_sound; eauto.
    + exists b1, b2, [], false, w. repeat split; auto; [constructor | ]. eapply parse_unsigned_sound; eauto.
  - intros (b1 & b2 & sg & neg & t & F1 & F2 & Sg & B & ->). apply skipped_all in F1, F2.
    destruct (body_shape _ _ _ B) as (N & S & Hh). destruct (parse_unsigned_complete _ _ _ B) as (u & D & P).
    rewrite (app_assoc sg t b2), trim_around; auto.
    2:{ apply Forall_app. split; auto. eapply sign_solid; eauto. }
    2:{ destruct sg, t; try discriminate; congruence. }
    destruct Sg; cbn [app].
    + rewrite D. destruct u as [ | c u]; auto.
      assert (X : Ascii.eqb c "-" = false /\ Ascii.eqb c "+" = false).
      { destruct t as [ | d t]; [congruence | ]. destruct (Ascii.eqb d "_") eqn:Ed; [cbn [drop_underscores] in D; rewrite Ed in D; discriminate | ].
        rewrite drop_cons in D by auto. apply option_map_some in D as (? & _ & [= -> _]). auto. }
      destruct X as [-> ->]. auto.
    + rewrite drop_cons by auto. change (is_digit "+") with false. rewrite D. auto.
    + rewrite drop_cons by auto. change (is_digit "-") with false. rewrite D. auto.
Qed.

(** ** Versions *)
Lemma split_on_join : forall l, exists w rest, split_on "." l = w :: rest /\ no_dots w /\
  match rest with [] => l = w | _ => exists l', l = w ++ "."%char :: l' /\ rest = split_on "." l' end.
Proof.
  induction l as [ | c l (w & rest & E & N & M)]; cbn [split_on].
  - exists [], []. repeat split; auto. intros [].
  - destruct (Ascii.eqb_spec c ".").
    + subst. exists [], (split_on "." l). split; [auto | split; [intros [] | ]]. rewrite E. exists l. auto.
    + rewrite E. exists (c :: w), rest. repeat split; auto.
      * intros [-> | H]; [congruence | auto].
      * destruct rest; [subst; auto | ]. destruct M as (l' & -> & M). exists l'. auto.
Qed.
Lemma no_dots_no_dot : forall l, no_dots l -> no_dot l.
Proof. intros l H. apply Forall_forall. intros c Hc ->. auto. Qed.
Lemma re_version_iff : forall l, re_version l = true <-> version_start l.
Proof.
  intros l. unfold re_version. rewrite existsb_exists. split.
  - intros (i & Hi & H). unfold re_version_at in H. apply andb_prop in H as [F H]. apply in_seq in Hi.
    destruct (skipn i l) as [ | c [ | d r]] eqn:E; try discriminate. apply andb_prop in H as [H1 H2].
    exists (firstn i l), c, d, r. rewrite <- E, firstn_skipn. repeat split; auto.
    + intros X. apply (f_equal (@length ascii)) in X. rewrite firstn_length in X. cbn in X. lia.
    + apply Forall_forall. intros x Hx. rewrite forallb_forall in F. apply is_digit_digit. auto.
    + intros ->. discriminate.
    + apply is_digit_digit in H2. unfold digit in H2. tauto.
    + apply is_digit_digit in H2. unfold digit in H2. tauto.
  - intros (ds & c & d & r & -> & N & F & Nc & D). exists (length ds). split.
    + apply in_seq. rewrite app_length. destruct ds; [congruence | ]. cbn. lia.
    + unfold re_version_at. rewrite firstn_app, firstn_all, Nat.sub_diag. cbn [firstn]. rewrite app_nil_r.
      rewrite skipn_app, skipn_all, Nat.sub_diag. cbn [skipn app]. rewrite !andb_true_iff. repeat split.
      * apply forallb_forall. intros x Hx. apply is_digit_digit. rewrite Forall_forall in F. auto.
      * destruct (Ascii.eqb_spec c "010"); auto.
      * apply is_digit_digit. auto.
Qed.
Lemma component_iff : forall w z, component w = Ok z <-> int_text w z.
Proof. intros w z. rewrite <- py_int_iff. unfold component. destruct (py_int w); split; congruence. Qed.
Lemma reads_folded : forall s (P : list ascii -> Prop), (exists l, reads_as s l /\ P l) <-> P (folded s).
Proof.
  intros s P. split.
  - intros (l & R & H). apply folded_iff in R as <-. auto.
  - intros H. exists (folded s). split; auto. apply folded_iff. auto.
Qed.
Lemma mk_version_iff : forall s v, mk_version s = Ok v <-> exists l, reads_as s l /\ version_text l v.
Proof.
  intros s v. rewrite (reads_folded s (fun l => version_text l v)). unfold mk_version, split_version, validate_version. set (l := folded s). clearbody l. clear s. split.
  - intros H. destruct (re_version l) eqn:R; [ | discriminate]. apply re_version_iff in R.
    destruct (split_on_join l) as (a & ra & Ea & Na & Ma). rewrite Ea in H.
    destruct ra as [ | b ra]; [discriminate | ]. destruct Ma as (l1 & -> & El1).
    destruct (split_on_join l1) as (b' & rb & Eb & Nb & Mb). rewrite Eb in El1. injection El1 as -> ->.
    destruct rb as [ | c rb].
    + subst l1. cbn in H. destruct (component a) as [x | ] eqn:Ca; [ | discriminate]. cbn in H. destruct (component b') as [y | ] eqn:Cb; [ | discriminate].
      cbn in H. injection H as <-. apply component_iff in Ca, Cb. constructor; auto.
    + destruct Mb as (l2 & -> & El2). destruct (split_on_join l2) as (c' & rc & Ec & Nc & Mc). rewrite Ec in El2. injection El2 as -> ->.
      destruct rc as [ | ? ?]; [ | discriminate]. subst l2. cbn in H.
      destruct (component a) as [x | ] eqn:Ca; [ | discriminate]. cbn in H. destruct (component b') as [y | ] eqn:Cb; [ | discriminate].
      cbn in H. destruct (component c') as [z | ] eqn:Cc; [ | discriminate].
      cbn in H. injection H as <-. apply component_iff in Ca, Cb, Cc. constructor; auto.
  - intros H. destruct H as [a b x y Na Nb Ia Ib St | a b c x y z Na Nb Nc Ia Ib Ic St].
    + apply re_version_iff in St. rewrite St. apply component_iff in Ia, Ib. apply no_dots_no_dot in Na, Nb.
      rewrite split_on_app, split_on_nodot by auto. cbn. rewrite Ia, Ib. auto.
    + apply re_version_iff in St. rewrite St. apply component_iff in Ia, Ib, Ic. apply no_dots_no_dot in Na, Nb, Nc.
      rewrite split_on_app, split_on_app, split_on_nodot by auto. cbn. rewrite Ia, Ib, Ic. auto.
Qed.

(** ** Tags *)
Lemma strip_float : forall v f, py_float (strip v) = Some f <-> stripped_float v f.
Proof.
  intros v f. split.
  - intros H. apply py_float_iff in H. destruct (strip_spec is_space v) as (b1 & b2 & E & F1 & F2). apply white_all in F1, F2.
    exists b1, (strip v), b2. auto.
  - intros (b1 & w & b2 & F1 & F2 & T & ->). apply py_float_iff. destruct T as (c1 & c2 & sg & neg & t & G1 & G2 & Sg & B & ->).
    replace (b1 ++ (c1 ++ sg ++ t ++ c2) ++ b2) with ((b1 ++ c1) ++ (sg ++ t) ++ c2 ++ b2) by (rewrite <- !app_assoc; auto).
    destruct (body_shape _ _ _ B) as (N & S & _). rewrite strip_around.
    + exists [], [], sg, neg, t. rewrite app_nil_r. repeat split; auto.
    + apply white_all, Forall_app. split; auto. eapply Forall_impl; [apply skipped_white | auto].
    + apply white_all, Forall_app. split; auto. eapply Forall_impl; [apply skipped_white | auto].
    + apply Forall_app. split; auto. eapply sign_solid; eauto.
    + destruct sg, t; try discriminate; congruence.
Qed.

(** ** Colors *)
Lemma hex_val_iff : forall c n, hex_val c = Some n <-> hexit c n.
Proof.
  intros c n. unfold hex_val. split.
  - destruct (is_digit c) eqn:E1; [intros H; injection H as <-; apply in_range_iff in E1; constructor; auto | ].
    destruct (in_range 97 102 (code c)) eqn:E2; [intros H; injection H as <-; apply in_range_iff in E2; constructor; auto | ].
    destruct (in_range 65 70 (code c)) eqn:E3; [intros H; injection H as <-; apply in_range_iff in E3; constructor; auto | discriminate].
  - assert (D : is_digit c = in_range 48 57 (code c)) by reflexivity. rewrite D.
    assert (R : forall a b x, in_range a b x = true <-> (a <= x <= b)%N) by (intros; apply in_range_iff).
    assert (R' : forall a b x, in_range a b x = false <-> ~ (a <= x <= b)%N) by (intros a b x; rewrite <- R; destruct (in_range a b x); intuition congruence).
    intros [c' H | c' H | c' H]; repeat match goal with |- context [in_range ?a ?b ?x] =>
      (replace (in_range a b x) with true by (symmetry; apply R; lia)) || (replace (in_range a b x) with false by (symmetry; apply R'; lia)) end; auto.
Qed.
Definition hex_from (a : N) (ns : list N) : N := fold_left (fun a n => a * 16 + n)%N ns a.
Lemma hex_digits_val : forall t ns, hex_numeral t ns -> forall a b, digits_val hex_val 16 a b t = Some (hex_from a ns).
Proof.
  intros t ns H. induction H as [c n D | c n t ns D H IH | c n t ns D H IH]; intros a b; cbn [digits_val];
    apply hex_val_iff in D; rewrite D; unfold hex_from; cbn [fold_left]; auto.
  - rewrite IH. auto.
  - change (hex_val "_") with (@None N). cbn [Ascii.eqb Bool.eqb andb]. rewrite IH. auto.
Qed.
Lemma hex_digits_sound : forall l a b n, digits_val hex_val 16 a b l = Some n ->
  if b then (l = [] /\ n = a) \/ (exists ns, hex_numeral l ns /\ n = hex_from a ns) \/
            (exists t ns, l = "_"%char :: t /\ hex_numeral t ns /\ n = hex_from a ns)
  else exists ns, hex_numeral l ns /\ n = hex_from a ns.
Proof.
  induction l as [ | c l IH]; intros a b n H; cbn [digits_val] in H.
  - destruct b; [ | discriminate]. injection H as <-. auto.
  - destruct (hex_val c) as [d | ] eqn:Ed.
    + apply hex_val_iff in Ed. apply IH in H.
      assert (X : exists ns, hex_numeral (c :: l) ns /\ n = hex_from a ns).
      { destruct H as [[-> ->] | [(ns & N & ->) | (t & ns & -> & N & ->)]].
        - exists [d]. split; [constructor; auto | auto].
        - exists (d :: ns). split; [constructor; auto | auto].
        - exists (d :: ns). split; [apply hn_under; auto | auto]. }
      destruct b; auto.
    + destruct (Ascii.eqb_spec c "_"); [subst | discriminate]. destruct b; [ | discriminate]. cbn [andb] in H.
      apply IH in H as (ns & N & ->). right. right. eauto.
Qed.
Lemma hexit_solid : forall c n, hexit c n -> solid c.
Proof. intros c n H. unfold solid. destruct (is_space c) eqn:E; auto. apply is_space_white in E. unfold white in E. destruct H; lia. Qed.
Lemma hex_numeral_solid : forall t ns, hex_numeral t ns -> Forall solid t /\ t <> [].
Proof. intros t ns H. split; [ | destruct H; discriminate]. induction H; repeat constructor; eauto using hexit_solid. Qed.
Lemma rstrip_around : forall w b, all_in is_blank b -> Forall solid w -> w <> [] -> rev (lstrip is_blank (rev (w ++ b))) = w.
Proof.
  intros w b B S N. rewrite rev_app_distr. assert (L : forall k x, all_in is_blank k -> lstrip is_blank (k ++ x) = lstrip is_blank x).
  { intros k x Hk. induction Hk as [ | y k Y Hk IH]; auto. cbn [app lstrip]. rewrite Y. auto. }
  rewrite L by (apply Forall_rev; auto). destruct (exists_last N) as (l & c & ->). apply Forall_app in S as [_ S]. inversion S as [ | ? ? Sc _]; subst.
  rewrite rev_app_distr. cbn [rev app lstrip]. rewrite (solid_blank c Sc). cbn [rev]. rewrite rev_involutive. auto.
Qed.
Definition after_0x (w : list ascii) : list ascii :=
  match w with c :: l => if Ascii.eqb c "_" then l else w | [] => [] end.
Lemma py_int_0x_eq : forall s, py_int_0x s = digits_val hex_val 16 0 false (after_0x (rev (lstrip is_blank (rev s)))).
Proof.
  intros s. unfold py_int_0x. destruct (rev (lstrip is_blank (rev s))) as [ | c w]; auto. unfold after_0x.
  destruct (Ascii.eqb_spec c "_"); [subst; auto | ]. each_ascii c; try congruence; reflexivity.
Qed.
Lemma color_iff : forall s n, py_int_0x (folded s) = Some n <-> color_value s n.
Proof.
  intros s n. rewrite py_int_0x_eq. split.
  - intros H. destruct (lstrip_spec is_blank (rev (folded s))) as (b & E & F & _). set (w := rev (lstrip is_blank (rev (folded s)))) in *.
    assert (Es : folded s = w ++ rev b) by (unfold w; rewrite <- rev_app_distr, <- E, rev_involutive; auto). clearbody w.
    assert (F' : Forall skipped (rev b)) by (apply skipped_all, Forall_rev; auto).
    apply hex_digits_sound in H as (ns & N & ->). destruct w as [ | c w]; [inversion N | ]. cbn [after_0x] in N. destruct (Ascii.eqb_spec c "_"); [subst c | ].
    + exists ["_"%char], w, ns, (rev b). repeat split; auto. apply folded_iff. rewrite Es. auto.
    + exists [], (c :: w), ns, (rev b). repeat split; auto. apply folded_iff. auto.
  - intros (u & t & ns & b & U & H & B & R & ->). apply folded_iff in R. rewrite R. apply skipped_all in B.
    destruct (hex_numeral_solid _ _ H) as [S N]. rewrite app_assoc, rstrip_around; auto.
    + destruct U as [-> | ->]; cbn [app].
      * destruct t as [ | c t]; [congruence | ]. unfold after_0x. destruct (Ascii.eqb_spec c "_"); [subst c | apply hex_digits_val; auto].
        inversion H; subst; match goal with X : hexit _ _ |- _ => apply hex_val_iff in X; discriminate end.
      * apply hex_digits_val. auto.
    + apply Forall_app. split; auto. destruct U as [-> | ->]; repeat constructor.
    + destruct U as [-> | ->]; [auto | discriminate].
Qed.
