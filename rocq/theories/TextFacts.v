(** Proofs about reading JSON texts. *)
From Verif Require Import PyBase PyNum Unicode Json JsonText SpecUnicode SpecText UnicodeFacts.
From Coq Require Import SpecFloat.
Open Scope string_scope.
Open Scope list_scope.

(** ** Characters *)
Ltac each_ascii c := destruct c as [[] [] [] [] [] [] [] []].
Lemma ascii_case : forall (P : ascii -> Prop), (forall n, (n < 256)%N -> P (ascii_of_N n)) -> forall c, P c.
Proof. intros P H c. rewrite <- (ascii_N_embedding c). apply H. apply N_ascii_bounded. Qed.
Lemma code_lt : forall c, (code c < 256)%N.
Proof. intros c. apply N_ascii_bounded. Qed.
Lemma code_inj : forall a b, code a = code b -> a = b.
Proof. intros a b H. rewrite <- (ascii_N_embedding a), <- (ascii_N_embedding b). unfold code in H. rewrite H. auto. Qed.
Lemma code_of_N : forall n, (n < 256)%N -> code (ascii_of_N n) = n.
Proof. intros n H. apply N_ascii_embedding. auto. Qed.
Lemma ascii_eqb_iff : forall a b, Ascii.eqb a b = true <-> a = b.
Proof. intros a b. destruct (Ascii.eqb_spec a b); split; congruence. Qed.

Lemma is_ws_blank : forall c, is_ws c = true <-> blank c.
Proof.
  intros c. unfold is_ws, blank. rewrite !orb_true_iff, !ascii_eqb_iff. cbn [In]. intuition.
Qed.
Lemma in_range_iff : forall a b n, in_range a b n = true <-> (a <= n <= b)%N.
Proof. intros a b n. unfold in_range. rewrite andb_true_iff, !N.leb_le. tauto. Qed.
Lemma is_digit_digit : forall c, is_digit c = true <-> digit c.
Proof. intros c. unfold is_digit, digit. apply in_range_iff. Qed.
Lemma hex_val_hexit : forall c n, hex_val c = Some n <-> hexit c n.
Proof.
  intros c n. unfold hex_val, is_digit. split.
  - destruct (in_range 48 57 (code c)) eqn:E1; [injection 1 as <-; apply hex_num, in_range_iff; auto | ].
    destruct (in_range 97 102 (code c)) eqn:E2; [injection 1 as <-; apply hex_lower, in_range_iff; auto | ].
    destruct (in_range 65 70 (code c)) eqn:E3; [injection 1 as <-; apply hex_upper, in_range_iff; auto | discriminate].
  - intros H. destruct H as [c H | c H | c H].
    + apply in_range_iff in H. rewrite H. auto.
    + assert (E1 : in_range 48 57 (code c) = false) by (apply not_true_is_false; rewrite in_range_iff; lia).
      rewrite E1. apply in_range_iff in H. rewrite H. auto.
    + assert (E1 : in_range 48 57 (code c) = false) by (apply not_true_is_false; rewrite in_range_iff; lia).
      assert (E2 : in_range 97 102 (code c) = false) by (apply not_true_is_false; rewrite in_range_iff; lia).
      rewrite E1, E2. apply in_range_iff in H. rewrite H. auto.
Qed.
Lemma hex4_iff : forall a b c d n, hex4 a b c d = Some n <->
  exists na nb nc nd, hexit a na /\ hexit b nb /\ hexit c nc /\ hexit d nd /\ n = (na * 4096 + nb * 256 + nc * 16 + nd)%N.
Proof.
  intros a b c d n. unfold hex4. split.
  - destruct (hex_val a) as [na | ] eqn:Ea; [ | discriminate]. destruct (hex_val b) as [nb | ] eqn:Eb; [ | discriminate].
    destruct (hex_val c) as [nc | ] eqn:Ec; [ | discriminate]. destruct (hex_val d) as [nd | ] eqn:Ed; [ | discriminate].
    injection 1 as <-. exists na, nb, nc, nd. rewrite <- !hex_val_hexit. repeat split; auto. lia.
  - intros (na & nb & nc & nd & Ha & Hb & Hc & Hd & ->). apply hex_val_hexit in Ha, Hb, Hc, Hd. rewrite Ha, Hb, Hc, Hd. f_equal. lia.
Qed.
Lemma unescape_iff : forall e n, unescape e = Some n <-> exists c, In (e, c) escapes /\ n = code c.
Proof.
  intros e n. unfold unescape, escapes. split.
  - repeat match goal with |- (if Ascii.eqb ?x ?y then _ else _) = _ -> _ => destruct (Ascii.eqb_spec x y);
      [subst; injection 1 as <-; eexists; split; [cbn [In]; repeat (first [left; reflexivity | right]) | reflexivity] | ] end.
    discriminate.
  - intros (c & H & ->). cbn [In] in H. repeat match type of H with _ \/ _ => destruct H as [H | H] end; try (injection H as <- <-; reflexivity). destruct H.
Qed.

(** ** span *)
Lemma span_app : forall f l a b, span f l = (a, b) ->
  l = a ++ b /\ Forall (fun c => f c = true) a /\ match b with c :: _ => f c = false | [] => True end.
Proof.
  induction l as [ | c l IH]; cbn [span]; intros a b H.
  - injection H as <- <-. auto.
  - destruct (f c) eqn:E.
    + destruct (span f l) as [a' b'] eqn:E'. injection H as <- <-. destruct (IH a' b' eq_refl) as (-> & Fa & Hb). auto.
    + injection H as <- <-. auto.
Qed.
Lemma span_unique : forall f a b, Forall (fun c => f c = true) a -> match b with c :: _ => f c = false | [] => True end ->
  span f (a ++ b) = (a, b).
Proof.
  intros f a b Ha Hb. induction Ha as [ | c a H Ha IH]; cbn [app span].
  - destruct b as [ | c b]; auto. cbn [span]. rewrite Hb. auto.
  - rewrite H, IH. auto.
Qed.
Lemma skip_ws_split : forall l, exists a, blanks a /\ l = a ++ skip_ws l.
Proof.
  intros l. unfold skip_ws. destruct (span is_ws l) as [a b] eqn:E. apply span_app in E as (-> & Ha & _). exists a. split; auto.
  eapply Forall_impl; [ | exact Ha]. intros c. apply is_ws_blank.
Qed.
Lemma skip_ws_app : forall a c l, blanks a -> ~ blank c -> skip_ws (a ++ c :: l) = c :: l.
Proof.
  intros a c l Ha Hc. unfold skip_ws. rewrite (span_unique is_ws a (c :: l)); auto.
  - eapply Forall_impl; [ | exact Ha]. intros x. apply is_ws_blank.
  - apply not_true_is_false. rewrite is_ws_blank. auto.
Qed.
Lemma skip_ws_all : forall a, blanks a -> skip_ws a = [].
Proof.
  intros a Ha. unfold skip_ws. rewrite <- (app_nil_r a). rewrite (span_unique is_ws a []); auto.
  eapply Forall_impl; [ | exact Ha]. intros x. apply is_ws_blank.
Qed.
Lemma skip_ws_length : forall l, length (skip_ws l) <= length l.
Proof. intros l. destruct (skip_ws_split l) as (a & _ & E). rewrite E at 2. rewrite app_length. lia. Qed.

(** ** Strings *)
Lemma eqb_no : forall a b : ascii, a <> b -> Ascii.eqb a b = false.
Proof. intros a b H. destruct (Ascii.eqb_spec a b); congruence. Qed.
Lemma scan_chars_skip : forall k ch l, scan_chars k ch l = scan_chars 0 ch (skipn k l).
Proof. induction k as [ | k IH]; intros ch [ | c l]; auto. cbn [scan_chars skipn]. apply IH. Qed.
(** A byte that stands for itself, or is part of a character that does *)
Definition raw (c : ascii) : Prop := c <> """"%char /\ c <> "\"%char /\ (32 <= code c)%N.
Lemma chunk_ok : forall ch s, chunk_chars ch = Ok s <-> utf8 (rev ch) /\ decode (rev ch) = s.
Proof.
  intros ch s. unfold chunk_chars. rewrite <- is_utf8_iff. destruct (is_utf8 (rev ch)); split; try discriminate.
  - intros E. injection E as <-. auto.
  - intros (_ & <-). reflexivity.
  - intros (X & _). discriminate.
Qed.
Lemma code_quote : code """" = 34%N. Proof. reflexivity. Qed.
Lemma code_backslash : code "\" = 92%N. Proof. reflexivity. Qed.
Lemma raw_high : forall c, (128 <= code c)%N -> raw c.
Proof. intros c H. repeat split; try lia; intros ->; [rewrite code_quote in H | rewrite code_backslash in H]; lia. Qed.
Lemma bytes_raw : forall n p, bytes_of n p -> n <> code """" -> n <> code "\" -> (32 <= n)%N -> Forall raw p.
Proof.
  intros n p B Q K L. destruct B; repeat (apply Forall_cons || apply Forall_nil); try (apply raw_high; lia). repeat split; auto; intros ->; auto.
Qed.
Lemma raw_char : forall n p, bytes_of n p -> Forall raw p -> char_text p n.
Proof.
  intros n p B F. assert (B' := B). destruct B; try (apply ct_plain; auto; rewrite ?code_quote, ?code_backslash; lia).
  inversion F as [ | ? ? (Q & K & L)]; subst. apply ct_plain; auto; intros X; apply code_inj in X; auto.
Qed.
Lemma chunk_parts : forall ch s, Forall raw ch -> chunk_chars ch = Ok s -> exists parts, Forall2 char_text parts s /\ concat parts = rev ch.
Proof.
  intros ch s F E. apply chunk_ok in E as ((l & SC & S) & D). assert (l = s) by (apply stands_decode in S; congruence). subst l. clear D.
  assert (F' : Forall raw (rev ch)) by now apply Forall_rev. clear F. revert SC F'. induction S as [ | n p r l B S IH | a r l N S IH]; intros SC F.
  - exists []. split; constructor.
  - inversion SC; subst. apply Forall_app in F as (F1 & F2). destruct IH as (parts & P & E); auto. exists (p :: parts). split; [constructor; auto; now apply raw_char | ].
    cbn [concat]. now rewrite E.
  - pose proof (Forall_inv SC) as X. pose proof (not_char_high _ _ N). pose proof (code_lt a). unfold scalar in X. lia.
Qed.
Lemma low_half_iff : forall l n, low_half l = Some n <-> exists t r, l = t ++ r /\ hex_text t n /\ (56320 <= n <= 57343)%N.
Proof.
  intros l n. unfold low_half. split.
  - destruct l as [ | x [ | y [ | a [ | b [ | c [ | d r]]]]]]; try discriminate.
    destruct (Ascii.eqb_spec x "\") as [-> | ]; [ | discriminate]. destruct (Ascii.eqb_spec y "u") as [-> | ]; [ | discriminate]. cbn [andb].
    destruct (hex4 a b c d) as [m | ] eqn:E; [ | discriminate]. destruct (in_range 56320 57343 m) eqn:R; [ | discriminate]. intros X. injection X as <-.
    apply in_range_iff in R. apply hex4_iff in E as (na & nb & nc & nd & Ha & Hb & Hc & Hd & ->).
    exists ["\"%char; "u"%char; a; b; c; d], r. repeat split; auto; lia.
  - intros (t & r & -> & H & R). destruct H as [a b c d na nb nc nd Ha Hb Hc Hd]. cbn [app]. rewrite !Ascii.eqb_refl. cbn [andb].
    rewrite (proj2 (hex4_iff a b c d _)) by (exists na, nb, nc, nd; repeat split; eauto). rewrite (proj2 (in_range_iff _ _ _)); auto.
Qed.
Lemma scan_chars_sound : forall n l, length l <= n -> forall ch s r, Forall raw ch -> scan_chars 0 ch l = Ok (s, r) ->
  exists parts, Forall2 char_text parts s /\ rev ch ++ l = concat parts ++ """"%char :: r.
Proof.
  induction n as [ | n IH]; intros l Hn ch s r F E.
  { destruct l; [discriminate | cbn [length] in Hn; lia]. }
  destruct l as [ | c l1]; [discriminate | ]. cbn [scan_chars] in E. cbn [length] in Hn.
  destruct (Ascii.eqb_spec c """") as [-> | Nq].
  { destruct (chunk_chars ch) as [s0 | ] eqn:C; [ | discriminate]. injection E as <- <-. destruct (chunk_parts _ _ F C) as (parts & P & X). exists parts. rewrite X. auto. }
  destruct (Ascii.eqb_spec c "\") as [-> | Nb].
  - destruct l1 as [ | e l2]; [discriminate | ]. cbn [length] in Hn. destruct (Ascii.eqb_spec e "u") as [-> | Nu].
    + destruct l2 as [ | h1 [ | h2 [ | h3 [ | h4 l3]]]]; try discriminate. cbn [length] in Hn.
      destruct (hex4 h1 h2 h3 h4) as [k | ] eqn:Ek; [ | discriminate]. apply hex4_iff in Ek as (na & nb & nc & nd & Ha & Hb & Hc & Hd & Ek).
      assert (Hk : hex_text ["\"; "u"; h1; h2; h3; h4]%char k) by (rewrite Ek; constructor; auto). clear Ek.
      destruct (chunk_chars ch) as [s0 | ] eqn:C; [ | discriminate]. destruct (chunk_parts _ _ F C) as (parts & P & X). cbn [bind] in E.
      destruct (if in_range 55296 56319 k then low_half l3 else None) as [m | ] eqn:M.
      * destruct (in_range 55296 56319 k) eqn:R; [ | discriminate]. apply in_range_iff in R. apply low_half_iff in M as (t & q & -> & Hm & Rm).
        rewrite scan_chars_skip in E.
        assert (K : skipn 11 ("u"%char :: h1 :: h2 :: h3 :: h4 :: t ++ q) = q) by (destruct Hm; reflexivity). rewrite K in E. clear K.
        destruct (scan_chars 0 [] q) as [[t' r'] | ] eqn:E3; [ | discriminate]. cbn [bind] in E. injection E as <- <-.
        destruct (IH q) with (ch := @nil ascii) (s := t') (r := r') as (parts' & P' & X'); auto; [rewrite app_length in Hn; lia | ].
        cbn [rev app] in X'. exists (parts ++ (["\"; "u"; h1; h2; h3; h4]%char ++ t) :: parts'). split.
        { apply Forall2_app; auto. constructor; auto. apply ct_pair; try lia; [replace (55296 + (k - 55296))%N with k by lia; auto | replace (56320 + (m - 56320))%N with m by lia; auto]. }
        rewrite concat_app. cbn [concat]. rewrite X, <- !app_assoc, <- X'. reflexivity.
      * rewrite scan_chars_skip in E. cbn [skipn] in E. destruct (scan_chars 0 [] l3) as [[t' r'] | ] eqn:E3; [ | discriminate]. cbn [bind] in E. injection E as <- <-.
        destruct (IH l3) with (ch := @nil ascii) (s := t') (r := r') as (parts' & P' & X'); auto; [lia | ].
        cbn [rev app] in X'. exists (parts ++ ["\"; "u"; h1; h2; h3; h4]%char :: parts'). split.
        { apply Forall2_app; auto. constructor; auto. now apply ct_hex. }
        rewrite concat_app. cbn [concat]. rewrite X, <- !app_assoc, <- X'. reflexivity.
    + destruct (unescape e) as [x | ] eqn:Ee; [ | discriminate]. destruct (chunk_chars ch) as [s0 | ] eqn:C; [ | discriminate].
      destruct (chunk_parts _ _ F C) as (parts & P & X). cbn [bind] in E. rewrite scan_chars_skip in E. cbn [skipn] in E.
      destruct (scan_chars 0 [] l2) as [[t' r'] | ] eqn:E3; [ | discriminate]. cbn [bind] in E. injection E as <- <-.
      destruct (IH l2) with (ch := @nil ascii) (s := t') (r := r') as (parts' & P' & X'); auto; [lia | ].
      cbn [rev app] in X'. exists (parts ++ ["\"%char; e] :: parts'). split.
      { apply Forall2_app; auto. constructor; auto. apply unescape_iff in Ee as (c & I & ->). now constructor. }
      rewrite concat_app. cbn [concat]. rewrite X, <- !app_assoc, <- X'. reflexivity.
  - destruct (N.leb_spec (code c) 31) as [Lc | Lc]; [discriminate | ].
    destruct (IH l1) with (ch := c :: ch) (s := s) (r := r) as (parts & P & X); auto; try lia.
    { constructor; auto. repeat split; auto. lia. }
    exists parts. split; auto. rewrite <- X. cbn [rev]. rewrite <- app_assoc. reflexivity.
Qed.
Lemma decode_after : forall b l r, stands_for b l -> Forall scalar l -> decode (b ++ r) = l ++ decode r.
Proof.
  intros b l r S. induction S as [ | n p q l B S IH | a q l N S IH]; intros F; auto.
  - inversion F; subst. rewrite <- app_assoc, (decode_char _ _ _ B), IH; auto.
  - pose proof (Forall_inv F) as X. pose proof (not_char_high _ _ N). pose proof (code_lt a). unfold scalar in X. lia.
Qed.
Lemma chunk_more : forall ch s n p, chunk_chars ch = Ok s -> bytes_of n p -> chunk_chars (rev p ++ ch) = Ok (s ++ [n]).
Proof.
  intros ch s n p E B. apply chunk_ok in E as ((l & SC & S) & <-). apply chunk_ok. assert (D := proj1 (stands_decode _ _) S).
  assert (X : decode (rev (rev p ++ ch)) = decode (rev ch) ++ [n]).
  { rewrite rev_app_distr, rev_involutive, (decode_after _ _ p S SC), <- D. f_equal. rewrite <- (app_nil_r p), (decode_char _ _ _ B). reflexivity. }
  split; auto. exists (decode (rev ch) ++ [n]). split; [ | now apply stands_decode]. rewrite D. apply Forall_app. split; auto. constructor; auto. eapply bytes_scalar; eauto.
Qed.
Lemma scan_chars_raw : forall p ch l, Forall raw p -> scan_chars 0 ch (p ++ l) = scan_chars 0 (rev p ++ ch) l.
Proof.
  induction p as [ | c p IH]; intros ch l F; auto. inversion F as [ | ? ? (Q & K & L)]; subst. cbn [app scan_chars].
  rewrite (eqb_no _ _ Q), (eqb_no _ _ K). destruct (N.leb_spec (code c) 31); [lia | ]. rewrite IH; auto. cbn [rev]. rewrite <- app_assoc. reflexivity.
Qed.
Lemma scan_chars_complete : forall parts ns r, Forall2 char_text parts ns -> (forall n, In n ns -> ~ (55296 <= n <= 56319)%N) -> forall ch s,
  chunk_chars ch = Ok s -> scan_chars 0 ch (concat parts ++ """"%char :: r) = Ok (s ++ ns, r).
Proof.
  intros parts ns r H. induction H as [ | p n parts ns Hc H IH]; intros NH ch s E.
  - cbn [concat app scan_chars]. rewrite Ascii.eqb_refl, E. cbn [bind]. rewrite app_nil_r. reflexivity.
  - assert (NH' : forall m, In m ns -> ~ (55296 <= m <= 56319)%N) by (intros m I; apply NH; cbn; auto).
    cbn [concat]. rewrite <- app_assoc. destruct Hc as [n p B Q K L | e c He | t n Ht | t u x y Ht Hu Lx Ly].
    + rewrite scan_chars_raw by (eapply bytes_raw; eauto). rewrite (IH NH' _ (s ++ [n])) by (eapply chunk_more; eauto). rewrite <- app_assoc. reflexivity.
    + cbn [app scan_chars]. change (Ascii.eqb "\" """") with false. change (Ascii.eqb "\" "\") with true. cbv iota.
      assert (Nu : Ascii.eqb e "u" = false).
      { unfold escapes in He. cbn [In] in He. repeat match type of He with _ \/ _ => destruct He as [He | He] end; try (injection He as <- <-; reflexivity). destruct He. }
      rewrite Nu. rewrite (proj2 (unescape_iff e (code c))) by eauto. rewrite E. cbn [bind]. rewrite scan_chars_skip. cbn [skipn].
      rewrite (IH NH' [] []) by reflexivity. reflexivity.
    + destruct Ht as [a b c d na nb nc nd Ha Hb Hc Hd]. cbn [app scan_chars]. change (Ascii.eqb "\" """") with false. change (Ascii.eqb "\" "\") with true.
      change (Ascii.eqb "u" "u") with true. cbv iota.
      rewrite (proj2 (hex4_iff a b c d _)) by (exists na, nb, nc, nd; repeat split; eauto). rewrite E. cbn [bind].
      match goal with |- context [in_range 55296 56319 ?k] => assert (R : in_range 55296 56319 k = false) by (apply not_true_iff_false; rewrite in_range_iff; apply NH; cbn; auto) end.
      rewrite R. rewrite scan_chars_skip. cbn [skipn]. rewrite (IH NH' [] []) by reflexivity. reflexivity.
    + assert (Lo : low_half (u ++ concat parts ++ """"%char :: r) = Some (56320 + y)%N) by (apply low_half_iff; exists u, (concat parts ++ """"%char :: r); repeat split; auto; lia).
      remember (55296 + x)%N as k eqn:Ek. destruct Ht as [a b c d na nb nc nd Ha Hb Hc Hd]. cbn [app scan_chars]. change (Ascii.eqb "\" """") with false. change (Ascii.eqb "\" "\") with true.
      change (Ascii.eqb "u" "u") with true. cbv iota. rewrite <- ?app_assoc. cbn [app].
      rewrite (proj2 (hex4_iff a b c d _)) by (exists na, nb, nc, nd; repeat split; eauto). rewrite E. cbn [bind].
      rewrite Ek. rewrite (proj2 (in_range_iff 55296 56319 _)) by lia. rewrite Lo. cbv beta iota. rewrite (scan_chars_skip 6).
      match goal with |- context [skipn 6 ?x] => assert (K : skipn 6 x = concat parts ++ """"%char :: r) by (destruct Hu; reflexivity) end.
      rewrite K. rewrite (IH NH' [] []) by reflexivity. cbn [bind app]. repeat f_equal; lia.
Qed.
Lemma chunk_err : forall ch e, chunk_chars ch = Err e -> exists w, e = EValue w.
Proof. intros ch e. unfold chunk_chars. destruct (is_utf8 (rev ch)); [discriminate | ]. intros X. injection X as <-. eauto. Qed.
Lemma scan_chars_err : forall l k ch e, scan_chars k ch l = Err e -> exists w, e = EValue w.
Proof.
  induction l as [ | c l1 IH]; intros k ch e E; [injection E as <-; eauto | ]. cbn [scan_chars] in E. unfold bad_json in E. destruct k as [ | k]; [ | eapply IH; eauto].
  assert (K : forall k ch (f : list N * list ascii -> res (list N * list ascii)), (forall x, is_ok (f x) = true) -> bind (scan_chars k ch l1) f = Err e -> exists w, e = EValue w).
  { intros j ch' f O X. destruct (scan_chars j ch' l1) as [x | y] eqn:Y; cbn [bind] in X; [specialize (O x); rewrite X in O; discriminate | ]. injection X as <-. eapply IH; eauto. }
  destruct (Ascii.eqb c """"); [destruct (chunk_chars ch) eqn:C; [discriminate | injection E as <-; eapply chunk_err; eauto] | ].
  destruct (Ascii.eqb c "\"); [ | destruct (N.leb (code c) 31); [injection E as <-; eauto | eapply IH; eauto]].
  destruct l1 as [ | e1 l2]; [injection E as <-; eauto | ]. destruct (Ascii.eqb e1 "u").
  - destruct l2 as [ | h1 [ | h2 [ | h3 [ | h4 l3]]]]; try (injection E as <-; eauto; fail).
    destruct (hex4 h1 h2 h3 h4) as [n | ]; [ | injection E as <-; eauto].
    destruct (chunk_chars ch) eqn:C; [ | injection E as <-; eapply chunk_err; eauto]. cbn [bind] in E.
    destruct (if in_range 55296 56319 n then low_half l3 else None); (eapply K; [ | exact E]); intros [t r]; reflexivity.
  - destruct (unescape e1) as [n | ]; [ | injection E as <-; eauto].
    destruct (chunk_chars ch) eqn:C; [ | injection E as <-; eapply chunk_err; eauto]. cbn [bind] in E. eapply K; [ | exact E]. intros [t r]; reflexivity.
Qed.
Lemma scan_string_sound : forall l s r, scan_string l = Ok (s, r) ->
  exists parts ns, Forall2 char_text parts ns /\ stands_for s ns /\ l = concat parts ++ """"%char :: r.
Proof.
  intros l s r E. unfold scan_string in E. destruct (scan_chars 0 [] l) as [[ns q] | ] eqn:X; [ | discriminate]. cbn [bind] in E.
  destruct (str_of ns) as [b | ] eqn:Y; [ | discriminate]. injection E as <- <-. apply str_of_iff in Y.
  destruct (scan_chars_sound (length l) l (le_n _) [] ns q (Forall_nil _) X) as (parts & P & Z). exists parts, ns. auto.
Qed.
Lemma scan_string_complete : forall parts ns s r, Forall2 char_text parts ns -> stands_for s ns -> scan_string (concat parts ++ """"%char :: r) = Ok (s, r).
Proof.
  intros parts ns s r H S. unfold scan_string. rewrite (scan_chars_complete parts ns r H) with (s := @nil N); auto.
  - cbn [bind app]. rewrite (proj2 (str_of_iff ns s) S). reflexivity.
  - intros n I. apply stands_decode in S. rewrite <- S in I. apply decode_range in I. unfold scalar in I. lia.
Qed.
Lemma char_text_scalar : forall t n, char_text t n -> scalar n \/ (hex_text t n /\ (55296 <= n <= 57343)%N).
Proof.
  intros t n [m p B _ _ _ | e c _ | u m H | u v x y _ _ Lx Ly].
  - left. eapply bytes_scalar; eauto.
  - left. pose proof (code_lt c). unfold scalar. lia.
  - destruct (N.le_gt_cases 55296 m); [destruct (N.le_gt_cases m 57343) | ]; [right; auto | left | left; unfold scalar; lia].
    inversion H as [a b c d na nb nc nd Ha Hb Hc Hd]; subst. assert (X : forall c n, hexit c n -> (n < 16)%N) by (intros ? ? [? R | ? R | ? R]; lia).
    apply X in Ha, Hb, Hc, Hd. unfold scalar. lia.
  - left. unfold scalar. lia.
Qed.
Lemma str_of_scalar : forall l, Forall scalar l -> str_of l <> None.
Proof.
  intros l F. assert (X : exists b, stands_for b l).
  { induction F as [ | n l H F (b & IH)]; [exists []; constructor | ]. exists (encode_char n ++ b). constructor; auto. apply encode_bytes. auto. }
  destruct X as (b & X). apply str_of_iff in X. congruence.
Qed.
Lemma half_mono : forall p r, half_escape r -> half_escape (p ++ r).
Proof. intros p r (a & t & b & n & -> & H & R). exists (p ++ a), t, b, n. rewrite <- app_assoc. auto. Qed.
Lemma scan_string_err : forall l e, scan_string l = Err e -> (exists w, e = EValue w) \/ ((exists w, e = EUnmodelled w) /\ half_escape l).
Proof.
  intros l e E. unfold scan_string in E. destruct (scan_chars 0 [] l) as [[ns q] | x] eqn:X; cbn [bind] in E.
  - destruct (str_of ns) eqn:Y; [discriminate | ]. injection E as <-. right. split; [eauto | ].
    destruct (scan_chars_sound (length l) l (le_n _) [] ns q (Forall_nil _) X) as (parts & P & Z). cbn [rev app] in Z. rewrite Z. clear X Z l.
    destruct (Forall_Exists_dec scalar) with (l := ns) as [F | F].
    { intros n. unfold scalar. destruct (n <? 55296)%N eqn:E1; [apply N.ltb_lt in E1; auto | ]. destruct (n <? 57344)%N eqn:E2; [apply N.ltb_lt in E2; apply N.ltb_ge in E1; right; lia | ].
      apply N.ltb_ge in E2. destruct (n <? 1114112)%N eqn:E3; [apply N.ltb_lt in E3; auto | apply N.ltb_ge in E3; right; lia]. }
    { destruct (str_of_scalar ns F Y). }
    clear Y. induction P as [ | t n parts ns H P IH]; [inversion F | ]. cbn [concat]. rewrite <- app_assoc. inversion F as [? ? N | ? ? F']; subst; [ | apply half_mono; auto].
    destruct (char_text_scalar _ _ H) as [? | [Hx R]]; [contradiction | ]. exists [], t, (concat parts ++ """"%char :: q), n. auto.
  - injection E as <-. left. eapply scan_chars_err; eauto.
Qed.

(** ** Numbers *)
Lemma digit_cases : forall c, digit c -> In c ["0"; "1"; "2"; "3"; "4"; "5"; "6"; "7"; "8"; "9"]%char.
Proof.
  intros c [L U]. assert (E := ascii_N_embedding c). unfold code in *. set (n := N_of_ascii c) in *. clearbody n. subst c.
  assert (H : (n = 48 \/ n = 49 \/ n = 50 \/ n = 51 \/ n = 52 \/ n = 53 \/ n = 54 \/ n = 55 \/ n = 56 \/ n = 57)%N) by lia.
  repeat destruct H as [-> | H]; try subst n; cbn; tauto.
Qed.
Ltac digits H := apply digit_cases in H; cbn [In] in H; repeat (destruct H as [<- | H]); [ .. | destruct H].
Lemma digit_ok : forall c, digit c -> is_blank c = false /\ Ascii.eqb c "_" = false /\ is_digit c = true /\ digit_val c = Some (code c - 48)%N.
Proof. intros c H. digits H; repeat split. Qed.
Lemma digits_app : forall l, Forall digit l -> Forall (fun c => is_digit c = true) l.
Proof. intros l H. eapply Forall_impl; [ | exact H]. intros c. apply is_digit_digit. Qed.

(** [decimal_from a l]: the digits [l] after a number [a] *)
Definition decimal_from (a : N) (l : list ascii) : N := fold_left (fun z c => 10 * z + (code c - 48))%N l a.
Lemma digits_val_text : forall l a b, Forall digit l -> (b = true \/ l <> []) -> digits_val digit_val 10 a b l = Some (decimal_from a l).
Proof.
  induction l as [ | c l IH]; intros a b H Hb; cbn [digits_val].
  - destruct Hb as [-> | Hb]; [auto | congruence].
  - inversion H; subst. destruct (digit_ok c) as (_ & _ & _ & E); auto. rewrite E, IH; auto. unfold decimal_from. cbn [fold_left]. f_equal. f_equal. lia.
Qed.
Lemma take_digits_text : forall l a n r, Forall digit l -> match r with c :: _ => ~ digit c | [] => True end ->
  take_digits a n (l ++ r) = (decimal_from a l, (n + length l)%nat, r).
Proof.
  induction l as [ | c l IH]; intros a n r H Hr; cbn [app length].
  - rewrite Nat.add_0_r. destruct r as [ | c r]; auto. cbn [take_digits]. unfold digit_val.
    destruct (is_digit c) eqn:E; auto. apply is_digit_digit in E. contradiction.
  - inversion H; subst. cbn [take_digits]. destruct (digit_ok c) as (_ & _ & _ & E); auto. rewrite E, IH; auto. unfold decimal_from. cbn [fold_left].
    f_equal. f_equal; [f_equal; lia | lia].
Qed.
Lemma int_digits_digits : forall i, int_digits i -> exists c l, i = c :: l /\ digit c /\ Forall digit l.
Proof. intros i [ | c l H N L]; eexists _, _; split; auto. split; [split; cbn; lia | auto]. Qed.
Lemma int_digits_all : forall i, int_digits i -> Forall digit i /\ i <> [].
Proof. intros i H. destruct (int_digits_digits i H) as (c & l & -> & D & L). split; [auto | discriminate]. Qed.

Definition plain (c : ascii) : Prop := is_blank c = false /\ Ascii.eqb c "_" = false.
Lemma trim_plain : forall l, Forall plain l -> trim l = l.
Proof.
  assert (Hl : forall l, Forall plain l -> lstrip is_blank l = l).
  { intros [ | c l] H; auto. inversion H as [ | ? ? [E _]]; subst. cbn [lstrip]. rewrite E. auto. }
  intros l H. unfold trim, strip_by. rewrite (Hl l H). rewrite Hl; [apply rev_involutive | ]. apply Forall_rev. auto.
Qed.
Lemma drop_plain : forall l b, Forall plain l -> drop_underscores b l = Some l.
Proof.
  induction l as [ | c l IH]; intros b H; auto. inversion H as [ | ? ? [_ E]]; subst. cbn [drop_underscores]. rewrite E, IH; auto.
Qed.
Lemma digits_plain : forall l, Forall digit l -> Forall plain l.
Proof. intros l H. eapply Forall_impl; [ | exact H]. intros c Hc. destruct (digit_ok c Hc) as (A & B & _). split; auto. Qed.
Lemma frac_plain : forall p ds, frac_text p ds -> Forall plain p.
Proof. intros p ds [ | l N H]; constructor; [split; auto | apply digits_plain; auto]. Qed.
Lemma exp_plain : forall x e, exp_text x e -> Forall plain x.
Proof.
  intros x e H.
  assert (He : forall c, In c ["e"; "E"]%char -> plain c) by (intros c [<- | [<- | []]]; split; auto).
  destruct H as [ | c l Hc N H | c l Hc N H | c l Hc N H]; repeat constructor; auto; try (apply He; auto); try apply digits_plain; auto.
Qed.
Lemma exp_head : forall x e, exp_text x e -> match x with c :: _ => In c ["e"; "E"]%char | [] => True end.
Proof. intros x e [ | c l Hc N H | c l Hc N H | c l Hc N H]; auto. Qed.
Lemma e_not_digit : forall c, In c ["e"; "E"]%char -> ~ digit c.
Proof. intros c [<- | [<- | []]] [A B]; vm_compute in B; apply B; reflexivity. Qed.
Lemma dot_not_digit : ~ digit ".".
Proof. intros [A B]; vm_compute in A; apply A; reflexivity. Qed.

Lemma parse_exp_text : forall x e, exp_text x e -> parse_exp x = Some e.
Proof.
  assert (T : forall l, l <> [] -> Forall digit l -> take_digits 0 0 l = (decimal_value l, length l, [])).
  { intros l N H. rewrite <- (app_nil_r l) at 1. rewrite take_digits_text; auto. }
  intros x e H. destruct H as [ | c l Hc N H | c l Hc N H | c l Hc N H]; [reflexivity | ..];
    cbn [parse_exp];
    assert (Ec : Ascii.eqb (lower c) "e" = true) by (destruct Hc as [<- | [<- | []]]; reflexivity); rewrite Ec.
  - destruct l as [ | d l]; [congruence | ]. assert (Hd : digit d) by (inversion H; auto).
    replace (match d with
             | "-"%char => (true, l)
             | "+"%char => (false, l)
             | _ => (false, d :: l)
             end) with (false, d :: l) by (digits Hd; reflexivity).
    rewrite (T (d :: l) N H). reflexivity.
  - cbn [parse_exp]. rewrite (T l N H). destruct l; [congruence | ]. reflexivity.
  - cbn [parse_exp]. rewrite (T l N H). destruct l; [congruence | ]. reflexivity.
Qed.
Lemma parse_unsigned_text : forall neg i p ds x e, int_digits i -> frac_text p ds -> exp_text x e ->
  parse_unsigned neg (i ++ p ++ x) = Some (float_of_decimal neg (decimal_value (i ++ ds)) (e - Z.of_nat (length ds))).
Proof.
  intros neg i p ds x e Hi Hp Hx. unfold parse_unsigned.
  destruct (int_digits_digits i Hi) as (c & l & Ei & Dc & Dl).
  assert (Di : Forall digit i) by (subst i; auto).
  replace (seqb (unchars (map lower (i ++ p ++ x))) "inf") with false by (subst i; digits Dc; reflexivity).
  replace (seqb (unchars (map lower (i ++ p ++ x))) "infinity") with false by (subst i; digits Dc; reflexivity).
  replace (seqb (unchars (map lower (i ++ p ++ x))) "nan") with false by (subst i; digits Dc; reflexivity).
  cbn [orb].
  assert (Li : length i = S (length l)) by (subst i; auto). clear Ei.
  destruct Hp as [ | ds N Dd].
  - cbn [app]. rewrite take_digits_text; auto.
    2:{ apply exp_head in Hx. destruct x; auto. apply e_not_digit; auto. }
    replace (match x with "."%char :: r => take_digits (decimal_from 0 i) 0 r | _ => (decimal_from 0 i, 0, x) end) with (decimal_from 0 i, 0, x)
      by (apply exp_head in Hx; destruct x as [ | y x]; [auto | destruct Hx as [<- | [<- | []]]; auto]).
    rewrite Li. cbn [Nat.add Nat.eqb]. rewrite (parse_exp_text x e Hx). rewrite app_nil_r. reflexivity.
  - rewrite take_digits_text; [ | auto | cbn [app]; apply dot_not_digit]. cbn [app].
    rewrite take_digits_text; [ | auto | apply exp_head in Hx; destruct x; auto; apply e_not_digit; auto].
    rewrite Li. cbn [Nat.add Nat.eqb]. rewrite (parse_exp_text x e Hx).
    unfold decimal_value, decimal_from. rewrite fold_left_app. reflexivity.
Qed.
Lemma py_float_text : forall neg i p ds x e, int_digits i -> frac_text p ds -> exp_text x e ->
  py_float ((if neg : bool then ["-"%char] else []) ++ i ++ p ++ x) =
  Some (float_of_decimal neg (decimal_value (i ++ ds)) (e - Z.of_nat (length ds))).
Proof.
  intros neg i p ds x e Hi Hp Hx.
  assert (Pl : Forall plain ((if neg : bool then ["-"%char] else []) ++ i ++ p ++ x)).
  { repeat rewrite Forall_app. repeat split.
    - destruct neg; repeat constructor.
    - apply digits_plain, int_digits_all; auto.
    - eapply frac_plain; eauto.
    - eapply exp_plain; eauto. }
  unfold py_float. rewrite (trim_plain _ Pl), (drop_plain _ false Pl). destruct neg; cbn [app].
  - apply parse_unsigned_text; auto.
  - rewrite <- (parse_unsigned_text false i p ds x e Hi Hp Hx).
    destruct (int_digits_digits i Hi) as (c & l & -> & Dc & Dl). cbn [app]. digits Dc; reflexivity.
Qed.
Lemma py_int_text : forall (neg : bool) i, int_digits i ->
  py_int ((if neg then ["-"%char] else []) ++ i) = Some (if neg then (- Z.of_N (decimal_value i))%Z else Z.of_N (decimal_value i)).
Proof.
  intros neg i Hi. destruct (int_digits_all i Hi) as [Di Ni]. unfold py_int. rewrite trim_plain.
  2:{ rewrite Forall_app. split; [destruct neg; repeat constructor | apply digits_plain; auto]. }
  destruct neg; cbn [app].
  - rewrite digits_val_text; auto.
  - assert (E : digits_val digit_val 10 0 false i = Some (decimal_value i)) by (rewrite digits_val_text; auto).
    destruct (int_digits_digits i Hi) as (c & l & -> & Dc & Dl). digits Dc; rewrite E; reflexivity.
Qed.

(** What may follow a number *)
Definition ends (l : list ascii) : Prop := match l with c :: _ => In c [","; "]"; "}"; " "; "009"; "010"; "013"]%char | [] => True end.
Lemma ends_digit : forall l, ends l -> match l with c :: _ => is_digit c = false | [] => True end.
Proof. intros [ | c l] H; auto. cbn in H. repeat destruct H as [<- | H]; try reflexivity. destruct H. Qed.

Lemma scan_sign_sound : forall l s r, scan_sign l = (s, r) -> l = s ++ r /\ exists neg : bool, s = if neg then ["-"%char] else [].
Proof.
  intros [ | c l] s r H; cbn [scan_sign] in H; [injection H as <- <-; split; auto; exists false; auto | ].
  destruct (Ascii.eqb_spec c "-"); injection H as <- <-; subst; split; auto; [exists true | exists false]; auto.
Qed.
Lemma digits_of : forall l, Forall (fun c => is_digit c = true) l -> Forall digit l.
Proof. intros l H. eapply Forall_impl; [ | exact H]. intros c. apply is_digit_digit. Qed.
Lemma scan_int_sound : forall l i r, scan_int l = (i, r) -> l = i ++ r /\ (i = [] \/ int_digits i).
Proof.
  intros [ | c l] i r H; cbn [scan_int] in H; [injection H as <- <-; auto | ].
  destruct (Ascii.eqb_spec c "0") as [-> | N]; [injection H as <- <-; split; auto; right; constructor | ].
  apply span_app in H as (E & F & _). split; auto. destruct i as [ | d i]; auto. right. injection E as <- _.
  apply digits_of in F. inversion F; subst. constructor; auto.
Qed.
Lemma scan_frac_sound : forall l p r, scan_frac l = (p, r) -> l = p ++ r /\ exists ds, frac_text p ds.
Proof.
  intros [ | c l] p r H; cbn [scan_frac] in H; [injection H as <- <-; split; eauto using frac_text | ].
  destruct (Ascii.eqb_spec c ".") as [-> | N]; [ | injection H as <- <-; split; eauto using frac_text].
  destruct (span is_digit l) as [d r'] eqn:E. apply span_app in E as (-> & F & _).
  destruct d as [ | d0 d]; injection H as <- <-; split; auto; eexists; constructor; [discriminate | apply digits_of; auto].
Qed.
Lemma scan_exp_sound : forall l x r, scan_exp l = (x, r) -> l = x ++ r /\ exists e, exp_text x e.
Proof.
  intros [ | c l] x r H; cbn [scan_exp] in H; [injection H as <- <-; split; eauto using exp_text | ].
  destruct (is_e c) eqn:Ec; [ | injection H as <- <-; split; eauto using exp_text].
  assert (Hc : In c ["e"; "E"]%char).
  { unfold is_e in Ec. apply orb_true_iff in Ec as [Ec | Ec]; apply ascii_eqb_iff in Ec; subst; cbn; auto. }
  destruct (match l with x :: r1 => if (Ascii.eqb x "+" || Ascii.eqb x "-")%bool then ([x], r1) else ([], l) | [] => ([], l) end) as [s r1] eqn:Es.
  assert (Hs : l = s ++ r1 /\ (s = [] \/ s = ["+"%char] \/ s = ["-"%char])).
  { destruct l as [ | y l]; [injection Es as <- <-; auto | ].
    destruct (Ascii.eqb_spec y "+") as [-> | ]; [injection Es as <- <-; auto | ].
    destruct (Ascii.eqb_spec y "-") as [-> | ]; injection Es as <- <-; auto. }
  destruct Hs as [-> Hs]. destruct (span is_digit r1) as [d r2] eqn:Ed. apply span_app in Ed as (-> & F & _). apply digits_of in F.
  destruct d as [ | d0 d]; injection H as <- <-; [split; eauto using exp_text | ].
  split; [cbn; rewrite <- !app_assoc; reflexivity | ].
  destruct Hs as [-> | [-> | ->]]; cbn [app]; eexists; [eapply et_none_sign | eapply et_plus | eapply et_minus]; auto; discriminate.
Qed.
Lemma scan_number_sound : forall l v r, scan_number l = Ok (v, r) -> exists t, l = t ++ r /\ number_text t v.
Proof.
  intros l v r H. unfold scan_number in H.
  destruct (scan_sign l) as [s l1] eqn:Es. apply scan_sign_sound in Es as (-> & neg & ->).
  destruct (scan_int l1) as [i l2] eqn:Ei. apply scan_int_sound in Ei as (-> & Hi).
  assert (Hi' : i = [] \/ i <> [] /\ int_digits i) by (destruct Hi as [ | Hi]; [auto | right; split; auto; apply int_digits_all; auto]).
  destruct Hi' as [-> | [Ni Hi']]; [discriminate | ].
  destruct (scan_frac l2) as [p l3] eqn:Ep. apply scan_frac_sound in Ep as (-> & ds & Hp).
  destruct (scan_exp l3) as [x l4] eqn:Ex. apply scan_exp_sound in Ex as (-> & e & Hx).
  assert (Nt : forall t v, unsigned_text neg t v -> number_text ((if neg then ["-"%char] else []) ++ t) v).
  { intros t w Ht. destruct neg; [apply nt_minus | apply nt_plain]; auto. }
  assert (C : (p = [] /\ x = []) \/ p ++ x <> []).
  { destruct p; [ | right; discriminate]. destruct x; [auto | right; discriminate]. }
  destruct i as [ | i0 i']; [congruence | ]. destruct C as [[-> ->] | N].
  - rewrite py_int_text in H by auto. injection H as <- <-. exists ((if neg then ["-"%char] else []) ++ i0 :: i').
    split; [rewrite <- app_assoc; auto | ]. apply Nt. constructor. auto.
  - assert (H' : match py_float ((if neg then ["-"%char] else []) ++ (i0 :: i') ++ p ++ x) with
                 | Some f => Ok (VFloat f, l4)
                 | None => Err (EValue "could not convert string to float")
                 end = Ok (v, r)) by (destruct p; [destruct x; [exfalso; apply N; reflexivity | exact H] | exact H]). clear H.
    rewrite (py_float_text neg _ p ds x e) in H' by auto. injection H' as <- <-.
    exists ((if neg then ["-"%char] else []) ++ (i0 :: i') ++ p ++ x). split; [rewrite <- !app_assoc; auto | ]. apply Nt. exact (ut_float neg (i0 :: i') p ds x e Hi' Hp Hx N).
Qed.

Lemma digits_span : forall l r, Forall digit l -> match r with c :: _ => is_digit c = false | [] => True end -> span is_digit (l ++ r) = (l, r).
Proof. intros l r H Hr. apply span_unique; auto. apply digits_app; auto. Qed.
Lemma scan_exp_complete : forall x e r, exp_text x e -> ends r -> scan_exp (x ++ r) = (x, r).
Proof.
  intros x e r H Hr. assert (Dr := ends_digit r Hr).
  assert (He : forall c, In c ["e"; "E"]%char -> is_e c = true) by (intros c [<- | [<- | []]]; auto).
  destruct H as [ | c l Hc N H | c l Hc N H | c l Hc N H]; cbn [app].
  - destruct r as [ | c r]; auto. cbn [scan_exp]. replace (is_e c) with false; auto. cbn in Hr. repeat destruct Hr as [<- | Hr]; auto. destruct Hr.
  - cbn [scan_exp]. rewrite He by auto. destruct l as [ | d l]; [congruence | ]. assert (Hd : digit d) by (inversion H; auto).
    cbn [app]. replace (Ascii.eqb d "+" || Ascii.eqb d "-")%bool with false by (digits Hd; reflexivity).
    change (d :: l ++ r) with ((d :: l) ++ r). rewrite digits_span; auto.
  - cbn [scan_exp]. rewrite He by auto. change (Ascii.eqb "+" "+" || Ascii.eqb "+" "-")%bool with true. cbv iota. rewrite digits_span; auto.
    destruct l; [congruence | auto].
  - cbn [scan_exp]. rewrite He by auto. change (Ascii.eqb "-" "+" || Ascii.eqb "-" "-")%bool with true. cbv iota. rewrite digits_span; auto.
    destruct l; [congruence | auto].
Qed.
Lemma exp_ends_head : forall x e r, exp_text x e -> ends r ->
  match x ++ r with c :: _ => is_digit c = false /\ Ascii.eqb c "." = false | [] => True end.
Proof.
  intros x e r H Hr. apply exp_head in H. destruct x as [ | c x]; cbn [app].
  - destruct r as [ | c r]; auto. cbn in Hr. repeat destruct Hr as [<- | Hr]; auto. destruct Hr.
  - destruct H as [<- | [<- | []]]; auto.
Qed.
Lemma scan_frac_complete : forall p ds r, frac_text p ds ->
  match r with c :: _ => is_digit c = false /\ Ascii.eqb c "." = false | [] => True end -> scan_frac (p ++ r) = (p, r).
Proof.
  intros p ds r [ | l N H] Hr; cbn [app].
  - destruct r as [ | c r]; auto. cbn [scan_frac]. destruct Hr as [_ ->]. auto.
  - cbn [scan_frac]. change (Ascii.eqb "." ".") with true. cbv iota. rewrite digits_span; auto; [destruct l; [congruence | auto] | ].
    destruct r; auto. tauto.
Qed.
Lemma scan_int_complete : forall i r, int_digits i -> match r with c :: _ => is_digit c = false | [] => True end -> scan_int (i ++ r) = (i, r).
Proof.
  intros i r [ | c l Hc N H] Hr; [reflexivity | ]. cbn [app scan_int]. rewrite (eqb_no _ _ N).
  change (c :: l ++ r) with ((c :: l) ++ r). apply digits_span; auto.
Qed.
Lemma unsigned_shape : forall neg t v, unsigned_text neg t v -> exists i p ds x e, t = i ++ p ++ x /\ int_digits i /\ frac_text p ds /\ exp_text x e /\
  (p = [] /\ x = [] /\ v = VInt (if neg then - Z.of_N (decimal_value i) else Z.of_N (decimal_value i)) \/
   p ++ x <> [] /\ v = VFloat (float_of_decimal neg (decimal_value (i ++ ds)) (e - Z.of_nat (length ds)))).
Proof.
  intros neg t v [ng i Hi | ng i p ds x e Hi Hp Hx N].
  - exists i, [], [], [], 0%Z. rewrite app_nil_r. repeat split; auto using frac_text, exp_text.
  - exists i, p, ds, x, e. repeat split; auto.
Qed.
Lemma scan_number_complete : forall t v r, number_text t v -> ends r -> scan_number (t ++ r) = Ok (v, r).
Proof.
  intros t v r H Hr.
  assert (exists (neg : bool) t', t = (if neg then ["-"%char] else []) ++ t' /\ unsigned_text neg t' v) as (neg & t' & -> & Ht).
  { destruct H as [t v H | t v H]; [exists false, t | exists true, t]; auto. }
  clear H. destruct (unsigned_shape _ _ _ Ht) as (i & p & ds & x & e & -> & Hi & Hp & Hx & Hv). clear Ht.
  destruct (int_digits_all i Hi) as [Di Ni].
  assert (Es : scan_sign (((if neg then ["-"%char] else []) ++ i ++ p ++ x) ++ r) = ((if neg then ["-"%char] else []), i ++ p ++ x ++ r)).
  { rewrite <- !app_assoc. destruct neg; cbn [app scan_sign]; [reflexivity | ].
    destruct (int_digits_digits i Hi) as (c & l & -> & Dc & Dl). cbn [app]. cbn [scan_sign].
    replace (Ascii.eqb c "-") with false by (digits Dc; reflexivity). auto. }
  unfold scan_number. rewrite Es.
  assert (Hxr := exp_ends_head x e r Hx Hr).
  rewrite scan_int_complete; auto.
  2:{ destruct Hp; [cbn [app] | reflexivity]. destruct (x ++ r); auto. tauto. }
  rewrite (scan_frac_complete p ds) by auto. rewrite (scan_exp_complete x e) by auto.
  destruct i as [ | i0 i']; [congruence | ]. destruct Hv as [(-> & -> & ->) | [N ->]].
  - rewrite py_int_text; auto.
  - assert (E : match py_float ((if neg then ["-"%char] else []) ++ (i0 :: i') ++ p ++ x) with
                 | Some f => Ok (VFloat f, r)
                 | None => Err (EValue "could not convert string to float")
                 end = Ok (VFloat (float_of_decimal neg (decimal_value ((i0 :: i') ++ ds)) (e - Z.of_nat (length ds))), r))
      by (rewrite (py_float_text neg (i0 :: i') p ds x e); auto).
    destruct p; [destruct x; [exfalso; apply N; reflexivity | exact E] | exact E].
Qed.
Lemma scan_number_err : forall l e, scan_number l = Err e -> exists w, e = EValue w.
Proof.
  intros l e H. unfold scan_number, bad_json in H.
  repeat match type of H with
  | (let '(_, _) := ?m in _) = _ => destruct m
  | match ?m with _ => _ end = _ => destruct m
  end; try discriminate; injection H as <-; eauto.
Qed.

(** ** Values *)
Lemma blanks_app : forall a b, blanks a -> blanks b -> blanks (a ++ b).
Proof. intros. apply Forall_app. auto. Qed.
Lemma blanks_nil : blanks [].
Proof. constructor. Qed.
Lemma strip_prefix_ok : forall p l r, strip_prefix p l = Some r -> l = p ++ r.
Proof.
  induction p as [ | a p IH]; intros l r H; cbn [strip_prefix] in H; [injection H as <-; auto | ].
  destruct l as [ | b l]; [discriminate | ]. destruct (Ascii.eqb_spec a b) as [-> | ]; [ | discriminate]. cbn [app]. f_equal. auto.
Qed.
Lemma scan_constant_sound : forall l v r, scan_constant constants l = Some (v, r) -> exists t, l = t ++ r /\ constant_text t v.
Proof.
  intros l v r H. unfold constants in H.
  repeat (cbn [scan_constant] in H;
    match type of H with match strip_prefix (chars ?w) l with _ => _ end = _ =>
      destruct (strip_prefix (chars w) l) eqn:E;
      [injection H as <- <-; apply strip_prefix_ok in E; eexists; split; [exact E | constructor] | clear E] end).
  cbn [scan_constant] in H. discriminate.
Qed.
Lemma scan_constant_complete : forall t v r, constant_text t v -> scan_constant constants (t ++ r) = Some (v, r).
Proof. intros t v r H. destruct H; reflexivity. Qed.
Lemma scan_constant_number : forall t v r, number_text t v -> scan_constant constants (t ++ r) = None.
Proof.
  intros t v r H. assert (S : forall neg t v, unsigned_text neg t v -> exists c l, t = c :: l /\ digit c).
  { intros neg t' v' Ht. destruct (unsigned_shape _ _ _ Ht) as (i & p & ds & x & e & -> & Hi & _).
    destruct (int_digits_digits i Hi) as (c & l & -> & Dc & Dl). exists c, (l ++ p ++ x). auto. }
  destruct H as [t v H | t v H]; destruct (S _ _ _ H) as (c & l & -> & Dc); digits Dc; reflexivity.
Qed.

Lemma pairs_blank : forall a t ps, blanks a -> pairs_text t ps -> pairs_text (a ++ t) ps.
Proof.
  intros a t ps Ha H. destruct H; rewrite app_assoc; constructor; auto using blanks_app.
Qed.
Lemma items_blank : forall a t vs, blanks a -> items_text t vs -> items_text (a ++ t) vs.
Proof.
  intros a t ps Ha H. destruct H; rewrite app_assoc; constructor; auto using blanks_app.
Qed.

Definition dict_add (d : dict val) (ps : list (string * val)) : dict val := fold_left (fun d kv => dset (fst kv) (snd kv) d) ps d.
Lemma scan_string_text : forall l s r, scan_string l = Ok (s, r) -> exists t, """"%char :: l = t ++ r /\ string_text t (unchars s).
Proof.
  intros l s r H. destruct (scan_string_sound l s r H) as (parts & ns & F & St & ->).
  exists (""""%char :: concat parts ++ [""""%char]). split; [cbn; rewrite <- app_assoc; auto | ]. apply st_text with ns; auto. unfold chars, unchars. rewrite list_ascii_of_string_of_list_ascii. auto.
Qed.

Theorem scan_sound : forall fuel,
  (forall l v r, scan_once fuel l = Ok (v, r) -> exists t, l = t ++ r /\ value_text t v) /\
  (forall acc l v r, members fuel acc l = Ok (v, r) -> exists t ps, l = t ++ "}"%char :: r /\ pairs_text t ps /\ v = VDict (dict_add acc ps)) /\
  (forall acc l v r, elements fuel acc l = Ok (v, r) -> exists t vs, l = t ++ "]"%char :: r /\ items_text t vs /\ v = VList (acc ++ vs)).
Proof.
  induction fuel as [ | f (IHv & IHp & IHi)]; [split; [ | split]; discriminate | ]. split; [ | split].
  - intros l v r H. cbn [scan_once] in H. destruct l as [ | c l]; [discriminate | ].
    destruct (Ascii.eqb_spec c """") as [-> | N1].
    { destruct (scan_string l) as [[s r'] | ] eqn:E; [ | discriminate]. injection H as <- <-.
      destruct (scan_string_text _ _ _ E) as (t & Et & Ht). exists t. split; auto. apply vt_string. auto. }
    destruct (Ascii.eqb_spec c "{") as [-> | N2].
    { destruct (skip_ws_split l) as (a & Ha & El). destruct (skip_ws l) as [ | x r'] eqn:Es; [discriminate | ].
      destruct (Ascii.eqb_spec x "}") as [-> | Nx].
      - injection H as <- <-. exists ("{" :: a ++ ["}"])%char. split; [rewrite El; cbn; rewrite <- app_assoc; auto | apply vt_empty_dict; auto].
      - destruct (IHp _ _ _ _ H) as (t & ps & Et & Hp & ->). exists ("{" :: (a ++ t) ++ ["}"])%char. split.
        + rewrite El, Et. cbn. rewrite <- !app_assoc. auto.
        + apply vt_dict. apply pairs_blank; auto. }
    destruct (Ascii.eqb_spec c "[") as [-> | N3].
    { destruct (skip_ws_split l) as (a & Ha & El). destruct (skip_ws l) as [ | x r'] eqn:Es; [discriminate | ].
      destruct (Ascii.eqb_spec x "]") as [-> | Nx].
      - injection H as <- <-. exists ("[" :: a ++ ["]"])%char. split; [rewrite El; cbn; rewrite <- app_assoc; auto | apply vt_empty_list; auto].
      - destruct (IHi _ _ _ _ H) as (t & vs & Et & Hp & ->). exists ("[" :: (a ++ t) ++ ["]"])%char. split.
        + rewrite El, Et. cbn. rewrite <- !app_assoc. auto.
        + cbn [app]. apply vt_list. apply items_blank; auto. }
    destruct (scan_constant constants (c :: l)) as [[v' r'] | ] eqn:E.
    + injection H as <- <-. destruct (scan_constant_sound _ _ _ E) as (t & Et & Ht). exists t. split; auto. apply vt_constant. auto.
    + destruct (scan_number_sound _ _ _ H) as (t & Et & Ht). exists t. split; auto. apply vt_number. auto.
  - intros acc l v r H. cbn [members] in H. destruct l as [ | c l]; [discriminate | ].
    destruct (Ascii.eqb_spec c """") as [-> | N1]; [ | discriminate]. cbn [negb] in H.
    destruct (scan_string l) as [[k r1] | ] eqn:E; [ | discriminate]. cbn [bind] in H.
    destruct (scan_string_text _ _ _ E) as (tk & Ek & Hk). rewrite Ek.
    destruct (skip_ws_split r1) as (b & Hb & Er1). destruct (skip_ws r1) as [ | x r2]; [discriminate | ].
    destruct (Ascii.eqb_spec x ":") as [-> | ]; [ | discriminate]. cbn [negb] in H.
    destruct (skip_ws_split r2) as (cc & Hc & Er2). destruct (scan_once f (skip_ws r2)) as [[w r3] | ] eqn:Ew; [ | discriminate]. cbn [bind] in H.
    destruct (IHv _ _ _ Ew) as (tv & Ev & Hv).
    destruct (skip_ws_split r3) as (d & Hd & Er3). destruct (skip_ws r3) as [ | y r4]; [discriminate | ].
    destruct (Ascii.eqb_spec y "}") as [-> | Ny].
    + injection H as <- <-. exists ([] ++ tk ++ b ++ ":"%char :: cc ++ tv ++ d), [(unchars k, w)]. split.
      * rewrite Er1, Er2, Ev, Er3. cbn [app]. rewrite <- !app_assoc. cbn [app]. rewrite <- !app_assoc. auto.
      * split; [constructor; auto using blanks_nil | reflexivity].
    + destruct (Ascii.eqb_spec y ",") as [-> | ]; [ | discriminate].
      destruct (skip_ws_split r4) as (g & Hg & Er4). destruct (IHp _ _ _ _ H) as (t & ps & Et & Hp & ->).
      exists ([] ++ tk ++ b ++ ":"%char :: cc ++ tv ++ d ++ ","%char :: (g ++ t)), ((unchars k, w) :: ps). split.
      * rewrite Er1, Er2, Ev, Er3, Er4, Et. cbn [app]. repeat (rewrite <- !app_assoc; cbn [app]). auto.
      * split; [ | reflexivity]. constructor; auto using blanks_nil, pairs_blank.
  - intros acc l v r H. cbn [elements] in H.
    destruct (scan_once f l) as [[w r3] | ] eqn:Ew; [ | discriminate]. cbn [bind] in H.
    destruct (IHv _ _ _ Ew) as (tv & Ev & Hv).
    destruct (skip_ws_split r3) as (d & Hd & Er3). destruct (skip_ws r3) as [ | y r4]; [discriminate | ].
    destruct (Ascii.eqb_spec y "]") as [-> | Ny].
    + injection H as <- <-. exists ([] ++ tv ++ d), [w]. split.
      * rewrite Ev, Er3. cbn [app]. rewrite <- !app_assoc. auto.
      * split; [constructor; auto using blanks_nil | reflexivity].
    + destruct (Ascii.eqb_spec y ",") as [-> | ]; [ | discriminate].
      destruct (skip_ws_split r4) as (g & Hg & Er4). destruct (IHi _ _ _ _ H) as (t & vs & Et & Hp & ->).
      exists ([] ++ tv ++ d ++ ","%char :: (g ++ t)), (w :: vs). split.
      * rewrite Ev, Er3, Er4, Et. cbn [app]. repeat (rewrite <- !app_assoc; cbn [app]). auto.
      * split; [ | rewrite <- app_assoc; reflexivity]. constructor; auto using blanks_nil, items_blank.
Qed.

(** How a value begins *)
Definition starts (c : ascii) : Prop := ~ blank c /\ c <> "]"%char /\ c <> "}"%char.
Lemma value_starts : forall t v, value_text t v -> exists c l, t = c :: l /\ starts c.
Proof.
  assert (Q : starts """") by (repeat split; try discriminate; cbn; intuition discriminate).
  assert (U : forall neg t v, unsigned_text neg t v -> exists c l, t = c :: l /\ starts c).
  { intros neg t v H. destruct (unsigned_shape _ _ _ H) as (i & p & ds & x & e & -> & Hi & _).
    destruct (int_digits_digits i Hi) as (c & l & -> & Dc & Dl). exists c, (l ++ p ++ x). split; auto.
    repeat split; digits Dc; try discriminate; cbn; intuition discriminate. }
  intros t v H. destruct H as [t s [parts cs F] | t v H | t v H | b Hb | t vs Ht | b Hb | t ps Ht].
  - eexists _, _. split; [reflexivity | auto].
  - destruct H; eexists _, _; (split; [reflexivity | ]); repeat split; try discriminate; cbn; intuition discriminate.
  - destruct H as [t v H | t v H]; [eauto | ]. eexists _, _. split; [reflexivity | ]. repeat split; try discriminate; cbn; intuition discriminate.
  - eexists _, _; (split; [reflexivity | ]); repeat split; try discriminate; cbn; intuition discriminate.
  - eexists _, _; (split; [reflexivity | ]); repeat split; try discriminate; cbn; intuition discriminate.
  - eexists _, _; (split; [reflexivity | ]); repeat split; try discriminate; cbn; intuition discriminate.
  - eexists _, _; (split; [reflexivity | ]); repeat split; try discriminate; cbn; intuition discriminate.
Qed.
Lemma string_starts : forall t s, string_text t s -> exists l, t = """"%char :: l.
Proof. intros t s [parts cs F]. eexists. reflexivity. Qed.
Lemma skip_value : forall a t v r, blanks a -> value_text t v -> skip_ws (a ++ t ++ r) = t ++ r.
Proof.
  intros a t v r Ha H. destruct (value_starts t v H) as (c & l & -> & (Hc & _)). cbn [app]. apply skip_ws_app; auto.
Qed.
Lemma skip_string : forall a t v r, blanks a -> string_text t v -> skip_ws (a ++ t ++ r) = t ++ r.
Proof.
  intros a t v r Ha H. apply (skip_value a t (VStr v)); auto. apply vt_string. auto.
Qed.
Lemma skip_char : forall a c r, blanks a -> In c [","; ":"; "]"; "}"]%char -> skip_ws (a ++ c :: r) = c :: r.
Proof. intros a c r Ha H. apply skip_ws_app; auto. cbn in H. unfold blank. cbn. intros B. intuition congruence. Qed.
Lemma ends_blank : forall a c r, blanks a -> In c [","; "]"; "}"]%char -> ends (a ++ c :: r).
Proof.
  intros a c r Ha H. destruct Ha as [ | b a Hb Ha]; cbn [app ends].
  - cbn in H |- *. tauto.
  - unfold blank in Hb. cbn in Hb |- *. tauto.
Qed.
Lemma number_starts : forall t v, number_text t v -> exists c l, t = c :: l /\ Ascii.eqb c """" = false /\ Ascii.eqb c "{" = false /\ Ascii.eqb c "[" = false.
Proof.
  assert (U : forall neg t v, unsigned_text neg t v -> exists c l, t = c :: l /\ Ascii.eqb c """" = false /\ Ascii.eqb c "{" = false /\ Ascii.eqb c "[" = false).
  { intros neg t v H. destruct (unsigned_shape _ _ _ H) as (i & p & ds & x & e & -> & Hi & _).
    destruct (int_digits_digits i Hi) as (c & l & -> & Dc & Dl). exists c, (l ++ p ++ x). split; auto. digits Dc; auto. }
  intros t v [t' v' H | t' v' H]; [eauto | ]. eexists _, _. split; [reflexivity | auto].
Qed.
Lemma scan_string_text_complete : forall t s r, string_text t s -> exists cs l, t = """"%char :: l /\ unchars cs = s /\ scan_string (l ++ r) = Ok (cs, r).
Proof.
  intros t s r [parts ns s' F St]. exists (chars s'), (concat parts ++ [""""%char]). repeat split; [apply string_of_list_ascii_of_string | ].
  rewrite <- app_assoc. cbn [app]. apply (scan_string_complete parts ns); auto.
Qed.
Lemma ends_char : forall c r, In c [","; "]"; "}"]%char -> ends (c :: r).
Proof. intros c r H. apply (ends_blank [] c r); auto using blanks_nil. Qed.

Theorem scan_complete :
  (forall t v, value_text t v -> forall r fuel, ends r -> 2 * length (t ++ r) < fuel -> scan_once fuel (t ++ r) = Ok (v, r)) /\
  (forall t vs, items_text t vs -> forall r fuel acc, 2 * length (t ++ "]"%char :: r) + 1 < fuel ->
    elements fuel acc (skip_ws (t ++ "]"%char :: r)) = Ok (VList (acc ++ vs), r)) /\
  (forall t ps, pairs_text t ps -> forall r fuel acc, 2 * length (t ++ "}"%char :: r) + 1 < fuel ->
    members fuel acc (skip_ws (t ++ "}"%char :: r)) = Ok (VDict (dict_add acc ps), r)).
Proof.
  apply text_ind.
  - intros t s H r [ | f] Hr L; [lia | ]. destruct (scan_string_text_complete t s r H) as (cs & l & -> & <- & E).
    cbn [app scan_once]. change (Ascii.eqb """" """") with true. cbv iota. rewrite E. reflexivity.
  - intros t v H r [ | f] Hr L; [lia | ].
    destruct H; reflexivity.
  - intros t v H r [ | f] Hr L; [lia | ]. cbn [scan_once]. destruct (number_starts t v H) as (c & l & E & E1 & E2 & E3).
    assert (Ec := scan_constant_number t v r H). assert (En := scan_number_complete t v r H Hr). subst t. cbn [app] in *.
    rewrite E1, E2, E3, Ec. auto.
  - intros b Hb r [ | f] Hr L; [lia | ]. cbn [app scan_once]. change (Ascii.eqb "[" """") with false. change (Ascii.eqb "[" "{") with false.
    change (Ascii.eqb "[" "[") with true. cbv iota. rewrite <- app_assoc. cbn [app]. rewrite skip_char; [reflexivity | auto | cbn; auto].
  - intros t vs H IH r [ | f] Hr L; [lia | ]. cbn [app scan_once]. change (Ascii.eqb "[" """") with false. change (Ascii.eqb "[" "{") with false.
    change (Ascii.eqb "[" "[") with true. cbv iota. rewrite <- app_assoc in *. cbn [app] in *. rewrite <- app_assoc in L. cbn [app length] in L.
    assert (exists c l, skip_ws (t ++ "]"%char :: r) = c :: l /\ Ascii.eqb c "]" = false) as (c & l & Es & Ec).
    { destruct H as [a t b v Ha Ht Hb | a t b v ts vs Ha Ht Hb Hs]; rewrite <- !app_assoc; rewrite (skip_value a t v); auto;
        destruct (value_starts t v Ht) as (c & l & -> & (_ & N & _)); eexists _, _; (split; [reflexivity | apply eqb_no; auto]). }
    rewrite Es, Ec, <- Es. apply IH. lia.
  - intros b Hb r [ | f] Hr L; [lia | ]. cbn [app scan_once]. change (Ascii.eqb "{" """") with false. change (Ascii.eqb "{" "{") with true.
    cbv iota. rewrite <- app_assoc. cbn [app]. rewrite skip_char; [reflexivity | auto | cbn; auto].
  - intros t ps H IH r [ | f] Hr L; [lia | ]. cbn [app scan_once]. change (Ascii.eqb "{" """") with false. change (Ascii.eqb "{" "{") with true.
    cbv iota. rewrite <- app_assoc in *. cbn [app] in *. rewrite <- app_assoc in L. cbn [app length] in L.
    assert (exists l, skip_ws (t ++ "}"%char :: r) = """"%char :: l) as (l & Es).
    { destruct H as [a k b c t d s v Ha Hk Hb Hc Ht Hd | a k b c t d s v ts vs Ha Hk Hb Hc Ht Hd Hs]; rewrite <- !app_assoc; rewrite (skip_string a k s); auto;
        destruct (string_starts k s Hk) as (l & ->); eexists; reflexivity. }
    rewrite Es. change (Ascii.eqb """" "}") with false. cbv iota. rewrite <- Es. apply (IH r f []). lia.
  - intros a t b v Ha Ht IH Hb r [ | f] acc L; [lia | ]. rewrite <- !app_assoc in *. rewrite (skip_value a t v) by auto.
    cbn [elements]. rewrite !app_length in L. cbn [length] in L.
    rewrite IH; [ | apply ends_blank; cbn; auto | rewrite !app_length; cbn [length]; lia].
    cbn [bind]. rewrite skip_char; [reflexivity | auto | cbn; auto].
  - intros a t b v ts vs Ha Ht IH Hb Hs IHs r [ | f] acc L; [lia | ]. rewrite <- !app_assoc in *. cbn [app] in *. rewrite (skip_value a t v) by auto.
    cbn [elements]. repeat (rewrite app_length in L; cbn [length] in L).
    rewrite IH; [ | apply ends_blank; cbn; auto | repeat (rewrite app_length; cbn [length]); lia].
    cbn [bind]. rewrite skip_char; [ | auto | cbn; auto]. change (Ascii.eqb "," "]") with false. change (Ascii.eqb "," ",") with true. cbv iota.
    rewrite IHs by (rewrite app_length; cbn [length]; lia). rewrite <- app_assoc. reflexivity.
  - intros a k b c t d s v Ha Hk Hb Hc Ht IH Hd r [ | f] acc L; [lia | ]. repeat (rewrite <- !app_assoc in *; cbn [app] in *). rewrite (skip_string a k s) by auto.
    repeat (rewrite app_length in L; cbn [length] in L).
    destruct (scan_string_text_complete k s (b ++ ":"%char :: c ++ t ++ d ++ "}"%char :: r) Hk) as (cs & l & -> & <- & E).
    cbn [app members]. change (Ascii.eqb """" """") with true. cbn [negb]. rewrite E. cbn [bind].
    rewrite skip_char by (cbn; auto). change (Ascii.eqb ":" ":") with true. cbn [negb].
    rewrite (skip_value c t v) by auto.
    rewrite IH; [ | apply ends_blank; cbn; auto | repeat (rewrite app_length; cbn [length]); lia]. cbn [bind].
    rewrite skip_char by (cbn; auto). reflexivity.
  - intros a k b c t d s v ts vs Ha Hk Hb Hc Ht IH Hd Hs IHs r [ | f] acc L; [lia | ]. repeat (rewrite <- !app_assoc in *; cbn [app] in *). rewrite (skip_string a k s) by auto.
    repeat (rewrite app_length in L; cbn [length] in L).
    destruct (scan_string_text_complete k s (b ++ ":"%char :: c ++ t ++ d ++ ","%char :: ts ++ "}"%char :: r) Hk) as (cs & l & -> & <- & E).
    cbn [app members]. change (Ascii.eqb """" """") with true. cbn [negb]. rewrite E. cbn [bind].
    rewrite skip_char by (cbn; auto). change (Ascii.eqb ":" ":") with true. cbn [negb].
    rewrite (skip_value c t v) by auto.
    rewrite IH; [ | apply ends_blank; cbn; auto | repeat (rewrite app_length; cbn [length]); lia]. cbn [bind].
    rewrite skip_char by (cbn; auto). change (Ascii.eqb "," "}") with false. change (Ascii.eqb "," ",") with true. cbv iota.
    rewrite IHs by (rewrite app_length; cbn [length] in *; lia). reflexivity.
Qed.

(** json.loads reads exactly the JSON texts. *)
Theorem loads_iff : forall l v, json_loads l = Ok v <-> json_text l v.
Proof.
  intros l v. unfold json_loads. split.
  - destruct (scan_once (S (2 * length l)) (skip_ws l)) as [[w r] | ] eqn:E; [ | discriminate]. cbn [bind].
    destruct (scan_sound (S (2 * length l))) as (Hv & _). destruct (Hv _ _ _ E) as (t & Et & Ht).
    destruct (skip_ws_split l) as (a & Ha & El). destruct (skip_ws_split r) as (b & Hb & Er).
    destruct (skip_ws r); [ | discriminate]. injection 1 as <-. exists a, t, b. repeat split; auto. rewrite El, Et, Er, app_nil_r. auto.
  - intros (a & t & b & Ha & Ht & Hb & ->). rewrite (skip_value a t v) by auto.
    destruct scan_complete as (Hv & _). rewrite (Hv t v Ht).
    + cbn [bind]. rewrite skip_ws_all; auto.
    + destruct Hb as [ | c b Hc Hb]; [exact I | ]. unfold blank in Hc. cbn in Hc |- *. tauto.
    + rewrite !app_length. lia.
Qed.
Corollary json_text_unique : forall l v w, json_text l v -> json_text l w -> v = w.
Proof. intros l v w Hv Hw. apply loads_iff in Hv, Hw. congruence. Qed.

(** Otherwise it raises ValueError (or the text escapes a half of a pair). *)
Definition refused (l : list ascii) (e : exn) : Prop := (exists w, e = EValue w) \/ ((exists w, e = EUnmodelled w) /\ half_escape l).
Lemma refused_bad : forall l, refused l (EValue "JSONDecodeError").
Proof. left. eauto. Qed.
Definition suffix (r l : list ascii) : Prop := exists p, l = p ++ r.
Lemma suffix_trans : forall a b c, suffix a b -> suffix b c -> suffix a c.
Proof. intros a b c (p & ->) (q & ->). exists (q ++ p). rewrite <- app_assoc. auto. Qed.
Lemma suffix_cons : forall x r l, suffix (x :: r) l -> suffix r l.
Proof. intros x r l (p & ->). exists (p ++ [x]). rewrite <- app_assoc. auto. Qed.
Lemma suffix_refl : forall l, suffix l l.
Proof. intros l. exists []. auto. Qed.
Lemma suffix_length : forall r l, suffix r l -> length r <= length l.
Proof. intros r l (p & ->). rewrite app_length. lia. Qed.
Lemma refused_mono : forall r l e, suffix r l -> refused r e -> refused l e.
Proof. intros r l e (p & ->) [H | [H K]]; [left; auto | right; split; auto using half_mono]. Qed.
Lemma skip_ws_suffix : forall l, suffix (skip_ws l) l.
Proof. intros l. destruct (skip_ws_split l) as (a & _ & E). exists a. auto. Qed.
Lemma value_suffix : forall fuel l v r, scan_once fuel l = Ok (v, r) -> suffix r l /\ length r < length l.
Proof.
  intros fuel l v r H. destruct (scan_sound fuel) as (Hv & _). destruct (Hv _ _ _ H) as (t & -> & Ht). split; [exists t; auto | ].
  destruct (value_starts t v Ht) as (c & t' & -> & _). cbn. rewrite app_length. lia.
Qed.
Lemma string_suffix : forall l s r, scan_string l = Ok (s, r) -> suffix r l.
Proof. intros l s r H. destruct (scan_string_sound _ _ _ H) as (p & ns & _ & _ & ->). exists (concat p ++ [""""%char]). rewrite <- app_assoc. auto. Qed.
Lemma scan_refused : forall fuel,
  (forall l e, 2 * length l < fuel -> scan_once fuel l = Err e -> refused l e) /\
  (forall acc l e, 2 * length l + 1 < fuel -> members fuel acc l = Err e -> refused l e) /\
  (forall acc l e, 2 * length l + 1 < fuel -> elements fuel acc l = Err e -> refused l e).
Proof.
  assert (B := refused_bad).
  induction fuel as [ | f (IHv & IHp & IHi)]; [repeat split; intros; lia | ]. split; [ | split].
  - intros l e L H. cbn [scan_once] in H. unfold bad_json in H. destruct l as [ | c l]; [injection H as <-; auto | ]. cbn [length] in L.
    assert (K0 : suffix l (c :: l)) by (exists [c]; auto). assert (K1 := skip_ws_suffix l). assert (K2 := suffix_length _ _ K1).
    destruct (Ascii.eqb c """").
    { destruct (scan_string l) as [[s r] | x] eqn:E; [discriminate | ]. injection H as <-. apply (refused_mono l); auto. apply (scan_string_err _ _ E). }
    destruct (Ascii.eqb c "{").
    { destruct (skip_ws l) as [ | x r]; [injection H as <-; auto | ]. destruct (Ascii.eqb x "}"); [discriminate | ].
      apply IHp in H; [ | lia]. eapply refused_mono; [ | exact H]. eapply suffix_trans; eauto. }
    destruct (Ascii.eqb c "[").
    { destruct (skip_ws l) as [ | x r]; [injection H as <-; auto | ]. destruct (Ascii.eqb x "]"); [discriminate | ].
      apply IHi in H; [ | lia]. eapply refused_mono; [ | exact H]. eapply suffix_trans; eauto. }
    destruct (scan_constant constants (c :: l)); [discriminate | ]. left. eapply scan_number_err; eauto.
  - intros acc l0 e L H. cbn [members] in H. unfold bad_json in H. destruct l0 as [ | c l]; [injection H as <-; auto | ]. cbn [length] in L.
    assert (K0 : suffix l (c :: l)) by (exists [c]; auto).
    destruct (negb (Ascii.eqb c """")); [injection H as <-; auto | ].
    destruct (scan_string l) as [[k r1] | x] eqn:E; [ | injection H as <-; apply (refused_mono l); auto; apply (scan_string_err _ _ E)]. cbn [bind] in H.
    assert (K1 := suffix_trans _ _ _ (string_suffix _ _ _ E) K0). assert (L1 := suffix_length _ _ (string_suffix _ _ _ E)). assert (K2 := suffix_trans _ _ _ (skip_ws_suffix r1) K1).
    assert (L2 := skip_ws_length r1). destruct (skip_ws r1) as [ | x r2]; [injection H as <-; auto | ]. cbn [length] in L2.
    destruct (negb (Ascii.eqb x ":")); [injection H as <-; auto | ]. apply suffix_cons in K2.
    assert (K3 := suffix_trans _ _ _ (skip_ws_suffix r2) K2). assert (L3 := skip_ws_length r2).
    destruct (scan_once f (skip_ws r2)) as [[w r3] | x'] eqn:Ew; [ | injection H as <-; eapply refused_mono; [exact K3 | eapply IHv; [ | exact Ew]; lia]].
    cbn [bind] in H. destruct (value_suffix _ _ _ _ Ew) as (K4 & L4). assert (K5 := suffix_trans _ _ _ (skip_ws_suffix r3) (suffix_trans _ _ _ K4 K3)). assert (L5 := skip_ws_length r3).
    destruct (skip_ws r3) as [ | y r4]; [injection H as <-; auto | ]. cbn [length] in L5.
    destruct (Ascii.eqb y "}"); [discriminate | ]. destruct (Ascii.eqb y ","); [ | injection H as <-; auto]. apply suffix_cons in K5.
    assert (L6 := skip_ws_length r4). eapply refused_mono; [exact (suffix_trans _ _ _ (skip_ws_suffix r4) K5) | eapply IHp; [ | exact H]; lia].
  - intros acc l e L H. cbn [elements] in H. unfold bad_json in H.
    destruct (scan_once f l) as [[w r3] | x'] eqn:Ew; [ | injection H as <-; eapply IHv; [ | exact Ew]; lia].
    cbn [bind] in H. destruct (value_suffix _ _ _ _ Ew) as (K4 & L4). assert (K5 := suffix_trans _ _ _ (skip_ws_suffix r3) K4). assert (L5 := skip_ws_length r3).
    destruct (skip_ws r3) as [ | y r4]; [injection H as <-; auto | ]. cbn [length] in L5.
    destruct (Ascii.eqb y "]"); [discriminate | ]. destruct (Ascii.eqb y ","); [ | injection H as <-; auto]. apply suffix_cons in K5.
    assert (L6 := skip_ws_length r4). eapply refused_mono; [exact (suffix_trans _ _ _ (skip_ws_suffix r4) K5) | eapply IHi; [ | exact H]; lia].
Qed.
Theorem loads_refused : forall l e, json_loads l = Err e -> refused l e.
Proof.
  intros l e H. unfold json_loads in H. destruct (scan_once (S (2 * length l)) (skip_ws l)) as [[v r] | x] eqn:E; cbn [bind] in H.
  - destruct (skip_ws r); [discriminate | ]. injection H as <-. apply refused_bad.
  - injection H as <-. destruct (scan_refused (S (2 * length l))) as (Hv & _). eapply refused_mono; [apply skip_ws_suffix | ]. eapply Hv; [ | exact E].
    assert (K := skip_ws_length l). lia.
Qed.
