(** Proofs about UTF-8 and the classes of characters. *)
From Verif Require Import PyBase PyNum UnicodeTables Unicode SpecUnicode.
Local Open Scope N_scope.
Open Scope list_scope.

(** ** Bytes *)
Lemma code_bound : forall c, code c < 256.
Proof. intros c. unfold code. apply N_ascii_bounded. Qed.
Lemma byte_of : forall c n, n < 256 -> (code c = n <-> c = ascii_of_N n).
Proof.
  intros c n H. unfold code. split; intros E.
  - rewrite <- E. symmetry. apply ascii_N_embedding.
  - rewrite E. apply N_ascii_embedding. exact H.
Qed.
Lemma code_byte : forall n, n < 256 -> code (ascii_of_N n) = n.
Proof. intros n H. apply byte_of; auto. Qed.
Lemma in_range_iff : forall a b n, in_range a b n = true <-> a <= n <= b.
Proof. intros a b n. unfold in_range. rewrite andb_true_iff, !N.leb_le. tauto. Qed.

(** ** The first character *)
Lemma bytes_first : forall n p a l q, bytes_of n p -> a :: l = p ++ q -> first_char a l = (n, pred (length p)).
Proof.
  intros n p a l q B E. destruct B; cbn [app] in E; injection E as -> ->; unfold first_char.
  - apply N.ltb_lt in H. now rewrite H.
  - cbv zeta. replace (code a0 <? 128) with false by (symmetry; apply N.ltb_ge; lia).
    replace ((code a0 - 192) * 64 + (code b - 128)) with (x * 64 + y) by lia.
    replace (in_range 192 223 (code a0)) with true by (symmetry; apply in_range_iff; lia).
    unfold cont. replace (in_range 128 191 (code b)) with true by (symmetry; apply in_range_iff; lia).
    replace (128 <=? x * 64 + y) with true by (symmetry; apply N.leb_le; lia). reflexivity.
  - cbv zeta. replace (code a0 <? 128) with false by (symmetry; apply N.ltb_ge; lia).
    replace (in_range 192 223 (code a0)) with false by (symmetry; apply not_true_iff_false; rewrite in_range_iff; lia). cbn [andb].
    replace (((code a0 - 224) * 64 + (code b - 128)) * 64 + (code c - 128)) with (x * 4096 + y * 64 + z) by lia.
    replace (in_range 224 239 (code a0)) with true by (symmetry; apply in_range_iff; lia).
    unfold cont. replace (in_range 128 191 (code b)) with true by (symmetry; apply in_range_iff; lia).
    replace (in_range 128 191 (code c)) with true by (symmetry; apply in_range_iff; lia).
    replace (2048 <=? x * 4096 + y * 64 + z) with true by (symmetry; apply N.leb_le; lia).
    replace (surrogate (x * 4096 + y * 64 + z)) with false by (symmetry; apply not_true_iff_false; unfold surrogate; rewrite in_range_iff; unfold scalar in *; lia).
    reflexivity.
  - cbv zeta. replace (code a0 <? 128) with false by (symmetry; apply N.ltb_ge; lia).
    replace (in_range 192 223 (code a0)) with false by (symmetry; apply not_true_iff_false; rewrite in_range_iff; lia).
    replace (in_range 224 239 (code a0)) with false by (symmetry; apply not_true_iff_false; rewrite in_range_iff; lia). cbn [andb].
    replace ((((code a0 - 240) * 64 + (code b - 128)) * 64 + (code c - 128)) * 64 + (code d - 128)) with (x * 262144 + y * 4096 + z * 64 + w) by lia.
    replace (in_range 240 247 (code a0)) with true by (symmetry; apply in_range_iff; lia).
    unfold cont. replace (in_range 128 191 (code b)) with true by (symmetry; apply in_range_iff; lia).
    replace (in_range 128 191 (code c)) with true by (symmetry; apply in_range_iff; lia).
    replace (in_range 128 191 (code d)) with true by (symmetry; apply in_range_iff; lia).
    replace (in_range 65536 1114111 (x * 262144 + y * 4096 + z * 64 + w)) with true; [reflexivity | ].
    symmetry. apply in_range_iff. unfold scalar in *. lia.
Qed.
Lemma first_char_cases : forall a l,
  (exists n p q, bytes_of n p /\ a :: l = p ++ q /\ first_char a l = (n, pred (length p))) \/
  (first_char a l = (56320 + code a, O) /\ forall n p q, bytes_of n p -> a :: l <> p ++ q).
Proof.
  intros a l.
  assert (K : (exists n p q, bytes_of n p /\ a :: l = p ++ q) \/ first_char a l = (56320 + code a, O)).
  { unfold first_char. destruct (N.ltb_spec (code a) 128) as [H | H].
    { left. exists (code a), [a], l. split; auto. now constructor. }
    destruct l as [ | b l2]; auto. cbv zeta.
    match goal with |- context [if ?c then (_, 1%nat) else _] => destruct c eqn:C end.
    { left. rewrite !andb_true_iff in C. unfold cont in C. rewrite !in_range_iff in C. rewrite N.leb_le in C. destruct C as ((C1 & C2) & C3).
      exists ((code a - 192) * 64 + (code b - 128)), [a; b], l2. split; auto. apply bo_two with (x := code a - 192) (y := code b - 128); lia. }
    clear C. destruct l2 as [ | c l3]; auto.
    match goal with |- context [if ?c then (_, 2%nat) else _] => destruct c eqn:C end.
    { left. rewrite !andb_true_iff in C. unfold cont in C. rewrite !in_range_iff in C. rewrite N.leb_le, negb_true_iff in C. destruct C as ((((C1 & C2) & C3) & C4) & C5).
      apply not_true_iff_false in C5. unfold surrogate in C5. rewrite in_range_iff in C5.
      exists ((code a - 224) * 4096 + (code b - 128) * 64 + (code c - 128)), [a; b; c], l3. split; auto.
      apply bo_three with (x := code a - 224) (y := code b - 128) (z := code c - 128); unfold scalar; lia. }
    clear C. destruct l3 as [ | d l4]; auto.
    match goal with |- context [if ?c then (_, 3%nat) else _] => destruct c eqn:C end; auto.
    left. rewrite !andb_true_iff in C. unfold cont in C. rewrite !in_range_iff in C. destruct C as ((((C1 & C2) & C3) & C4) & C5).
    exists ((code a - 240) * 262144 + (code b - 128) * 4096 + (code c - 128) * 64 + (code d - 128)), [a; b; c; d], l4. split; auto.
    apply bo_four with (x := code a - 240) (y := code b - 128) (z := code c - 128) (w := code d - 128); unfold scalar; lia. }
  destruct K as [(n & p & q & B & E) | K].
  - left. exists n, p, q. split; [auto | split; auto]. eapply bytes_first; eauto.
  - right. split; auto. intros n p q B E. rewrite (bytes_first _ _ _ _ _ B E) in K. pose proof (f_equal fst K) as K1. apply (f_equal snd) in K. cbn [fst snd] in K, K1.
    destruct B as [x H | | | ]; cbn [length pred] in K; try discriminate K. pose proof (code_bound x). lia.
Qed.

(** ** Decoding *)
Lemma decode_skip : forall k l, decode_from k l = decode (skipn k l).
Proof.
  induction k as [ | k IH]; intros [ | a l]; auto. exact (IH l).
Qed.
Lemma decode_char : forall n p q, bytes_of n p -> decode (p ++ q) = n :: decode q.
Proof.
  intros n p q B. destruct p as [ | a l]; [inversion B | ]. change ((a :: l) ++ q) with (a :: l ++ q). unfold decode at 1. cbn [decode_from].
  rewrite (bytes_first n (a :: l) a (l ++ q) q B eq_refl). cbn [length pred]. rewrite decode_skip.
  f_equal. f_equal. rewrite skipn_app, skipn_all, Nat.sub_diag. reflexivity.
Qed.
Lemma decode_byte : forall a r, (forall n p q, bytes_of n p -> a :: r <> p ++ q) -> decode (a :: r) = 56320 + code a :: decode r.
Proof.
  intros a r N. unfold decode at 1. cbn [decode_from]. destruct (first_char_cases a r) as [(n & p & q & B & E & _) | (-> & _)].
  - destruct (N n p q B E).
  - reflexivity.
Qed.
Theorem stands_decode : forall b l, stands_for b l <-> decode b = l.
Proof.
  intros b l. split.
  - induction 1 as [ | n p r l B S IH | a r l N S IH]; auto.
    + rewrite (decode_char _ _ _ B). now f_equal.
    + rewrite (decode_byte _ _ N). now f_equal.
  - intros <-. induction b as [b IH] using (induction_ltof1 _ (@length ascii)). unfold ltof in IH. destruct b as [ | a r]; [constructor | ].
    destruct (first_char_cases a r) as [(n & p & q & B & E & _) | (_ & N)].
    + rewrite E, (decode_char _ _ _ B). apply sf_char; auto. apply IH. rewrite E, app_length. destruct B; cbn; lia.
    + rewrite (decode_byte _ _ N). apply sf_byte; auto.
Qed.

(** ** Encoding *)
Lemma bytes_scalar : forall n p, bytes_of n p -> scalar n.
Proof. intros n p B. destruct B; auto; unfold scalar; lia. Qed.
Lemma bytes_encode : forall n p, bytes_of n p -> encode_char n = p.
Proof.
  intros n p B. pose proof (bytes_scalar _ _ B) as SC. unfold scalar in SC. unfold encode_char. destruct B.
  - apply N.ltb_lt in H as H'. rewrite H'. f_equal. unfold code. apply ascii_N_embedding.
  - replace (x * 64 + y <? 128) with false by (symmetry; apply N.ltb_ge; lia). replace (x * 64 + y <? 2048) with true by (symmetry; apply N.ltb_lt; lia).
    repeat f_equal; symmetry; apply byte_of; zify; Z.to_euclidean_division_equations; lia.
  - replace (x * 4096 + y * 64 + z <? 128) with false by (symmetry; apply N.ltb_ge; lia). replace (x * 4096 + y * 64 + z <? 2048) with false by (symmetry; apply N.ltb_ge; lia).
    replace (in_range 56448 56575 (x * 4096 + y * 64 + z)) with false by (symmetry; apply not_true_iff_false; rewrite in_range_iff; lia).
    replace (x * 4096 + y * 64 + z <? 65536) with true by (symmetry; apply N.ltb_lt; lia).
    repeat f_equal; symmetry; apply byte_of; zify; Z.to_euclidean_division_equations; lia.
  - set (n := x * 262144 + y * 4096 + z * 64 + w) in *.
    replace (n <? 128) with false by (symmetry; apply N.ltb_ge; lia). replace (n <? 2048) with false by (symmetry; apply N.ltb_ge; lia).
    replace (in_range 56448 56575 n) with false by (symmetry; apply not_true_iff_false; rewrite in_range_iff; lia).
    replace (n <? 65536) with false by (symmetry; apply N.ltb_ge; lia).
    assert (n / 262144 = x /\ n / 4096 mod 64 = y /\ n / 64 mod 64 = z /\ n mod 64 = w) as (-> & -> & -> & ->).
    { subst n. zify. Z.to_euclidean_division_equations. lia. }
    repeat f_equal; symmetry; apply byte_of; lia.
Qed.
Lemma encode_bytes : forall n, scalar n -> bytes_of n (encode_char n).
Proof.
  intros n SC. unfold scalar in SC. unfold encode_char. destruct (N.ltb_spec n 128) as [H | H].
  { replace n with (code (ascii_of_N n)) at 1 by (apply code_byte; lia). constructor. rewrite code_byte; lia. }
  destruct (N.ltb_spec n 2048) as [H2 | H2].
  { replace n with (n / 64 * 64 + n mod 64) at 1 by (zify; Z.to_euclidean_division_equations; lia).
    apply bo_two; try (apply code_byte); zify; Z.to_euclidean_division_equations; lia. }
  replace (in_range 56448 56575 n) with false by (symmetry; apply not_true_iff_false; rewrite in_range_iff; lia).
  destruct (N.ltb_spec n 65536) as [H3 | H3].
  { assert (E : n = n / 4096 * 4096 + n / 64 mod 64 * 64 + n mod 64) by (zify; Z.to_euclidean_division_equations; lia).
    rewrite E at 1. apply bo_three; try (apply code_byte); rewrite <- ?E; unfold scalar; zify; Z.to_euclidean_division_equations; lia. }
  assert (E : n = n / 262144 * 262144 + n / 4096 mod 64 * 4096 + n / 64 mod 64 * 64 + n mod 64) by (zify; Z.to_euclidean_division_equations; lia).
  rewrite E at 1. apply bo_four; try (apply code_byte); rewrite <- ?E; unfold scalar; zify; Z.to_euclidean_division_equations; lia.
Qed.
Lemma byte_encode : forall a, 128 <= code a -> encode_char (56320 + code a) = [a].
Proof.
  intros a H. pose proof (code_bound a) as B. unfold encode_char.
  replace (56320 + code a <? 128) with false by (symmetry; apply N.ltb_ge; lia). replace (56320 + code a <? 2048) with false by (symmetry; apply N.ltb_ge; lia).
  replace (in_range 56448 56575 (56320 + code a)) with true by (symmetry; apply in_range_iff; lia).
  f_equal. symmetry. apply byte_of; lia.
Qed.
Lemma not_char_high : forall a r, (forall n p q, bytes_of n p -> a :: r <> p ++ q) -> 128 <= code a.
Proof. intros a r N. destruct (N.ltb_spec (code a) 128); auto. destruct (N (code a) [a] r); auto. now constructor. Qed.
Theorem encode_decode : forall b, encode_chars (decode b) = b.
Proof.
  intros b. assert (S : stands_for b (decode b)) by now apply stands_decode. induction S as [ | n p r l B S IH | a r l N S IH]; auto.
  - unfold encode_chars in *. cbn [flat_map]. now rewrite IH, (bytes_encode _ _ B).
  - unfold encode_chars in *. cbn [flat_map]. rewrite IH, byte_encode; auto. eapply not_char_high; eauto.
Qed.
Lemma points_eqb_iff : forall a b, points_eqb a b = true <-> a = b.
Proof.
  induction a as [ | x a IH]; intros [ | y b]; cbn; try (split; congruence). rewrite andb_true_iff, N.eqb_eq, IH. split; [intros (-> & ->) | intros E; injection E]; auto.
Qed.
Theorem str_of_iff : forall l b, str_of l = Some b <-> stands_for b l.
Proof.
  intros l b. rewrite stands_decode. unfold str_of. cbv zeta. split.
  - destruct (points_eqb (decode (encode_chars l)) l) eqn:E; [ | discriminate]. intros X. injection X as <-. now apply points_eqb_iff.
  - intros <-. rewrite encode_decode. now rewrite (proj2 (points_eqb_iff _ _) eq_refl).
Qed.

(** ** ASCII *)
Lemma decode_ascii : forall c r, code c < 128 -> decode (c :: r) = code c :: decode r.
Proof. intros c r H. apply (decode_char (code c) [c] r). now constructor. Qed.
Lemma decode_all_ascii : forall l, (forall c, In c l -> code c < 128) -> decode l = map code l.
Proof.
  induction l as [ | c l IH]; intros H; auto. rewrite decode_ascii by (apply H; cbn; auto). cbn [map]. f_equal. apply IH. intros d D. apply H. cbn. auto.
Qed.
Lemma bytes_high : forall n p c, bytes_of n p -> In c (tl p) -> 128 <= code c.
Proof. intros n p c B I. destruct B; cbn in I; repeat destruct I as [I | I]; try contradiction; subst; lia. Qed.
(** Nothing straddles an ASCII character. *)
Theorem decode_split : forall a c r, code c < 128 -> decode (a ++ c :: r) = decode a ++ code c :: decode r.
Proof.
  intros a c r H. induction a as [a IH] using (induction_ltof1 _ (@length ascii)). unfold ltof in IH.
  destruct a as [ | x a]; [now apply decode_ascii | ].
  destruct (first_char_cases x a) as [(n & p & q & B & E & _) | (_ & N)].
  - rewrite E, <- app_assoc, !(decode_char _ _ _ B), IH; auto. rewrite E, app_length. destruct B; cbn; lia.
  - rewrite (decode_byte _ _ N). change ((x :: a) ++ c :: r) with (x :: a ++ c :: r). rewrite decode_byte, IH; auto.
    intros n p q B E. assert (L : (length p <= length (x :: a))%nat \/ In c (tl p)).
    { destruct (Nat.le_gt_cases (length p) (length (x :: a))) as [L | L]; auto. right.
      change (x :: a ++ c :: r) with ((x :: a) ++ c :: r) in E. apply (f_equal (firstn (length p))) in E.
      rewrite !firstn_app, (firstn_all p), Nat.sub_diag, app_nil_r, (firstn_all2 (x :: a)) in E by lia.
      rewrite <- E. cbn [app tl]. apply in_or_app. right. destruct (length p - length (x :: a))%nat eqn:Z; [lia | ]. cbn. auto. }
    destruct L as [L | I]; [ | pose proof (bytes_high _ _ _ B I); lia].
    change (x :: a ++ c :: r) with ((x :: a) ++ c :: r) in E. apply (f_equal (firstn (length p))) in E.
    rewrite !firstn_app, (firstn_all p), Nat.sub_diag, app_nil_r in E. replace (length p - length (x :: a))%nat with O in E by lia. cbn [firstn] in E.
    rewrite app_nil_r in E. apply (N n p (skipn (length p) (x :: a)) B). rewrite <- E at 1. symmetry. apply firstn_skipn.
Qed.

(** ** UTF-8 texts *)
Lemma surrogate_iff : forall n, surrogate n = true <-> 55296 <= n <= 57343.
Proof. intros n. apply in_range_iff. Qed.
Lemma decode_range : forall b n, In n (decode b) -> scalar n \/ (56448 <= n < 56576).
Proof.
  intros b n. assert (S : stands_for b (decode b)) by now apply stands_decode. induction S as [ | m p r l B S IH | a r l N S IH]; intros I; [destruct I | | ].
  - destruct I as [<- | I]; auto. left. eapply bytes_scalar; eauto.
  - destruct I as [<- | I]; auto. right. pose proof (not_char_high _ _ N). pose proof (code_bound a). lia.
Qed.
Theorem is_utf8_iff : forall b, is_utf8 b = true <-> utf8 b.
Proof.
  intros b. unfold is_utf8, utf8. rewrite forallb_forall. split.
  - intros H. exists (decode b). split; [ | now apply stands_decode]. apply Forall_forall. intros n I. destruct (decode_range b n I) as [ | R]; auto.
    specialize (H n I). apply negb_true_iff, not_true_iff_false in H. rewrite surrogate_iff in H. lia.
  - intros (l & F & S) n I. apply stands_decode in S. rewrite Forall_forall in F. rewrite S in I. specialize (F n I). apply negb_true_iff, not_true_iff_false.
    rewrite surrogate_iff. unfold scalar in F. lia.
Qed.

(** ** Classes *)
Lemma in_ranges_iff : forall n l, in_ranges n l = true <-> listed n l.
Proof.
  intros n l. unfold in_ranges, listed. rewrite existsb_exists. split.
  - intros ((a & b) & I & H). apply in_range_iff in H. exists a, b. auto.
  - intros (a & b & I & H). exists (a, b). split; auto. now apply in_range_iff.
Qed.
Definition far (z : N) : bool := forallb (fun y => ((y =? z) || (y + 9 <? z) || (z + 9 <? y))%bool) decimal_zeros.
Lemma zeros_far : forallb far decimal_zeros = true.
Proof. vm_compute. reflexivity. Qed.
Lemma zeros_apart : forall y z n, In y decimal_zeros -> In z decimal_zeros -> y <= n <= y + 9 -> z <= n <= z + 9 -> y = z.
Proof.
  intros y z n Y Z A B. pose proof zeros_far as F. rewrite forallb_forall in F. specialize (F z Z). unfold far in F. rewrite forallb_forall in F. specialize (F y Y).
  rewrite !orb_true_iff, N.eqb_eq, !N.ltb_lt in F. lia.
Qed.
Lemma decimal_of_iff : forall n d, decimal_of n = Some d <-> decimal n d.
Proof.
  intros n d. unfold decimal_of, decimal. destruct (find _ decimal_zeros) as [z | ] eqn:F.
  - apply find_some in F as (I & R). apply in_range_iff in R. split.
    + intros E. injection E as <-. exists z. repeat split; auto; lia.
    + intros (y & Y & -> & D). f_equal. assert (y = z) by (apply (zeros_apart y z (y + d)); auto; lia). subst. lia.
  - split; [discriminate | ]. intros (z & Z & -> & D). pose proof (find_none _ _ F z Z) as X. cbv beta in X. apply not_true_iff_false in X. rewrite in_range_iff in X. lia.
Qed.
(** No character is in two of the classes. *)
Definition disjoint (a b : list (N * N)) : bool := forallb (fun x => forallb (fun y => ((snd x <? fst y) || (snd y <? fst x))%bool) b) a.
Lemma disjoint_ok : forall a b n, disjoint a b = true -> listed n a -> listed n b -> False.
Proof.
  intros a b n D (x & y & I & H) (z & w & J & K). unfold disjoint in D. rewrite forallb_forall in D. specialize (D _ I). cbn beta in D. rewrite forallb_forall in D.
  specialize (D _ J). cbn [fst snd] in D. rewrite orb_true_iff, !N.ltb_lt in D. lia.
Qed.
Definition digit_ranges : list (N * N) := map (fun z => (z, z + 9)) decimal_zeros.
Lemma decimal_listed : forall n d, decimal n d -> listed n digit_ranges.
Proof. intros n d (z & Z & -> & D). exists z, (z + 9). split; [ | lia]. unfold digit_ranges. apply in_map_iff. exists z. auto. Qed.
Lemma space_word : disjoint space_ranges word_ranges = true. Proof. vm_compute. reflexivity. Qed.
Lemma space_digit : disjoint space_ranges digit_ranges = true. Proof. vm_compute. reflexivity. Qed.
Lemma digit_high : disjoint digit_ranges [(0, 127)] = true. Proof. vm_compute. reflexivity. Qed.
Lemma space_high : disjoint space_ranges [(0, 127)] = true. Proof. vm_compute. reflexivity. Qed.
(** decimal digits are word characters *)
Lemma digits_words : forallb (fun z => existsb (fun ab => ((fst ab <=? z) && (z + 9 <=? snd ab))%bool) word_ranges) decimal_zeros = true.
Proof. vm_compute. reflexivity. Qed.
Lemma decimal_word : forall n d, decimal n d -> listed n word_ranges.
Proof.
  intros n d (z & Z & -> & D). pose proof digits_words as F. rewrite forallb_forall in F. specialize (F z Z). apply existsb_exists in F as ((a & b) & I & H).
  cbn [fst snd] in H. rewrite andb_true_iff, !N.leb_le in H. exists a, b. split; auto. lia.
Qed.
Lemma listed_low : forall n, n < 128 -> listed n [(0, 127)].
Proof. intros n H. exists 0, 127. cbn. split; auto. lia. Qed.
Theorem fold_like : forall n c, like n c <-> fold_char n = c.
Proof.
  intros n c. unfold fold_char. split.
  - intros L. destruct L as [c H | n d c D C | n c S C | n c H W D C | n c H W S C].
    + apply N.ltb_lt in H as H'. rewrite H'. apply ascii_N_embedding.
    + destruct (N.ltb_spec n 128) as [H | H]; [destruct (disjoint_ok _ _ n digit_high (decimal_listed _ _ D) (listed_low n H)) | ].
      rewrite (proj2 (decimal_of_iff n d) D). symmetry. apply byte_of; auto. destruct D as (z & _ & _ & D). lia.
    + destruct (N.ltb_spec n 128) as [H | H]; [destruct (disjoint_ok _ _ n space_high S (listed_low n H)) | ].
      destruct (decimal_of n) as [d | ] eqn:D; [apply decimal_of_iff in D; destruct (disjoint_ok _ _ n space_digit S (decimal_listed _ _ D)) | ].
      rewrite (proj2 (in_ranges_iff n _) S). symmetry. apply byte_of; auto. lia.
    + replace (n <? 128) with false by (symmetry; apply N.ltb_ge; lia).
      destruct (decimal_of n) as [d | ] eqn:X; [apply decimal_of_iff in X; destruct (D _ X) | ].
      destruct (in_ranges n space_ranges) eqn:Y; [apply in_ranges_iff in Y; destruct (disjoint_ok _ _ n space_word Y W) | ].
      rewrite (proj2 (in_ranges_iff n _) W). symmetry. apply byte_of; auto. lia.
    + replace (n <? 128) with false by (symmetry; apply N.ltb_ge; lia).
      destruct (decimal_of n) as [d | ] eqn:X; [apply decimal_of_iff in X; destruct (W (decimal_word _ _ X)) | ].
      destruct (in_ranges n space_ranges) eqn:Y; [apply in_ranges_iff in Y; destruct (S Y) | ].
      destruct (in_ranges n word_ranges) eqn:Z; [apply in_ranges_iff in Z; destruct (W Z) | ]. symmetry. apply byte_of; auto. lia.
  - intros <-. destruct (N.ltb_spec n 128) as [H | H].
    { rewrite <- (code_byte n) at 1 by lia. constructor. rewrite code_byte; lia. }
    destruct (decimal_of n) as [d | ] eqn:X.
    { apply decimal_of_iff in X. apply lk_digit with d; auto. destruct X as (z & _ & _ & D). apply code_byte. lia. }
    destruct (in_ranges n space_ranges) eqn:Y.
    { apply in_ranges_iff in Y. apply lk_space; auto. }
    destruct (in_ranges n word_ranges) eqn:Z.
    { apply in_ranges_iff in Z. apply lk_word; auto. intros d D. apply decimal_of_iff in D. congruence. }
    apply lk_other; auto; intros L; apply in_ranges_iff in L; congruence.
Qed.
Theorem folded_iff : forall s l, reads_as s l <-> folded s = l.
Proof.
  intros s l. unfold reads_as, folded. split.
  - intros (ns & S & F). apply stands_decode in S. rewrite S. clear S. induction F as [ | n c ns l L F IH]; auto. cbn [map]. f_equal; auto. now apply fold_like.
  - intros <-. exists (decode (chars s)). split; [now apply stands_decode | ]. induction (decode (chars s)) as [ | n ns IH]; cbn [map]; constructor; auto. now apply fold_like.
Qed.
Theorem folded_ascii : forall s, (forall c, In c (chars s) -> code c < 128) -> folded s = chars s.
Proof.
  intros s H. unfold folded. rewrite decode_all_ascii; auto. rewrite map_map. rewrite <- (map_id (chars s)) at 2. apply map_ext_in. intros c I.
  unfold fold_char. rewrite (proj2 (N.ltb_lt _ _)) by now apply H. apply ascii_N_embedding.
Qed.
(** ASCII characters that are not digits stay, and no other character becomes one. *)
Lemma fold_kept : forall n c, code c < 128 -> ~ (48 <= code c <= 57) -> (fold_char n = c <-> n = code c).
Proof.
  intros n c L D. split.
  - intros E. apply fold_like in E. destruct E as [c H | n d c (z & _ & _ & X) C | n c S C | n c H W X C | n c H W S C]; auto; lia.
  - intros ->. apply fold_like. now constructor.
Qed.
Lemma folded_count : forall s c, code c < 128 -> ~ (48 <= code c <= 57) -> count_occ ascii_dec (folded s) c = count_occ ascii_dec (chars s) c.
Proof.
  intros s c L D. unfold folded. assert (S : stands_for (chars s) (decode (chars s))) by now apply stands_decode.
  induction S as [ | n p r l B S IH | a r l N S IH]; auto.
  - cbn [map count_occ]. rewrite count_occ_app, <- IH. destruct (ascii_dec (fold_char n) c) as [E | E].
    + apply fold_kept in E; auto. subst n. assert (p = [c]) as ->.
      { pose proof (bytes_encode _ _ B) as X. unfold encode_char in X. rewrite (proj2 (N.ltb_lt _ _) L) in X. rewrite <- X. unfold code. rewrite ascii_N_embedding. auto. }
      cbn [count_occ]. destruct (ascii_dec c c); [auto | congruence].
    + rewrite (proj1 (count_occ_not_In ascii_dec p c)); auto. intros I. apply E. apply fold_kept; auto.
      destruct p as [ | x q]; [destruct I | ]. destruct I as [-> | I]; [ | pose proof (bytes_high _ _ c B I); lia].
      inversion B; subst; auto; lia.
  - cbn [map count_occ]. pose proof (not_char_high _ _ N) as H. pose proof (code_bound a) as H2. rewrite IH. destruct (ascii_dec (fold_char (56320 + code a)) c) as [E | E].
    + apply fold_kept in E; auto. lia.
    + destruct (ascii_dec a c) as [-> | ]; auto. lia.
Qed.
