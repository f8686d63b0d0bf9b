(** A value has only one layout. *)
From Verif Require Import PyBase PyNum Unicode Json JsonText SpecUnicode SpecText UnicodeFacts SpecFloats FloatFacts TextFacts PyFacts VersionFacts SpecRepr ReprFacts WriteFacts StrFacts SpecLayout LayoutFacts.
From Coq Require Import SpecFloat.
Open Scope string_scope.
Open Scope list_scope.

Lemma hexit_low : forall c n, hexit c n -> ~ (65 <= code c <= 90)%N -> c = hex_digit n /\ (n < 16)%N.
Proof.
  intros c n H L. assert (E : forall k, (k < 256)%N -> code c = k -> c = ascii_of_N k) by (intros k Hk <-; unfold code; rewrite ascii_N_embedding; auto).
  destruct H as [c R | c R | c R]; [ | | lia]; (split; [ | lia]); unfold hex_digit.
  - destruct (N.ltb_spec (code c - 48) 10); [ | lia]. apply E; lia.
  - destruct (N.ltb_spec (code c - 87) 10); [lia | ]. apply E; lia.
Qed.
Lemma hex_escape_digits : forall a b c d, (a < 16 -> b < 16 -> c < 16 -> d < 16 ->
  hex_escape (a * 4096 + b * 256 + c * 16 + d) = ["\"%char; "u"%char; hex_digit a; hex_digit b; hex_digit c; hex_digit d])%N.
Proof.
  intros a b c d A B C D. unfold hex_escape.
  replace ((a * 4096 + b * 256 + c * 16 + d) / 4096)%N with a by (zify; Z.to_euclidean_division_equations; lia).
  replace ((a * 4096 + b * 256 + c * 16 + d) / 256 mod 16)%N with b by (zify; Z.to_euclidean_division_equations; lia).
  replace ((a * 4096 + b * 256 + c * 16 + d) / 16 mod 16)%N with c by (zify; Z.to_euclidean_division_equations; lia).
  replace ((a * 4096 + b * 256 + c * 16 + d) mod 16)%N with d by (zify; Z.to_euclidean_division_equations; lia). reflexivity.
Qed.
Lemma hex_text_low : forall t n, hex_text t n -> lower_case t -> t = hex_escape n /\ (n < 65536)%N.
Proof.
  intros t n H L. destruct H as [a b c d na nb nc nd A B C D].
  destruct (hexit_low a na A) as [-> ?]; [apply L; cbn; auto | ]. destruct (hexit_low b nb B) as [-> ?]; [apply L; cbn; auto | ].
  destruct (hexit_low c nc C) as [-> ?]; [apply L; cbn; auto 6 | ]. destruct (hexit_low d nd D) as [-> ?]; [apply L; cbn; auto 8 | ].
  split; [symmetry; apply hex_escape_digits; auto | lia].
Qed.
Lemma escape_long : forall n, ~ printable n -> ~ has_short n ->
  escape n = if N.ltb n 65536 then hex_escape n else (hex_escape (55296 + (n - 65536) / 1024) ++ hex_escape (56320 + (n - 65536) mod 1024))%N.
Proof.
  intros n P S. assert (V : ~ In n [92; 34; 8; 12; 10; 13; 9]%N).
  { intros I. apply S. cbn in I. unfold has_short, short_escapes. destruct I as [<- | [<- | [<- | [<- | [<- | [<- | [<- | []]]]]]]].
    - exists "\"%char, "\"%char. cbn. tauto.
    - exists """"%char, """"%char. cbn. tauto.
    - exists "b"%char, "008"%char. cbn. tauto.
    - exists "f"%char, "012"%char. cbn. tauto.
    - exists "n"%char, "010"%char. cbn. tauto.
    - exists "r"%char, "013"%char. cbn. tauto.
    - exists "t"%char, "009"%char. cbn. tauto. }
  unfold escape. repeat match goal with |- (if N.eqb n ?y then _ else _) = _ => destruct (N.eqb_spec n y) as [E | _]; [destruct V; subst; cbn; tauto | ] end.
  destruct (in_range 32 126 n) eqn:E; [destruct P; apply in_range_iff in E; exact E | ]. reflexivity.
Qed.
Lemma char_written_one : forall n t, char_written n t -> t = escape n.
Proof.
  intros n t H. destruct H as [c P S | e c I | n t P S X L | t u x y X Y A B L].
  - assert (V : ~ In (code c) [92; 34; 8; 12; 10; 13; 9]%N).
    { intros I. apply S. unfold has_short, short_escapes. unfold printable in P. remember (code c) as k. cbn in I. destruct I as [I | [I | I]]; [ | | lia].
      - exists "\"%char, "\"%char. cbn. split; [tauto | auto].
      - exists """"%char, """"%char. cbn. split; [tauto | auto]. }
    unfold escape. repeat match goal with |- _ = (if N.eqb ?z ?y then _ else _) => destruct (N.eqb_spec z y) as [E | _]; [destruct V; rewrite E; cbn; tauto | ] end.
    destruct (in_range 32 126 (code c)) eqn:E; [unfold code; rewrite ascii_N_embedding; auto | ].
    exfalso. assert (X : in_range 32 126 (code c) = true) by (apply in_range_iff; exact P). congruence.
  - cbn in I. repeat (destruct I as [I | I]; [injection I as <- <-; reflexivity | ]). contradiction.
  - destruct (hex_text_low t n X L) as [-> R]. rewrite escape_long by auto. destruct (N.ltb_spec n 65536); [auto | lia].
  - assert (L1 : lower_case t) by (intros c I; apply L, in_or_app; auto). assert (L2 : lower_case u) by (intros c I; apply L, in_or_app; auto).
    destruct (hex_text_low _ _ X L1) as [-> _]. destruct (hex_text_low _ _ Y L2) as [-> _]. rewrite escape_long.
    + destruct (N.ltb_spec (65536 + x * 1024 + y) 65536); [lia | ]. f_equal; f_equal; f_equal; zify; Z.to_euclidean_division_equations; lia.
    + unfold printable. lia.
    + intros S. apply short_values in S. remember (65536 + x * 1024 + y)%N as m. assert (65536 <= m)%N by lia. clear Heqm. cbn in S. intuition lia.
Qed.
Lemma string_written_one : forall s t, string_written s t -> t = encode_string s.
Proof.
  intros s t (ns & parts & S & F & ->). apply stands_decode in S. subst ns. unfold encode_string. f_equal. f_equal.
  induction F as [ | n p ns ps H F IH]; [reflexivity | ]. cbn [concat flat_map]. rewrite IH, (char_written_one n p H). reflexivity.
Qed.
Lemma token_one : forall v t, json_value v -> token v t -> lines v = [alone t].
Proof.
  intros v t J H. destruct H as [v t C | s t S | z t P I E | z t P I E | f t F W | | ]; try reflexivity.
  - destruct C; reflexivity.
  - cbn [lines encode]. rewrite (string_written_one s t S). reflexivity.
  - cbn [lines encode]. f_equal. f_equal. destruct z as [ | p | p]; [ | | lia]; cbn [dec_Z].
    + apply (int_digits_inj (chars (dec 0))); [apply (dec_no_zero 0) | auto | rewrite (decimal_dec 0); lia].
    + apply (int_digits_inj (chars (dec (Npos p)))); [apply (dec_no_zero (Npos p)) | auto | rewrite (decimal_dec (Npos p)); lia].
  - cbn [lines encode]. f_equal. f_equal. destruct z as [ | p | p]; [lia | lia | ]. cbn [dec_Z chars list_ascii_of_string]. f_equal.
    apply (int_digits_inj (chars (dec (Npos p)))); [apply (dec_no_zero (Npos p)) | auto | rewrite (decimal_dec (Npos p)); lia].
  - cbn [lines encode]. f_equal. f_equal. inversion J; subst. apply repr_written in W; auto. destruct f; try destruct F; exact W.
Qed.
Lemma with_comma_one : forall b b', with_comma b b' -> b' = commaed b.
Proof.
  intros b b' H. destruct H as [b n t]. induction b as [ | x b IH]; [reflexivity | ]. cbn [app commaed]. rewrite IH. destruct b; reflexivity.
Qed.
Lemma with_key_one : forall k b b', with_key k b b' -> b' = keyed k b.
Proof. intros k b b' H. destruct H as [k kt t c b S]. cbn [keyed l_text l_comma]. rewrite (string_written_one _ _ S). reflexivity. Qed.
Lemma in_sequence_one : forall bs ls, in_sequence bs ls -> ls = sequence bs.
Proof.
  intros bs ls H. induction H as [b | b b' bs ls C H IH]; [reflexivity | ]. rewrite (with_comma_one _ _ C). destruct bs as [ | c bs]; [inversion H | ].
  change (sequence (b :: c :: bs)) with (commaed b ++ sequence (c :: bs)). congruence.
Qed.
Theorem lines_one : forall v ls, json_value v -> lines_of v ls -> ls = lines v.
Proof.
  induction v as [ | b | z | f | s | l IH | d IH] using val_ind'; intros ls J H; inversion H as [v t T | l' bs ls' N E Q | d' bs ls' N E Q]; subst;
    try (symmetry; apply token_one; assumption).
  - apply in_sequence_one in Q. subst ls'. destruct l as [ | x l]; [congruence | ]. cbn [lines]. f_equal. f_equal. f_equal. f_equal.
    inversion J as [ | | | | | l' F | ]; subst. clear N H J. revert IH F E. generalize (x :: l). clear. intros l IH F E. revert bs E. induction IH as [ | v l Hv IH Hl]; intros bs E; inversion E as [ | v' l' b bs' Eb El]; subst; [reflexivity | ].
    inversion F; subst. cbn [map]. f_equal; auto.
  - apply in_sequence_one in Q. subst ls'. destruct d as [ | x d]; [congruence | ]. cbn [lines]. f_equal. f_equal. f_equal. f_equal.
    inversion J as [ | | | | | | d' Nd F]; subst. clear N H J Nd. revert IH F E. generalize (x :: d). clear. intros l IH F E. revert bs E. induction IH as [ | [k v] l Hv IH Hl]; intros bs E; inversion E as [ | k' v' l' b b' bs' Eb Ek El]; subst; [reflexivity | ].
    cbn [map fst snd] in *. f_equal.
    + rewrite <- (Hv b (F k v (or_introl eq_refl)) Eb). apply with_key_one. exact Ek.
    + apply Hl; auto. intros k' v' I. apply (F k' v'). right. auto.
Qed.
(** The text of a value is determined by the layout. *)
Theorem layout_exact : forall n v t, json_value v -> (json_dumps (Some n) v = t <-> exists ls, lines_of v ls /\ t = joined_lines n ls).
Proof.
  intros n v t J. destruct (dumps_lines n v J) as (ls & L & E). split; [intros <-; eauto | ]. intros (ls' & L' & ->). rewrite (lines_one _ _ J L'), <- (lines_one _ _ J L). exact E.
Qed.
Theorem layout_one_line : forall v t, json_value v -> (json_dumps None v = t <-> exists ls, lines_of v ls /\ t = one_line ls).
Proof.
  intros v t J. destruct (dumps_one_line v J) as (ls & L & E). split; [intros <-; eauto | ]. intros (ls' & L' & ->). rewrite (lines_one _ _ J L'), <- (lines_one _ _ J L). exact E.
Qed.
Theorem layout_one : forall v ls ls', json_value v -> lines_of v ls -> lines_of v ls' -> ls = ls'.
Proof. intros v ls ls' J L L'. rewrite (lines_one _ _ J L), (lines_one _ _ J L'). reflexivity. Qed.
