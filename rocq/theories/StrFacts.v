(** Proofs about repr() and str(). *)
From Verif Require Import PyBase PyFacts PyNum UnicodeTables Unicode Json SpecUnicode UnicodeFacts SpecText SpecFloats FloatFacts VersionFacts TextFacts Repr SpecRepr ReprFacts.
From Coq Require Import SpecFloat.
Open Scope string_scope.

(** ** Ints.  Digits without leading zeros are determined by their value. *)
Lemma decimal_last : forall l c, decimal_value (l ++ [c])%list = (10 * decimal_value l + (code c - 48))%N.
Proof. intros l c. unfold decimal_value. rewrite fold_left_app. reflexivity. Qed.
Definition no_lead (l : list ascii) : Prop := match l with [] => True | c :: _ => c <> "0"%char end.
Lemma digit_eq : forall c d, digit c -> digit d -> (code c - 48 = code d - 48)%N -> c = d.
Proof.
  unfold digit. intros c d Hc Hd E. assert (X : code c = code d) by lia. unfold code in X. rewrite <- (ascii_N_embedding c), <- (ascii_N_embedding d), X. reflexivity.
Qed.
Lemma lead_pos : forall l, Forall digit l -> no_lead l -> l <> [] -> (0 < decimal_value l)%N.
Proof.
  intros l. induction l as [ | c l IH] using rev_ind; intros F N E; [congruence | ]. apply Forall_app in F as [F1 F2]. rewrite decimal_last.
  destruct l as [ | d l].
  - cbn in N. apply Forall_cons_iff in F2 as [F2 _]. destruct (N.eq_dec (code c - 48) 0) as [Z | Z]; [ | lia]. exfalso. apply N. apply digit_eq; auto; split; vm_compute; discriminate.
  - specialize (IH F1 N ltac:(discriminate)). lia.
Qed.
Lemma decimal_inj : forall l l', Forall digit l -> Forall digit l' -> no_lead l -> no_lead l' -> decimal_value l = decimal_value l' -> l = l'.
Proof.
  intros l. induction l as [ | c l IH] using rev_ind; intros l' F F' N N' E.
  - destruct l' as [ | d l']; auto. assert (X := lead_pos _ F' N' ltac:(discriminate)). rewrite <- E in X. vm_compute in X. discriminate.
  - destruct l' as [ | d l' _] using rev_ind.
    + assert (Y : (l ++ [c])%list <> []) by (intros Y; apply app_eq_nil in Y as [_ Y]; discriminate). assert (X := lead_pos _ F N Y). rewrite E in X. vm_compute in X. discriminate.
    + apply Forall_app in F as [F1 F2]. apply Forall_app in F' as [F1' F2']. apply Forall_cons_iff in F2 as [F2 _]. apply Forall_cons_iff in F2' as [F2' _].
      rewrite !decimal_last in E. assert (D : digit c) by auto. assert (D' : digit d) by auto. unfold digit in D, D'.
      assert (E1 : (code c - 48 = code d - 48)%N) by lia. assert (E2 : decimal_value l = decimal_value l') by lia.
      assert (X : c = d) by (apply digit_eq; auto). subst d. f_equal. apply IH; auto.
      * destruct l; auto; exact I.
      * destruct l'; auto; exact I.
Qed.
Lemma int_digits_inj : forall i j, int_digits i -> int_digits j -> decimal_value i = decimal_value j -> i = j.
Proof.
  assert (P : forall c l, digit c -> c <> "0"%char -> Forall digit l -> (0 < decimal_value (c :: l))%N).
  { intros c l D N F. apply lead_pos; [constructor; auto | exact N | discriminate]. }
  intros i j Hi Hj E. destruct Hi as [ | c l D N F], Hj as [ | c' l' D' N' F']; auto.
  - specialize (P c' l' D' N' F'). rewrite <- E in P. vm_compute in P. discriminate.
  - specialize (P c l D N F). rewrite E in P. vm_compute in P. discriminate.
  - apply decimal_inj; auto.
Qed.
Lemma int_digits_zero : forall i, int_digits i -> decimal_value i = 0%N -> i = ["0"%char].
Proof. intros i H E. apply int_digits_inj; auto; constructor. Qed.
Lemma int_text_unique : forall s s' z, number_text (chars s) (VInt z) -> number_text (chars s') (VInt z) -> s <> "-0" -> s' <> "-0" -> s = s'.
Proof.
  assert (Sh : forall s z, number_text (chars s) (VInt z) -> s <> "-0" -> exists i, int_digits i /\
    (chars s = i /\ z = Z.of_N (decimal_value i) \/ chars s = ("-"%char :: i) /\ z = (- Z.of_N (decimal_value i))%Z /\ (0 < decimal_value i)%N)).
  { intros s z H N. inversion H as [t v U E1 E2 | t v U E1 E2]; subst; inversion U; subst; (match goal with D : int_digits ?i |- _ => exists i; split; auto end).
    right. repeat split; auto. destruct (N.eq_dec (decimal_value t) 0) as [Z | Z]; [ | lia]. exfalso. apply N.
    apply int_digits_zero in Z; auto. subst t. apply chars_inj. rewrite <- E1. reflexivity. }
  intros s s' z H H' N N'. destruct (Sh _ _ H N) as (i & Hi & Di). destruct (Sh _ _ H' N') as (j & Hj & Dj). apply chars_inj.
  destruct Di as [(-> & Ei) | (-> & Ei & Pi)], Dj as [(-> & Ej) | (-> & Ej & Pj)]; try lia; f_equal; apply int_digits_inj; auto; lia.
Qed.
Lemma dec_Z_plain : forall z, dec_Z z <> "-0".
Proof.
  intros z E. destruct z as [ | p | p]; cbn [dec_Z] in E; [vm_compute in E; discriminate | | ].
  - assert (D := dec_forall_digit (Npos p)). change (Z.to_N (Zpos p)) with (Npos p) in E. rewrite E in D. inversion D. discriminate.
  - injection E as E. change "0" with (dec 0) in E. apply dec_inj in E. discriminate.
Qed.

(** ** Strings *)
Open Scope list_scope.
Lemma hex_of_one : forall c d n, hex_of c n -> hex_of d n -> c = d.
Proof. unfold hex_of. intros c d n H K. assert (X : code c = code d) by lia. unfold code in X. rewrite <- (ascii_N_embedding c), <- (ascii_N_embedding d), X. reflexivity. Qed.
Lemma hex_bound : forall c n, hex_of c n -> (n < 16)%N.
Proof. unfold hex_of. intros. lia. Qed.
Lemma small_hex_ok : forall n, (n < 16)%N -> hex_of (small_hex n) n.
Proof. intros n H. unfold hex_of, small_hex. destruct (N.ltb_spec n 10); rewrite code_byte by lia; lia. Qed.
Lemma hex_digits_ok : forall k n, (n < 16 ^ N.of_nat k)%N -> hex_number (hex_digits k n) n /\ length (hex_digits k n) = k.
Proof.
  induction k as [ | k IH]; intros n H; cbn [hex_digits].
  - cbn in H. assert (n = 0%N) by lia. subst n. split; constructor.
  - rewrite Nat2N.inj_succ, N.pow_succ_r' in H. assert (L : (n / 16 < 16 ^ N.of_nat k)%N) by (apply N.div_lt_upper_bound; lia). destruct (IH _ L) as [E F]. split.
    + assert (M : (n mod 16 < 16)%N) by (apply N.mod_lt; lia). pose proof (hn_digit _ _ _ _ E (small_hex_ok _ M)) as G.
      replace (n / 16 * 16 + n mod 16)%N with n in G by (pose proof (N.div_mod n 16 ltac:(lia)); lia). exact G.
    + rewrite app_length, F. cbn. lia.
Qed.
Lemma hex_number_one : forall t n u, hex_number t n -> hex_number u n -> length t = length u -> t = u.
Proof.
  intros t n u H. revert u. induction H as [ | t n c d H IH D]; intros u K L.
  - destruct u; [auto | discriminate].
  - remember (n * 16 + d)%N as m eqn:Em. destruct K as [ | u n' c' d' K D']; [rewrite app_length in L; cbn in L; lia | ]. rewrite !app_length in L. cbn in L.
    pose proof (hex_bound _ _ D). pose proof (hex_bound _ _ D'). assert (n' = n /\ d' = d) as [-> ->] by lia. rewrite (hex_of_one _ _ _ D D'). f_equal. apply IH; auto. lia.
Qed.
Lemma hidden_high : forall n, listed n hidden_ranges -> (128 <= n)%N.
Proof.
  assert (T : forallb (fun ab => (128 <=? fst ab)%N) hidden_ranges = true) by (vm_compute; reflexivity).
  intros n (a & b & I & H). rewrite forallb_forall in T. apply T in I. cbn [fst] in I. apply N.leb_le in I. lia.
Qed.
Lemma hidden_surrogate : forall n, (55296 <= n < 57344)%N -> listed n hidden_ranges.
Proof.
  assert (T : existsb (fun ab => (fst ab <=? 55296) && (57343 <=? snd ab))%N%bool hidden_ranges = true) by (vm_compute; reflexivity).
  intros n H. apply existsb_exists in T as ([a b] & I & E). cbn [fst snd] in E. apply andb_true_iff in E as [E1 E2]. apply N.leb_le in E1, E2. exists a, b. split; auto. lia.
Qed.
Lemma hidden_max : forall n, (1114112 <= n)%N -> ~ listed n hidden_ranges.
Proof.
  assert (T : forallb (fun ab => (snd ab <? 1114112)%N) hidden_ranges = true) by (vm_compute; reflexivity).
  intros n H (a & b & I & K). rewrite forallb_forall in T. apply T in I. cbn [snd] in I. apply N.ltb_lt in I. lia.
Qed.
Definition a_quote (q : ascii) : Prop := q = "'"%char \/ q = """"%char.
Lemma code_quote : forall q, a_quote q -> (33 < code q < 40)%N.
Proof. intros q [-> | ->]; split; reflexivity. Qed.
Lemma has_name_iff : forall n, has_name n <-> (n = 9 \/ n = 10 \/ n = 13)%N.
Proof.
  intros n. split.
  - intros (e & c & I & ->). cbn in I. destruct I as [I | [I | [I | []]]]; injection I as <- <-; auto.
  - intros [-> | [-> | ->]]; [exists "t"%char, "009"%char | exists "n"%char, "010"%char | exists "r"%char, "013"%char]; cbn; auto 6.
Qed.
(** Every character is shown in one way. *)
Lemma char_shown_ok : forall q n, a_quote q -> (scalar n \/ 56448 <= n < 56576)%N -> char_shown q n (repr_char (code q) n).
Proof.
  intros q n Q R. pose proof (code_quote q Q) as Hq. unfold repr_char.
  destruct (N.eqb_spec n (code q)) as [-> | N1]. { cbn [orb]. replace (ascii_of_N (code q)) with q by (symmetry; apply ascii_N_embedding). constructor. }
  destruct (N.eqb_spec n 92) as [-> | N2]; cbn [orb]; [apply cs_backslash | ].
  destruct (N.eqb_spec n 9) as [-> | N3]; [apply (cs_named q "t" "009"); cbn; auto | ].
  destruct (N.eqb_spec n 10) as [-> | N4]; [apply (cs_named q "n" "010"); cbn; auto | ].
  destruct (N.eqb_spec n 13) as [-> | N5]; [apply (cs_named q "r" "013"); cbn; auto | ].
  assert (NN : ~ has_name n) by (rewrite has_name_iff; lia).
  destruct (N.ltb_spec n 32) as [L | L]; cbn [orb]. { destruct (hex_digits_ok 2 n) as [H1 H2]; [change (16 ^ N.of_nat 2)%N with 256%N; lia | ]. apply cs_two; auto; [left; auto | lia]. }
  destruct (N.eqb_spec n 127) as [-> | N6]. { destruct (hex_digits_ok 2 127) as [H1 H2]; [reflexivity | ]. apply cs_two; auto; [right; left; auto | lia]. }
  destruct (N.ltb_spec n 127) as [L2 | L2].
  { replace [ascii_of_N n] with (encode_char n) by (unfold encode_char; rewrite (proj2 (N.ltb_lt n 128)) by lia; auto). apply cs_plain; auto.
    - intros [H | [H | H]]; try lia. apply hidden_high in H. lia.
    - apply encode_bytes. left. lia. }
  destruct (in_ranges n hidden_ranges) eqn:E.
  - apply in_ranges_iff in E. assert (Hn : hidden n) by (right; right; auto). destruct (N.ltb_spec n 256); [ | destruct (N.ltb_spec n 65536)].
    + destruct (hex_digits_ok 2 n) as [H1 H2]; [change (16 ^ N.of_nat 2)%N with 256%N; lia | ]. apply cs_two; auto.
    + destruct (hex_digits_ok 4 n) as [H1 H2]; [change (16 ^ N.of_nat 4)%N with 65536%N; lia | ]. apply cs_four; auto.
    + destruct (hex_digits_ok 8 n) as [H1 H2]; [change (16 ^ N.of_nat 8)%N with 4294967296%N; destruct (N.lt_ge_cases n 1114112) as [|G]; [lia | destruct (hidden_max n G E)] | ]. apply cs_eight; auto.
  - assert (Hn : ~ listed n hidden_ranges) by (intros H; apply in_ranges_iff in H; congruence). apply cs_plain; auto.
    + intros [H | [H | H]]; try lia. auto.
    + apply encode_bytes. destruct R as [R | R]; auto. destruct Hn. apply hidden_surrogate. lia.
Qed.
Lemma char_shown_one : forall q n t u, a_quote q -> char_shown q n t -> char_shown q n u -> t = u.
Proof.
  intros q n t u Q H K. pose proof (code_quote q Q) as Hq.
  assert (Hid : forall n, hidden n -> n <> code q /\ n <> 92%N). { intros m [X | [X | X]]; try (apply hidden_high in X); lia. }
  assert (Nh : forall e c, In (e, c) named_escapes -> hidden (code c) /\ (code c < 256)%N /\ has_name (code c)).
  { intros e c I. assert (B : has_name (code c)) by (exists e, c; auto). split; [ | split; auto]; apply has_name_iff in B; [left; lia | lia]. }
  assert (No : forall e c e' c', In (e, c) named_escapes -> In (e', c') named_escapes -> code c = code c' -> e = e').
  { intros e c e' c' I I' E. cbn in I, I'. destruct I as [I | [I | [I | []]]], I' as [I' | [I' | [I' | []]]]; injection I as <- <-; injection I' as <- <-; auto; discriminate. }
  change (code "\") with 92%N in *.
  destruct H as [ | | e c I | n t A B C D F | n t A C D F | n t A C D F | n p A B C D].
  - remember (code q) as n eqn:En. destruct K as [ | | e c I | n t A B C D F | n t A C D F | n t A C D F | n p A B C D]; auto; exfalso; try (apply Hid in A; lia); try lia.
    + change (code "\") with 92%N in *. lia.
    + destruct (Nh _ _ I) as (X & _). apply Hid in X. lia.
  - change (code "\") with 92%N in K. remember 92%N as m eqn:En. destruct K as [ | | e c I | n t A B C D F | n t A C D F | n t A C D F | n p A B C D]; auto; exfalso; try (apply Hid in A; lia); try lia; try (change (code "\") with 92%N in *; lia).
    destruct (Nh _ _ I) as (X & _). apply Hid in X. lia.
  - destruct (Nh _ _ I) as (X1 & X2 & X3). pose proof (Hid _ X1) as X4. remember (code c) as n eqn:En.
    destruct K as [ | | e' c' I' | n t A B C D F | n t A C D F | n t A C D F | n p A B C D]; try (exfalso; tauto); try (exfalso; change (code "\") with 92%N in *; lia); try lia.
    f_equal. f_equal. eapply No; eauto.
  - pose proof (Hid _ A) as X4. destruct K as [ | | e' c' I' | n u A' B' C' D' F' | n u A' C' D' F' | n u A' C' D' F' | n p A' B' C' D']; try (exfalso; tauto); try (exfalso; change (code "\") with 92%N in *; lia); try lia.
    + destruct (Nh _ _ I') as (_ & _ & X). contradiction.
    + do 2 f_equal. eapply hex_number_one; eauto. congruence.
  - pose proof (Hid _ A) as X4. destruct K as [ | | e' c' I' | n u A' B' C' D' F' | n u A' C' D' F' | n u A' C' D' F' | n p A' B' C' D']; try (exfalso; tauto); try (exfalso; change (code "\") with 92%N in *; lia); try lia.
    + destruct (Nh _ _ I') as (_ & X & _). lia.
    + do 2 f_equal. eapply hex_number_one; eauto. congruence.
  - pose proof (Hid _ A) as X4. destruct K as [ | | e' c' I' | n u A' B' C' D' F' | n u A' C' D' F' | n u A' C' D' F' | n p A' B' C' D']; try (exfalso; tauto); try (exfalso; change (code "\") with 92%N in *; lia); try lia.
    + destruct (Nh _ _ I') as (_ & X & _). lia.
    + do 2 f_equal. eapply hex_number_one; eauto. congruence.
  - destruct K as [ | | e' c' I' | n u A' B' C' D' F' | n u A' C' D' F' | n u A' C' D' F' | n p' A' B' C' D']; try (exfalso; tauto); try (exfalso; change (code "\") with 92%N in *; lia).
    + destruct (Nh _ _ I') as (X & _). contradiction.
    + rewrite <- (bytes_encode _ _ D), <- (bytes_encode _ _ D'). auto.
Qed.
Lemma existsb_in : forall n l, existsb (N.eqb n) l = true <-> In n l.
Proof. intros n l. rewrite existsb_exists. split; [intros (x & I & E); apply N.eqb_eq in E; subst; auto | intros I; exists n; split; auto; apply N.eqb_refl]. Qed.
Lemma shown_parts : forall q ns parts, a_quote q -> Forall (fun n => scalar n \/ 56448 <= n < 56576)%N ns -> (Forall2 (char_shown q) ns parts <-> parts = map (repr_char (code q)) ns).
Proof.
  intros q ns parts Q. revert parts. induction ns as [ | n ns IH]; intros parts F; (split; [intros H; inversion H; subst | intros ->]); cbn [map]; auto; inversion F; subst.
  - f_equal; [eapply char_shown_one; eauto; apply char_shown_ok; auto | apply IH; auto].
  - constructor; [apply char_shown_ok; auto | apply IH; auto].
Qed.
Theorem repr_string_quoted : forall s t, repr_string s = t <-> quoted s t.
Proof.
  intros s t. assert (F : Forall (fun n => scalar n \/ 56448 <= n < 56576)%N (decode (chars s))) by (apply Forall_forall; intros n; apply decode_range).
  assert (Sf : stands_for (chars s) (decode (chars s))) by (apply stands_decode; auto). unfold repr_string. cbv zeta. rewrite flat_map_concat_map.
  change 39%N with (code "'"). change 34%N with (code """"). split.
  - intros <-. destruct (existsb (N.eqb (code "'")) (decode (chars s)) && negb (existsb (N.eqb (code """")) (decode (chars s)))) eqn:E.
    + apply andb_true_iff in E as [E1 E2]. apply existsb_in in E1. apply negb_true_iff in E2. change (ascii_of_N (code """")) with """"%char.
      eapply qu_double; eauto; [rewrite <- existsb_in; congruence | ]. apply shown_parts; auto. right. auto.
    + change (ascii_of_N (code "'")) with "'"%char. eapply qu_single; eauto; [ | apply shown_parts; auto; left; auto].
      rewrite <- !existsb_in. destruct (existsb _ _), (existsb _ _); auto; discriminate.
  - intros H. destruct H as [s ns parts H A B | s ns parts H A A' B]; apply stands_decode in H; subst ns.
    + apply shown_parts in B; [ | left; auto | auto]. subst parts.
      replace (existsb (N.eqb (code "'")) (decode (chars s)) && negb (existsb (N.eqb (code """")) (decode (chars s)))) with false; [reflexivity | ].
      symmetry. rewrite <- !existsb_in in A. destruct (existsb _ _), (existsb _ _); auto; destruct A; congruence.
    + apply shown_parts in B; [ | right; auto | auto]. subst parts.
      replace (existsb (N.eqb (code "'")) (decode (chars s)) && negb (existsb (N.eqb (code """")) (decode (chars s)))) with true; [reflexivity | ].
      symmetry. rewrite <- existsb_in in A, A'. rewrite A. destruct (existsb _ _); auto; congruence.
Qed.

(** ** Values *)
Lemma separated_cons : forall t ts, separated (t :: ts) = t ++ flat_map (fun u => ","%char :: " "%char :: u) ts.
Proof. intros t ts. revert t. induction ts as [ | u ts IH]; intros t; cbn [separated flat_map]; [rewrite app_nil_r; auto | ]. cbn [separated] in IH. rewrite IH. auto. Qed.
Lemma flat_map_map' : forall A B C (f : A -> B) (g : B -> list C) l, flat_map g (map f l) = flat_map (fun x => g (f x)) l.
Proof. intros. induction l; cbn; congruence. Qed.
Lemma py_repr_list : forall l, py_repr (VList l) = "["%char :: separated (map py_repr l) ++ ["]"%char].
Proof. intros [ | x l]; auto. cbn [py_repr map]. rewrite separated_cons, flat_map_map', <- app_assoc. reflexivity. Qed.
Definition pair_repr (kv : string * val) : list ascii := repr_string (fst kv) ++ ":"%char :: " "%char :: py_repr (snd kv).
Lemma py_repr_dict : forall d, py_repr (VDict d) = "{"%char :: separated (map pair_repr d) ++ ["}"%char].
Proof.
  intros [ | [k x] d]; auto. cbn [py_repr map]. rewrite separated_cons, flat_map_map'. unfold pair_repr at 1. cbn [fst snd]. rewrite <- !app_assoc. reflexivity.
Qed.
Theorem repr_shown : forall v, json_value v -> forall t, py_repr v = t <-> shown v t.
Proof.
  induction v as [ | b | z | f | s | l IH | d IH] using val_ind'; intros J t.
  - split; [intros <-; constructor | intros H; inversion H; auto].
  - destruct b; (split; [intros <-; constructor | intros H; inversion H; auto]).
  - cbn [py_repr]. split.
    + intros <-. constructor; [apply dec_Z_ok | ]. intros E. apply chars_inj in E. exact (dec_Z_plain z E).
    + intros H. inversion H as [ | | | z' t' H1 H2 | | | | ]; subst. f_equal. rewrite <- (chars_unchars t) in H1, H2 |- *. f_equal. eapply int_text_unique; eauto; [apply dec_Z_ok | apply dec_Z_plain | congruence].
  - inversion J. cbn [py_repr]. rewrite repr_written by auto. split; [constructor; auto | intros H1; inversion H1; auto].
  - cbn [py_repr]. rewrite repr_string_quoted. split; [constructor; auto | intros H1; inversion H1; auto].
  - rewrite py_repr_list. assert (K : forall ts, each_shown l ts <-> ts = map py_repr l).
    { inversion J as [ | | | | | l' F | ]; subst. clear J. induction l as [ | x l IHl]; intros ts.
      - split; [intros H; inversion H; auto | intros ->; constructor].
      - apply Forall_cons_iff in IH as [IHx IH]. apply Forall_cons_iff in F as [Fx F]. split.
        + intros H. inversion H; subst. cbn [map]. f_equal; [symmetry; apply IHx; auto | apply IHl; auto].
        + intros ->. constructor; [apply IHx; auto | apply IHl; auto]. }
    split; [intros <-; constructor; apply K; auto | intros H; inversion H; subst]. f_equal. f_equal. f_equal. symmetry. apply K. auto.
  - rewrite py_repr_dict. assert (K : forall ts, each_pair_shown d ts <-> ts = map pair_repr d).
    { inversion J as [ | | | | | | d' N F]; subst. clear J N. induction d as [ | [k x] d IHd]; intros ts.
      - split; [intros H; inversion H; auto | intros ->; constructor].
      - apply Forall_cons_iff in IH as [IHx IH]. cbn [snd] in IHx. assert (Fx : json_value x) by (eapply F; left; eauto).
        assert (Fd : forall k' v, In (k', v) d -> json_value v) by (intros; eapply F; right; eauto). split.
        + intros H. inversion H as [ | k' v' d' t' u' ts' Q U R]; subst. cbn [map]. f_equal; [ | apply IHd; auto].
          unfold pair_repr. cbn [fst snd]. apply repr_string_quoted in Q. apply IHx in U; auto. subst. reflexivity.
        + intros ->. cbn [map]. unfold pair_repr at 1. cbn [fst snd]. constructor; [apply repr_string_quoted; auto | apply IHx; auto | apply IHd; auto]. }
    split; [intros <-; constructor; apply K; auto | intros H; inversion H; subst]. f_equal. f_equal. f_equal. symmetry. apply K. auto.
Qed.
Theorem str_said : forall v s, json_value v -> (py_str v = s <-> said v s).
Proof.
  intros v s J. destruct v as [ | b | z | f | x | l | d]; cbn [py_str].
  5: { split; [intros <-; constructor | intros H; inversion H as [ | v' s' N H' E]; subst; auto; destruct (N x); auto]. }
  all: split; [intros <-; apply sd_other; [discriminate | ]; apply repr_shown; auto; rewrite chars_unchars; auto |
    intros H; inversion H as [ | v' s' N H' E]; subst; apply repr_shown in H'; auto; rewrite H', unchars_chars; auto].
Qed.
