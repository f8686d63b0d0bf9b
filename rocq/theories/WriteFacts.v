(** Proofs about writing JSON texts. *)
From Verif Require Import PyBase PyNum Unicode Json JsonText SpecUnicode SpecText UnicodeFacts SpecFloats FloatFacts TextFacts PyFacts VersionFacts Repr ReprFacts.
From Coq Require Import SpecFloat.
Open Scope string_scope.
Open Scope list_scope.

(** ** Strings *)
Lemma hex_digit_ok : forall n, (n < 16)%N -> hexit (hex_digit n) n.
Proof.
  intros n H. unfold hex_digit. destruct (N.ltb_spec n 10).
  - replace n with (code (ascii_of_N (48 + n)) - 48)%N at 2 by (rewrite code_of_N; lia). constructor. rewrite code_of_N; lia.
  - replace n with (code (ascii_of_N (87 + n)) - 87)%N at 2 by (rewrite code_of_N; lia). constructor. rewrite code_of_N; lia.
Qed.
Lemma hex_escape_ok : forall n, (n < 65536)%N -> hex_text (hex_escape n) n.
Proof.
  intros n H. unfold hex_escape.
  assert (E : n = (n / 4096 * 4096 + n / 256 mod 16 * 256 + n / 16 mod 16 * 16 + n mod 16)%N) by (zify; Z.to_euclidean_division_equations; lia).
  rewrite E at 5. constructor; apply hex_digit_ok; zify; Z.to_euclidean_division_equations; lia.
Qed.
Lemma escape_ok : forall n, (n < 1114112)%N -> char_text (escape n) n.
Proof.
  intros n U. unfold escape.
  repeat match goal with |- char_text (if N.eqb ?x ?y then _ else _) _ =>
    destruct (N.eqb_spec x y); [subst; match goal with |- char_text [_; ?e] ?k =>
      change k with (code (match unescape e with Some c => ascii_of_N c | None => "000"%char end)); apply ct_escape; unfold escapes; cbn [In]; tauto end | ] end.
  destruct (in_range 32 126 n) eqn:E.
  - apply in_range_iff in E. apply ct_plain; rewrite ?code_quote, ?code_backslash; auto; try lia.
    replace n with (code (ascii_of_N n)) at 1 by (apply code_of_N; lia). constructor. rewrite code_of_N; lia.
  - destruct (N.ltb_spec n 65536) as [H | H]; [apply ct_hex, hex_escape_ok; auto | ].
    replace n with (65536 + (n - 65536) / 1024 * 1024 + (n - 65536) mod 1024)%N at 3 by (zify; Z.to_euclidean_division_equations; lia).
    apply ct_pair; try apply hex_escape_ok; zify; Z.to_euclidean_division_equations; lia.
Qed.
Lemma decode_bound : forall b n, In n (decode b) -> (n < 1114112)%N.
Proof. intros b n I. apply decode_range in I. unfold scalar in I. lia. Qed.
Lemma encode_string_ok : forall s, string_text (encode_string s) s.
Proof.
  intros s. unfold encode_string. rewrite flat_map_concat_map. apply st_text with (decode (chars s)); [ | now apply stands_decode].
  assert (B : forall n, In n (decode (chars s)) -> (n < 1114112)%N) by apply decode_bound. revert B.
  induction (decode (chars s)) as [ | n l IH]; intros B; cbn [map]; constructor; [apply escape_ok, B; cbn; auto | apply IH; intros m I; apply B; cbn; auto].
Qed.

(** ** Values *)
Lemma newline_blank : forall ind lvl, blanks (newline ind lvl).
Proof.
  intros [n | ] lvl; [ | constructor]. constructor; [cbn; auto | ]. apply Forall_forall. intros c H. apply repeat_spec in H. subst. cbn. auto.
Qed.
Definition gap (ind : option nat) (lvl : nat) : list ascii := match ind with Some _ => newline ind lvl | None => [" "%char] end.
Lemma item_separator_gap : forall ind lvl, item_separator ind lvl = ","%char :: gap ind lvl.
Proof. intros [n | ] lvl; reflexivity. Qed.
Lemma gap_blank : forall ind lvl, blanks (gap ind lvl).
Proof. intros [n | ] lvl; [apply newline_blank | ]. constructor; [cbn; auto | constructor]. Qed.
Lemma encode_float_ok : forall f, is_float f -> value_text (encode_float f) (VFloat f).
Proof.
  intros f F. destruct f as [s | [ | ] | | s m e]; cbn [encode_float]; try (apply vt_constant; constructor); apply vt_number, repr_float_ok; auto; exact I.
Qed.

Lemma items_written : forall (enc : val -> list ascii) (sep : list ascii) l x a b,
  blanks sep -> blanks a -> blanks b -> value_text (enc x) x -> Forall (fun y => value_text (enc y) y) l ->
  items_text (a ++ enc x ++ flat_map (fun y => (","%char :: sep) ++ enc y) l ++ b) (x :: l).
Proof.
  intros enc sep l. induction l as [ | y l IH]; intros x a b Hs Ha Hb Hx Hl.
  - cbn [flat_map app]. constructor; auto.
  - inversion Hl; subst. cbn [flat_map]. rewrite <- !app_assoc. cbn [app].
    change (enc x ++ ","%char :: sep ++ enc y ++ flat_map (fun y => ","%char :: sep ++ enc y) l ++ b)
      with (enc x ++ [] ++ ","%char :: (sep ++ enc y ++ flat_map (fun y => (","%char :: sep) ++ enc y) l ++ b)).
    apply it_more; auto using blanks_nil.
Qed.
Lemma pairs_written : forall (enc : val -> list ascii) (sep : list ascii) l k x a b,
  blanks sep -> blanks a -> blanks b -> value_text (enc x) x -> Forall (fun ky => value_text (enc (snd ky)) (snd ky)) l ->
  pairs_text (a ++ encode_string k ++ [":"; " "]%char ++ enc x ++
              flat_map (fun ky => (","%char :: sep) ++ encode_string (fst ky) ++ [":"; " "]%char ++ enc (snd ky)) l ++ b) ((k, x) :: l).
Proof.
  assert (S1 : blanks [" "%char]) by (constructor; [cbn; auto | constructor]).
  intros enc sep l. induction l as [ | [k' y] l IH]; intros k x a b Hs Ha Hb Hx Hl.
  - cbn [flat_map app].
    change (encode_string k ++ ":"%char :: " "%char :: enc x ++ b) with (encode_string k ++ [] ++ ":"%char :: [" "%char] ++ enc x ++ b).
    apply pt_one; auto using blanks_nil, encode_string_ok.
  - inversion Hl as [ | ? ? Hy Hl']; subst. cbn [flat_map fst snd] in *. rewrite <- !app_assoc. cbn [app].
    specialize (IH k' y sep b Hs Hs Hb Hy Hl'). cbn [app] in IH.
    match type of IH with pairs_text ?T _ =>
      change (pairs_text (a ++ encode_string k ++ [] ++ ":"%char :: [" "%char] ++ enc x ++ [] ++ ","%char :: T) ((k, x) :: (k', y) :: l)) end.
    apply pt_more; auto using blanks_nil, encode_string_ok.
Qed.
Lemma dict_of_pairs_nodup : forall (d : dict val), NoDup (dkeys d) -> dict_of_pairs d = d.
Proof.
  assert (G : forall (d acc : dict val), NoDup (dkeys (acc ++ d)) -> dict_add acc d = acc ++ d).
  { induction d as [ | [k v] d IH]; intros acc N; cbn [dict_add fold_left].
    - rewrite app_nil_r. auto.
    - change (dict_add (dset k v acc) d = acc ++ (k, v) :: d).
      assert (Hk : ~ In k (dkeys acc)).
      { unfold dkeys in N. rewrite map_app in N. cbn [map fst] in N. apply NoDup_remove_2 in N. intros H. apply N. apply in_or_app. auto. }
      rewrite (dset_new k v acc Hk), IH; rewrite <- app_assoc; auto. }
  intros d N. apply (G d []). auto.
Qed.

Theorem encode_ok : forall ind v, json_value v -> forall lvl, value_text (encode ind lvl v) v.
Proof.
  intros ind. induction v as [ | b | z | f | s | l IH | d IH] using val_ind'; intros J lvl.
  - apply vt_constant. constructor.
  - apply vt_constant. destruct b; constructor.
  - apply vt_number, dec_Z_ok.
  - inversion J; subst. apply encode_float_ok; auto.
  - apply vt_string, encode_string_ok.
  - inversion J as [ | | | | | l' Jl | ]; subst. destruct l as [ | x l].
    + apply (vt_empty_list []). constructor.
    + cbn [encode]. rewrite item_separator_gap.
      replace ("["%char :: newline ind (S lvl) ++ encode ind (S lvl) x ++
               flat_map (fun y => (","%char :: gap ind (S lvl)) ++ encode ind (S lvl) y) l ++ newline ind lvl ++ ["]"%char])
        with ("["%char :: (newline ind (S lvl) ++ encode ind (S lvl) x ++
               flat_map (fun y => (","%char :: gap ind (S lvl)) ++ encode ind (S lvl) y) l ++ newline ind lvl) ++ ["]"%char])
        by (f_equal; rewrite <- !app_assoc; reflexivity).
      apply vt_list. inversion IH as [ | ? ? Ix Il]; subst. inversion Jl as [ | ? ? Jx Jl']; subst.
      apply (items_written (encode ind (S lvl))); auto using newline_blank, gap_blank.
      apply Forall_forall. intros y Hy. rewrite Forall_forall in Il, Jl'. auto.
  - inversion J as [ | | | | | | d' N Jd]; subst. destruct d as [ | [k x] d].
    + apply (vt_empty_dict []). constructor.
    + cbn [encode]. rewrite item_separator_gap. rewrite <- (dict_of_pairs_nodup _ N).
      match goal with |- value_text ("{"%char :: ?a ++ ?b ++ ?c ++ ?d1 ++ ?e ++ ?f ++ ?g) _ =>
        replace ("{"%char :: a ++ b ++ c ++ d1 ++ e ++ f ++ g) with ("{"%char :: (a ++ b ++ c ++ d1 ++ e ++ f) ++ g) by (f_equal; rewrite <- !app_assoc; reflexivity) end.
      apply vt_dict. inversion IH as [ | ? ? Ix Il]; subst.
      apply (pairs_written (encode ind (S lvl))); auto using newline_blank, gap_blank.
      * apply Ix. apply (Jd k). left. auto.
      * apply Forall_forall. intros [k' y] Hy. rewrite Forall_forall in Il. apply (Il (k', y) Hy). apply (Jd k'). right. auto.
Qed.

(** json.loads reads back what json.dumps writes. *)
Theorem dumps_text : forall ind v, json_value v -> json_text (json_dumps ind v) v.
Proof.
  intros ind v J. exists [], (json_dumps ind v), []. cbn [app]. rewrite app_nil_r. repeat split; auto using blanks_nil.
  apply encode_ok; auto.
Qed.
Theorem loads_dumps : forall ind v, json_value v -> json_loads (json_dumps ind v) = Ok v.
Proof. intros. apply loads_iff, dumps_text; auto. Qed.

(** What is read is a JSON value. *)
Lemma in_dset : forall (k : string) (v : val) d x, In x (dset k v d) -> x = (k, v) \/ In x d.
Proof.
  intros k v d x. induction d as [ | [k' v'] d IH]; cbn [dset].
  - cbn. intuition.
  - destruct (String.eqb k k') eqn:E; intros [H | H].
    + left. rewrite <- H. f_equal. symmetry. apply seqb_eq. auto.
    + right. right. auto.
    + right. left. auto.
    + destruct (IH H); [auto | right; right; auto].
Qed.
Lemma constant_value : forall t v, constant_text t v -> json_value v.
Proof. intros t v H. destruct H; repeat constructor. Qed.
Lemma number_value : forall t v, number_text t v -> json_value v.
Proof. intros t v [t' v' H | t' v' H]; destruct H; constructor; apply float_of_decimal_valid. Qed.
Lemma text_value :
  (forall t v, value_text t v -> json_value v) /\ (forall t vs, items_text t vs -> Forall json_value vs) /\
  (forall t ps, pairs_text t ps -> Forall (fun kv => json_value (snd kv)) ps).
Proof.
  apply text_ind; intros; try (constructor; auto; fail); eauto using constant_value, number_value.
  - constructor; [constructor | intros k v []].
  - assert (G : forall acc, NoDup (dkeys acc) -> (forall k v, In (k, v) acc -> json_value v) ->
        NoDup (dkeys (dict_add acc ps)) /\ (forall k v, In (k, v) (dict_add acc ps) -> json_value v)).
    { clear p. induction H as [ | [k v] ps Hv Hps IH]; intros acc N F; cbn [dict_add fold_left]; auto.
      apply IH; [apply NoDup_dset; auto | ]. intros k' v' Hin. apply in_dset in Hin as [E | Hin]; [injection E as -> ->; auto | eauto]. }
    destruct (G []) as [G1 G2]; [constructor | intros k v [] | ]. constructor; auto.
Qed.
Theorem json_text_value : forall l v, json_text l v -> json_value v.
Proof. intros l v (a & t & b & _ & H & _). eapply text_value; eauto. Qed.
Theorem loads_value : forall l v, json_loads l = Ok v -> json_value v.
Proof. intros l v H. apply loads_iff in H. eapply json_text_value; eauto. Qed.
