(** Proofs about the layout of JSON texts. *)
From Verif Require Import PyBase PyNum Unicode Json JsonText SpecUnicode SpecText UnicodeFacts SpecFloats FloatFacts TextFacts PyFacts VersionFacts SpecRepr ReprFacts WriteFacts SpecLayout SpineGraph Editor Files SpecFiles FileFacts JsonInv SaveFacts.
From Coq Require Import SpecFloat.
Open Scope string_scope.
Open Scope list_scope.

(** ** Tokens *)
Lemma hex_digit_low : forall n, (n < 16)%N -> (code (hex_digit n) < 65 \/ 97 <= code (hex_digit n))%N.
Proof. intros n H. unfold hex_digit. destruct (N.ltb_spec n 10); rewrite code_of_N; lia. Qed.
Lemma hex_escape_low : forall n, (n < 65536)%N -> lower_case (hex_escape n).
Proof.
  intros n H c I. unfold hex_escape in I. cbn [In] in I. destruct I as [<- | [<- | I]]; [change (code "\") with 92%N; lia | change (code "u") with 117%N; lia | ].
  repeat (destruct I as [<- | I]; [match goal with |- context [hex_digit ?x] => assert (Hx : (x < 16)%N) by (zify; Z.to_euclidean_division_equations; lia); pose proof (hex_digit_low x Hx); lia end | ]). contradiction.
Qed.
Lemma short_values : forall n, has_short n -> In n [92; 34; 8; 12; 10; 13; 9]%N.
Proof. intros n (e & c & I & ->). cbn in I. repeat (destruct I as [I | I]; [injection I as <- <-; cbn; tauto | ]). contradiction. Qed.
Lemma escape_written : forall n, (n < 1114112)%N -> char_written n (escape n).
Proof.
  intros n U. assert (V := short_values n). unfold escape.
  repeat match goal with |- char_written _ (if N.eqb ?x ?y then _ else _) =>
    destruct (N.eqb_spec x y); [subst; match goal with |- char_written ?k [_; ?e] =>
      change k with (code (match unescape e with Some c => ascii_of_N c | None => "000"%char end)); apply cw_short; unfold short_escapes; cbn [In]; tauto end | ] end.
  assert (V' : ~ has_short n) by (intros X; apply V in X; cbn in X; intuition congruence). clear V.
  destruct (in_range 32 126 n) eqn:E.
  - apply in_range_iff in E. replace n with (code (ascii_of_N n)) at 1 by (apply code_of_N; lia). constructor; rewrite code_of_N by lia; auto.
  - assert (P : ~ printable n) by (unfold printable; rewrite <- in_range_iff; congruence). destruct (N.ltb_spec n 65536) as [H | H].
    + apply cw_hex; auto using hex_escape_ok, hex_escape_low.
    + replace n with (65536 + (n - 65536) / 1024 * 1024 + (n - 65536) mod 1024)%N at 1 by (zify; Z.to_euclidean_division_equations; lia).
      apply cw_pair; try apply hex_escape_ok; try (zify; Z.to_euclidean_division_equations; lia).
      intros c I. apply in_app_or in I as [I | I]; revert I; apply hex_escape_low; zify; Z.to_euclidean_division_equations; lia.
Qed.
Lemma encode_string_written : forall s, string_written s (encode_string s).
Proof.
  intros s. exists (decode (chars s)), (map escape (decode (chars s))). split; [now apply stands_decode | split]; [ | unfold encode_string; rewrite flat_map_concat_map; reflexivity].
  assert (B : forall n, In n (decode (chars s)) -> (n < 1114112)%N) by apply decode_bound. revert B.
  induction (decode (chars s)) as [ | n l IH]; intros B; cbn; constructor; [apply escape_written, B; cbn; auto | apply IH; intros m I; apply B; cbn; auto].
Qed.
Lemma dec_Z_token : forall z, token (VInt z) (chars (dec_Z z)).
Proof.
  intros z. unfold dec_Z. destruct z as [ | p | p].
  - apply tk_positive; [lia | apply (dec_no_zero 0) | exact (f_equal Z.of_N (decimal_dec 0))].
  - apply tk_positive; [lia | apply (dec_no_zero (Npos p)) | exact (f_equal Z.of_N (decimal_dec (Npos p)))].
  - change (chars (String "-" (dec (N.pos p)))) with ("-"%char :: chars (dec (N.pos p))).
    apply tk_negative; [lia | apply (dec_no_zero (Npos p)) | exact (f_equal Z.of_N (decimal_dec (Npos p)))].
Qed.
Lemma float_token : forall f, is_float f -> token (VFloat f) (encode_float f).
Proof. intros f V. destruct f as [s | s | | s m e]; cbn [encode_float]; [apply tk_float; [exact I | apply repr_written; auto] | | apply tk_constant; constructor | apply tk_float; [exact I | apply repr_written; auto]]. destruct s; apply tk_constant; constructor. Qed.

(** ** Blocks *)
(** Marks the last line *)
Fixpoint commaed (b : list line) : list line :=
  match b with
  | [] => []
  | [x] => [mkLine (l_depth x) (l_text x) true]
  | x :: b' => x :: commaed b'
  end.
Definition plain_end (b : list line) : Prop := exists b' n t, b = b' ++ [mkLine n t false].
Definition starts (b : list line) : Prop := exists t c b', b = mkLine 0 t c :: b'.
Lemma commaed_ok : forall b, plain_end b -> with_comma b (commaed b).
Proof.
  intros b (b' & n & t & ->). assert (E : commaed (b' ++ [mkLine n t false]) = b' ++ [mkLine n t true]); [ | rewrite E; constructor].
  induction b' as [ | x b' IH]; [reflexivity | ]. cbn [app commaed]. rewrite <- IH. destruct b'; reflexivity.
Qed.
Fixpoint sequence (bs : list (list line)) : list line :=
  match bs with
  | [] => []
  | [b] => b
  | b :: bs' => commaed b ++ sequence bs'
  end.
Lemma sequence_ok : forall bs, bs <> [] -> Forall plain_end bs -> in_sequence bs (sequence bs).
Proof.
  intros bs. induction bs as [ | b bs IH]; [congruence | ]. intros _ F. inversion F; subst. destruct bs as [ | b' bs]; [constructor | ].
  change (sequence (b :: b' :: bs)) with (commaed b ++ sequence (b' :: bs)). constructor; [apply commaed_ok; auto | apply IH; auto; discriminate].
Qed.
Definition keyed (k : string) (b : list line) : list line :=
  match b with
  | x :: b' => mkLine 0 (encode_string k ++ [":"; " "]%char ++ l_text x) (l_comma x) :: b'
  | [] => []
  end.
Lemma keyed_ok : forall k b, starts b -> with_key k b (keyed k b).
Proof. intros k b (t & c & b' & ->). constructor. apply encode_string_written. Qed.
Lemma keyed_end : forall k b, starts b -> plain_end b -> plain_end (keyed k b).
Proof.
  intros k b (t & c & b' & ->) (b2 & n & t2 & E). destruct b2 as [ | x b2]; cbn in E.
  - injection E as -> -> -> ->. exists [], 0%nat. eexists. reflexivity.
  - injection E as <- ->. eexists (_ :: b2), n, t2. reflexivity.
Qed.

(** ** The lines of a value *)
Fixpoint lines (v : val) : list line :=
  match v with
  | VList (x :: l) => alone ["["%char] :: deeper (sequence (map lines (x :: l))) ++ [alone ["]"%char]]
  | VDict (kx :: d) => alone ["{"%char] :: deeper (sequence (map (fun kv => keyed (fst kv) (lines (snd kv))) (kx :: d))) ++ [alone ["}"%char]]
  | _ => [alone (encode None 0 v)]
  end.
Lemma lines_starts : forall v, starts (lines v).
Proof. intros v. destruct v as [ | | | | | [ | x l] | [ | x d]]; cbn [lines]; unfold alone; eexists _, _, _; reflexivity. Qed.
Lemma lines_end : forall v, plain_end (lines v).
Proof.
  intros v. destruct v as [ | | | | | [ | x l] | [ | x d]]; cbn [lines]; try (exists [], 0%nat; eexists; reflexivity); eexists (_ :: _), _, _; reflexivity.
Qed.
Theorem lines_ok : forall v, json_value v -> lines_of v (lines v).
Proof.
  induction v as [ | b | z | f | s | l IH | d IH] using val_ind'; intros J.
  - apply lo_token, tk_constant. constructor.
  - apply lo_token, tk_constant. destruct b; constructor.
  - apply lo_token, dec_Z_token.
  - apply lo_token, float_token. inversion J. auto.
  - apply lo_token, tk_str, encode_string_written.
  - destruct l as [ | x l]; [apply lo_token, tk_empty_list | ]. cbn [lines]. eapply lo_list; [discriminate | | apply sequence_ok; [discriminate | ]].
    + inversion J as [ | | | | | l' F | ]; subst. revert IH F. generalize (x :: l). clear. intros l IH F. induction IH as [ | v l H IH E]; cbn [map]; constructor; inversion F; auto.
    + clear. induction (x :: l); cbn [map]; constructor; auto using lines_end.
  - destruct d as [ | x d]; [apply lo_token, tk_empty_dict | ]. cbn [lines]. eapply lo_dict; [discriminate | | apply sequence_ok; [discriminate | ]].
    + inversion J as [ | | | | | | d' N F]; subst. revert IH F. generalize (x :: d). clear. intros l IH F. induction IH as [ | [k v] l H IH E]; cbn [map fst snd]; econstructor.
      * apply H. eapply F. left. eauto.
      * apply keyed_ok, lines_starts.
      * apply E. intros k' v' I. eapply F. right. eauto.
    + clear. induction (x :: d) as [ | [k v] l IH]; cbn [map fst snd]; constructor; auto. apply keyed_end; [apply lines_starts | apply lines_end].
Qed.

(** ** The text *)
Definition comma_text (indent : option nat) (x : line) : list ascii :=
  if l_comma x then match indent with Some _ => [","%char] | None => [","; " "]%char end else [].
Definition after_break (indent : option nat) (level : nat) (x : line) : list ascii :=
  newline indent (level + l_depth x) ++ l_text x ++ comma_text indent x.
Definition block_text (indent : option nat) (level : nat) (b : list line) : list ascii :=
  match b with
  | [] => []
  | x :: r => l_text x ++ comma_text indent x ++ flat_map (after_break indent level) r
  end.
Lemma deeper_text : forall indent level b, flat_map (after_break indent level) (deeper b) = flat_map (after_break indent (S level)) b.
Proof.
  intros indent level b. unfold deeper. rewrite flat_map_concat_map, map_map, <- flat_map_concat_map. apply flat_map_ext. intros [n t c].
  unfold after_break. cbn. rewrite Nat.add_succ_r. reflexivity.
Qed.
Lemma starts_text : forall indent level b, starts b -> flat_map (after_break indent level) b = newline indent level ++ block_text indent level b.
Proof.
  intros indent level b (t & c & b' & ->). cbn [flat_map block_text]. unfold after_break at 1. cbn [l_depth l_text]. rewrite Nat.add_0_r, <- !app_assoc. reflexivity.
Qed.
Lemma item_separator_eq : forall indent level, item_separator indent level = match indent with Some _ => [","%char] | None => [","; " "]%char end ++ newline indent level.
Proof. intros [n | ] level; reflexivity. Qed.
Lemma commaed_text : forall indent level b, plain_end b -> flat_map (after_break indent level) (commaed b) =
  flat_map (after_break indent level) b ++ match indent with Some _ => [","%char] | None => [","; " "]%char end.
Proof.
  intros indent level b (b' & n & t & ->). assert (E : commaed (b' ++ [mkLine n t false]) = b' ++ [mkLine n t true]).
  { induction b' as [ | x b' IH]; [reflexivity | ]. cbn [app commaed]. rewrite <- IH. destruct b'; reflexivity. }
  rewrite E, !flat_map_app, <- app_assoc. f_equal. cbn [flat_map]. rewrite !app_nil_r. unfold after_break. cbn [l_depth l_text comma_text]. unfold comma_text. cbn [l_comma].
  rewrite app_nil_r, <- !app_assoc. reflexivity.
Qed.
Lemma sequence_text : forall indent level b bs, Forall plain_end (b :: bs) -> Forall starts (b :: bs) ->
  flat_map (after_break indent level) (sequence (b :: bs)) =
  newline indent level ++ block_text indent level b ++ flat_map (fun c => item_separator indent level ++ block_text indent level c) bs.
Proof.
  intros indent level b bs. revert b. induction bs as [ | c bs IH]; intros b E S; inversion E; subst; inversion S; subst.
  - cbn [sequence flat_map]. rewrite app_nil_r. apply starts_text. auto.
  - change (sequence (b :: c :: bs)) with (commaed b ++ sequence (c :: bs)). rewrite flat_map_app, IH, commaed_text, starts_text by auto.
    cbn [flat_map]. rewrite item_separator_eq, <- !app_assoc. reflexivity.
Qed.
Theorem encode_lines : forall indent v level, encode indent level v = block_text indent level (lines v).
Proof.
  intros indent. induction v as [ | b | z | f | s | l IH | d IH] using val_ind'; intros level.
  - reflexivity.
  - destruct b; reflexivity.
  - cbn. rewrite app_nil_r. reflexivity.
  - cbn. rewrite app_nil_r. reflexivity.
  - cbn [lines block_text encode flat_map]. unfold alone, comma_text. cbn [l_text l_comma]. rewrite !app_nil_r. reflexivity.
  - destruct l as [ | x l]; [reflexivity | ]. cbn [lines encode block_text flat_map]. unfold alone at 1 2. cbn [l_text]. unfold comma_text at 1. cbn [l_comma app].
    rewrite flat_map_app, deeper_text. cbn [map]. rewrite sequence_text.
    + cbn [flat_map]. unfold after_break at 1. unfold alone, comma_text. cbn [l_depth l_text l_comma]. rewrite Nat.add_0_r, !app_nil_r, <- !app_assoc.
      inversion IH; subst. rewrite H1. f_equal. f_equal. f_equal. f_equal. rewrite !flat_map_concat_map, map_map. f_equal. apply map_ext_in. intros y Hy. rewrite Forall_forall in H2. rewrite H2 by auto. reflexivity.
    + change (lines x :: map (lines) l) with (map lines (x :: l)). clear. induction (x :: l); cbn; constructor; auto using lines_end.
    + change (lines x :: map (lines) l) with (map lines (x :: l)). clear. induction (x :: l); cbn; constructor; auto using lines_starts.
  - destruct d as [ | [k x] d]; [reflexivity | ]. cbn [lines encode block_text flat_map]. unfold alone at 1 2. cbn [l_text]. unfold comma_text at 1. cbn [l_comma app].
    rewrite flat_map_app, deeper_text. cbn [map]. rewrite sequence_text.
    + cbn [flat_map]. unfold after_break at 1. unfold alone, comma_text. cbn [l_depth l_text l_comma]. rewrite Nat.add_0_r, !app_nil_r, <- !app_assoc.
      assert (K : forall k v, block_text indent (S level) (keyed k (lines v)) = encode_string k ++ [":"; " "]%char ++ block_text indent (S level) (lines v)).
      { intros k' v. destruct (lines_starts v) as (t & c & b' & ->). cbn [keyed block_text l_text]. unfold comma_text. cbn [l_comma]. rewrite <- !app_assoc. reflexivity. }
      inversion IH; subst. cbn [fst snd] in *. rewrite K, H1, <- !app_assoc. cbn [app]. do 6 f_equal. rewrite !flat_map_concat_map, map_map.
      f_equal. f_equal. apply map_ext_in. intros [k' y] Hy. cbn [fst snd]. rewrite Forall_forall in H2. rewrite K. specialize (H2 _ Hy (S level)). cbn [snd] in H2. rewrite H2. reflexivity.
    + match goal with |- Forall _ (?a :: map ?f d) => change (a :: map f d) with (map f ((k, x) :: d)) end. clear. induction ((k, x) :: d) as [ | [k' v] l IH]; cbn [map fst snd]; constructor; auto. apply keyed_end; [apply lines_starts | apply lines_end].
    + match goal with |- Forall _ (?a :: map ?f d) => change (a :: map f d) with (map f ((k, x) :: d)) end. clear. induction ((k, x) :: d) as [ | [k' v] l IH]; cbn [map fst snd]; constructor; auto.
      destruct (lines_starts v) as (t & c & b' & ->). eexists _, _, _. reflexivity.
Qed.
Theorem dumps_lines : forall n v, json_value v -> exists ls, lines_of v ls /\ json_dumps (Some n) v = joined_lines n ls.
Proof.
  intros n v J. exists (lines v). split; [apply lines_ok; auto | ]. unfold json_dumps. rewrite encode_lines. destruct (lines_starts v) as (t & c & b & ->).
  cbn [block_text]. unfold joined_lines. cbn [map]. unfold indented at 1. cbn [l_depth l_text]. rewrite Nat.mul_0_r. cbn [repeat app]. rewrite <- app_assoc. f_equal. f_equal.
  rewrite flat_map_concat_map, flat_map_concat_map, map_map. f_equal.
Qed.
Theorem dumps_one_line : forall v, json_value v -> exists ls, lines_of v ls /\ json_dumps None v = one_line ls.
Proof.
  intros v J. exists (lines v). split; [apply lines_ok; auto | ]. unfold json_dumps. rewrite encode_lines. destruct (lines_starts v) as (t & c & b & ->).
  cbn [block_text]. unfold one_line. cbn [flat_map l_text l_comma]. rewrite <- app_assoc. reflexivity.
Qed.

(** ** The calls *)
Theorem to_json_lines : forall cwd p e f g, used e -> fs_ok f -> f cwd = Some Dir -> to_json cwd p e f = (g, Ok tt) ->
  exists ls, lines_of (editor_json e) ls /\ read_file cwd p g = Ok (joined_lines 4 ls).
Proof.
  intros cwd p e f g U K H E. rewrite to_json_save in E. destruct (save_safe _ _ _ _ _ _ K H E) as (_ & _ & (X & _)).
  destruct (dumps_lines 4 (editor_json e) (used_json e U)) as (ls & L & T). exists ls. split; auto. rewrite <- T. exact X.
Qed.
Theorem images_line : forall cwd p e f g, used e -> fs_ok f -> f cwd = Some Dir -> save_images_json cwd p e f = (g, Ok tt) ->
  exists ls, lines_of (saved_images (e_images e)) ls /\ read_file cwd p g = Ok (one_line ls).
Proof.
  intros cwd p e f g U K H E. rewrite save_images_save in E. destruct (save_safe _ _ _ _ _ _ K H E) as (_ & _ & (X & _)).
  destruct (dumps_one_line (saved_images (e_images e)) (images_json_good _ (used_good e U))) as (ls & L & T). exists ls. split; auto. rewrite <- T. exact X.
Qed.
Theorem graph_line : forall e t, used e -> graph_text (e_graph e) = Ok t ->
  exists o ls, graph_to_json (e_graph e) = Ok o /\ lines_of (saved_graph o) ls /\ t = one_line ls.
Proof.
  intros e t U E. unfold graph_text in E. destruct (graph_to_json (e_graph e)) as [o | ] eqn:X; [ | discriminate]. cbn [bind] in E. injection E as <-.
  destruct (dumps_one_line (saved_graph o)) as (ls & L & T). { eapply graph_value_good; [ | exact X]. apply (eg_graph e). apply used_good. auto. }
  exists o, ls. split; auto.
Qed.
