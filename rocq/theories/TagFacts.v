(** Proofs about Tags.v. *)
From Verif Require Import PyBase PyNum Unicode SpecUnicode UnicodeFacts PyFacts Tags SpecTags VersionFacts.
Open Scope string_scope.
Open Scope list_scope.

Lemma word_digit : forall c, is_digit c = true -> is_word c = true.
Proof. intros c H. unfold is_word. rewrite H. auto. Qed.
Lemma name_char_spec : forall c, is_name_char c = name_char c.
Proof.
  intros c. unfold is_name_char, name_char. destruct (is_digit c) eqn:E; auto.
  - rewrite (word_digit c E). auto.
  - rewrite orb_false_r. auto.
Qed.
Lemma value_char_spec : forall c, is_value_char c = value_char c.
Proof.
  intros c. unfold is_value_char, value_char. destruct (is_digit c) eqn:E; auto.
  - rewrite (word_digit c E). auto.
  - rewrite orb_false_r. auto.
Qed.

Ltac all_chars := intros [b0 b1 b2 b3 b4 b5 b6 b7];
  destruct b0, b1, b2, b3, b4, b5, b6, b7; vm_compute; congruence.
Lemma space_not_name : forall c, is_space c = true -> name_char c = false.
Proof. all_chars. Qed.
Lemma space_value : forall c, is_space c = true -> value_char c = true.
Proof. all_chars. Qed.

(** ** span *)
Lemma span_app : forall f l a b, span f l = (a, b) -> l = a ++ b /\ all_in f a.
Proof.
  intros f. induction l as [ | c l IH]; simpl; intros a b H.
  - inversion H; subst. split; auto. constructor.
  - destruct (f c) eqn:E.
    + destruct (span f l) as [a' b'] eqn:E'. inversion H; subst.
      destruct (IH _ _ eq_refl) as [-> ?]. split; auto. constructor; auto.
    + inversion H; subst. split; auto. constructor.
Qed.
Definition stops (f : ascii -> bool) (l : list ascii) : Prop :=
  match l with [] => True | c :: _ => f c = false end.
Lemma span_stops : forall f l a b, span f l = (a, b) -> stops f b.
Proof.
  intros f. induction l as [ | c l IH]; simpl; intros a b H.
  - inversion H; subst. simpl. auto.
  - destruct (f c) eqn:E.
    + destruct (span f l) as [a' b'] eqn:E'. inversion H; subst. eapply IH; eauto.
    + inversion H; subst. simpl. auto.
Qed.
Lemma span_unique : forall f a b, all_in f a -> stops f b -> span f (a ++ b) = (a, b).
Proof.
  intros f a b H Hb. induction H as [ | c a Hc Ha IH]; simpl.
  - destruct b as [ | c b]; simpl in *; auto. rewrite Hb. auto.
  - rewrite Hc, IH. auto.
Qed.

(** ** one match *)
Lemma all_in_ext : forall f g l, (forall c, f c = g c) -> all_in f l -> all_in g l.
Proof. intros f g l E H. eapply Forall_impl; [ | exact H]. simpl. intros. rewrite <- E. auto. Qed.
Lemma all_in_impl : forall f g l, (forall c, f c = true -> g c = true) -> all_in f l -> all_in g l.
Proof. intros f g l E H. eapply Forall_impl; [ | exact H]. simpl. auto. Qed.

Lemma value_text_iff : forall v, value_text v <-> all_in value_char v /\ v <> [].
Proof.
  split.
  - intros (b1 & w & b2 & -> & H1 & H2 & H3 & H4). split.
    + apply Forall_app. split; [ | apply Forall_app; split].
      * eapply all_in_impl; [exact space_value | auto].
      * eapply all_in_ext; [exact value_char_spec | auto].
      * eapply all_in_impl; [exact space_value | auto].
    + intros E. apply app_eq_nil in E as [_ E]. apply app_eq_nil in E as [E _]. auto.
  - intros [H1 H2]. exists [], v, []. rewrite app_nil_r. repeat split; auto.
    + constructor.
    + eapply all_in_ext; [ | exact H1]. intros. symmetry. apply value_char_spec.
    + constructor.
Qed.

Lemma match_tag_sound : forall l n v rest,
  match_tag l = Some ((n, v), rest) -> is_tag n v /\ l = tag n v ++ rest.
Proof.
  intros l n v rest. unfold match_tag.
  destruct l as [ | c l]; [discriminate | ].
  assert (Hc : c = "["%char \/ c <> "["%char) by (destruct (ascii_dec c "["); auto).
  destruct Hc as [-> | Hc].
  2: { destruct c as [[] [] [] [] [] [] [] []]; try discriminate; congruence. }
  destruct (span is_space l) as [b1 l2] eqn:E1.
  destruct (span name_char l2) as [nm l3] eqn:E2.
  destruct (span is_space l3) as [b2 l4] eqn:E3.
  destruct nm as [ | m0 nm]; [discriminate | ].
  destruct l4 as [ | c l5]; [discriminate | ].
  destruct (ascii_dec c ":") as [-> | Hc].
  2: { destruct c as [[] [] [] [] [] [] [] []]; try discriminate; congruence. }
  destruct (span value_char l5) as [v' l6] eqn:E4.
  destruct v' as [ | v0 v']; [discriminate | ].
  destruct l6 as [ | c l6]; [discriminate | ].
  destruct (ascii_dec c "]") as [-> | Hc].
  2: { destruct c as [[] [] [] [] [] [] [] []]; try discriminate; congruence. }
  intros H. inversion H; subst; clear H.
  apply span_app in E1 as [-> H1], E2 as [-> H2], E3 as [-> H3], E4 as [-> H4].
  split.
  - split.
    + exists b1, (m0 :: nm), b2. repeat split; auto; try discriminate.
      eapply all_in_ext; [ | exact H2]. intros. symmetry. apply name_char_spec.
    + apply value_text_iff. split; auto. discriminate.
  - unfold tag. simpl. f_equal. rewrite <- !app_assoc. simpl. rewrite <- !app_assoc. simpl. auto.
Qed.

Lemma match_tag_complete : forall n v rest,
  is_tag n v -> match_tag (tag n v ++ rest) = Some ((n, v), rest).
Proof.
  intros n v rest [(b1 & w & b2 & -> & H1 & H2 & H3 & H4) Hv].
  apply value_text_iff in Hv as [Hv Hv'].
  assert (H2' : all_in name_char w) by (eapply all_in_ext; [exact name_char_spec | auto]).
  unfold tag. simpl. rewrite <- !app_assoc. simpl. rewrite <- app_assoc. simpl.
  rewrite span_unique; auto.
  2: { destruct w as [ | w0 w]; [congruence | ]. simpl. inversion H2'; subst.
       destruct (is_space w0) eqn:E; auto. apply space_not_name in E. congruence. }
  rewrite span_unique; auto.
  2: { destruct b2 as [ | c b2]; simpl; auto. inversion H4; subst. apply space_not_name. auto. }
  rewrite span_unique; auto; [ | reflexivity].
  destruct w as [ | w0 w]; [congruence | ].
  rewrite span_unique; auto; [ | reflexivity].
  destruct v; [congruence | ]. auto.
Qed.

Lemma match_tag_none : forall l,
  match_tag l = None <-> (forall n v rest, is_tag n v -> l <> tag n v ++ rest).
Proof.
  intros l. split.
  - intros H n v rest Ht ->. rewrite match_tag_complete in H; auto. discriminate.
  - intros H. destruct (match_tag l) as [[[n v] rest] | ] eqn:E; auto.
    apply match_tag_sound in E as [Ht ->]. exfalso. eapply H; eauto.
Qed.

(** ** findall *)
Lemma tag_length : forall n v rest, length rest < length (tag n v ++ rest).
Proof. intros. unfold tag. rewrite app_length. simpl. lia. Qed.

Lemma find_tags_fuel_spec : forall fuel l,
  length l <= fuel -> findall l (find_tags_fuel fuel l).
Proof.
  induction fuel as [ | fuel IH]; intros l Hl.
  - destruct l; simpl in *; [constructor | lia].
  - destruct l as [ | c l]; [constructor | ].
    cbn [find_tags_fuel]. destruct (match_tag (c :: l)) as [[[n v] rest] | ] eqn:E.
    + apply match_tag_sound in E as [Ht E]. rewrite E. apply fa_hit; auto.
      apply IH. pose proof (tag_length n v rest). rewrite <- E in H. simpl in *. lia.
    + apply fa_skip.
      * apply match_tag_none. auto.
      * apply IH. simpl in Hl. lia.
Qed.

Lemma chars_length : forall s, length (chars s) = String.length s.
Proof. induction s; simpl; auto. Qed.

Lemma tags_of_folded : forall s ts, tags_of s ts <-> findall (folded s) ts.
Proof.
  intros s ts. split.
  - intros (l & R & F). apply folded_iff in R as <-. auto.
  - intros F. exists (folded s). split; auto. apply folded_iff. auto.
Qed.
Lemma find_tags_spec : forall s, tags_of s (find_tags s).
Proof. intros s. apply tags_of_folded. apply find_tags_fuel_spec. auto. Qed.

Lemma findall_fuel : forall l ts, findall l ts ->
  forall fuel, length l <= fuel -> ts = find_tags_fuel fuel l.
Proof.
  intros l ts H. induction H as [ | n v rest ts Ht H IH | c l ts Hn H IH]; intros fuel Hl.
  - destruct fuel; auto.
  - pose proof (tag_length n v rest). destruct fuel as [ | fuel]; [lia | ].
    pose proof (match_tag_complete n v rest Ht) as E.
    destruct (tag n v ++ rest) as [ | c l]; [discriminate | ].
    cbn [find_tags_fuel]. rewrite E. f_equal. apply IH. simpl in *. lia.
  - destruct fuel as [ | fuel]; simpl in Hl; [lia | ].
    cbn [find_tags_fuel]. rewrite (proj2 (match_tag_none (c :: l)) Hn). apply IH. lia.
Qed.
Lemma findall_unique : forall l ts ts', findall l ts -> findall l ts' -> ts = ts'.
Proof.
  intros l ts ts' H H'. rewrite (findall_fuel l ts H (length l)) by auto.
  rewrite (findall_fuel l ts' H' (length l)) by auto. auto.
Qed.

Lemma findall_iff : forall s ts, tags_of s ts <-> ts = find_tags s.
Proof.
  intros. split.
  - intros H. apply tags_of_folded in H. eapply findall_unique; eauto. apply tags_of_folded. apply find_tags_spec.
  - intros ->. apply find_tags_spec.
Qed.

Lemma tag_no_bracket : forall n v, is_tag n v -> ~ In "["%char (n ++ ":"%char :: v ++ ["]"%char]).
Proof.
  intros n v [(b1 & w & b2 & -> & H1 & H2 & H3 & H4) Hv] Hi.
  apply value_text_iff in Hv as [Hv _].
  unfold all_in in *. rewrite Forall_forall in *.
  rewrite !in_app_iff in Hi. simpl in Hi. rewrite in_app_iff in Hi. simpl in Hi.
  destruct Hi as [[Hi | [Hi | Hi]] | [Hi | [Hi | [Hi | []]]]]; try discriminate.
  - apply H1 in Hi. discriminate.
  - apply H2 in Hi. discriminate.
  - apply H4 in Hi. discriminate.
  - apply Hv in Hi. discriminate.
Qed.

Lemma findall_no_bracket : forall l, ~ In "["%char l -> findall l [].
Proof.
  induction l as [ | c l IH]; intros H; constructor.
  - intros n v rest Ht E. unfold tag in E. simpl in E. inversion E; subst. apply H. left; auto.
  - apply IH. intros Hi. apply H. right; auto.
Qed.

(** A tag inserted anywhere is found, whatever surrounds it. *)
Lemma app_split_bracket : forall (pre x post y : list ascii),
  ~ In "["%char y -> pre ++ "["%char :: post = y ++ x -> length y <= length pre.
Proof.
  intros pre x post y Hy E. destruct (le_lt_dec (length y) (length pre)); auto.
  exfalso. apply Hy. assert (H : nth_error (y ++ x) (length pre) = Some "["%char).
  { rewrite <- E. rewrite nth_error_app2 by lia. rewrite Nat.sub_diag. auto. }
  rewrite nth_error_app1 in H by auto. eapply nth_error_In; eauto.
Qed.

Lemma app_len_split : forall (A : Type) (a b c d : list A),
  a ++ b = c ++ d -> length c <= length a -> exists m, a = c ++ m /\ d = m ++ b.
Proof.
  intros A a b c. revert a b. induction c as [ | x c IH]; intros a b d E Hl.
  - exists a. auto.
  - destruct a as [ | y a]; simpl in *; [lia | ]. inversion E; subst.
    destruct (IH a b d H1) as [m [-> ->]]; [lia | ]. exists m. auto.
Qed.

Lemma findall_insert : forall pre tp, findall pre tp -> forall n v post tq,
  is_tag n v -> findall post tq ->
  findall (pre ++ tag n v ++ post) (tp ++ (n, v) :: tq).
Proof.
  intros pre tp H. induction H as [ | n0 v0 rest ts Ht H IH | c l ts Hn H IH]; intros n v post tq Htag Hq.
  - exact (fa_hit _ _ _ _ Htag Hq).
  - rewrite <- app_assoc. exact (fa_hit _ _ _ _ Ht (IH _ _ _ _ Htag Hq)).
  - apply (fa_skip c (l ++ tag n v ++ post)); [ | auto].
    intros n' v' rest Ht' E. unfold tag in E at 2. simpl in E. inversion E; subst; clear E.
    unfold tag in H2. simpl in H2.
    assert (E2 : l ++ "["%char :: (n ++ ":"%char :: v ++ ["]"%char]) ++ post =
                 (n' ++ ":"%char :: v' ++ ["]"%char]) ++ rest).
    { rewrite <- H2. auto. }
    pose proof (app_split_bracket _ _ _ _ (tag_no_bracket _ _ Ht') E2) as Hle.
    apply app_len_split in E2 as [m [-> _]]; auto.
    apply (Hn n' v' m Ht'). unfold tag. simpl. auto.
Qed.

(** ** get_tags_from_name *)
Definition name_of (t : list ascii * list ascii) : string := unchars (strip (fst t)).
Definition value_of (t : list ascii * list ascii) : option float64 := py_float (strip (snd t)).

Lemma add_tag_first : forall t,
  (exists f, name_of t = "scale" /\ value_of t = Some f /\ add_tag [] t = Ok [("scale", f)]) \/
  ((name_of t <> "scale" \/ value_of t = None) /\ exists w, add_tag [] t = Err (EValue w)).
Proof.
  intros [n v]. unfold add_tag, name_of, value_of. simpl.
  destruct (String.eqb_spec (unchars (strip n)) "scale") as [E | E].
  - rewrite E. destruct (py_float (strip v)) as [f | ]; simpl.
    + left. exists f. auto.
    + right. split; eauto.
  - right. split; auto. simpl. eauto.
Qed.
Lemma add_tag_next : forall f t, exists w, add_tag [("scale", f)] t = Err (EValue w).
Proof.
  intros f [n v]. unfold add_tag. simpl. unfold dmem. simpl.
  destruct (String.eqb (unchars (strip n)) "scale"); simpl; eauto.
Qed.

(** What the code computes from the list of tags of the name. *)
Lemma get_tags_cases : forall s ts, tags_of s ts ->
  match ts with
  | [] => get_tags_from_name s = Ok []
  | [t] => (exists f, name_of t = "scale" /\ value_of t = Some f /\
                      get_tags_from_name s = Ok [("scale", f)]) \/
           ((name_of t <> "scale" \/ value_of t = None) /\
            exists w, get_tags_from_name s = Err (EValue w))
  | _ => exists w, get_tags_from_name s = Err (EValue w)
  end.
Proof.
  intros s ts H. apply findall_iff in H. unfold get_tags_from_name. rewrite <- H. clear H.
  destruct ts as [ | t ts]; simpl; auto.
  destruct (add_tag_first t) as [[f [H1 [H2 E]]] | [H [w E]]]; rewrite E; simpl.
  - destruct ts as [ | t2 ts].
    + left. exists f. auto.
    + simpl. destruct (add_tag_next f t2) as [w ->]. simpl. eauto.
  - destruct ts; eauto.
Qed.

Lemma strip_blanks : forall f b1 w b2,
  all_in f b1 -> all_in f b2 ->
  (exists c l, w = c :: l /\ f c = false) -> (exists c l, w = l ++ [c] /\ f c = false) ->
  strip_by f (b1 ++ w ++ b2) = w.
Proof.
  intros f b1 w b2 H1 H2 [c [l [E Hc]]] [d [m [E2 Hd]]].
  assert (L : forall b x, all_in f b -> lstrip f (b ++ x) = lstrip f x).
  { intros b x Hb. induction Hb; simpl; auto. rewrite H. auto. }
  unfold strip_by. rewrite L by auto. rewrite E. simpl. rewrite Hc.
  change (c :: l ++ b2) with ((c :: l) ++ b2). rewrite <- E. rewrite rev_app_distr.
  rewrite L by (apply Forall_rev; auto).
  rewrite E2, rev_app_distr. simpl. rewrite Hd. simpl. rewrite rev_involutive. auto.
Qed.

(** A number: what [float] accepts once blanks are removed; such a text neither starts
    nor ends with a blank. *)
Lemma get_tags_scale : forall s pre b1 b2 b3 x b4 post f,
  all_in is_space b1 -> all_in is_space b2 -> all_in is_space b3 -> all_in is_space b4 ->
  all_in is_value_char x ->
  (exists c l, x = c :: l /\ is_space c = false) -> (exists c l, x = l ++ [c] /\ is_space c = false) ->
  py_float x = Some f ->
  findall pre [] -> findall post [] ->
  reads_as s (pre ++ tag (b1 ++ chars "scale" ++ b2) (b3 ++ x ++ b4) ++ post) ->
  get_tags_from_name s =
  Ok [("scale", f)].
Proof.
  intros s pre b1 b2 b3 x b4 post f H1 H2 H3 H4 Hx Hc Hd Hf Hpre Hpost Hs.
  set (t := (b1 ++ chars "scale" ++ b2, b3 ++ x ++ b4)).
  assert (Ht : is_tag (fst t) (snd t)).
  { split; simpl.
    - exists b1, (chars "scale"), b2. repeat split; auto; [ | discriminate].
      repeat constructor.
    - exists b3, x, b4. repeat split; auto. destruct Hc as [c [l [-> _]]]. discriminate. }
  pose proof (findall_insert pre [] Hpre _ _ _ _ Ht Hpost) as Hfa. cbn [app fst snd] in Hfa.
  assert (Hfa' : tags_of s [t]) by (eexists; split; [exact Hs | exact Hfa]).
  clear Hfa. rename Hfa' into Hfa. apply get_tags_cases in Hfa.
  assert (En : name_of t = "scale").
  { unfold name_of, t, strip. cbn [fst]. rewrite strip_blanks; auto.
    - exists "s"%char, (chars "cale"). split; reflexivity.
    - exists "e"%char, (chars "scal"). split; reflexivity. }
  assert (Ev : value_of t = Some f).
  { unfold value_of, t, strip. cbn [snd]. rewrite strip_blanks; auto. }
  change (b1 ++ chars "scale" ++ b2, b3 ++ x ++ b4) with t in Hfa.
  destruct Hfa as [[f' [_ [E' G]]] | [[A | A] _]].
  - change (value_of t = Some f') in E'. rewrite E' in Ev. inversion Ev; subst. exact G.
  - exfalso. apply A. exact En.
  - change (value_of t = None) in A. congruence.
Qed.

Lemma get_tags_none : forall s, ~ In "["%char (chars s) -> get_tags_from_name s = Ok [].
Proof.
  intros s H. assert (H' : ~ In "["%char (folded s)).
  { apply (count_occ_not_In ascii_dec). rewrite folded_count by (cbv; intuition discriminate). apply count_occ_not_In. auto. }
  apply findall_no_bracket, tags_of_folded in H'. apply get_tags_cases in H'. auto.
Qed.

Lemma findall_insert' : forall pre tp n v post tq,
  findall pre tp -> is_tag n v -> findall post tq ->
  findall (pre ++ tag n v ++ post) (tp ++ (n, v) :: tq).
Proof. intros. apply findall_insert; auto. Qed.
Lemma get_tags_determined : forall s s' ts,
  tags_of s ts -> tags_of s' ts -> get_tags_from_name s = get_tags_from_name s'.
Proof.
  intros s s' ts H H'. apply findall_iff in H, H'. unfold get_tags_from_name. congruence.
Qed.
Lemma get_tags_repeated : forall s t1 t2 ts,
  tags_of s (t1 :: t2 :: ts) -> exists w, get_tags_from_name s = Err (EValue w).
Proof. intros s t1 t2 ts H. apply get_tags_cases in H. auto. Qed.
Lemma get_tags_unsupported : forall s ts n v,
  tags_of s ts -> In (n, v) ts -> unchars (strip n) <> "scale"%string ->
  exists w, get_tags_from_name s = Err (EValue w).
Proof.
  intros s ts n v H Hi Hn. apply get_tags_cases in H. destruct ts as [ | t [ | t2 ts]]; auto.
  - destruct Hi.
  - destruct Hi as [-> | []]. destruct H as [[f [E _]] | [_ H]]; auto. contradiction.
Qed.
Lemma get_tags_not_number : forall s n v ts,
  tags_of s ts -> In (n, v) ts -> py_float (strip v) = None ->
  exists w, get_tags_from_name s = Err (EValue w).
Proof.
  intros s n v ts H Hi Hn. apply get_tags_cases in H. destruct ts as [ | t [ | t2 ts]]; auto.
  - destruct Hi.
  - destruct Hi as [-> | []]. destruct H as [[f [_ [E _]]] | [_ H]]; auto.
    unfold value_of in E. cbn [snd] in E. congruence.
Qed.
Lemma get_tags_only_scale : forall s d k f,
  get_tags_from_name s = Ok d -> In (k, f) d -> k = "scale"%string /\ d = [("scale"%string, f)].
Proof.
  intros s d k f H Hi. pose proof (get_tags_cases s _ (find_tags_spec s)) as G.
  destruct (find_tags s) as [ | t [ | t2 ts]].
  - rewrite G in H. inversion H; subst. destruct Hi.
  - destruct G as [[f' [_ [_ E]]] | [_ [w E]]]; rewrite E in H; inversion H; subst.
    destruct Hi as [Hi | []]. inversion Hi; subst. auto.
  - destruct G as [w E]. congruence.
Qed.
