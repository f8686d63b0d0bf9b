(** Which JSON documents load (Classes.v). *)
From Verif Require Import PyBase PyNum Json Unicode UnicodeFacts Version PyFacts VersionFacts Classes ClassFacts DocFacts SpecTables TableFacts
  SpecUnicode SpecNums NumFacts DrawOrder SpineGraph AnimData Editor SpecAnim SpecEditor SpecLoad.
From Coq Require Import SpecFloat.
Open Scope string_scope.

Definition ok {A} (r : res A) : Prop := exists x, r = Ok x.
Lemma ok_Ok : forall A (x : A), ok (Ok x) <-> True.
Proof. intros. split; [auto | intros _; exists x; auto]. Qed.
Lemma ok_Err : forall A e, ok (@Err A e) <-> False.
Proof. intros. split; [intros [x E]; discriminate | tauto]. Qed.
(** A bind whose second part succeeds or not whatever the first gives *)
Lemma ok_bind : forall A B (m : res A) (k : A -> res B) P Q,
  (ok m <-> P) -> (forall x, m = Ok x -> (ok (k x) <-> Q)) -> (ok (bind m k) <-> P /\ Q).
Proof.
  intros A B m k P Q Hm Hk. destruct m as [x | e]; cbn [bind].
  - rewrite (Hk x eq_refl), <- Hm, ok_Ok. tauto.
  - rewrite <- Hm, !ok_Err. tauto.
Qed.
Lemma ok_mapM : forall A B (f : A -> res B) (P : A -> Prop) l, (forall x, In x l -> (ok (f x) <-> P x)) -> (ok (mapM f l) <-> Forall P l).
Proof.
  intros A B f P l. induction l as [ | x l IH]; intros H.
  - cbn [mapM]. rewrite ok_Ok. split; auto.
  - cbn [mapM]. rewrite (ok_bind _ _ _ _ (P x) (Forall P l)); [ | apply H; left; auto | ].
    + split; [intros [a b]; constructor; auto | intros F; inversion F; auto].
    + intros y _. rewrite (ok_bind _ _ _ _ (Forall P l) True); [tauto | apply IH; intros; apply H; right; auto | ]. intros. apply ok_Ok.
Qed.
Lemma ok_dmapM : forall A B (f : A -> res B) (P : A -> Prop) d, (forall x, ok (f x) <-> P x) -> (ok (dmapM f d) <-> Forall (fun kv => P (snd kv)) d).
Proof.
  intros A B f P d H. unfold dmapM. apply ok_mapM. intros [k x] _. cbn [fst snd].
  rewrite (ok_bind _ _ _ _ (P x) True); [tauto | apply H | ]. intros. apply ok_Ok.
Qed.

(** ** The fields of an element *)
Lemma falsy_iff : forall v, falsy v <-> truthy v = false.
Proof.
  intros v. unfold falsy. split.
  - intros [H | [s ->]]; [ | reflexivity]. cbn in H. repeat destruct H as [<- | H]; try reflexivity. destruct H.
  - intros H. destruct v as [ | b | z | f | s | l | d]; cbn in H.
    + left. left. auto.
    + subst b. left. cbn. auto.
    + destruct (Z.eqb_spec z 0); [ | discriminate]. subst. left. cbn. auto.
    + destruct f; try discriminate. right. eauto.
    + unfold seqb in H. destruct (String.eqb_spec s ""); [ | discriminate]. subst. left. cbn. auto 10.
    + destruct l; [ | discriminate]. left. cbn. auto 10.
    + destruct d; [ | discriminate]. left. cbn. auto 10.
Qed.
Lemma obj_values_iff : forall c v d, obj_values c v = Ok d <-> fields_of c v d.
Proof.
  assert (A : forall v d, (if truthy v then as_dict v else Ok []) = Ok d <-> v = VDict d \/ d = [] /\ falsy v).
  { intros v d. rewrite falsy_iff. destruct (truthy v) eqn:T.
    - split; [intros H; destruct v; try discriminate H; injection H as <-; auto | intros [-> | [_ H]]; [reflexivity | discriminate]].
    - split; [intros H; injection H as <-; auto | intros [-> | [-> _]]; [ | reflexivity]]. destruct d; [reflexivity | discriminate T]. }
  assert (B : forall v d, match v with VNone => Ok [] | _ => as_dict v end = Ok d <-> v = VDict d \/ d = [] /\ v = VNone).
  { intros v d. split.
    - destruct v; intros H; try discriminate H; injection H as <-; auto.
    - intros [-> | [-> ->]]; reflexivity. }
  intros c v d. unfold fields_of, obj_values. destruct c; auto.
Qed.
Lemma fields_one : forall c v d d', fields_of c v d -> fields_of c v d' -> d = d'.
Proof. intros c v d d' H H'. apply obj_values_iff in H, H'. congruence. Qed.
Lemma check_keys_ok : forall c d, ok (check_keys (attrs_of c) (required c) d) <-> known_fields c d.
Proof.
  intros c d. rewrite check_keys_spec. unfold known_fields. destruct (tables_agree c) as (<- & _ & _ & <- & _).
  rewrite <- unknown_nil, <- missing_nil. destruct (unknown c d) eqn:U; [ | rewrite ok_Err; split; [tauto | intros [H _]; discriminate H]].
  destruct (missing c d) eqn:M; [rewrite ok_Ok; tauto | rewrite ok_Err; split; [tauto | intros [_ H]; discriminate H]].
Qed.
(** A bind after the fields are known *)
Lemma ok_fields : forall B c v (k : dict val -> res B) P, (forall d, ok (k d) <-> P d) -> (ok (let! d := obj_values c v in k d) <-> exists d, fields_of c v d /\ P d).
Proof.
  intros B c v k P H. destruct (obj_values c v) as [d | e] eqn:E; cbn [bind].
  - rewrite H. split; [intros Q; exists d; split; auto; apply obj_values_iff; auto | ]. intros (d' & F & Q).
    apply obj_values_iff in F. congruence.
  - rewrite ok_Err. split; [tauto | ]. intros (d' & F & _). apply obj_values_iff in F. congruence.
Qed.
Lemma null_or_text_iff : forall d k, is_str_or_null (get_or_none k d) = true <-> null_or_text (dget k d).
Proof. intros d k. unfold get_or_none, null_or_text. destruct (dget k d) as [[ | | | | | | ] | ]; cbn; split; intros H; try discriminate H; try destruct H; auto. Qed.
Lemma mk_obj_iff : forall c v, ok (mk_obj c v) <-> element c v.
Proof.
  intros c v. unfold mk_obj, build_obj, element.
  assert (X : ok (let! o := (let! values := obj_values c v in build_attrs c values) in if type_guard o then Ok o else Err (EUnmodelled "a name that is not a string"))
    <-> ok (let! values := obj_values c v in let! o := build_attrs c values in if type_guard o then Ok o else Err (EUnmodelled "a name that is not a string"))).
  { destruct (obj_values c v); cbn [bind]; tauto. }
  rewrite X. apply ok_fields. intros d. unfold build_attrs.
  assert (Y : forall k, In k (attrs_of c) -> oget (mkObj c (map (fun k => (k, get_or_none k d)) (attrs_of c))) k = get_or_none k d).
  { intros k H. unfold oget. cbn [o_attrs]. rewrite dget_map_key by auto. auto. }
  assert (Z : forall k, In k (name_attrs c) -> In k (attrs_of c)).
  { intros k H. destruct c; cbn in H |- *; tauto. }
  rewrite (ok_bind _ _ _ _ (known_fields c d) ((forall k, In k (names_in c) -> null_or_text (dget k d)) /\ (c = CBone \/ c = CSlot -> exists n, dget "name" d = Some (VStr n)))); [tauto | | ].
  - rewrite (ok_bind _ _ _ _ (known_fields c d) True); [tauto | apply check_keys_ok | ]. intros. apply ok_Ok.
  - intros o E. destruct (check_keys (attrs_of c) (required c) d) as [u | e]; [ | discriminate E]. cbn [bind] in E. injection E as <-.
    change (names_in c) with (name_attrs c).
    set (o := mkObj c (map (fun k => (k, get_or_none k d)) (attrs_of c))) in *.
    assert (G : type_guard o = true <-> (forall k, In k (name_attrs c) -> null_or_text (dget k d)) /\ (c = CBone \/ c = CSlot -> exists n, dget "name" d = Some (VStr n))).
    { unfold type_guard. change (o_cls o) with c. rewrite Bool.andb_true_iff, forallb_forall.
      assert (G1 : (forall x, In x (name_attrs c) -> is_str_or_null (oget o x) = true) <-> (forall k, In k (name_attrs c) -> null_or_text (dget k d))).
      { split; intros H k Hk; specialize (H k Hk); [rewrite Y in H by auto; apply null_or_text_iff; auto | rewrite Y by auto; apply null_or_text_iff; auto]. }
      rewrite G1. assert (G2 : c = CBone \/ c = CSlot -> (is_str (oget o "name") = true <-> exists n, dget "name" d = Some (VStr n))).
      { intros Hc. rewrite Y by (destruct Hc as [-> | ->]; cbn; auto). unfold get_or_none. destruct (dget "name" d) as [[ | | | | s | | ] | ]; cbn;
          (split; [intros H; try discriminate H; eauto | intros [n H]; try discriminate H; auto]). }
      assert (G3 : match c with CBone | CSlot => is_str (oget o "name") | _ => true end = true <-> (c = CBone \/ c = CSlot -> exists n, dget "name" d = Some (VStr n))).
      { destruct c; try (split; [intros _ [H | H]; discriminate H | reflexivity]); (split; [intros H _; apply G2; auto | intros H; apply G2; auto]). }
      rewrite G3. tauto. }
    destruct (type_guard o); [rewrite ok_Ok | rewrite ok_Err]; rewrite <- G; split; auto; discriminate.
Qed.

(** ** Lists and dictionaries of elements *)
Lemma unchars_nonempty : forall l, l <> [] -> unchars l <> "".
Proof. intros [ | a l] H; [contradiction | discriminate]. Qed.
Lemma each_char_nonempty : forall s c, In c (each_char s) -> c <> "".
Proof.
  intros s c H. unfold each_char in H. apply in_map_iff in H as (n & <- & _). apply unchars_nonempty. unfold encode_char.
  repeat match goal with |- context [if ?b then _ else _] => destruct b end; discriminate.
Qed.
Lemma each_char_some : forall s, s <> "" -> exists c l, each_char s = c :: l.
Proof.
  intros [ | a s] H; [contradiction | ]. unfold each_char, decode. change (chars (String a s)) with (a :: chars s). cbn [decode_from].
  destruct (first_char a (chars s)) as [n k]. eexists _, _. reflexivity.
Qed.
(** The element fails on a string that is not empty. *)
Definition no_text (P : val -> Prop) : Prop := forall s, P (VStr s) -> s = "".
Lemma fields_no_text : forall c s d, fields_of c (VStr s) d -> s = "".
Proof.
  intros c s d [H | [_ H]]; [discriminate H | ].
  assert (F : falsy (VStr s) -> s = "").
  { intros X. apply falsy_iff in X. cbn in X. unfold seqb in X. destruct (String.eqb_spec s ""); [auto | discriminate X]. }
  destruct c; auto; discriminate H.
Qed.
Lemma element_no_text : forall c, no_text (element c).
Proof. intros c s (d & F & _). eapply fields_no_text; eauto. Qed.
Lemma compound_no_text : forall c p, no_text (compound c p).
Proof. intros c p s (d & F & _). eapply fields_no_text; eauto. Qed.
Lemma list_of_iff : forall A (f : val -> res A) P v, (forall x, ok (f x) <-> P x) -> no_text P -> (ok (list_of f (Some v)) <-> list_like P v).
Proof.
  intros A f P v H N. unfold list_like. cbn [list_of]. destruct v as [ | b | z | x | s | l | d]; cbn [py_iter bind].
  1-4: rewrite ok_Err; split; [tauto | intros [(l & E & _) | [(d & E & _) | E]]; discriminate E].
  - destruct (String.eqb_spec s "") as [-> | D].
    + cbn. rewrite ok_Ok. tauto.
    + rewrite (ok_mapM _ _ f P) by auto. split; [ | intros [(l & E & _) | [(d & E & _) | E]]; [discriminate E | discriminate E | injection E as ->; contradiction]].
      intros F. destruct (each_char_some s D) as (c & l & E). rewrite E in F. cbn [map] in F. inversion F; subst.
      match goal with K : P (VStr c) |- _ => apply N in K; subst c end. destruct (each_char_nonempty s ""); [rewrite E; left; auto | auto].
  - rewrite (ok_mapM _ _ f P) by auto. split; [eauto | ]. intros [(l' & E & F) | [(d & E & _) | E]]; [injection E as <-; auto | discriminate E | discriminate E].
  - rewrite (ok_mapM _ _ f P) by auto. rewrite Forall_map. split; [eauto | ]. intros [(l' & E & F) | [(d' & E & F) | E]]; [discriminate E | injection E as <-; auto | discriminate E].
Qed.
Lemma list_of_may : forall A (f : val -> res A) P v, (forall x, ok (f x) <-> P x) -> no_text P -> (ok (list_of f v) <-> may_be (list_like P) v).
Proof. intros A f P [v | ] H N; [apply list_of_iff; auto | cbn; rewrite ok_Ok; tauto]. Qed.
Lemma dict_of_may : forall A (f : val -> res A) P v, (forall x, ok (f x) <-> P x) -> (ok (dict_of f v) <-> may_be (dict_like P) v).
Proof.
  intros A f P v H. unfold dict_like, dict_only. destruct v as [v | ]; [ | cbn; rewrite ok_Ok; tauto].
  destruct v as [ | b | z | x | s | l | d]; cbn [dict_of may_be].
  1-4: rewrite ok_Err; split; [tauto | intros [(d & E & _) | [E | E]]; discriminate E].
  - destruct s; [rewrite ok_Ok; tauto | rewrite ok_Err; split; [tauto | intros [(d & E & _) | [E | E]]; discriminate E]].
  - destruct l; [rewrite ok_Ok; tauto | ]. split; [intros [y E]; destruct (by_elements_not _ _ _ _ E) | intros [(d & E & _) | [E | E]]; discriminate E].
  - rewrite (ok_dmapM _ _ f P) by auto. split; [eauto | intros [(d' & E & F) | [E | E]]; [injection E as <-; auto | discriminate E | discriminate E]].
Qed.
Lemma items_of_iff : forall A (f : val -> res A) P v, (forall x, ok (f x) <-> P x) -> (ok (items_of f v) <-> dict_only P v).
Proof.
  intros A f P v H. unfold dict_only, items_of. destruct v as [ | b | z | x | s | l | d]; cbn [as_dict bind].
  1-6: rewrite ok_Err; split; [tauto | intros (d & E & _); discriminate E].
  rewrite (ok_dmapM _ _ f P) by auto. split; [eauto | intros (d' & E & F); injection E as <-; auto].
Qed.
Lemma items_of_may : forall A (f : val -> res A) P v, (forall x, ok (f x) <-> P x) ->
  (ok (items_of f (match v with Some x => x | None => vdict end)) <-> may_be (dict_only P) v).
Proof. intros A f P [v | ] H; [apply items_of_iff; auto | ]. rewrite (items_of_iff _ _ P) by auto. cbn. split; auto. intros _. exists []. auto. Qed.

(** ** Elements with other elements *)
Fixpoint all_parts (d : dict val) (l : list (string * (val -> Prop))) (Q : Prop) : Prop :=
  match l with [] => Q | (k, P) :: l' => may_be P (dget k d) /\ all_parts d l' Q end.
Lemma all_parts_iff : forall d l Q, all_parts d l Q <-> (forall k P, In (k, P) l -> may_be P (dget k d)) /\ Q.
Proof.
  intros d l Q. induction l as [ | [k P] l IH]; cbn [all_parts].
  - split; [intros H; split; auto; intros k P [] | tauto].
  - rewrite IH. split.
    + intros (H1 & H2 & H3). split; auto. intros k' P' [E | E]; [injection E as <- <-; auto | eauto].
    + intros (H1 & H2). split; [apply H1; left; auto | split; auto]. intros k' P' E. apply H1. right. auto.
Qed.
Lemma compound_iff : forall B c p v (k : dict val -> res B), (forall d, ok (k d) <-> all_parts d p (known_fields c d)) ->
  (ok (let! d := obj_values c v in k d) <-> compound c p v).
Proof.
  intros B c p v k H. rewrite (ok_fields _ c v k _ H). unfold compound. split; intros (d & F & G); exists d; split; auto; apply all_parts_iff in G || apply all_parts_iff; tauto.
Qed.
Ltac part := apply ok_bind; [first [apply list_of_may | apply dict_of_may | apply items_of_may] | intros ? _].
Lemma ok_last : forall A c d (x : A), ok (let! _ := check_keys (attrs_of c) (required c) d in Ok x) <-> known_fields c d.
Proof. intros. rewrite (ok_bind _ _ _ _ (known_fields c d) True); [tauto | apply check_keys_ok | intros; apply ok_Ok]. Qed.
Ltac last_part := apply ok_last.
Ltac elements := first [apply mk_obj_iff | apply element_no_text | apply compound_no_text].
Lemma mk_slot_timeline_iff : forall v, ok (mk_slot_timeline v) <-> slot_timeline_doc v.
Proof. intros v. apply compound_iff. intros d. do 3 (part; [elements | elements | ]). last_part. Qed.
Lemma mk_bone_timeline_iff : forall v, ok (mk_bone_timeline v) <-> bone_timeline_doc v.
Proof. intros v. apply compound_iff. intros d. do 4 (part; [elements | elements | ]). last_part. Qed.
Lemma mk_draw_order_iff : forall v, ok (mk_draw_order v) <-> draw_order_doc v.
Proof. intros v. apply compound_iff. intros d. part; [elements | elements | ]. last_part. Qed.
Lemma mk_animation_iff : forall v, ok (mk_animation v) <-> animation_doc v.
Proof.
  intros v. apply compound_iff. intros d.
  part; [intros v1; apply list_of_iff; elements | ].
  part; [apply mk_draw_order_iff | elements | ].
  part; [apply mk_bone_timeline_iff | ].
  part; [apply mk_slot_timeline_iff | ].
  part; [elements | elements | ].
  part; [intros v1; apply list_of_iff; elements | ].
  part; [intros v1; apply items_of_iff; intros v2; apply list_of_iff; elements | ].
  part; [intros v1; apply items_of_iff; intros v2; apply items_of_iff; intros v3; apply list_of_iff; elements | ].
  last_part.
Qed.
Lemma attachments_of_iff : forall A (f : val -> res A) P v, (forall x, ok (f x) <-> P x) -> (ok (mk_attachments_of f v) <-> dict_only P v).
Proof.
  intros A f P v H. split.
  - intros [r E]. apply attachments_of_ok in E as (d & -> & E). exists d. split; auto. apply (ok_dmapM _ _ f P); auto. exists r. auto.
  - intros (d & -> & F). cbn [mk_attachments_of]. apply (ok_dmapM _ _ f P); auto.
Qed.
Lemma type_kept : forall c d, element c (VDict d) -> In "type" (dkeys d) -> In "type" (r_attrs (declared c)).
Proof. intros c d (d' & F & (K & _) & _) H. assert (d' = d) as -> by (eapply fields_one; [exact F | left; auto]). auto. Qed.
Lemma mk_attachment_iff : forall v, ok (mk_attachment v) <-> attachment_doc v.
Proof.
  intros v. unfold attachment_doc. destruct v as [ | b | z | x | s | l | d]; cbn [mk_attachment as_dict bind].
  1-6: rewrite ok_Err; split; [tauto | intros (d & E & _); discriminate E].
  assert (X : forall Q, (exists d0, VDict d = VDict d0 /\ Q d0) <-> Q d).
  { intros Q. split; [intros (d0 & E & H); injection E as <-; auto | eauto]. }
  rewrite (X (fun d0 => match dget "type" d0 with
    | None | Some VNone => element CSkinAttachment (VDict d) | Some (VStr "mesh") => element CSkinMesh (VDict d)
    | Some (VStr "linkedmesh") => element CSkinLinkedMesh (VDict d) | Some (VStr "path") => element CSkinPath (VDict d) | _ => False end)).
  unfold get_or_none. destruct (dget "type" d) as [t | ] eqn:E; [ | apply mk_obj_iff].
  assert (K : In "type" (dkeys d)) by (eapply dget_in_keys; eauto).
  destruct t as [ | b | z | x | s | l | y]; cbn [attachment_class]; try (cbn [bind]; rewrite ok_Err; tauto); [cbn [bind]; apply mk_obj_iff | ].
  unfold seqb.
  destruct (String.eqb_spec s "path") as [-> | D1]; [apply mk_obj_iff | ].
  destruct (String.eqb_spec s "mesh") as [-> | D2]; [apply mk_obj_iff | ].
  destruct (String.eqb_spec s "linkedmesh") as [-> | D3]; [apply mk_obj_iff | ].
  assert (G : forall Q R S : Prop, match s with "mesh" => Q | "linkedmesh" => R | "path" => S | _ => False end <-> False).
  { intros Q R S. split; [ | tauto]. intros H.
    repeat match type of H with match ?x with _ => _ end => destruct x; try contradiction end. }
  rewrite G.
  destruct (String.eqb_spec s "point"); [cbn [bind]; rewrite mk_obj_iff; split; [intros T; apply type_kept in T; auto; cbn in T; intuition discriminate | tauto] | ].
  destruct (String.eqb_spec s "clipping"); [cbn [bind]; rewrite mk_obj_iff; split; [intros T; apply type_kept in T; auto; cbn in T; intuition discriminate | tauto] | ].
  destruct (String.eqb_spec s "boundingbox"); [cbn [bind]; rewrite mk_obj_iff; split; [intros T; apply type_kept in T; auto; cbn in T; intuition discriminate | tauto] | ].
  cbn [bind]. rewrite ok_Err. tauto.
Qed.
Lemma mk_skin_iff : forall v, ok (mk_skin v) <-> skin_doc_ok v.
Proof.
  intros v. unfold mk_skin. apply ok_fields. intros d. cbv zeta.
  rewrite (ok_bind _ _ _ _ (known_fields CSkin38 d) ((dget "attachments" d = Some VNone \/ may_be (dict_only (dict_only attachment_doc)) (dget "attachments" d)) /\ null_or_text (dget "name" d))); [tauto | apply check_keys_ok | intros ? _].
  apply ok_bind.
  - assert (A : forall w, ok (mk_attachments w) <-> dict_only (dict_only attachment_doc) w).
    { intros w. apply attachments_of_iff. intros v1. apply attachments_of_iff. intros v2. apply mk_attachment_iff. }
    assert (B : forall w, ok (let! x := mk_attachments w in Ok (Some x)) <-> dict_only (dict_only attachment_doc) w).
    { intros w. rewrite (ok_bind _ _ _ _ (dict_only (dict_only attachment_doc) w) True); [tauto | apply A | intros; apply ok_Ok]. }
    unfold get_or_none. destruct (dget "attachments" d) as [w | ]; [ | rewrite ok_Ok; cbn; tauto]. cbn [may_be].
    destruct w; try (rewrite B; split; [auto | intros [H | H]; [discriminate H | auto]]). rewrite ok_Ok. tauto.
  - intros a _. rewrite <- null_or_text_iff. destruct (is_str_or_null (get_or_none "name" d)); [rewrite ok_Ok; tauto | rewrite ok_Err; split; [tauto | discriminate]].
Qed.

(** ** The document *)
Lemma dget_err_list : forall A (f : val -> res A) P k d, (forall x, ok (f x) <-> P x) -> no_text P ->
  (ok (let! x := dget_err k d in list_of f (Some x)) <-> exists x, dget k d = Some x /\ list_like P x).
Proof.
  intros A f P k d H N. unfold dget_err. destruct (dget k d) as [x | ]; cbn [bind].
  - rewrite (list_of_iff _ _ P) by auto. split; [eauto | intros (y & E & L); injection E as <-; auto].
  - rewrite ok_Err. split; [tauto | intros (y & E & _); discriminate E].
Qed.
Lemma skin_no_text : no_text skin_doc_ok.
Proof. intros s (d & F & _). eapply fields_no_text; eauto. Qed.
Definition data_doc (d : dict val) : Prop :=
  (exists x, dget "bones" d = Some x /\ list_like (element CBone) x) /\ (exists x, dget "slots" d = Some x /\ list_like (element CSlot) x) /\
  (exists x, dget "skins" d = Some x /\ list_like skin_doc_ok x) /\ may_be (dict_like (element CEvents)) (dget "events" d) /\
  may_be (list_like (element CIk)) (dget "ik" d) /\ may_be (list_like (element CTransform)) (dget "transform" d) /\
  may_be (list_like (element CPath)) (dget "path" d) /\ may_be (dict_like animation_doc) (dget "animations" d) /\ known_fields CAnimData d.
Lemma mk_data_iff : forall d, ok (mk_data d) <-> data_doc (ddel "skeleton" d).
Proof.
  intros d. unfold mk_data. cbv zeta. generalize (ddel "skeleton" d). clear d. intros d. unfold data_doc.
  apply ok_bind; [apply dget_err_list; elements | intros ? _].
  apply ok_bind; [apply dget_err_list; elements | intros ? _].
  apply ok_bind; [apply dget_err_list; [apply mk_skin_iff | apply skin_no_text] | intros ? _].
  part; [elements | ]. part; [elements | elements | ]. part; [elements | elements | ]. part; [elements | elements | ].
  part; [apply mk_animation_iff | ].
  rewrite (ok_bind _ _ _ _ (known_fields CAnimData d) True); [tauto | apply check_keys_ok | intros; apply ok_Ok].
Qed.
Lemma load_iff : forall v, ok (load_document v) <-> exists d sk ver, document_doc v d sk ver.
Proof.
  assert (K : forall d, known_fields CAnimData (ddel "skeleton" d) <-> forall k, In k (dkeys d) -> k = "skeleton" \/ In k (r_attrs (declared CAnimData))).
  { intros d. unfold known_fields. split.
    - intros [H _] k Hk. destruct (String.eqb_spec k "skeleton"); auto. right. apply H. unfold ddel, dkeys in *. apply in_map_iff in Hk as ([k' x] & <- & Hk).
      apply in_map_iff. exists (k', x). split; auto. apply filter_In. split; auto. cbn [fst] in *. apply Bool.negb_true_iff, String.eqb_neq. auto.
    - intros H. split; [ | intros k []]. intros k Hk. unfold ddel, dkeys in Hk. apply in_map_iff in Hk as ([k' x] & <- & Hk).
      apply filter_In in Hk as [Hk D]. cbn [fst] in *. apply Bool.negb_true_iff, String.eqb_neq in D. destruct (H k'); [ | congruence | auto].
      apply in_map_iff. exists (k', x). auto. }
  assert (G : forall (d : dict val) k, k <> "skeleton" -> dget k (ddel "skeleton" d) = dget k d).
  { intros d k H. rewrite dget_ddel. apply String.eqb_neq in H. rewrite H. auto. }
  intros v. split.
  - intros [x E]. pose proof (load_document_inv _ _ E) as (d & sk & s & y & -> & Hs & Hp & Hv & Hy & _ & _).
    exists d, sk, (doc_version x). assert (O : ok (mk_data d)) by (exists y; auto). apply mk_data_iff in O.
    unfold data_doc in O. rewrite !G in O by discriminate. rewrite K in O. destruct O as (O1 & O2 & O3 & O4 & O5 & O6 & O7 & O8 & O9).
    constructor; auto. apply mk_version_iff in Hv as (l & R & T). eauto.
  - intros (d & sk & ver & [-> Hs (s & l & Hp & R & T) O9 O1 O2 O3 O4 O5 O6 O7 O8]).
    assert (O : data_doc (ddel "skeleton" d)). { unfold data_doc. rewrite !G by discriminate. rewrite K. auto 12. }
    apply mk_data_iff in O as [y Ey]. cbn [load_document]. unfold dget_err at 1. rewrite Hs. cbn [bind py_item]. unfold dget_err. rewrite Hp. cbn [bind].
    assert (V : mk_version s = Ok ver) by (apply mk_version_iff; eauto). rewrite V. cbn [bind]. rewrite Ey. cbn [bind]. eexists. reflexivity.
Qed.

Lemma load_fits : forall v x, load_document v = Ok x -> exists d, document_doc v d (doc_skeleton x) (doc_version x).
Proof.
  intros v x E. destruct (proj1 (load_iff v) (ex_intro _ x E)) as (d & sk & ver & Dd). exists d.
  pose proof (load_document_inv _ _ E) as (d' & sk' & s & y & Ev & Hs & Hp & Hv & Hy & Ek & _). destruct Dd as [-> D2 D3 D4 D5 D6 D7 D8 D9 D10 D11 D12].
  injection Ev as <-. rewrite Hs in D2. injection D2 as ->. constructor; auto; [rewrite Ek; auto | ].
  destruct D3 as (s0 & l & P0 & R & T). assert (Es : s0 = s) by congruence. subst s0. exists s. apply mk_version_iff in Hv as (l' & R' & T'). rewrite Ek. eauto.
Qed.
Lemma load_of_doc : forall v d sk ver, document_doc v d sk ver -> exists x, load_document v = Ok x /\ doc_skeleton x = sk /\ doc_version x = ver.
Proof.
  intros v d sk ver Dd. destruct (proj2 (load_iff v)) as [x E]; [eauto | ]. exists x. split; [auto | ].
  pose proof (load_document_inv _ _ E) as (d' & sk' & s & y & Ev & Hs & Hp & Hv & Hy & Ek & _). destruct Dd as [-> D2 (s0 & l & P0 & R & T) _ _ _ _ _ _ _ _ _].
  injection Ev as <-. rewrite Hs in D2. injection D2 as ->. split; [auto | ]. assert (Es : s0 = s) by congruence. subst s0.
  assert (V : mk_version s = Ok ver) by (apply mk_version_iff; eauto). congruence.
Qed.

(** ** Documents of the expected JSON types *)
Definition raises {A} (r : res A) : Prop := forall e, r = Err e -> parsing_error e.
Lemma raises_bind : forall A B (m : res A) (k : A -> res B), raises m -> (forall x, m = Ok x -> raises (k x)) -> raises (bind m k).
Proof. intros A B m k Hm Hk e E. destruct m as [x | e']; cbn [bind] in E; [eapply Hk; eauto | injection E as <-; apply Hm; auto]. Qed.
Lemma raises_Ok : forall A (x : A), raises (Ok x).
Proof. intros A x e E. discriminate E. Qed.
Lemma raises_mapM : forall A B (f : A -> res B) (P : A -> Prop) l, (forall x, P x -> raises (f x)) -> Forall P l -> raises (mapM f l).
Proof.
  intros A B f P l H F. induction F as [ | x l Hx F IH]; cbn [mapM]; [apply raises_Ok | ].
  apply raises_bind; [auto | ]. intros y _. apply raises_bind; [auto | ]. intros. apply raises_Ok.
Qed.
Lemma raises_dmapM : forall A B (f : A -> res B) (P : A -> Prop) d, (forall x, P x -> raises (f x)) -> Forall (fun kv => P (snd kv)) d -> raises (dmapM f d).
Proof. intros A B f P d H F. unfold dmapM. eapply raises_mapM; [ | exact F]. intros [k x] Hx. apply raises_bind; [auto | ]. intros. apply raises_Ok. Qed.
Lemma raises_keys : forall c d, raises (check_keys (attrs_of c) (required c) d).
Proof.
  intros c d e. rewrite check_keys_spec. destruct (unknown c d) as [ | a u]; [destruct (missing c d) as [ | b m]; intros E; try discriminate E | intros E].
  - injection E as <-. right. left. eexists. split; [ | reflexivity]. discriminate.
  - injection E as <-. left. eexists. split; [ | reflexivity]. discriminate.
Qed.
Lemma raises_list : forall A (f : val -> res A) (P : val -> Prop) v, (forall x, P x -> raises (f x)) -> may_be (typed_list P) v -> raises (list_of f v).
Proof. intros A f P [v | ] H T; [ | apply raises_Ok]. destruct T as (l & -> & F). cbn [list_of py_iter bind]. eapply raises_mapM; eauto. Qed.
Lemma raises_list1 : forall A (f : val -> res A) (P : val -> Prop) v, (forall x, P x -> raises (f x)) -> typed_list P v -> raises (list_of f (Some v)).
Proof. intros A f P v H T. eapply raises_list; eauto. Qed.
Lemma raises_dict : forall A (f : val -> res A) (P : val -> Prop) v, (forall x, P x -> raises (f x)) -> may_be (dict_only P) v -> raises (dict_of f v).
Proof. intros A f P [v | ] H T; [ | apply raises_Ok]. destruct T as (d & -> & F). cbn [dict_of]. eapply raises_dmapM; eauto. Qed.
Lemma raises_items : forall A (f : val -> res A) (P : val -> Prop) v, (forall x, P x -> raises (f x)) -> dict_only P v -> raises (items_of f v).
Proof. intros A f P v H (d & -> & F). unfold items_of. cbn [as_dict bind]. eapply raises_dmapM; eauto. Qed.
Lemma raises_items_may : forall A (f : val -> res A) (P : val -> Prop) v, (forall x, P x -> raises (f x)) -> may_be (dict_only P) v -> raises (items_of f (match v with Some x => x | None => vdict end)).
Proof. intros A f P [v | ] H T; [eapply raises_items; eauto | ]. eapply raises_items; eauto. exists []. auto. Qed.
Lemma raises_obj : forall c v, typed_element c v -> raises (mk_obj c v).
Proof.
  intros c v (d & -> & N & B) e E. assert (C : ~ element c (VDict d)) by (intros H; apply mk_obj_iff in H as [x H]; congruence).
  destruct (check_keys (attrs_of c) (required c) d) as [[] | e'] eqn:K.
  - destruct C. assert (K' : known_fields c d) by (apply check_keys_ok; exists tt; auto). exists d. split; [left; auto | ]. split; [auto | ]. split; [auto | ].
    intros Hc. assert (R : In "name" (dkeys d)). { apply K'. destruct Hc as [-> | ->]; cbn; auto. }
    destruct (dget "name" d) as [w | ] eqn:G; [ | apply dget_none in G; contradiction].
    assert (T : null_or_text (dget "name" d)) by (apply N; destruct Hc as [-> | ->]; cbn; auto). rewrite G in T. cbn in T. destruct w; try destruct T; [destruct (B Hc); auto | eauto].
  - unfold mk_obj, build_obj in E. rewrite obj_values_dict in E. cbn [bind] in E. unfold build_attrs in E. rewrite K in E. cbn [bind] in E. injection E as <-. eapply raises_keys; eauto.
Qed.
Lemma part_of : forall p d (v : val), v = VDict d -> typed_parts p v -> forall k P, In (k, P) p -> may_be P (dget k d).
Proof. intros p d v -> (d' & E & H). injection E as <-. exact H. Qed.
Ltac typed_part H := apply raises_bind; [first [eapply raises_list; [ | apply H; cbn; tauto] | eapply raises_dict; [ | apply H; cbn; tauto] | eapply raises_items_may; [ | apply H; cbn; tauto]] | intros ? _].
Ltac typed_last := apply raises_bind; [apply raises_keys | intros; apply raises_Ok].
Lemma raises_slot_timeline : forall v, typed_slot_timeline v -> raises (mk_slot_timeline v).
Proof. intros v (d & -> & H). unfold mk_slot_timeline. rewrite obj_values_dict. cbn [bind]. do 3 (typed_part H; [apply raises_obj | ]). typed_last. Qed.
Lemma raises_bone_timeline : forall v, typed_bone_timeline v -> raises (mk_bone_timeline v).
Proof. intros v (d & -> & H). unfold mk_bone_timeline. rewrite obj_values_dict. cbn [bind]. do 4 (typed_part H; [apply raises_obj | ]). typed_last. Qed.
Lemma raises_draw_order : forall v, typed_draw_order v -> raises (mk_draw_order v).
Proof. intros v (d & -> & H). unfold mk_draw_order. rewrite obj_values_dict. cbn [bind]. typed_part H; [apply raises_obj | ]. typed_last. Qed.
Lemma raises_animation : forall v, typed_animation v -> raises (mk_animation v).
Proof.
  intros v (d & -> & H). unfold mk_animation. rewrite obj_values_dict. cbn [bind].
  typed_part H; [intros v1; apply raises_list1, raises_obj | ].
  typed_part H; [apply raises_draw_order | ].
  typed_part H; [apply raises_bone_timeline | ].
  typed_part H; [apply raises_slot_timeline | ].
  typed_part H; [apply raises_obj | ].
  typed_part H; [intros v1; apply raises_list1, raises_obj | ].
  typed_part H; [intros v1; apply raises_items; intros v2; apply raises_list1, raises_obj | ].
  typed_part H; [intros v1; apply raises_items; intros v2; apply raises_items; intros v3; apply raises_list1, raises_obj | ].
  typed_last.
Qed.
Lemma raises_attachment : forall v, typed_attachment v -> raises (mk_attachment v).
Proof.
  intros v (d & -> & H). unfold mk_attachment. cbn [as_dict bind]. apply raises_bind.
  - intros e E. right. right. unfold attachment_class in E. destruct (get_or_none "type" d); try discriminate E; try (injection E as <-; eauto; fail).
    repeat match type of E with (if ?b then _ else _) = _ => destruct b; try discriminate E end. injection E as <-. eauto.
  - intros c Ec. apply raises_obj. exists d. split; [auto | ].
    assert (C : In c [CSkinPath; CSkinMesh; CSkinLinkedMesh; CSkinPoint; CSkinClipping; CSkinBoundingBox; CSkinAttachment]).
    { unfold attachment_class in Ec. destruct (get_or_none "type" d); try discriminate Ec; [injection Ec as <-; cbn; tauto | ].
      repeat match type of Ec with (if ?b then _ else _) = _ => destruct b; [injection Ec as <-; cbn; tauto | ] end. discriminate Ec. }
    split; [ | intros [-> | ->]; cbn in C; repeat destruct C as [C | C]; try discriminate C; destruct C].
    intros k Hk. apply H. cbn in C. repeat destruct C as [<- | C]; cbn in Hk |- *; tauto.
Qed.
Lemma raises_atts : forall A (f : val -> res A) (P : val -> Prop) v, (forall x, P x -> raises (f x)) -> dict_only P v -> raises (mk_attachments_of f v).
Proof. intros A f P v H (d & -> & F). cbn [mk_attachments_of]. eapply raises_dmapM; eauto. Qed.
Lemma raises_skin : forall v, typed_skin v -> raises (mk_skin v).
Proof.
  intros v (d & -> & N & A). unfold mk_skin. rewrite obj_values_dict. cbn [bind]. cbv zeta. apply raises_bind; [apply raises_keys | intros _ _]. apply raises_bind.
  - unfold get_or_none. assert (T : forall w, dict_only (dict_only typed_attachment) w -> raises (let! x := mk_attachments w in Ok (Some x))).
    { intros w Hw. apply raises_bind; [ | intros; apply raises_Ok]. eapply raises_atts; [ | exact Hw]. intros v1. apply raises_atts. apply raises_attachment. }
    destruct (dget "attachments" d) as [w | ]; [ | apply raises_Ok]. destruct A as [A | A]; [injection A as ->; apply raises_Ok | ]. cbn [may_be] in A.
    destruct w; try (apply T; auto; fail). apply raises_Ok.
  - intros a _. apply null_or_text_iff in N. rewrite N. apply raises_Ok.
Qed.
Lemma load_raises : forall v, typed_document v -> raises (load_document v).
Proof.
  intros v (d & sk & s & -> & Hs & Hp & Hk & T). cbn [load_document]. unfold dget_err at 1. rewrite Hs. cbn [bind py_item]. unfold dget_err. rewrite Hp. cbn [bind].
  apply raises_bind; [intros e E; right; right; eapply mk_version_err; eauto | intros ver _].
  assert (H : forall k P, In (k, P) [("bones", typed_list (typed_element CBone)); ("slots", typed_list (typed_element CSlot)); ("skins", typed_list typed_skin);
   ("events", dict_only (typed_element CEvents)); ("ik", typed_list (typed_element CIk)); ("transform", typed_list (typed_element CTransform));
   ("path", typed_list (typed_element CPath)); ("animations", dict_only typed_animation)] -> may_be P (dget k (ddel "skeleton" d))).
  { intros k P I. assert (k <> "skeleton") by (cbn in I; repeat destruct I as [I | I]; try (injection I as <- _; discriminate); destruct I).
    rewrite dget_ddel. destruct (String.eqb_spec k "skeleton"); [contradiction | ]. eapply part_of; [reflexivity | exact T | exact I]. }
  assert (L : forall A (f : val -> res A) (P : val -> Prop) k, k <> "skeleton" -> In k ["bones"; "slots"; "skins"] -> (forall x, P x -> raises (f x)) -> may_be (typed_list P) (dget k (ddel "skeleton" d)) ->
    raises (let! x := dget_err k (ddel "skeleton" d) in list_of f (Some x))).
  { intros A f P k D I R M. unfold dget_err. pose proof (Hk k I) as Hn. rewrite dget_ddel in *. destruct (String.eqb_spec k "skeleton"); [contradiction | ].
    destruct (dget k d) as [w | ]; [ | contradiction]. cbn [bind]. eapply raises_list1; eauto. }
  apply raises_bind; [ | intros; apply raises_Ok]. unfold mk_data. cbv zeta.
  apply raises_bind; [eapply L; [discriminate | cbn; tauto | apply raises_obj | apply H; cbn; tauto] | intros ? _].
  apply raises_bind; [eapply L; [discriminate | cbn; tauto | apply raises_obj | apply H; cbn; tauto] | intros ? _].
  apply raises_bind; [eapply L; [discriminate | cbn; tauto | apply raises_skin | apply H; cbn; tauto] | intros ? _].
  do 4 (typed_part H; [apply raises_obj | ]). typed_part H; [apply raises_animation | ]. typed_last.
Qed.
