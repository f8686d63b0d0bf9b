(** Loading raises [EDiverges] only in the loop over the ancestors of a bone. *)
From Verif Require Import PyBase PyNum Json Version Tags Classes Graph SpineGraph DrawOrder AnimData Editor
  PyFacts GraphFacts SpecTags TagFacts SpecAnim SkinFacts ScaleFacts.
Open Scope string_scope.

Definition ends {A} (r : res A) : Prop := r <> Err EDiverges.

Lemma ends_bind : forall A B (m : res A) (f : A -> res B), ends m -> (forall a, ends (f a)) -> ends (bind m f).
Proof. unfold ends. intros A B [a | e] f H H'; cbn [bind]; auto. intros E. injection E as ->. apply H. auto. Qed.
Lemma ends_mapM : forall A B (f : A -> res B) l, (forall x, ends (f x)) -> ends (mapM f l).
Proof.
  intros A B f l H. induction l as [ | x l IH]; cbn [mapM]; [discriminate | ].
  apply ends_bind; auto. intros y. apply ends_bind; auto. discriminate.
Qed.
Lemma ends_dmapM : forall A B (f : A -> res B) d, (forall x, ends (f x)) -> ends (dmapM f d).
Proof.
  intros A B f d H. unfold dmapM. apply ends_mapM. intros kv. apply ends_bind; auto. discriminate.
Qed.
Lemma ends_foldM : forall S A (f : S -> A -> res S) l s, (forall s x, In x l -> ends (f s x)) -> ends (foldM f s l).
Proof.
  intros S A f l. induction l as [ | x l IH]; intros s H; cbn [foldM]; [discriminate | ].
  apply ends_bind; [apply H; left; auto | ]. intros s'. apply IH. intros s2 y Hy. apply H. right. auto.
Qed.

Create HintDb ends.
Ltac ends_auto :=
  repeat (first
    [ discriminate
    | assumption
    | solve [auto 10 with ends]
    | apply ends_bind; [ | intro]
    | apply ends_mapM; intro
    | apply ends_dmapM; intro
    | match goal with
      | |- ends (match ?x with _ => _ end) => destruct x
      | |- ends (if ?x then _ else _) => destruct x
      | |- ends (let '(_, _) := ?x in _) => destruct x
      end ]).

Lemma ends_as_dict : forall v, ends (as_dict v).
Proof. intros v. unfold as_dict. ends_auto. Qed.
Lemma ends_py_iter : forall v, ends (py_iter v).
Proof. intros v. unfold py_iter. ends_auto. Qed.
Lemma ends_py_item : forall v k, ends (py_item v k).
Proof. intros v k. unfold py_item, dget_err. ends_auto. Qed.
Lemma ends_obj_values : forall c v, ends (obj_values c v).
Proof. intros c v. unfold obj_values. pose proof (ends_as_dict v). destruct c, v; ends_auto. Qed.
Lemma ends_check_keys : forall a b v, ends (check_keys a b v).
Proof. intros. unfold check_keys. cbv zeta. ends_auto. Qed.
Lemma ends_mk_obj : forall c v, ends (mk_obj c v).
Proof.
  intros. unfold mk_obj, build_obj, build_attrs. pose proof (ends_obj_values c v).
  pose proof ends_check_keys. ends_auto; auto.
Qed.
Lemma ends_list_of : forall A (f : val -> res A) v, (forall x, ends (f x)) -> ends (list_of f v).
Proof. intros A f v H. unfold list_of. destruct v; ends_auto; auto; apply ends_py_iter. Qed.
Lemma ends_by_elements : forall A (f : val -> res A) l, (forall x, ends (f x)) -> ends (by_elements f l).
Proof.
  intros A f l H. unfold by_elements. apply ends_bind; [ | intros; discriminate]. apply ends_mapM. intros x. apply ends_bind; [ | auto].
  unfold py_nth. cbv zeta. ends_auto.
Qed.
Lemma ends_dict_of : forall A (f : val -> res A) v, (forall x, ends (f x)) -> ends (dict_of f v).
Proof. intros A f v H. assert (B := fun l => ends_by_elements A f l H). unfold dict_of. ends_auto; auto. Qed.
Lemma ends_items_of : forall A (f : val -> res A) v, (forall x, ends (f x)) -> ends (items_of f v).
Proof. intros A f v H. unfold items_of. ends_auto; auto; apply ends_as_dict. Qed.

#[local] Hint Resolve ends_as_dict ends_py_iter ends_py_item ends_obj_values ends_check_keys
  ends_mk_obj ends_list_of ends_dict_of ends_items_of : ends.

Lemma ends_mk_slot_timeline : forall v, ends (mk_slot_timeline v).
Proof. intros. unfold mk_slot_timeline. ends_auto; auto with ends. Qed.
Lemma ends_mk_bone_timeline : forall v, ends (mk_bone_timeline v).
Proof. intros. unfold mk_bone_timeline. ends_auto; auto with ends. Qed.
Lemma ends_mk_draw_order : forall v, ends (mk_draw_order v).
Proof. intros. unfold mk_draw_order. ends_auto; auto with ends. Qed.
#[local] Hint Resolve ends_mk_slot_timeline ends_mk_bone_timeline ends_mk_draw_order : ends.
Lemma ends_mk_animation : forall v, ends (mk_animation v).
Proof. intros. unfold mk_animation. ends_auto; auto 10 with ends. Qed.
Lemma ends_mk_attachment : forall v, ends (mk_attachment v).
Proof. intros. unfold mk_attachment, attachment_class. ends_auto; auto with ends. Qed.
#[local] Hint Resolve ends_mk_animation ends_mk_attachment : ends.
Lemma ends_mk_skin : forall v, ends (mk_skin v).
Proof.
  intros. unfold mk_skin. cbv zeta.
  apply ends_bind; [auto with ends | intros d]. apply ends_bind; [auto with ends | intros _].
  apply ends_bind; [ | intros; ends_auto].
  assert (H : forall w, ends (mk_attachments w)).
  { assert (K : forall A (f : val -> res A) w, (forall x, ends (f x)) -> ends (mk_attachments_of f w)).
    { intros A f w K. unfold mk_attachments_of. assert (B := fun l => ends_by_elements A f l K). ends_auto; auto. }
    intros w. apply K. intros x. apply K. intros. apply ends_mk_attachment. }
  destruct (get_or_none "attachments" d); try discriminate; (apply ends_bind; [apply H | discriminate]).
Qed.
#[local] Hint Resolve ends_mk_skin : ends.
Lemma ends_mk_data : forall d, ends (mk_data d).
Proof. intros. unfold mk_data, dget_err. ends_auto; auto with ends. Qed.
Lemma ends_mk_version : forall s, ends (mk_version s).
Proof. intros. unfold mk_version, split_version, validate_version, component. ends_auto. Qed.
#[local] Hint Resolve ends_mk_data ends_mk_version : ends.
Theorem ends_load_document : forall v, ends (load_document v).
Proof. intros. unfold load_document, dget_err. ends_auto; auto with ends. Qed.

(** ** The graph *)
Definition ends_m {S A} (m : M S A) : Prop := forall s, ends (snd (m s)).
Lemma ends_mbind : forall S A B (m : M S A) (f : A -> M S B), ends_m m -> (forall a, ends_m (f a)) -> ends_m (mbind m f).
Proof.
  unfold ends_m. intros S A B m f H H' s. unfold mbind. specialize (H s). destruct (m s) as [s' [a | e]]; auto.
  intros E. cbn [snd] in *. injection E as ->. apply H. auto.
Qed.
Lemma ends_mlift : forall S A (r : res A), ends r -> ends_m (mlift (S := S) r).
Proof. intros S A r H s. auto. Qed.
Lemma ends_mret : forall S A (a : A), ends_m (mret (S := S) a).
Proof. intros S A a s. discriminate. Qed.
Lemma ends_mforeach : forall S A B (f : A -> M S B) l, (forall x, ends_m (f x)) -> ends_m (mforeach f l).
Proof.
  intros S A B f l H. induction l as [ | x l IH]; cbn [mforeach]; [apply ends_mret | ].
  apply ends_mbind; auto. intros. apply ends_mbind; auto. intros. apply ends_mret.
Qed.
Lemma ends_g_has : forall i, ends_m (g_has i).
Proof. intros i g. discriminate. Qed.
Lemma ends_g_edge : forall p c, ends_m (g_edge p c).
Proof.
  intros p c g. unfold g_edge, add_edge. cbn [get_node]. cbv zeta.
  destruct (dget p (g_nodes g)) as [n1 | ], (dget c (g_nodes g)) as [n2 | ]; unfold add_child, add_parent;
    cbn [fst snd];
    repeat match goal with |- context [if ?x then _ else _] => destruct x end; discriminate.
Qed.
Lemma ends_g_add : forall t i x, ends_m (g_add t i x).
Proof.
  intros t i x. unfold g_add. apply ends_mbind; [ | intros; apply ends_mret]. intros g.
  unfold add_node, generate_unique_id.
  destruct (first_free (length (g_nodes g)) (g_nodes g) (N.succ (g_gen g))) as [n | ] eqn:E.
  - cbv zeta. destruct (dmem i _); [discriminate | ]. destruct (spine_factory _) as [[]| ]; discriminate.
  - exfalso. eapply first_free_total; eauto.
Qed.
#[local] Hint Resolve ends_mlift ends_mret ends_mforeach ends_g_has ends_g_edge ends_g_add : ends.

Ltac ends_m_auto :=
  repeat (first
    [ solve [auto with ends]
    | apply ends_mbind; [ | intro]
    | apply ends_mforeach; intro
    | apply ends_mlift
    | match goal with
      | |- ends_m (match ?x with _ => _ end) => destruct x
      | |- ends_m (if ?x then _ else _) => destruct x
      end
    | progress (ends_auto) ]).

Lemma ends_to_graph_id : forall t v, ends (to_graph_id t v).
Proof. intros. unfold to_graph_id. ends_auto; auto with ends. Qed.
#[local] Hint Resolve ends_to_graph_id : ends.
Lemma ends_edge_if_present : forall p c w, ends_m (edge_if_present p c w).
Proof. intros. unfold edge_if_present. ends_m_auto. Qed.
Lemma ends_add_if_absent : forall t i x, ends_m (add_if_absent t i x).
Proof. intros. unfold add_if_absent. ends_m_auto. Qed.
#[local] Hint Resolve ends_edge_if_present ends_add_if_absent : ends.
Lemma ends_add_bone : forall v i, ends_m (add_bone_to_graph v i).
Proof. intros. unfold add_bone_to_graph. ends_m_auto. Qed.
Lemma ends_add_slot : forall v i, ends_m (add_slot_to_graph v i).
Proof. intros. unfold add_slot_to_graph. ends_m_auto. Qed.
Lemma ends_add_attachment : forall i kv, ends_m (add_attachment_to_slot i kv).
Proof. intros i [k v]. unfold add_attachment_to_slot. cbv zeta. ends_m_auto. Qed.
#[local] Hint Resolve ends_add_bone ends_add_slot ends_add_attachment : ends.
Lemma ends_add_attachments : forall i v, ends_m (add_skin_attachments_to_slot i v).
Proof.
  intros. unfold add_skin_attachments_to_slot, add_listed_attachment, py_nth. cbv zeta. destruct v as [ | | | | [ | ] | | ]; ends_m_auto; intros g; discriminate.
Qed.
#[local] Hint Resolve ends_add_attachments : ends.
Lemma ends_add_skin : forall i n v, ends_m (add_skin_to_slot i n v).
Proof. intros. unfold add_skin_to_slot. ends_m_auto. Qed.
Lemma ends_add_ik : forall v i, ends_m (add_ik_to_graph v i).
Proof. intros. unfold add_ik_to_graph. ends_m_auto. Qed.
#[local] Hint Resolve ends_add_skin ends_add_ik : ends.
Lemma ends_dget_err : forall A k (d : dict A), ends (dget_err k d).
Proof. intros. unfold dget_err. ends_auto. Qed.
#[local] Hint Resolve ends_dget_err : ends.
Lemma ends_add_slot_all : forall j x, ends_m (add_slot_and_attachments j x).
Proof. intros j [i v]. unfold add_slot_and_attachments. ends_m_auto. Qed.
#[local] Hint Resolve ends_add_slot_all : ends.
Lemma ends_build : forall d, ends_m (build_graph_m d).
Proof.
  intros. unfold build_graph_m. ends_m_auto; apply ends_mlift; ends_auto; auto with ends.
Qed.
Theorem ends_create : forall v, ends (create_from_json_data v).
Proof.
  intros v. unfold create_from_json_data. destruct v; try discriminate.
  pose proof (ends_build d new_graph) as H. destruct (build_graph_m d new_graph) as [g [u | e]]; [discriminate | ].
  intros E. injection E as ->. apply H. auto.
Qed.

(** ** Images *)
Lemma ends_scale_in_name : forall n, ends (scale_in_name n).
Proof.
  intros n. unfold scale_in_name. apply ends_bind; [ | discriminate].
  unfold get_tags_from_name. apply ends_foldM. intros s x _. unfold add_tag. cbv zeta. ends_auto.
Qed.

Lemma slot_scale_diverges : forall d s, get_slot_custom_scale d s = Err EDiverges <->
  exists o i b f, s = Some o /\ ostr o "bone" = Some i /\ first_named bone_name i (d_bones d) b /\
    tag_scale (slot_name o) f /\ endless d b /\ tags_ok d b.
Proof.
  intros d s. unfold get_slot_custom_scale. split.
  - destruct s as [o | ]; [ | discriminate]. intros H.
    destruct (scale_in_name (slot_name o)) as [f | e] eqn:Ef; cbn [bind] in H.
    + destruct (ostr o "bone") as [i | ] eqn:Ei; [ | discriminate].
      destruct (get_bone d (Some i)) as [b | ] eqn:Eb; [ | discriminate].
      destruct (get_bone_custom_scale_recursive d (Some b)) as [fb | e] eqn:El; [discriminate | ].
      cbn [bind] in H. injection H as ->. apply loop_endless in El as [A B].
      exists o, i, b, f. apply get_bone_spec in Eb. apply tag_scale_spec in Ef. auto 8.
    + exfalso. injection H as ->. apply (ends_scale_in_name (slot_name o)). auto.
  - intros (o & i & b & f & -> & Hi & Hb & Hf & E & T). apply tag_scale_spec in Hf. rewrite Hf. cbn [bind].
    rewrite Hi. apply get_bone_spec in Hb. rewrite Hb.
    rewrite (proj2 (loop_endless d b) (conj E T)). auto.
Qed.

Lemma ends_add_image : forall f sc p kv, ends (add_image f sc p kv).
Proof. intros f sc p [k o]. unfold add_image. cbv zeta. ends_auto. Qed.

Theorem ends_images : forall x,
  (forall s kv, In s (d_skins (doc_data x)) -> In kv (sk_atts s) ->
     ends (get_slot_custom_scale (doc_data x) (get_slot (doc_data x) (fst kv)))) ->
  ends (get_images_references x).
Proof.
  intros x H. unfold get_images_references. cbv zeta. apply ends_foldM. intros p s Hs.
  destruct (ver_ge (doc_version x) SPINE_3_8); [ | discriminate].
  apply ends_foldM. intros p' kv Hkv. unfold add_slot_images. apply ends_bind; [apply (H s); auto | ].
  intros. apply ends_foldM. intros. apply ends_add_image.
Qed.

(** An editor is loaded or an exception raised, unless a slot that has attachments in
    some skin hangs on bones without end. *)
Theorem load_ends : forall j, mk_editor j = Err EDiverges ->
  exists x s sl m o i b, load_document j = Ok x /\ In s (d_skins (doc_data x)) /\ In (sl, m) (sk_atts s) /\
    In o (d_slots (doc_data x)) /\ slot_name o = sl /\ ostr o "bone" = Some i /\
    first_named bone_name i (d_bones (doc_data x)) b /\ endless (doc_data x) b.
Proof.
  intros j H. unfold mk_editor in H.
  destruct (load_document j) as [x | e] eqn:El; cbn [bind] in H.
  2: { exfalso. injection H as ->. apply (ends_load_document j). auto. }
  destruct (get_images_references x) as [im | e] eqn:Ei; cbn [bind] in H.
  { exfalso. destruct (create_from_json_data (document_json x)) as [g | e] eqn:Ec; [discriminate | ].
    injection H as ->. apply (ends_create (document_json x)). auto. }
  injection H as ->. exists x.
  unfold get_images_references in Ei. cbv zeta in Ei.
  assert (F : forall S A (f : S -> A -> res S) l s, foldM f s l = Err EDiverges ->
            exists s' y, In y l /\ f s' y = Err EDiverges).
  { clear. intros S A f l. induction l as [ | y l IH]; intros s H; cbn [foldM] in H; [discriminate | ].
    destruct (f s y) as [s' | e] eqn:E; cbn [bind] in H.
    - destruct (IH _ H) as (s2 & z & A1 & A2). exists s2, z. split; [right; auto | auto].
    - injection H as ->. exists s, y. split; [left; auto | auto]. }
  apply F in Ei as (p & s & Hs & Hd).
  destruct (ver_ge (doc_version x) SPINE_3_8); [ | discriminate].
  apply F in Hd as (p' & [sl m] & Hkv & Hd). unfold add_slot_images in Hd. cbn [fst snd] in Hd.
  destruct (get_slot_custom_scale (doc_data x) (get_slot (doc_data x) sl)) as [f | e] eqn:Eg; cbn [bind] in Hd.
  - exfalso. apply F in Hd as (p2 & kv & _ & Hd). exact (ends_add_image _ _ _ _ Hd).
  - injection Hd as ->. apply slot_scale_diverges in Eg as (o & i & b & f & Ho & Hi & Hb & _ & He & _).
    exists s, sl, m, o, i, b. unfold get_slot in Ho. apply find_some in Ho as [Ho1 Ho2]. apply seqb_eq in Ho2.
    auto 10.
Qed.

Theorem load_ends_no_cycle : forall j,
  (forall x, load_document j = Ok x -> no_bone_cycle (doc_data x)) -> mk_editor j <> Err EDiverges.
Proof.
  intros j N H. apply load_ends in H as (x & s & sl & m & o & i & b & Hx & _ & _ & _ & _ & _ & _ & k1 & k & y & _ & C).
  exact (N x Hx y k C).
Qed.
