(** Loading an export against building the graph again: the graph and the images. *)
From Verif Require Import PyBase PyFacts Json Version Classes DocFacts ReloadFacts SpecDoc Graph SpineGraph DrawOrder AnimData Editor SpecAnim SpecEditor SpecReload
  SpecFail SpecAny EditorFacts EditorData EditorBuild EditorImages EditorReload EditorAny EditorRepair EditorReady.
Open Scope string_scope.

Lemma Forall2_in_l : forall A B (R : A -> B -> Prop) l l' x, Forall2 R l l' -> In x l -> exists y, In y l' /\ R x y.
Proof. intros A B R l l' x F. induction F as [ | a b l l' H F IH]; intros []; [subst; exists b; split; [left; reflexivity | exact H] | ]. destruct (IH H0) as (y & Hy & Hr). exists y. split; [right; exact Hy | exact Hr]. Qed.
Lemma Forall2_in_r : forall A B (R : A -> B -> Prop) l l' y, Forall2 R l l' -> In y l' -> exists x, In x l /\ R x y.
Proof. intros A B R l l' y F. induction F as [ | a b l l' H F IH]; intros []; [subst; exists a; split; [left; reflexivity | exact H] | ]. destruct (IH H0) as (x & Hx & Hr). exists x. split; [right; exact Hx | exact Hr]. Qed.

Lemma same_atts : forall s t, same_skin s t -> drel (drel same_obj) (sk_atts s) (sk_atts t).
Proof. intros s t [_ H]. unfold sk_atts. destruct (sk_attachments s), (sk_attachments t); try contradiction; [exact H | constructor]. Qed.
Lemma attachment_l : forall d d' sl k o, same_data d d' -> skin_attachment d sl k o -> exists o', skin_attachment d' sl k o' /\ same_obj o o'.
Proof.
  intros d d' sl k o (_ & _ & S & _) (s & m & Hs & Hm & Ho). destruct (Forall2_in_l _ _ _ _ _ _ S Hs) as (s' & Hs' & R). apply same_atts in R.
  destruct (Forall2_in_l _ _ _ _ _ _ R Hm) as ([sl' m'] & Hm' & Es & Rm). cbn [fst snd] in Es, Rm. subst sl'.
  destruct (Forall2_in_l _ _ _ _ _ _ Rm Ho) as ([k' o'] & Ho' & Ek & Ro). cbn [fst snd] in Ek, Ro. subst k'. exists o'. split; [exists s', m'; auto | exact Ro].
Qed.
Lemma attachment_r : forall d d' sl k o', same_data d d' -> skin_attachment d' sl k o' -> exists o, skin_attachment d sl k o /\ same_obj o o'.
Proof.
  intros d d' sl k o' (_ & _ & S & _) (s' & m' & Hs & Hm & Ho). destruct (Forall2_in_r _ _ _ _ _ _ S Hs) as (s & Hs' & R). apply same_atts in R.
  destruct (Forall2_in_r _ _ _ _ _ _ R Hm) as ([sl' m] & Hm' & Es & Rm). cbn [fst snd] in Es, Rm. subst sl'.
  destruct (Forall2_in_r _ _ _ _ _ _ Rm Ho) as ([k' o] & Ho' & Ek & Ro). cbn [fst snd] in Ek, Ro. subst k'. exists o. split; [exists s, m; auto | exact Ro].
Qed.
(** What is loaded has a path and a name, or is a path attachment. *)
Lemma loaded_paths : forall x l sl k o, loaded_data (doc_version x) (doc_data x) -> get_images_references x = Ok l -> skin_attachment (doc_data x) sl k o -> o_cls o <> CSkinPath ->
  In "path" (attrs_of (o_cls o)) /\ In "name" (attrs_of (o_cls o)).
Proof.
  intros x l sl k o LD E (s & m & Hs & Hm & Ho) C.
  assert (W : dkeys (o_attrs o) = attrs_of (o_cls o)).
  { destruct LD as ((_ & _ & A & _) & _). rewrite Forall_forall in A. specialize (A s Hs). clear - A Hm Ho. unfold skin_all, sk_atts in *. destruct (sk_attachments s) as [a | ]; [ | destruct Hm].
    unfold dall in A. rewrite Forall_forall in A. specialize (A _ Hm). cbn [snd] in A. rewrite Forall_forall in A. specialize (A _ Ho). cbn [snd] in A. destruct A as [[(_ & Ek & _) _] _]. exact Ek. }
  unfold get_images_references in E. destruct (foldM_each _ _ _ _ _ _ E s Hs) as (b1 & b2 & E1). destruct (ver_ge (doc_version x) SPINE_3_8) eqn:V; [ | discriminate].
  destruct (foldM_each _ _ _ _ _ _ E1 (sl, m) Hm) as (b3 & b4 & E2). unfold add_slot_images in E2. cbn [fst snd] in E2. inv_bind E2.
  destruct (foldM_each _ _ _ _ _ _ E2 (k, o) Ho) as (b5 & b6 & E3). unfold add_image in E3.
  assert (B : (has_attr "path" o && has_attr "name" o)%bool = true).
  { destruct (has_attr "path" o && has_attr "name" o)%bool; [reflexivity | ]. exfalso. cbn [negb] in E3. destruct (o_cls o); congruence. }
  apply andb_prop in B as [B1 B2]. rewrite <- W. split; apply dmem_in; assumption.
Qed.

Lemma same_image : forall k o o', same_obj o o' -> In "path" (attrs_of (o_cls o)) -> In "name" (attrs_of (o_cls o)) -> att_image k o = att_image k o'.
Proof. intros k o o' S P N. unfold att_image. rewrite (same_ostr o o' "path" S P), (same_ostr o o' "name" S N). reflexivity. Qed.

Section Reloaded.
  Variables (e0 : editor) (ops : list eop) (e e' : editor).
  Hypothesis H : any_calls e0 ops e.
  Hypothesis R : mk_editor (editor_json e) = Ok e'.
  Hypothesis T : no_null_time (e_data e) \/ ver_ge (e_ver e) SPINE_3_8 = true.

  Theorem reloaded_graph : forall enum, estep e (EoEraseSkins enum [] true) = (mkEditor (e_doc e) (e_images e) (e_graph e'), Ok tt).
  Proof.
    intros enum. destruct (any_rebuilt _ _ _ enum H) as (g & G & E). rewrite E. destruct (any_reloaded _ _ _ H e' R T) as (_ & _ & _ & J).
    apply mk_editor_inv in R as (_ & _ & G'). change (create_from_json_data (editor_json e') = Ok (e_graph e')) in G'. rewrite J, G in G'. injection G' as ->. reflexivity.
  Qed.
  Theorem reloaded_images : forall i, In i (dkeys (e_images e')) <-> image_in_use (e_data e) i.
  Proof.
    intros i. destruct (any_reloaded _ _ _ H e' R T) as (_ & _ & S & _). apply mk_editor_inv in R as (L & I & _). pose proof (load_document_loaded _ _ L) as LD.
    rewrite (images_loaded _ _ I i). split.
    - intros (sl & k & o' & A & C & ->). destruct (attachment_r _ _ _ _ _ S A) as (o & B & Ho). destruct (loaded_paths _ _ _ _ _ LD I A C) as [P N].
      pose proof (proj1 Ho) as Hc. rewrite <- Hc in P, N, C. exists sl, k, o. split; [exact B | ]. split; [exact C | ]. symmetry. apply same_image; assumption.
    - intros (sl & k & o & B & C & ->). destruct (attachment_l _ _ _ _ _ S B) as (o' & A & Ho). pose proof (proj1 Ho) as Hc.
      assert (C' : o_cls o' <> CSkinPath) by congruence. destruct (loaded_paths _ _ _ _ _ LD I A C') as [P N]. rewrite <- Hc in P, N.
      exists sl, k, o'. split; [exact A | ]. split; [exact C' | ]. apply same_image; assumption.
  Qed.
End Reloaded.
