(** Of which documents an editor can be made (Editor.v, mk_editor). *)
From Verif Require Import PyBase PyFacts Json Version VersionFacts Graph SpecGraph GraphFacts Classes ClassFacts DocFacts SpineGraph SpecSpine
  SpineFacts BuildFacts BuildTotal DrawOrder AnimData AnimFacts ScaleFacts Editor SpecAnim SkinFacts SpecEditor EditorGraph EditorData EditorBuild
  EditorScale EditorErase EditorReload SpecLoad.
Open Scope string_scope.

Section Editor.
  Variables (v : val) (x : document).
  Hypothesis Hp : proper v.
  Hypothesis Hx : load_document v = Ok x.
  Let D : dinv (doc_version x) (doc_data x) := load_dinv v x Hp Hx.

  (** *** The images *)
  Lemma att_keys : forall sl k o, skin_attachment (doc_data x) sl k o -> wf_obj (o_cls o) o /\ In (o_cls o) att_classes.
  Proof.
    intros sl k o (s & m & Hs & Hm & Ho). split.
    - pose proof (load_document_loaded _ _ Hx) as (K & _ & _). destruct K as (_ & _ & K & _). rewrite Forall_forall in K. specialize (K s Hs).
      unfold skin_all, sk_atts in *. destruct (sk_attachments s) as [a | ]; [ | destruct Hm].
      eapply dall_in in K; [ | exact Hm]. eapply dall_in in K; [ | exact Ho]. apply K.
    - pose proof (di_skins _ _ D) as F. rewrite Forall_forall in F. apply (ao_cls _ _ (so_atts _ _ (F s Hs) _ _ _ _ Hm Ho)).
  Qed.
  Lemma folder_ok : (exists f, folder_of x = VStr f) <-> null_or_text (dget "images" (doc_skeleton x)) /\ dget "images" (doc_skeleton x) <> Some VNone.
  Proof.
    unfold folder_of, null_or_text. destruct (dget "images" (doc_skeleton x)) as [w | ]; [ | split; [intros _; split; [auto | discriminate] | eauto]].
    destruct w; split; intros H; try (destruct H as [f0 H]; discriminate H); try (destruct H as [H _]; destruct H; fail).
    all: try (destruct H as [_ H]; destruct H; auto; fail).
    all: try (split; [exact I | discriminate]).
    all: eexists; reflexivity.
  Qed.
  Lemma images_iff : NoDup (map slot_name (d_slots (doc_data x))) -> ((exists l, get_images_references x = Ok l) <->
    (d_skins (doc_data x) <> [] -> (3 <= v_major (doc_version x) /\ 8 <= v_minor (doc_version x) /\ 0 <= v_patch (doc_version x))%Z) /\
    (forall s sl m, In s (d_skins (doc_data x)) -> In (sl, m) (sk_atts s) ->
       exists slot f, In slot (d_slots (doc_data x)) /\ slot_name slot = sl /\ slot_scale_is (doc_data x) slot f) /\
    (forall sl k o, skin_attachment (doc_data x) sl k o -> o_cls o <> CSkinPath -> null_or_text (dget "images" (doc_skeleton x)) /\ dget "images" (doc_skeleton x) <> Some VNone)).
  Proof.
    intros N. assert (V : ver_ge (doc_version x) SPINE_3_8 = true <-> (3 <= v_major (doc_version x) /\ 8 <= v_minor (doc_version x) /\ 0 <= v_patch (doc_version x))%Z).
    { rewrite ver_ge_iff. cbn [v_major v_minor v_patch SPINE_3_8]. lia. }
    split.
    - intros [l E]. pose proof (images_walk_loaded _ _ E) as W. unfold images_walk, walk in W. rewrite Forall_forall in W. split; [ | split].
      + intros Hn. apply V. destruct (d_skins (doc_data x)) as [ | s r]; [contradiction | ]. apply (W s). left. auto.
      + intros s sl m Hs Hm. destruct (W s Hs) as [_ K]. destruct (K _ _ Hm) as [[f Ef] _].
        destruct (get_slot (doc_data x) sl) as [slot | ] eqn:G; [ | discriminate Ef]. exists slot, f.
        apply find_some in G as [G1 G2]. apply String.eqb_eq in G2. split; [auto | ]. split; [auto | ]. apply slot_scale. exact Ef.
      + intros sl k o (s & m & Hs & Hm & Ho) C. destruct (W s Hs) as [_ K]. destruct (K _ _ Hm) as [_ K']. apply folder_ok. destruct (K' _ _ Ho); [contradiction | auto].
    - intros (Hv & Hf & Hd). unfold get_images_references. fold (folder_of x). apply foldM_total. intros s b Hs.
      assert (Ev : ver_ge (doc_version x) SPINE_3_8 = true). { apply V, Hv. intros C. rewrite C in Hs. destruct Hs. }
      rewrite Ev. apply foldM_total. intros [sl m] b1 Hm. destruct (Hf s sl m Hs Hm) as (slot & f & H1 & H2 & H3).
      unfold add_slot_images. cbn [fst snd]. assert (G : get_slot (doc_data x) sl = Some slot) by (apply find_unique; auto). rewrite G.
      apply slot_scale in H3. rewrite H3. cbn [bind]. apply foldM_total. intros [k o] b2 Ho.
      assert (A : skin_attachment (doc_data x) sl k o) by (exists s, m; auto). destruct (att_keys _ _ _ A) as [(_ & Ek & _) C]. specialize (Hd _ _ _ A). rewrite <- folder_ok in Hd.
      unfold add_image, has_attr, dmem. assert (Hh : forall k, In k (attrs_of (o_cls o)) -> dmem k (o_attrs o) = true) by (intros k0 Hk0; apply dmem_in; rewrite Ek; auto).
      unfold dmem in Hh. unfold att_classes in C. cbn [In] in C. destruct C as [C | [C | [C | [C | []]]]]; rewrite <- C in *; eauto;
        (rewrite !Hh by (cbn; tauto)); cbn [andb negb]; (destruct Hd as [fo ->]; [discriminate | eauto]).
  Qed.

  (** *** The graph *)
  Lemma ik_name : forall i, In i (d_ik (doc_data x)) -> exists n, oget i "name" = VStr n.
  Proof.
    intros i Hi. pose proof (di_ik _ _ D) as F. rewrite Forall_forall in F. destruct (F i Hi) as [W Fi]. pose proof (guard_str CIk i "name" W) as G.
    assert (G' : is_str_or_null (oget i "name") = true) by (apply G; cbn; auto). destruct W as (Ec & _). unfold filled in Fi. rewrite Ec in Fi. specialize (Fi "name" (VStr "")).
    destruct (oget i "name"); try discriminate G'; [ | eauto]. assert (C : VStr "" = VNone); [apply Fi; auto | discriminate C].
    - cbn. auto.
    - unfold default_values. destruct (ver_ge _ _); reflexivity.
  Qed.
  Lemma ik_default : forall k, k = "name" \/ k = "bones" -> get_or_none k (default_values CIk (doc_version x)) = if String.eqb k "name" then VStr "" else VList [].
  Proof. intros k [-> | ->]; unfold default_values; destruct (ver_ge _ _); reflexivity. Qed.
  Lemma ik_field : forall i k d, In i (d_ik (doc_data x)) -> obj_json (doc_version x) i = VDict d -> k = "name" \/ k = "bones" ->
    dget k d = if exported (default_values CIk (doc_version x)) k (oget i k) then Some (oget i k) else None.
  Proof.
    intros i k d Hi E Hk. pose proof (di_ik _ _ D) as F. rewrite Forall_forall in F. destruct (F i Hi) as [W _]. unfold obj_json in E. injection E as <-.
    rewrite dget_export by (eapply wf_keys; eauto). destruct W as (Ec & Ek & _). rewrite Ec. unfold oget.
    destruct (dget k (o_attrs i)) eqn:G; [reflexivity | ]. apply dget_none in G. destruct G. rewrite Ek. destruct Hk as [-> | ->]; cbn; auto.
  Qed.
  Lemma ik_shape_iff : forall i, In i (d_ik (doc_data x)) -> (ik_shape (obj_json (doc_version x) i) <-> name_text i <> "" /\ some_bones (oget i "bones")).
  Proof.
    intros i Hi. destruct (ik_name i Hi) as [n En]. assert (Et : name_text i = n) by (unfold name_text, ostr; rewrite En; reflexivity). rewrite Et.
    destruct (obj_json_dict (doc_version x) i) as [d Ed]. pose proof (ik_field i "name" d Hi Ed (or_introl eq_refl)) as F1. pose proof (ik_field i "bones" d Hi Ed (or_intror eq_refl)) as F2.
    unfold ik_shape, has_key. rewrite Ed. unfold exported in F1, F2. rewrite ik_default in F1, F2 by auto. cbn [String.eqb Ascii.eqb Bool.eqb] in F1, F2. rewrite En in F1. cbn [is_none] in F1.
    assert (F3 : dmem "name" d = true <-> n <> "").
    { unfold dmem. rewrite F1. cbn [py_eq]. destruct n; cbn; split; congruence. }
    assert (F4 : dmem "bones" d = true /\ iterable (field (VDict d) "bones") <-> some_bones (oget i "bones")).
    { unfold dmem, field, some_bones, iterable. rewrite F2. assert (Nd : get_or_none "bones" (default_values CIk (doc_version x)) = VList []) by (apply ik_default; auto).
      assert (Nn : oget i "bones" <> VNone).
      { intros C. pose proof (di_ik _ _ D) as F. rewrite Forall_forall in F. destruct (F i Hi) as [(Ec & _) Fi]. unfold filled in Fi. rewrite Ec in Fi.
        assert (X : VList [] = VNone); [ | discriminate X]. apply (Fi "bones"); auto; [cbn; auto | ]. unfold default_values. destruct (ver_ge _ _); reflexivity. }
      destruct (oget i "bones") as [ | b | z | f | s | [ | y l] | m] eqn:Eo; cbn [is_none negb contents].
      - contradiction.
      - split; [intros [_ [l C]]; discriminate C | intros [(a & l & C) | [[s C] | [m C]]]; discriminate C].
      - split; [intros [_ [l C]]; discriminate C | intros [(a & l & C) | [[s C] | [m C]]]; discriminate C].
      - split; [intros [_ [l C]]; discriminate C | intros [(a & l & C) | [[s C] | [m C]]]; discriminate C].
      - cbn. split; [eauto | intros _; split; eauto].
      - cbn. split; [intros [C _]; discriminate C | intros [(a & l & C) | [[s C] | [m C]]]; discriminate C].
      - cbn. split; [eauto | intros _; split; eauto].
      - cbn. split; [eauto | intros _; split; eauto]. }
    rewrite <- F4, <- F3. split; [intros ((d1 & E1 & K1) & (d2 & E2 & K2) & K3); injection E1 as <-; injection E2 as <-; auto | intros (K1 & K2 & K3); split; [ | split]; eauto].
  Qed.
  Lemma ik_names : (forall i, In i (d_ik (doc_data x)) -> name_text i <> "") -> names (each (doc_dict x) "ik") = map name_text (d_ik (doc_data x)).
  Proof.
    intros H. rewrite each_ik. unfold names. rewrite map_map. apply map_ext_in. intros i Hi. destruct (ik_name i Hi) as [n En].
    specialize (H i Hi). assert (Et : name_text i = n) by (unfold name_text, ostr; rewrite En; reflexivity). rewrite Et in *.
    destruct (obj_json_dict (doc_version x) i) as [d Ed]. rewrite Ed. cbn [field]. rewrite (ik_field i "name" d Hi Ed) by auto. unfold exported.
    rewrite ik_default by auto. rewrite En. cbn. destruct n; [contradiction | reflexivity].
  Qed.
  Lemma bones_key : (exists w, dget "bones" (doc_dict x) = Some w) <-> d_bones (doc_data x) <> [].
  Proof.
    split.
    - intros [w Ev] E0. rewrite get_data_json in Ev by discriminate. unfold data_json in Ev. rewrite dget_export in Ev by apply data_attrs_NoDup.
      cbn [data_attrs dget] in Ev. rewrite E0 in Ev. unfold default_values in Ev. destruct (ver_ge _ _) in Ev; cbn in Ev; discriminate.
    - intros H. eexists. apply (data_key x "bones"); [discriminate | reflexivity | apply exported_list; auto].
  Qed.
  Lemma shape_iff : doc_shape (doc_dict x) <-> d_bones (doc_data x) <> [] /\ forall i, In i (d_ik (doc_data x)) -> name_text i <> "" /\ some_bones (oget i "bones").
  Proof.
    split.
    - intros S. split.
      + apply bones_key. destruct (sh_bones _ S) as (w & E & _). eauto.
      + intros i Hi. apply ik_shape_iff; auto. apply (sh_iks _ S). rewrite each_ik. apply in_map. auto.
    - intros [Hb Hi]. constructor.
      + eexists. split; [apply (data_key x "bones"); [discriminate | reflexivity | apply exported_list; auto] | eexists; reflexivity].
      + intros w. apply (key_iter _ (obj_json (doc_version x)) x "slots" (d_slots (doc_data x))); [discriminate | reflexivity].
      + intros w. apply (key_iter _ (obj_json (doc_version x)) x "ik" (d_ik (doc_data x))); [discriminate | reflexivity].
      + intros _. eexists. split; [apply (data_key x "skins"); [discriminate | reflexivity | apply exported_skins] | eexists; reflexivity].
      + intros w Hw. rewrite each_bones in Hw. apply in_map_iff in Hw as (b & <- & B). apply bone_shaped. pose proof (di_bones _ _ D) as F. rewrite Forall_forall in F. auto.
      + intros w Hw. rewrite each_slots in Hw. apply in_map_iff in Hw as (b & <- & B). apply slot_shaped. pose proof (di_slots _ _ D) as F. rewrite Forall_forall in F. auto.
      + intros w Hw. rewrite each_ik in Hw. apply in_map_iff in Hw as (i & <- & I). apply ik_shape_iff; auto.
      + intros w Hw. rewrite each_skins in Hw. apply in_map_iff in Hw as (s & <- & Hs). apply skin_shaped; [ | pose proof (di_skins _ _ D) as F; rewrite Forall_forall in F; apply F; exact Hs].
        intros u Hu. rewrite each_slots in Hu. apply in_map_iff in Hu as (b & <- & B). pose proof (di_slots _ _ D) as F. rewrite Forall_forall in F. destruct (F b B) as [W _].
        rewrite slot_name_field by exact W. exact I.
  Qed.
  Lemma self_parent_iff : no_self_parent (doc_dict x) <-> forall b, In b (d_bones (doc_data x)) -> parent_text b <> bone_name b.
  Proof.
    assert (K : forall b, In b (d_bones (doc_data x)) -> named (obj_json (doc_version x) b) (bone_name b) /\ text (field (obj_json (doc_version x) b) "parent") (parent_text b)).
    { intros b Hb. pose proof (di_bones _ _ D) as F. rewrite Forall_forall in F. destruct (F b Hb) as [W _]. pose proof (head_json (doc_version x) b W) as Hh.
      pose proof (f_equal fst Hh) as E1. pose proof (f_equal snd Hh) as E2. cbn [head fst snd] in E1, E2. unfold named, text. rewrite E1, E2. destruct (name_str CBone b W) as [n En]; auto. unfold bone_name, parent_text, ostr. rewrite En.
      pose proof (guard_str CBone b "parent" W) as G. assert (G' : is_str_or_null (oget b "parent") = true) by (apply G; cbn; auto).
      destruct (oget b "parent"); try discriminate G'; cbn; auto. }
    unfold no_self_parent. rewrite each_bones. split.
    - intros H b Hb E. destruct (K b Hb) as [K1 K2]. apply (H (obj_json (doc_version x) b) (bone_name b)); auto; [apply in_map; auto | ]. rewrite <- E. exact K2.
    - intros H w s Hw Hn Ht. apply in_map_iff in Hw as (b & <- & Hb). destruct (K b Hb) as [K1 K2]. apply (H b Hb). unfold named, text in *. congruence.
  Qed.
  Lemma graph_iff : (exists g, create_from_json_data (document_json x) = Ok g) <->
    d_bones (doc_data x) <> [] /\ (forall i, In i (d_ik (doc_data x)) -> name_text i <> "" /\ some_bones (oget i "bones")) /\
    NoDup (map bone_name (d_bones (doc_data x))) /\ NoDup (map slot_name (d_slots (doc_data x))) /\ NoDup (map name_text (d_ik (doc_data x))) /\
    forall b, In b (d_bones (doc_data x)) -> parent_text b <> bone_name b.
  Proof.
    rewrite document_json_dict.
    assert (U : (forall i, In i (d_ik (doc_data x)) -> name_text i <> "") -> (unique_names (doc_dict x) <->
      NoDup (map bone_name (d_bones (doc_data x))) /\ NoDup (map slot_name (d_slots (doc_data x))) /\ NoDup (map name_text (d_ik (doc_data x))))).
    { intros H. unfold unique_names. rewrite ik_names by auto. rewrite each_bones, each_slots, names_json, names_slots by (apply (di_bones _ _ D) || apply (di_slots _ _ D)). tauto. }
    split.
    - intros [g E]. assert (S : doc_shape (doc_dict x)).
      { apply shape_iff. split.
        - apply bones_key. destruct (built_has_bones _ _ E) as (w & Ew & _). eauto.
        - intros i Hi. apply ik_shape_iff; auto. eapply built_ik; eauto. rewrite each_ik. apply in_map. auto. }
      pose proof (proj1 (shape_iff) S) as [S1 S2]. assert (B : unique_names (doc_dict x) /\ no_self_parent (doc_dict x)) by (apply (proj1 (build_iff _ S)); eauto).
      destruct B as [B1 B2]. pose proof (proj1 self_parent_iff B2) as B6. apply U in B1; [ | intros; apply S2; auto]. destruct B1 as (B3 & B4 & B5). auto 10.
    - intros (S1 & S2 & B3 & B4 & B5 & B2). assert (S : doc_shape (doc_dict x)) by (apply shape_iff; auto). apply (proj1 (build_iff _ S)).
      split; [apply U; auto; intros; apply S2; auto | apply self_parent_iff; auto].
  Qed.
  Theorem editor_iff : (exists e, mk_editor v = Ok e) <-> usable x.
  Proof.
    split.
    - intros [e E]. apply mk_editor_inv in E as (E1 & E2 & E3). assert (Ex : e_doc e = x) by congruence. rewrite Ex in E2, E3.
      destruct (proj1 graph_iff (ex_intro _ _ E3)) as (G1 & G2 & G3 & G4 & G5 & G6).
      destruct (proj1 (images_iff G4) (ex_intro _ _ E2)) as (I1 & I2 & I3). constructor; auto.
    - intros [U1 U2 U3 U4 U5 U6 U7 U8 U9]. destruct (proj2 (images_iff U3) (conj U7 (conj U8 U9))) as [l E2].
      destruct (proj2 graph_iff (conj U1 (conj U6 (conj U2 (conj U3 (conj U4 U5)))))) as [g E3]. unfold mk_editor. rewrite Hx. cbn [bind]. rewrite E2. cbn [bind]. rewrite E3. cbn [bind]. eauto.
  Qed.
End Editor.
