(** Exactly which slots and attachments a clean-up removes. *)
From Verif Require Import PyBase PyFacts Json Version Graph SpecGraph GraphFacts GraphRemove IdFacts Classes ClassFacts DocFacts SpineGraph SpecSpine
  SpineFacts BuildFacts SpineRemove DrawOrder AnimData AnimFacts Editor SpecAnim SkinFacts SpecEditor EditorGraph EditorData EditorBuild EditorClean EditorOut EditorHist EditorFacts.
Open Scope string_scope.

(** The edges from slots to attachments are those of the skins. *)
Definition edges_filed (e : editor) : Prop := forall s k, edge (e_graph e) (slot_id s) (att_id k) -> exists o, skin_attachment (e_data e) s k o.
Lemma built_filed : forall x g im, dinv (doc_version x) (doc_data x) -> create_from_json_data (document_json x) = Ok g -> edges_filed (mkEditor x im g).
Proof.
  intros x g im D B s k H. rewrite document_json_dict in B. apply build_ok in B. cbn [e_graph] in H. apply (edge_slot x g D B) in H as (k' & o & Ho & _ & E). apply att_inj in E. subst k'. exists o. auto.
Qed.
Lemma clean_filed : forall enum e0 e e' bs ss is inv atts leafs orphans imgs rem, plain_slots (e_data e0) -> since e0 e ss -> st e bs ss is ->
  clean_ok enum e e' bs ss is inv atts leafs orphans imgs rem -> edges_filed e -> edges_filed e'.
Proof.
  intros enum e0 e e' bs ss is inv atts leafs orphans imgs rem Pl I S C F s k H. rewrite (co_graph _ _ _ _ _ _ _ _ _ _ _ _ C) in H. apply edge_minus in H as (H & N1 & N2).
  rewrite in_gone4_slot in N1. rewrite in_gone4_att in N2. destruct (F s k H) as [o Ho]. exists o. apply (cleaned_att _ _ _ _ _ _ _ _ (co_data _ _ _ _ _ _ _ _ _ _ _ _ C)).
  split; [auto | ]. split; [ | tauto]. rewrite (plain_rem _ _ _ _ _ _ _ _ _ _ _ _ _ Pl I S C), in_app_iff. auto.
Qed.
Theorem history_filed : forall e0 ops e eb, plain_slots (e_data e0) -> last_built e0 ops e eb ->
  exists ss, st e (d_bones (e_data eb)) ss (d_ik (e_data eb)) /\ since e0 e ss /\ edges_filed e.
Proof.
  intros e0 ops e eb Pl. apply (history_all e0 (fun e _ _ _ => edges_filed e)).
  - intros L. pose proof L as (j & _ & Hj). apply mk_editor_inv in Hj as (_ & _ & B). destruct (loaded_sync e0 L) as (D & _ & _).
    pose proof (built_filed (e_doc e0) (e_graph e0) (e_images e0) D B) as F. destruct e0; exact F.
  - clear ops e eb. intros e bs ss is o e1 bs1 ss1 is1 e2 ss2 S I F Q S1 I1 M.
    assert (F1 : edges_filed e1).
    { destruct Q as [ | l | sx sy l E | l d1 removed g R B]; auto. apply built_filed; auto. apply S1. }
    assert (F2 : edges_filed e2) by (destruct M as [ | enum e2 inv atts leafs orphans imgs rem Oo C]; auto; eapply clean_filed; eauto).
    destruct o; exact F2.
Qed.

Theorem clean_removed : forall e0 ops e enum e' rem atts, plain_slots (e_data e0) -> history e0 ops e -> order_ok enum ->
  clean_animation enum e = (e', Ok (rem, atts)) ->
  (forall s, In s (d_slots (e_data e)) ->
     (In (slot_name s) rem <-> ~ used_slot (e_data e) s \/ forall k o, skin_attachment (e_data e) (slot_name s) k o -> In k atts)) /\
  (forall n, In n rem -> In n (map slot_name (d_slots (e_data e)))).
Proof.
  intros e0 ops e enum e' rem atts Pl H O E. destruct (last_built_ex _ _ _ H) as [eb B]. destruct (history_filed _ _ _ _ Pl B) as (ss & [D S] & I & F).
  destruct (clean_success _ _ _ _ _ _ _ _ D S O E) as (inv & leafs & orphans & imgs & K). pose proof (plain_rem _ _ _ _ _ _ _ _ _ _ _ _ _ Pl I (conj D S) K) as R.
  pose proof (sync_distinct_slots _ _ _ _ _ _ S) as Ds. destruct (unused_spec _ _ _ Ds (dinv_timelines _ _ D) (co_unused _ _ _ _ _ _ _ _ _ _ _ _ K)) as [Ui Ua].
  pose proof (co_choice _ _ _ _ _ _ _ _ _ _ _ _ K) as Ch. split.
  - intros s Hs. rewrite R, in_app_iff.
    assert (Hu : In (slot_name s) inv <-> ~ used_slot (e_data e) s).
    { rewrite Ui. split; [intros (s' & Hs' & En & N); rewrite <- (unique_name _ _ _ Ds Hs' Hs En); auto | eauto]. }
    rewrite Hu. split.
    + intros [Hi | Hl]; auto. right. intros k o Ho. apply (ch_leafs _ _ _ _ _ _ Ch) in Hl as (_ & _ & Hl). apply Hl. apply (sy_atts _ _ _ _ _ _ S _ _ _ Ho).
    + intros [Hi | Hl]; auto. destruct (in_dec string_dec (slot_name s) inv) as [Hi | Hi]; [left; tauto | right].
      apply (ch_leafs _ _ _ _ _ _ Ch). split; [ | split; auto].
      * assert (Hn : In (slot_name s) (map slot_name ss)) by (rewrite <- (sy_names _ _ _ _ _ _ S); apply in_map; auto). eapply sync_has; eauto.
      * intros k Hk. destruct (F _ _ Hk) as [o Ho]. eauto.
  - intros n Hn. apply R in Hn. apply in_app_iff in Hn as [Hn | Hn]; [apply Ui in Hn as (s & Hs & <- & _); apply in_map; auto | ].
    eapply leaf_name; eauto. split; auto.
Qed.
(** Attachments *)
Theorem clean_removed_attachments : forall e0 ops e enum e' rem atts, history e0 ops e -> order_ok enum -> clean_animation enum e = (e', Ok (rem, atts)) ->
  (forall k, In k atts <-> ~ used_attachment (e_data e) k /\ exists sl o, skin_attachment (e_data e) sl k o /\
     (o_cls o = CSkinMesh -> exists s, In s (d_slots (e_data e)) /\ slot_name s = sl /\ ~ used_slot (e_data e) s)) /\
  (forall sl k o, skin_attachment (e_data e') sl k o <-> skin_attachment (e_data e) sl k o /\ ~ In sl rem /\ ~ In k atts).
Proof.
  intros e0 ops e enum e' rem atts H O E. destruct (last_built_ex _ _ _ H) as [eb B]. destruct (history_state _ _ _ _ B) as (ss & [D S]).
  destruct (clean_success _ _ _ _ _ _ _ _ D S O E) as (inv & leafs & orphans & imgs & K).
  pose proof (sync_distinct_slots _ _ _ _ _ _ S) as Ds. destruct (unused_spec _ _ _ Ds (dinv_timelines _ _ D) (co_unused _ _ _ _ _ _ _ _ _ _ _ _ K)) as [Ui Ua]. split.
  - intros k. rewrite Ua. split; intros (N & sl & o & Ho & Hm); (split; [auto | exists sl, o; split; auto]); intros Hc; apply Ui; auto.
  - exact (cleaned_att _ _ _ _ _ _ _ _ (co_data _ _ _ _ _ _ _ _ _ _ _ _ K)).
Qed.
Lemma mesh_kept : forall e0 ops e enum e' rem atts, history e0 ops e -> order_ok enum -> clean_animation enum e = (e', Ok (rem, atts)) ->
  forall s k o, In s (d_slots (e_data e)) -> skin_attachment (e_data e) (slot_name s) k o -> ~ In (slot_name s) rem ->
  (forall sl' o', skin_attachment (e_data e) sl' k o' -> o_cls o' = CSkinMesh /\
     exists s', In s' (d_slots (e_data e)) /\ slot_name s' = sl' /\ used_slot (e_data e) s') ->
  skin_attachment (e_data e') (slot_name s) k o.
Proof.
  intros e0 ops e enum e' rem atts H O E s k o Hs Ho Hr Ha. destruct (clean_removed_attachments _ _ _ _ _ _ _ H O E) as [A B]. apply B. split; [auto | ]. split; [auto | ].
  intros Hk. apply A in Hk as (_ & sl & o' & Ho' & Hm). destruct (Ha _ _ Ho') as (Hc & s' & Hs' & <- & Hu). destruct (Hm Hc) as (s2 & Hs2 & En & N).
  apply N. destruct (last_built_ex _ _ _ H) as [eb B']. destruct (history_state _ _ _ _ B') as (ss & [D S]).
  rewrite (unique_name _ _ _ (sync_distinct_slots _ _ _ _ _ _ S) Hs2 Hs' En). auto.
Qed.
