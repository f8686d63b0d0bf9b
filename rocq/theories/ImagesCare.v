(** Proofs: images_references covers the images in use if no clean-up follows a call that failed
    before the graph is built again. *)
From Verif Require Import PyBase PyFacts Json Version Graph SpecGraph GraphFacts GraphRemove IdFacts Classes ClassFacts DocFacts ReloadFacts SpineGraph SpecSpine
  SpineFacts BuildFacts BuildTotal SpineRemove DrawOrder SpecDraw DrawFacts AnimData AnimFacts Editor SpecAnim SkinFacts SpecEditor SpecFail SpecAny SpecCare EditorGraph EditorData EditorBuild EditorClean EditorOut EditorHist EditorFacts
  EditorImages EditorFail EditorReload EditorAny EditorRepair ImagesAny.
Open Scope string_scope.

(** ** Attachments only disappear, linked meshes aside *)
Lemma relink_desc : forall n source sl kv kv' r, relink n source sl kv = (kv', r) -> fst kv' = fst kv /\
  (snd kv' = snd kv \/ o_cls (snd kv) = CSkinLinkedMesh /\ exists a m, In (sl, a) source /\ In (fst kv, m) a /\ snd kv' = copy_mesh m (snd kv)).
Proof.
  intros n source sl [k o] kv' r E. unfold relink in E. destruct (links_to n o) eqn:L; [ | injection E as <- _; auto].
  destruct (dget_err sl source) as [a | x] eqn:Ea; cbn [bind] in E; [ | injection E as <- _; auto]. destruct (dget_err k a) as [m | x] eqn:Em; [ | injection E as <- _; auto].
  injection E as <- _. cbn [fst snd]. split; [auto | right]. unfold links_to in L. split; [destruct (o_cls o); (reflexivity || discriminate) | ].
  exists a, m. unfold dget_err in Ea, Em. destruct (dget sl source) eqn:Ga; [ | discriminate]. injection Ea as ->. destruct (dget k a) eqn:Gm; [ | discriminate]. injection Em as ->.
  split; [eapply dget_some_in; eauto | ]. split; [eapply dget_some_in; eauto | auto].
Qed.
Lemma remove_skin_any : forall n d d' r, remove_skin n d = (d', r) -> desc d d'.
Proof.
  intros n d d' [r | x] E; [eapply remove_skin_desc; eauto | ]. intros sl k o' (s' & m' & Hs & Hm & Ho). unfold remove_skin in E.
  assert (Same : forall s m o, In s (d_skins d) -> In (sl, m) (sk_atts s) -> In (k, o) m -> exists o0, skin_attachment d sl k o0 /\ oget o "path" = oget o0 "path" /\ oget o "name" = oget o0 "name" /\
    (o = o0 \/ o_cls o0 = CSkinLinkedMesh) /\ exists sl1 k1 o1, skin_attachment d sl1 k1 o1 /\ o_cls o1 = o_cls o).
  { intros s m o H1 H2 H3. assert (A : skin_attachment d sl k o) by (exists s, m; auto). exists o. do 4 (split; [auto | ]). exists sl, k, o. auto. }
  destruct (get_skin d n) as [source | ] eqn:Eg; [ | injection E as <- _; eauto].
  assert (Hsrc : In source (d_skins d)) by (unfold get_skin in Eg; apply find_some in Eg; tauto).
  destruct (mapM_inplace _ (d_skins d)) as [skins u] eqn:El. destruct u as [u | y]; [discriminate | ]. injection E as <- _. cbn [d_skins set_skins] in Hs.
  destruct (inplace_in _ _ _ _ _ _ El Hs) as [H | (s & v & H & Er)]; [eauto | ].
  unfold relink_skin in Er. destruct (opt_eqb (sk_name s) (Some n)); [injection Er as <- _; eauto | ].
  match type of Er with context [mapM_inplace ?f (sk_atts s)] => destruct (mapM_inplace f (sk_atts s)) as [atts w] eqn:Ea end. injection Er as <- _. unfold sk_atts in Hm at 1. cbn [sk_attachments] in Hm.
  destruct (inplace_in _ _ _ _ _ _ Ea Hm) as [Hm1 | ([sl1 m1] & w1 & Hm1 & Ef)]; [eauto | ]. cbn [fst snd] in Ef.
  match type of Ef with context [mapM_inplace ?f m1] => destruct (mapM_inplace f m1) as [l2 w2] eqn:E2 end. injection Ef as -> <- _.
  destruct (inplace_in _ _ _ _ _ _ E2 Ho) as [Ho1 | ([k1 o1] & w3 & Ho1 & Ek)]; [eauto | ]. apply relink_desc in Ek as [E3 E4]. cbn [fst snd] in E3, E4. subst k1.
  destruct E4 as [-> | (Ec & a & m & H1 & H2 & ->)]; [eauto | ]. exists o1. split; [exists s, m1; auto | ].
  destruct (copy_mesh_spec m o1) as (C1 & C2 & _).
  split; [apply C2; simpl; auto | ]. split; [apply C2; simpl; auto | ]. split; [auto | ]. exists sl, k, m. split; [exists source, a; auto | auto].
Qed.
Lemma step_desc : forall e0 op e e' r, loaded e0 -> sound e0 e -> eop_ok op -> estep e op = (e', r) -> desc (e_data e) (e_data e').
Proof.
  intros e0 op e e' r L S O E. refine (calls_step e0 (fun x => desc (e_data e) (e_data x)) L _ _ _ _ _ _ _ op e e' r O S (desc_refl _) E).
  - intros n x d u _ H R. eapply desc_trans; [exact H | ]. exact (remove_skin_any _ _ _ _ R).
  - intros l x _ H. exact H.
  - intros sx sy x l u _ H _. exact H.
  - intros x g _ H _. exact H.
  - intros x i H. exact H.
  - intros enum x x' y _ _ H [C _ _ _ _]. unfold e_data. rewrite C. exact H.
  - intros enum x x' inv atts leafs bs ss is u _ _ H [_ _ _ C _ _ _ _ _]. destruct (clean_data_view _ _ _ _ _ _ _ _ _ C) as (_ & Ek & _). eapply desc_trans; [exact H | ].
    apply desc_sub. intros sl k o (s & m & Hs & Hm & Ho). rewrite Ek in Hs. apply in_map_iff in Hs as (s1 & <- & Hs). unfold clean_skin, sk_atts at 1 in Hm. cbn [sk_attachments] in Hm.
    apply in_dmap in Hm as (m1 & Hm & ->). apply in_drop_keys in Hm as [Hm _]. unfold drop_keys in Ho. apply filter_In in Ho as [Ho _]. exists s1, m1. auto.
Qed.

(** ** Editors whose graph is in step with their data *)
Definition covers (e : editor) : Prop := forall i, image_in_use (e_data e) i -> In i (dkeys (e_images e)).
Definition steady (e0 e : editor) : Prop := exists bs ss is, st e bs ss is /\ since e0 e ss.
Lemma steady_loaded : forall e0, loaded e0 -> steady e0 e0 /\ covers e0.
Proof.
  intros e0 H. pose proof H as (j & _ & Hj). apply mk_editor_inv in Hj as (_ & Hi & B). destruct (loaded_sync e0 H) as (D & _ & S). split; [ | intros i Hx; apply (images_loaded _ _ Hi); exact Hx].
  exists (d_bones (e_data e0)), (d_slots (e_data e0)), (d_ik (e_data e0)). split; [split; auto | ].
  assert (F : Forall (slot_from (e_data e0)) (d_slots (e_data e0))) by (apply Forall_forall; intros s Hs; exists s; auto).
  constructor; auto using desc_refl. intros i Hx. eapply (built_imgs (e_doc e0)); eauto.
Qed.
Lemma steady_step : forall e0 e op e', plain_images (e_data e0) -> steady e0 e -> covers e -> eop_ok op -> estep e op = (e', Ok tt) -> steady e0 e' /\ covers e'.
Proof.
  intros e0 e op e' Pl (bs & ss & is & S & I) K O E. destruct (step_run _ _ _ _ _ _ S O E) as (o & e1 & ss1 & e2 & ss2 & Q & S1 & M & -> & S2).
  assert (I1 : since e0 e1 ss1) by (eapply since_pre; [exact S | exact I | exact Q]). split.
  - do 3 eexists. split; [exact S2 | ]. apply since_post. destruct M as [ | enum e2 inv atts leafs orphans imgs rem Oo C]; [exact I1 | ]. eapply since_clean; eauto.
  - clear E S2. revert Q S1 M. generalize (if op_builds op then d_bones (e_data e) else bs), (if op_builds op then d_ik (e_data e) else is). intros bs1 is1 Q S1 M i Hi.
    assert (K1 : covers e1).
    { destruct Q as [ | l | sx sy l R | l d1 removed g R B]; auto. intros j Hj. apply K. destruct S as [D S]. apply (removal_facts _ _ _ _ _ R) in D as (_ & D & _). eapply desc_use; eauto. }
    assert (Hi2 : image_in_use (e_data e2) i) by (destruct o; exact Hi).
    assert (K2 : In i (dkeys (e_images e2))).
    { destruct M as [ | enum e2 inv atts leafs orphans imgs rem Oo C]; auto. rewrite (co_images _ _ _ _ _ _ _ _ _ _ _ _ C).
      rewrite (plain_imgs _ _ _ _ _ _ _ _ _ _ _ _ _ Pl I1 S1 C). apply in_drop_images. split.
      - apply K1. destruct Hi2 as (sl & k & x & Hx & Hc & ->). exists sl, k, x. apply (cleaned_att _ _ _ _ _ _ _ _ (co_data _ _ _ _ _ _ _ _ _ _ _ _ C)) in Hx. tauto.
      - eapply clean_image_kept; eauto. }
    destruct Q as [ | l | sx sy l R | l d1 removed g R B]; auto. cbn [post]. apply in_without_images. split; auto. rewrite in_images_to_drop. intros [_ Hn]. apply Hn.
    assert (Hi1 : image_in_use d1 i).
    { destruct M as [ | enum e2 inv atts leafs orphans imgs rem Oo C]; auto. destruct Hi2 as (sl & k & x & Hx & Hc & ->). exists sl, k, x.
      apply (cleaned_att _ _ _ _ _ _ _ _ (co_data _ _ _ _ _ _ _ _ _ _ _ _ C)) in Hx. tauto. }
    destruct Hi1 as (sl & k & x & Hx & _ & ->). exact (image_node _ _ _ _ sl k x S1 Hx).
Qed.

(** ** After a call that failed *)
Lemma calls_desc : forall e0 ops e, any_calls e0 ops e -> desc (e_data e0) (e_data e).
Proof.
  intros e0 ops e H. induction H as [L | ops e op e' r H IH O E]; [apply desc_refl | ]. destruct (calls_sound _ _ _ H) as [L S].
  eapply desc_trans; [exact IH | ]. eapply step_desc; eauto.
Qed.
Lemma steady_rebuilt : forall e0 ops e g, plain_slots (e_data e0) -> any_calls e0 ops e -> create_from_json_data (editor_json e) = Ok g -> steady e0 (mkEditor (e_doc e) (e_images e) g).
Proof.
  intros e0 ops e g Pl H G. destruct (rebuilt_in_step _ _ _ _ Pl H G) as [S _ _ _]. do 3 eexists. split; [exact S | ]. destruct (calls_sound _ _ _ H) as [L (V & D & _)].
  pose proof (wd_slots _ _ D) as F. pose proof (calls_desc _ _ _ H) as A. constructor; auto.
  - exact (skeleton_calls _ _ _ H).
  - intros i Hi. destruct S as [Di _]. destruct (built_imgs (e_doc e) g i Di G Hi) as (sl & k & o & Ho & ->). destruct (A sl k o Ho) as (o1 & A1 & P1 & N1 & _).
    exists sl, k, o1. split; [exact A1 | ]. apply att_image_same; auto.
Qed.
(** erase_skins does not look at the graph it replaces *)
Lemma skins_graph : forall l x im g1 g2 e1 r, mforeach (fun n => on_data (remove_skin n)) l (mkEditor x im g1) = (e1, r) ->
  mforeach (fun n => on_data (remove_skin n)) l (mkEditor x im g2) = (mkEditor (e_doc e1) (e_images e1) g2, r).
Proof.
  induction l as [ | n l IH]; intros x im g1 g2 e1 r E; cbn [mforeach] in *; [injection E as <- <-; reflexivity | ].
  unfold mbind at 1 in E. unfold on_data at 1 in E. unfold mbind at 1. unfold on_data at 1. unfold e_data in *. cbn [e_doc e_images e_graph] in *.
  destruct (remove_skin n (doc_data x)) as [d1 [u | y]]; [ | injection E as <- <-; reflexivity].
  unfold mbind at 1 in E. unfold mbind at 1. match type of E with context [mforeach ?f l ?a] => destruct (mforeach f l a) as [e2 v] eqn:E2 end.
  rewrite (IH _ _ _ g2 _ _ E2). destruct v; unfold mret in *; injection E as <- <-; reflexivity.
Qed.
Lemma erase_graph : forall enum l safe x im g1 g2 e' r, erase_skins enum l safe (mkEditor x im g1) = (e', Ok r) -> erase_skins enum l safe (mkEditor x im g2) = (e', Ok r).
Proof.
  intros enum l safe x im g1 g2 e' r E. unfold erase_skins in *. unfold mbind at 1 in E. unfold mbind at 1.
  destruct (mforeach _ l (mkEditor x im g1)) as [e1 [v | y]] eqn:E1; [ | discriminate]. rewrite (skins_graph _ _ _ _ g2 _ _ E1).
  unfold mbind at 1, mget at 1 in E. unfold mbind at 1, mget at 1. cbv beta iota in *. cbn [e_doc]. unfold mbind at 1, mlift at 1 in E. unfold mbind at 1, mlift at 1.
  destruct (create_from_json_data (document_json (e_doc e1))) as [g | y]; [ | discriminate]. unfold mbind at 1, on_graph at 1, mput at 1 in E. unfold mbind at 1, on_graph at 1, mput at 1.
  cbv beta iota in *. cbn [e_doc e_images] in *. exact E.
Qed.
Lemma safe_images : forall op e e' r, builds_graph op = false -> cleans_up op = false -> estep e op = (e', r) -> e_images e' = e_images e.
Proof.
  intros [enum l safe | enum l strict safe | enum | sx sy] e e' r B C E; try discriminate; cbn [estep cleans_up] in *.
  - destruct safe; [ | discriminate]. destruct (erase_animations enum l strict true e) as [e1 u] eqn:Es. injection E as <- _. revert Es. unfold erase_animations.
    apply keeps_bind; [apply keeps_data | intros _]. apply keeps_bind; [apply keeps_ret | intros a]. apply keeps_bind; [apply keeps_get | intros e9]. apply keeps_ret.
  - revert E. apply keeps_data.
Qed.
Lemma careful_any : forall e0 b e, careful_calls e0 b e -> exists ops, any_calls e0 ops e.
Proof.
  intros e0 b e H. induction H as [L | b e op e' x H [ops IH] O E | b e op e' H [ops IH] O E _]; [exists []; constructor; auto | | ]; eexists; eapply calls_more; eauto.
Qed.
Theorem careful_covered : forall e0 b e, plain_images (e_data e0) -> plain_slots (e_data e0) -> careful_calls e0 b e -> covers e.
Proof.
  intros e0 b e Pi Ps H. enough (K : covers e /\ (b = true -> steady e0 e)) by apply K.
  induction H as [L | b e op e' x H [K S] O E | b e op e' H [K S] O E C].
  - destruct (steady_loaded _ L). auto.
  - destruct (careful_any _ _ _ H) as [ops A]. destruct (calls_sound _ _ _ A) as [L So]. split; [ | discriminate].
    intros i Hi. rewrite (failed_images _ _ _ _ E). apply K. eapply desc_use; [ | exact Hi]. eapply step_desc; eauto.
  - destruct (careful_any _ _ _ H) as [ops A]. destruct (calls_sound _ _ _ A) as [L So]. destruct b.
    { destruct (steady_step _ _ _ _ Pi (S eq_refl) K O E). auto. }
    destruct (builds_graph op) eqn:Eb.
    + destruct op as [enum l safe | | | ]; try discriminate. destruct (any_rebuilt _ _ _ enum A) as (g & G & _).
      pose proof (steady_rebuilt _ _ _ _ Ps A G) as S1. assert (E1 : estep (mkEditor (e_doc e) (e_images e) g) (EoEraseSkins enum l safe) = (e', Ok tt)).
      { cbn [estep] in *. destruct e as [x im g0]. cbn [e_doc e_images]. destruct (erase_skins enum l safe (mkEditor x im g0)) as [e9 [r | y]] eqn:Es; [ | discriminate].
        injection E as <-. rewrite (erase_graph _ _ _ _ _ _ g _ _ Es). reflexivity. }
      destruct (steady_step _ _ _ _ Pi S1 K O E1). auto.
    + destruct C as [C | [C | C]]; try discriminate. split; [ | discriminate]. intros i Hi. rewrite (safe_images _ _ _ _ Eb C E). apply K. eapply desc_use; [ | exact Hi]. eapply step_desc; eauto.
Qed.
