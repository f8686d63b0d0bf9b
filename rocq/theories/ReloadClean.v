(** A clean-up after saving and loading. *)
From Verif Require Import PyBase PyFacts PyNum Json Version Classes ClassFacts DocFacts ReloadFacts SpecDoc Graph SpineGraph DrawOrder SpecDraw AnimData Editor SpecAnim SpecEditor SpecReload
  SpecFail SpecAny AnimFacts EditorFacts EditorData EditorBuild EditorImages EditorReload EditorHist EditorOut EditorClean EditorRemoved EditorFail EditorAny EditorRepair ReloadImages AlikeFacts.
Open Scope string_scope.

Lemma reload_exact : forall ver c o k, wf_obj c o -> In k (attrs_of c) -> get_or_none k (default_values c ver) = VNone -> oget (reload ver o) k = oget o k.
Proof.
  intros ver c o k W Hk D. rewrite (oget_reload ver c) by auto. rewrite D. unfold exported.
  destruct (oget o k) eqn:E; try (rewrite D; reflexivity). match goal with |- (if ?b then _ else _) = _ => destruct b; reflexivity end.
Qed.
(** The value is kept, or is equal to the default and loaded as the default. *)
Lemma reload_or_default : forall ver c o k v, wf_obj c o -> filled ver o -> In k (attrs_of c) -> dget k (default_values c ver) = Some v -> v <> VNone ->
  oget (reload ver o) k = oget o k \/ (oget (reload ver o) k = v /\ py_eq (oget o k) v = true).
Proof.
  intros ver c o k v W F Hk D N. rewrite (oget_reload ver c) by auto. unfold exported. unfold get_or_none. rewrite D.
  assert (Hc : o_cls o = c) by apply W. unfold filled in F. rewrite Hc in F.
  destruct (is_none (oget o k)) eqn:E.
  - exfalso. assert (Eo : oget o k = VNone) by (destruct (oget o k); try discriminate E; reflexivity). apply N. eapply F; eauto.
  - destruct (py_eq (oget o k) v) eqn:P; cbn [negb]; auto.
Qed.
Lemma reload_slot : forall ver s, loaded_obj ver CSlot s -> slot_alike s (reload ver s).
Proof.
  intros ver s [W _]. repeat split; (apply (reload_exact ver CSlot); [exact W | cbn; tauto | ]); unfold default_values; destruct (ver_ge ver SPINE_3_8); reflexivity.
Qed.
Lemma reload_key : forall ver k, loaded_obj ver CSlotKeyframe k -> key_alike k (reload ver k).
Proof.
  intros ver k [W F]. split.
  - apply (reload_exact ver CSlotKeyframe); [exact W | cbn; tauto | ]. unfold default_values. destruct (ver_ge ver SPINE_3_8); reflexivity.
  - destruct (ver_ge ver SPINE_3_8) eqn:V.
    + destruct (reload_or_default ver CSlotKeyframe k "time" (VInt 0) W F) as [E | [E P]]; [cbn; tauto | unfold default_values; rewrite V; reflexivity | discriminate | | ].
      * rewrite E. reflexivity.
      * rewrite E, P. reflexivity.
    + f_equal. apply (reload_exact ver CSlotKeyframe); [exact W | cbn; tauto | ]. unfold default_values. rewrite V. reflexivity.
Qed.
Lemma reload_offset : forall ver o, loaded_obj ver CDrawOffset o -> offset_alike o (reload ver o).
Proof.
  intros ver o [W F]. split.
  - destruct (reload_or_default ver CDrawOffset o "slot" (VStr "") W F) as [E | [E P]]; [cbn; tauto | unfold default_values; destruct (ver_ge ver SPINE_3_8); reflexivity | discriminate | exact E | ].
    rewrite E. destruct (oget o "slot"); cbn in P; try discriminate P. apply String.eqb_eq in P. subst. reflexivity.
  - apply (reload_exact ver CDrawOffset); [exact W | cbn; tauto | ]. unfold default_values. destruct (ver_ge ver SPINE_3_8); reflexivity.
Qed.
Lemma Forall2_map_of : forall A (R : A -> A -> Prop) (P : A -> Prop) f l, (forall x, P x -> R x (f x)) -> Forall P l -> Forall2 R l (map f l).
Proof. intros A R P f l H F. induction F; cbn [map]; constructor; auto. Qed.
Lemma map_reload : forall ver l, map (obj_set_defaults ver) (map (raw ver) l) = map (reload ver) l.
Proof. intros ver l. rewrite map_map. reflexivity. Qed.
Lemma map_nil_iff : forall A B (f : A -> B) l, map f l = [] <-> l = [].
Proof. intros A B f [ | x l]; split; intros E; try reflexivity; discriminate E. Qed.
Lemma reload_timeline : forall ver t, slot_timeline_all (loaded_obj ver) t -> timeline_alike t (slot_timeline_defaults ver (slot_timeline_raw ver t)).
Proof.
  intros ver t (H1 & H2 & H3). unfold slot_timeline_defaults, slot_timeline_raw, slot_timeline_map. cbn [st_attachment st_color st_twoColor]. rewrite !map_reload. split; [ | split; apply map_nil_iff].
  cbn [st_attachment]. eapply Forall2_map_of; [ | exact H1]. apply reload_key.
Qed.
Lemma reload_order : forall ver k, draw_order_all (loaded_obj ver) k -> order_alike k (draw_order_defaults ver (draw_order_raw ver k)).
Proof.
  intros ver k H. unfold order_alike, draw_order_defaults, draw_order_raw. cbn [do_offsets]. rewrite map_reload. eapply Forall2_map_of; [ | exact H]. apply reload_offset.
Qed.
Lemma reload_animation : forall ver a, animation_all (loaded_obj ver) a -> anim_alike a (animation_defaults ver (animation_raw ver a)).
Proof.
  intros ver a (_ & H2 & _ & H4 & _). split.
  - unfold animation_defaults, animation_raw. cbn [an_slots]. unfold dmap. rewrite map_map. eapply Forall2_map_of; [ | exact H4]. intros [n t] T. cbn [fst snd] in *. split; [reflexivity | apply reload_timeline; exact T].
  - unfold animation_defaults, animation_raw. cbn [an_drawOrder]. rewrite map_map. eapply Forall2_map_of; [ | exact H2]. apply reload_order.
Qed.

Lemma drel_keys : forall A (R : A -> A -> Prop) d d', drel R d d' -> dkeys d' = dkeys d.
Proof. intros A R d d' F. induction F as [ | x y d d' [E _] F IH]; [reflexivity | ]. cbn [dkeys map]. f_equal; [symmetry; exact E | exact IH]. Qed.
Lemma drel_keys_in : forall A (R : dict A -> dict A -> Prop) d d' k m', (forall m m', R m m' -> dkeys m' = dkeys m) -> drel R d d' -> In (k, m') d' -> exists m, In (k, m) d /\ dkeys m' = dkeys m.
Proof.
  intros A R d d' k m' K F H. destruct (Forall2_in_r _ _ _ _ _ _ F H) as ([k2 m] & Hm & E & Rm). cbn [fst snd] in E, Rm. subst k2. exists m. auto.
Qed.

Section Reloaded.
  Variables (e0 : editor) (ops : list eop) (e e' : editor).
  Hypothesis H : any_calls e0 ops e.
  Hypothesis R : mk_editor (editor_json e) = Ok e'.
  Hypothesis T : no_null_time (e_data e) \/ ver_ge (e_ver e) SPINE_3_8 = true.

  Lemma reloaded_data : e_data e' = reload_data (e_ver e) (trim_data (e_data e)).
  Proof.
    pose proof (calls_from _ _ _ H) as C. apply mk_editor_inv in R as (E & _ & _). pose proof (own_needed e0 e C _ E) as Ow. rewrite <- (x_json e0 e C Ow) in E.
    apply load_unique in E; [ | exact (x_loaded e0 e C) | exact (x_ver e0 e C)]. unfold e_data at 1. rewrite E. reflexivity.
  Qed.
  Theorem reloaded_alike : alike (e_data e) (e_data e').
  Proof.
    pose proof (calls_from _ _ _ H) as C. pose proof (cf_dinv _ _ C) as D. destruct (any_reloaded _ _ _ H e' R T) as (_ & _ & S & _). constructor.
    - rewrite reloaded_data. unfold reload_data, data_defaults, data_raw, trim_data, set_skins. cbn [d_slots]. rewrite map_reload. eapply Forall2_map_of; [ | exact (di_slots _ _ D)]. apply reload_slot.
    - rewrite reloaded_data. unfold reload_data, data_defaults, data_raw, trim_data, set_skins. cbn [d_animations]. unfold dmap. rewrite map_map. eapply Forall2_map_of; [ | exact (di_anims _ _ D)].
      intros [n a] A. cbn [fst snd] in *. split; [reflexivity | ]. apply reload_animation. exact (no_all _ _ A).
    - intros sl k o A. destruct (attachment_l _ _ _ _ _ S A) as (o' & B & E & _). exists o'. auto.
    - intros sl k o' A. destruct (attachment_r _ _ _ _ _ S A) as (o & B & E & _). exists o. auto.
  Qed.

  Lemma reloaded_dinv : dinv (e_ver e') (e_data e').
  Proof.
    pose proof (calls_from _ _ _ H) as C. pose proof (cf_dinv _ _ C) as D. destruct (any_reloaded _ _ _ H e' R T) as (_ & _ & S & _).
    apply mk_editor_inv in R as (E & _ & _). destruct (load_document_loaded _ _ E) as ((H1 & H2 & H3 & H4 & H5 & H6 & H7 & H8) & LS & LA).
    destruct S as (_ & _ & Sk & _ & _ & _ & _ & An). constructor; auto.
    - apply Forall_forall. intros s' Hs. rewrite Forall_forall in H3, LS. specialize (H3 s' Hs). destruct (LS s' Hs) as [N1 N2]. constructor; [exact N1 | exact N2 | | ].
      + intros sl m k o Hm Ho. unfold skin_all in H3. unfold sk_atts in Hm. destruct (sk_attachments s') as [a | ]; [ | destruct Hm].
        eapply dall_in in H3; [ | exact Hm]. eapply dall_in in H3; [ | exact Ho]. destruct H3 as [W F]. rewrite <- (loaded_settled (e_ver e') (o_cls o) o); [apply att_loaded_ok; exact W | ]. split; [apply W | exact F].
      + destruct (Forall2_in_r _ _ _ _ _ _ Sk Hs) as (s & Hs' & Ss). apply same_atts in Ss. pose proof (di_skins _ _ D) as Fs. rewrite Forall_forall in Fs. destruct (so_keys _ _ (Fs s Hs')) as [K1 K2]. split.
        * rewrite (drel_keys _ _ _ _ Ss). exact K1.
        * intros sl m' Hm. destruct (drel_keys_in _ _ _ _ _ _ (drel_keys _ same_obj) Ss Hm) as (m & Hm' & ->). exact (K2 _ _ Hm').
    - apply Forall_forall. intros [i a'] Ha. cbn [snd]. pose proof (dall_in _ _ _ _ _ H8 Ha) as A1. pose proof (dall_in _ _ _ _ _ LA Ha) as A2.
      destruct (Forall2_in_r _ _ _ _ _ _ An Ha) as ([j a] & Hj & _ & Sa). cbn [fst snd] in Sa. destruct Sa as (_ & _ & _ & S4 & _ & _ & _ & S8).
      pose proof (di_anims _ _ D) as Fa. pose proof (dall_in _ _ _ _ _ Fa Hj) as Ok_a. constructor; [exact A1 | exact A2 | | ].
      + rewrite (drel_keys _ _ _ _ S4). exact (no_slots _ _ Ok_a).
      + rewrite (drel_keys _ _ _ _ S8). exact (no_deform _ _ Ok_a).
    - rewrite (drel_keys _ _ _ _ An). exact (di_names _ _ D).
  Qed.
  Lemma reloaded_boned : Forall boned (d_slots (e_data e')).
  Proof.
    pose proof (calls_from _ _ _ H) as C. pose proof (cf_dinv _ _ C) as D. assert (K : exists z, mk_editor (editor_json e) = Ok z) by eauto. apply (any_reload _ _ _ H) in K.
    rewrite reloaded_data. unfold reload_data, data_defaults, data_raw, trim_data, set_skins. cbn [d_slots]. rewrite map_reload. apply Forall_forall. intros s' Hs. apply in_map_iff in Hs as (s & <- & Hs).
    pose proof (di_slots _ _ D) as Fs. rewrite Forall_forall in Fs. destruct (Fs s Hs) as [W _]. unfold boned. rewrite (reload_exact (e_ver e) CSlot); [ | exact W | cbn; tauto | unfold default_values; destruct (ver_ge (e_ver e) SPINE_3_8); reflexivity].
    apply K. exact Hs.
  Qed.
  Lemma reloaded_in_step : plain_slots (e_data e0) -> in_step e' (d_bones (e_data e')) (d_slots (e_data e')) (d_ik (e_data e')).
  Proof.
    intros Pl. pose proof reloaded_dinv as D. pose proof reloaded_boned as Bo. pose proof reloaded_alike as Al. pose proof (mk_editor_inv _ _ R) as (_ & I & G).
    assert (Sk : skins_ok (e_data e')) by (eapply images_skins; exact I). constructor.
    - split; [exact D | exact (build_sync (e_doc e') _ D Sk G)].
    - pose proof (built_filed (e_doc e') _ (e_images e') D G) as F. destruct e'. exact F.
    - intros s' Hs. apply plain_base. destruct (alike_slot _ _ _ (alike_sym _ _ Al) Hs) as (s & Hs' & Sa). rewrite <- (alike_name _ _ Sa).
      pose proof (calls_sound _ _ _ H) as [_ (_ & Dw & _)]. pose proof (wd_slots _ _ Dw) as Fr. rewrite Forall_forall in Fr. destruct (EditorFacts.from_name _ _ (Fr s Hs')) as (s0 & H0 & E0). rewrite <- E0. apply Pl. exact H0.
    - intros inv atts leafs _. apply Forall_forall. intros s Hs. apply filter_In in Hs as [Hs _]. rewrite Forall_forall in Bo. exact (Bo s Hs).
  Qed.
End Reloaded.

(** ** Clean-ups of an editor in step with its document *)
Lemma step_iff : forall e bs ss is enum, in_step e bs ss is -> order_ok enum ->
  ((exists e2 r, clean_animation enum e = (e2, Ok r)) <-> analysable (e_data e) /\ sound_orders (e_data e)).
Proof.
  intros e bs ss is enum S O. split; [ | intros [A So]; exact (step_draw_works _ _ _ _ enum S O A So)]. intros (e2 & r & E). destruct S as [[D Sy] F Pl Bo] eqn:ES. clear ES.
  assert (A : analysable (e_data e)).
  { destruct (get_unused_slots_and_attachments (e_data e)) as [u | x] eqn:U.
    - apply unused_total; eauto using dinv_timelines. eapply sync_distinct_slots; eauto.
    - rewrite (clean_fails enum e x U) in E. discriminate. }
  split; [exact A | ]. destruct (sound_or_not (e_data e)) as [So | (before & k & after & Fu)]; [exact (sync_distinct_slots _ _ _ _ _ _ Sy) | exact So | ].
  destruct (step_draw_fails _ _ _ _ enum S O A before k after Fu) as (e3 & x & gone & E3 & _). congruence.
Qed.
Section Cleaned.
  Variables (e0 : editor) (ops : list eop) (e e' e1 : editor) (enum enum' enum1 : order).
  Hypothesis H : any_calls e0 ops e.
  Hypothesis R : mk_editor (editor_json e) = Ok e'.
  Hypothesis T : no_null_time (e_data e) \/ ver_ge (e_ver e) SPINE_3_8 = true.
  Hypotheses (Pl : plain_slots (e_data e0)) (O : order_ok enum) (O' : order_ok enum') (E1 : estep e (EoEraseSkins enum1 [] true) = (e1, Ok tt)).

  Theorem reload_works : (exists e2 r, clean_animation enum e1 = (e2, Ok r)) <-> (exists e2 r, clean_animation enum' e' = (e2, Ok r)).
  Proof.
    destruct (repaired e0 ops e e1 enum1 H Pl E1) as (Ed & _ & S). pose proof (reloaded_in_step e0 ops e e' H R T Pl) as S'. pose proof (reloaded_alike e0 ops e e' H R T) as Al.
    rewrite (step_iff _ _ _ _ _ S O), (step_iff _ _ _ _ _ S' O'). unfold e_data at 1 2. rewrite Ed. split; intros [A So]; split.
    - eapply alike_analysable; eauto.
    - eapply alike_sound; eauto.
    - eapply alike_analysable; [apply alike_sym; exact Al | exact A].
    - eapply alike_sound; [apply alike_sym; exact Al | exact So].
  Qed.
  Theorem reload_report : forall e2 rem atts e2' rem' atts', clean_animation enum e1 = (e2, Ok (rem, atts)) -> clean_animation enum' e' = (e2', Ok (rem', atts')) ->
    (forall n, In n rem <-> In n rem') /\ (forall k, In k atts <-> In k atts') /\ map slot_name (d_slots (e_data e2)) = map slot_name (d_slots (e_data e2')) /\
    (forall sl k, (exists o, skin_attachment (e_data e2) sl k o) <-> (exists o, skin_attachment (e_data e2') sl k o)).
  Proof.
    intros e2 rem atts e2' rem' atts' C C'. destruct (repaired e0 ops e e1 enum1 H Pl E1) as (Ed & _ & S). pose proof (reloaded_in_step e0 ops e e' H R T Pl) as S'.
    pose proof (reloaded_alike e0 ops e e' H R T) as Al. pose proof (alike_sym _ _ Al) as La.
    assert (Dd : e_data e1 = e_data e) by (unfold e_data; rewrite Ed; reflexivity).
    destruct (step_removed _ _ _ _ _ _ _ _ S O C) as (R1 & R2 & R3 & R4). destruct (step_removed _ _ _ _ _ _ _ _ S' O' C') as (Q1 & Q2 & Q3 & Q4). rewrite Dd in R1, R2, R3, R4.
    assert (Kn : forall n, In n rem <-> In n rem').
    { intros n. rewrite R1, Q1. split; intros (s & Hs & <- & G).
      - destruct (alike_slot _ _ _ Al Hs) as (s' & Hs' & Sa). exists s'. split; [exact Hs' | ]. split; [exact (alike_name _ _ Sa) | eapply alike_slot_goes; eauto].
      - destruct (alike_slot _ _ _ La Hs) as (s' & Hs' & Sa). exists s'. split; [exact Hs' | ]. split; [exact (alike_name _ _ Sa) | eapply alike_slot_goes; eauto]. }
    assert (Ka : forall k, In k atts <-> In k atts').
    { intros k. rewrite R2, Q2. split; intros G; eapply alike_goes; eauto. }
    split; [exact Kn | ]. split; [exact Ka | ]. split.
    - rewrite R3, Q3, (alike_names _ _ Al). apply without_same. exact Kn.
    - intros sl k. split; intros (o & Ho).
      + apply R4 in Ho as (Ho & N1 & N2). destruct (ak_skins _ _ Al _ _ _ Ho) as (o' & Ho' & _). exists o'. apply Q4. rewrite <- Kn, <- Ka. auto.
      + apply Q4 in Ho as (Ho & N1 & N2). destruct (ak_back _ _ Al _ _ _ Ho) as (o' & Ho' & _). exists o'. apply R4. rewrite Kn, Ka. auto.
  Qed.
End Cleaned.
