(** The invariant of the editor's data, and how each data operation keeps it. *)
From Verif Require Import PyBase PyFacts Json Version Classes ClassFacts DocFacts ReloadFacts SpineGraph DrawOrder AnimData Editor SpecAnim SkinFacts SpecEditor.
Open Scope string_scope.

(** ** The invariant *)
Definition settled (ver : version) (o : obj) : Prop := obj_set_defaults ver o = o.
Definition att_classes : list cls := [CSkinAttachment; CSkinMesh; CSkinLinkedMesh; CSkinPath].
(** A linked mesh may become a copy of an attachment of another class, so that the
    attributes need not be those of the class. *)
Record att_ok (ver : version) (o : obj) : Prop := {
  ao_cls : In (o_cls o) att_classes;
  ao_keys : NoDup (dkeys (o_attrs o));
  ao_settled : settled ver o;
  ao_path : is_str_or_null (oget o "path") = true;
  ao_name : is_str_or_null (oget o "name") = true }.
Record skin_ok (ver : version) (s : skin) : Prop := {
  so_name : sk_name s <> None;
  so_some : sk_attachments s <> None;
  so_atts : forall sl m k o, In (sl, m) (sk_atts s) -> In (k, o) m -> att_ok ver o;
  so_keys : distinct_keys s }.
Record anim_ok (ver : version) (a : animation) : Prop := {
  no_all : animation_all (loaded_obj ver) a;
  no_loaded : loaded_anim ver a;
  no_slots : NoDup (dkeys (an_slots a));
  no_deform : NoDup (dkeys (an_deform a)) }.
Record dinv (ver : version) (d : anim_data) : Prop := {
  di_bones : Forall (loaded_obj ver CBone) (d_bones d);
  di_slots : Forall (loaded_obj ver CSlot) (d_slots d);
  di_skins : Forall (skin_ok ver) (d_skins d);
  di_events : dall (loaded_obj ver CEvents) (d_events d);
  di_ik : Forall (loaded_obj ver CIk) (d_ik d);
  di_transform : Forall (loaded_obj ver CTransform) (d_transform d);
  di_path : Forall (loaded_obj ver CPath) (d_path d);
  di_anims : dall (anim_ok ver) (d_animations d);
  di_names : NoDup (dkeys (d_animations d)) }.

(** ** Nothing is left for the defaults to fill in *)
Lemma loaded_settled : forall ver c o, loaded_obj ver c o -> settled ver o.
Proof.
  intros ver c o [(Ec & Ek & _) F]. unfold settled, obj_set_defaults. destruct o as [c' at_]. simpl in *. f_equal.
  rewrite fill_defaults_eq. rewrite <- (map_id at_) at 2. apply map_ext_in. intros [k v] Hi. simpl. f_equal. unfold fill1.
  assert (N : NoDup (dkeys at_)) by (rewrite Ek; apply attrs_of_NoDup).
  assert (Hk : In k (attrs_of c')). { rewrite Ec, <- Ek. apply (in_map fst) in Hi. auto. }
  destruct v; auto. destruct (dget k (default_values c' ver)) as [x | ] eqn:Ex; auto.
  apply (F k x); auto. unfold oget. simpl. rewrite (in_dget k at_ VNone N Hi). auto.
Qed.
Lemma map_settled : forall ver c l, Forall (loaded_obj ver c) l -> map (obj_set_defaults ver) l = l.
Proof.
  intros ver c l H. rewrite <- (map_id l) at 2. apply map_ext_in. intros o Ho. rewrite Forall_forall in H.
  apply (loaded_settled ver c). auto.
Qed.
Lemma dmap_all : forall A (f : A -> A) (Q : A -> Prop) d, (forall x, Q x -> f x = x) -> dall Q d -> dmap f d = d.
Proof. intros A f Q d H K. apply dmap_id_ext. intros k v Hi. apply H. eapply dall_in; eauto. Qed.
Lemma map_all : forall A (f : A -> A) (Q : A -> Prop) l, (forall x, Q x -> f x = x) -> Forall Q l -> map f l = l.
Proof.
  intros A f Q l H K. rewrite <- (map_id l) at 2. apply map_ext_in. intros x Hx. rewrite Forall_forall in K. auto.
Qed.
Lemma slot_timeline_settled : forall ver t, slot_timeline_all (loaded_obj ver) t -> slot_timeline_defaults ver t = t.
Proof.
  intros ver [a c t] (H1 & H2 & H3). unfold slot_timeline_defaults. simpl in *.
  rewrite (map_settled ver CSlotKeyframe a), (map_settled ver CSlotKeyframe c), (map_settled ver CSlotKeyframe t); auto.
Qed.
Lemma bone_timeline_settled : forall ver t, bone_timeline_all (loaded_obj ver) t -> bone_timeline_defaults ver t = t.
Proof.
  intros ver [a b c t] (H1 & H2 & H3 & H4). unfold bone_timeline_defaults. simpl in *.
  rewrite (map_settled ver CBoneRS a), (map_settled ver CBoneTS b), (map_settled ver CBoneRS c), (map_settled ver CBoneTS t); auto.
Qed.
Lemma draw_order_settled : forall ver d, draw_order_all (loaded_obj ver) d -> loaded_draw_order ver d -> draw_order_defaults ver d = d.
Proof.
  intros ver [t l] H L. unfold draw_order_defaults. unfold draw_order_all in H. unfold loaded_draw_order in L. simpl in *.
  rewrite (map_settled ver CDrawOffset l); auto. f_equal. destruct t; auto.
  destruct (dget "time" (default_values CDrawOrder ver)) eqn:E; auto. exfalso. apply L; congruence.
Qed.
Lemma anim_settled : forall ver a, anim_ok ver a -> animation_defaults ver a = a.
Proof.
  intros ver a H. pose proof (no_loaded ver a H) as L. destruct (no_all ver a H) as (H1 & H2 & H3 & H4 & H5 & H6 & H7 & H8).
  destruct a as [ik dr bo sl ev tr pa de]. unfold animation_defaults, loaded_anim in *. simpl in *. f_equal.
  - eapply dmap_all; [ | exact H1]. apply map_settled.
  - rewrite <- (map_id dr) at 2. apply map_ext_in. intros x Hx. rewrite Forall_forall in H2, L. apply draw_order_settled; auto.
  - eapply dmap_all; [ | exact H3]. apply bone_timeline_settled.
  - eapply dmap_all; [ | exact H4]. apply slot_timeline_settled.
  - eapply map_settled; eauto.
  - eapply dmap_all; [ | exact H6]. apply map_settled.
  - eapply dmap_all; [ | exact H7]. intros x Hx. eapply dmap_all; [ | exact Hx]. apply map_settled.
  - eapply dmap_all; [ | exact H8]. intros x Hx. eapply dmap_all; [ | exact Hx]. intros y Hy. eapply dmap_all; [ | exact Hy].
    apply map_settled.
Qed.
Lemma sk_atts_some : forall ver s, skin_ok ver s -> sk_attachments s = Some (sk_atts s).
Proof. intros ver s H. pose proof (so_some ver s H) as K. unfold sk_atts. destruct (sk_attachments s); congruence. Qed.
Lemma skin_settled : forall ver s, skin_ok ver s -> skin_defaults ver s = s.
Proof.
  intros ver s H. pose proof (so_name ver s H) as Hn. pose proof (sk_atts_some ver s H) as Ha.
  pose proof (so_atts ver s H) as Ho. destruct s as [n a]. unfold skin_defaults. simpl in *. rewrite Ha. f_equal.
  - destruct n; congruence.
  - f_equal. apply dmap_id_ext. intros sl m Hm. apply dmap_id_ext. intros k o Hk. apply (ao_settled ver o). eauto.
Qed.
Lemma dinv_settled : forall ver d, dinv ver d -> data_defaults ver d = d.
Proof.
  intros ver d H. destruct H as [H1 H2 H3 H4 H5 H6 H7 H8 _]. destruct d. unfold data_defaults. simpl in *. f_equal;
    try (eapply map_settled; eassumption).
  - eapply map_all; [ | exact H3]. apply skin_settled.
  - eapply dmap_all; [ | exact H4]. intros x Hx. eapply loaded_settled; eauto.
  - eapply dmap_all; [ | exact H8]. apply anim_settled.
Qed.

(** ** Loading *)
Lemma proper_get : forall d k v, proper (VDict d) -> dget k d = Some v -> proper v.
Proof. intros d k v H E. inversion H; subst. apply dget_some_in in E. eauto. Qed.
Lemma proper_ddel : forall d k, proper (VDict d) -> proper (VDict (ddel k d)).
Proof.
  intros d k H. inversion H as [ | | | | | | d' N K]; subst. constructor.
  - unfold ddel, dkeys. clear H K. induction d as [ | [k' v] d IH]; simpl; [constructor | ]. simpl in N. apply NoDup_cons_iff in N as [N1 N2].
    destruct (negb (String.eqb k k')); auto. simpl. constructor; auto. intros Hi. apply N1. apply in_map_iff in Hi as (x & E & Hx).
    apply filter_In in Hx as [Hx _]. apply in_map_iff. eauto.
  - intros k' v Hi. apply filter_In in Hi as [Hi _]. eauto.
Qed.
Lemma proper_iter : forall v l x, proper v -> py_iter v = Ok l -> In x l -> proper x.
Proof.
  intros v l x H E Hx. destruct v; simpl in E; try discriminate; injection E as <-.
  - apply in_map_iff in Hx as (c & <- & _). constructor.
  - inversion H as [ | | | | | l' F | ]; subst. rewrite Forall_forall in F. auto.
  - apply in_map_iff in Hx as (c & <- & _). constructor.
Qed.
Lemma proper_values : forall c v d, proper v -> obj_values c v = Ok d -> proper (VDict d).
Proof.
  intros c v d H E. assert (E0 : proper (VDict [])) by (constructor; [constructor | intros k x []]).
  assert (X : v = VDict d \/ d = []).
  { unfold obj_values in E. destruct (truthy v) eqn:T.
    - left. destruct c; try (destruct v; simpl in E; try discriminate; injection E as <-; auto; fail);
        destruct v; simpl in E, T; try discriminate; injection E as <-; auto.
    - destruct c; try (right; injection E as <-; reflexivity); destruct v; simpl in E; try discriminate; injection E as <-; auto. }
  destruct X as [-> | ->]; auto.
Qed.
Lemma list_of_proper : forall A (f : val -> res A) v r, list_of f v = Ok r -> (forall x, v = Some x -> proper x) ->
  forall y, In y r -> exists x, proper x /\ f x = Ok y.
Proof.
  intros A f v r E H y Hy. destruct v as [v | ]; simpl in E; [ | injection E as <-; destruct Hy].
  inv_bind E. apply mapM_ok in E. destruct (Forall2_in_r _ _ _ _ _ E y Hy) as (z & Hz & Ez). exists z. split; auto.
  eapply proper_iter; eauto.
Qed.
Lemma dmapM_proper : forall A (f : val -> res A) d r, dmapM f d = Ok r -> proper (VDict d) ->
  NoDup (dkeys r) /\ forall k y, In (k, y) r -> exists x, proper x /\ f x = Ok y.
Proof.
  intros A f d r E H. inversion H as [ | | | | | | d' N K]; subst. split.
  - rewrite (dmapM_keys _ _ _ _ _ E). auto.
  - intros k y Hy. apply dmapM_ok in E. destruct (Forall2_in_r _ _ _ _ _ E (k, y) Hy) as ([k' z] & Hz & E1 & E2). simpl in *.
    exists z. split; auto. eapply K; eauto.
Qed.
Lemma dict_of_proper : forall A (f : val -> res A) v r, dict_of f v = Ok r -> (forall x, v = Some x -> proper x) ->
  NoDup (dkeys r) /\ forall k y, In (k, y) r -> exists x, proper x /\ f x = Ok y.
Proof.
  intros A f v r E H. destruct v as [v | ]; simpl in E.
  - assert (E0 : r = [] -> NoDup (dkeys r) /\ forall k y, In (k, y) r -> exists x, proper x /\ f x = Ok y).
    { intros ->. split; [constructor | intros k y []]. }
    destruct v as [ | | | | s | l | d]; try discriminate.
    + destruct s; [injection E as <-; auto | discriminate].
    + destruct l; [injection E as <-; auto | destruct (by_elements_not _ _ _ _ E)].
    + eapply dmapM_proper; eauto.
  - injection E as <-. split; [constructor | intros k y []].
Qed.
Lemma items_of_proper : forall A (f : val -> res A) v r, items_of f v = Ok r -> proper v ->
  NoDup (dkeys r) /\ forall k y, In (k, y) r -> exists x, proper x /\ f x = Ok y.
Proof.
  intros A f v r E H. unfold items_of in E. inv_bind E. destruct v; try discriminate. injection E0 as <-. eapply dmapM_proper; eauto.
Qed.
Lemma mk_animation_keys : forall v a, proper v -> mk_animation v = Ok a -> NoDup (dkeys (an_slots a)) /\ NoDup (dkeys (an_deform a)).
Proof.
  intros v a H E. unfold mk_animation in E. inv_bind E. rename x into values. assert (P := proper_values _ _ _ H E0).
  do 9 inv_bind E. injection E as <-. simpl. split.
  - eapply dict_of_proper in E4 as [N _]; auto. intros w Ew. eapply proper_get; eauto.
  - eapply items_of_proper in E8 as [N _]; auto. destruct (dget "deform" values) eqn:Ed; [eapply proper_get; eauto | ].
    constructor; [constructor | intros k y []].
Qed.
Lemma mk_skin_keys : forall v s, proper v -> mk_skin v = Ok s -> distinct_keys s.
Proof.
  intros v s H E. unfold mk_skin in E. inv_bind E. rename x into values. assert (P := proper_values _ _ _ H E0).
  inv_bind E. inv_bind E. destruct (is_str_or_null (get_or_none "name" values)); [ | discriminate]. injection E as <-. unfold distinct_keys, sk_atts. simpl.
  unfold get_or_none in E2. destruct (dget "attachments" values) as [w | ] eqn:Ew.
  2: { injection E2 as <-. split; [constructor | intros sl m []]. }
  assert (Pw : proper w) by (eapply proper_get; eauto).
  destruct (is_none w) eqn:En; [destruct w; try discriminate En; injection E2 as <-; split; [constructor | intros sl m []] | ].
  assert (E2' : (let! x := mk_attachments w in Ok (Some x)) = Ok x0) by (destruct w; [discriminate En | | | | | | ]; exact E2). clear E2.
  inv_bind E2'. injection E2' as <-. apply attachments_of_ok in E as (d & -> & E). destruct (dmapM_proper _ _ _ _ E Pw) as [N K]. split; auto.
  intros sl m Hm. destruct (K sl m Hm) as (y & Py & Ey). apply attachments_of_ok in Ey as (d' & -> & Ey). apply (dmapM_proper _ _ _ _ Ey Py).
Qed.
Lemma att_loaded_ok : forall ver o, wf_att o -> att_ok ver (obj_set_defaults ver o).
Proof.
  intros ver o H. pose proof (wf_att_defaults ver o H) as [H1 H2]. destruct H as [H0 _].
  assert (L : loaded_obj ver (o_cls o) (obj_set_defaults ver o)).
  { split; [apply type_guard_defaults; auto | eapply filled_defaults; eauto]. }
  change (o_cls (obj_set_defaults ver o)) with (o_cls o) in *. set (p := obj_set_defaults ver o) in *.
  assert (Hc : In (o_cls o) att_classes).
  { destruct H1 as (Ec & Ek & _). unfold attachment_class in H2. destruct (oget p "type") eqn:Et; try discriminate.
    - injection H2 as <-. simpl. tauto.
    - repeat match goal with H : (if ?b then _ else _) = _ |- _ => destruct b end; try discriminate; injection H2 as H2; rewrite <- H2; simpl; try tauto;
        exfalso; assert (X : In "type" (dkeys (o_attrs p)));
        try (unfold oget in Et; destruct (dget "type" (o_attrs p)) eqn:Ed; [ eapply dget_in_keys; eauto | discriminate]);
        rewrite Ek, <- H2 in X; simpl in X; intuition discriminate. }
  constructor.
  - exact Hc.
  - destruct H1 as (_ & Ek & _). rewrite Ek. apply attrs_of_NoDup.
  - eapply loaded_settled; eauto.
  - destruct H1 as (Ec & Ek & G). unfold type_guard in G. apply andb_prop in G as [G _]. rewrite forallb_forall in G. rewrite Ec in G.
    unfold att_classes in Hc. simpl in Hc.
    destruct Hc as [Hc | [Hc | [Hc | [Hc | []]]]]; rewrite <- Hc in *; try (apply G; simpl; tauto).
    unfold oget. destruct (dget "path" (o_attrs p)) eqn:Ed; auto. apply dget_in_keys in Ed. rewrite Ek in Ed. simpl in Ed. intuition discriminate.
  - destruct H1 as (Ec & Ek & G). unfold type_guard in G. apply andb_prop in G as [G _]. rewrite forallb_forall in G. rewrite Ec in G.
    unfold att_classes in Hc. simpl in Hc.
    destruct Hc as [Hc | [Hc | [Hc | [Hc | []]]]]; rewrite <- Hc in *; apply G; simpl; tauto.
Qed.
Lemma dkeys_map_same : forall A B (f : A -> B) (d : dict A), map fst (dmap f d) = map fst d.
Proof. intros. apply dkeys_dmap. Qed.
Lemma load_dinv : forall j x, proper j -> load_document j = Ok x -> dinv (doc_version x) (doc_data x).
Proof.
  intros j x Pj E. pose proof (load_document_loaded _ _ E) as (L & LS & LA).
  destruct (load_document_inv _ _ E) as (d & sk & s & y & -> & _ & _ & _ & Ey & _ & Ex).
  pose proof (mk_data_wf _ _ Ey) as W. apply data_known in Ey as (_ & (b & sl & k & _ & _ & Gk & _ & _ & Ek) & _ & _ & _ & _ & Ea).
  assert (P : proper (VDict (ddel "skeleton" d))) by (apply proper_ddel; auto).
  destruct L as (H1 & H2 & H3 & H4 & H5 & H6 & H7 & H8). rewrite Ex in *. set (ver := doc_version x) in *.
  assert (Na : NoDup (dkeys (d_animations y)) /\ forall k0 y0, In (k0, y0) (d_animations y) -> exists x, proper x /\ mk_animation x = Ok y0).
  { eapply dict_of_proper; eauto. intros v Ev. eapply proper_get; eauto. }
  constructor; auto.
  - apply Forall_forall. intros z Hz. simpl in Hz. apply in_map_iff in Hz as (t & <- & Ht).
    destruct (list_of_proper _ _ _ _ Ek (fun v Ev => proper_get _ _ _ P (eq_trans Gk Ev)) t Ht) as (v & Pv & Ev).
    pose proof (mk_skin_keys v t Pv Ev) as [K1 K2]. destruct W as (_ & _ & W & _). rewrite Forall_forall in W. specialize (W t Ht). unfold skin_all in W.
    constructor.
    + simpl. destruct (sk_name t); discriminate.
    + simpl. destruct (sk_attachments t); discriminate.
    + intros s' m k' o Hm Ho. unfold sk_atts in Hm. simpl in Hm. destruct (sk_attachments t) as [a | ]; [ | destruct Hm].
      unfold dmap in Hm. apply in_map_iff in Hm as ([s2 m2] & Em & Hm). injection Em as -> <-. apply in_map_iff in Ho as ([k2 o2] & Eo & Ho).
      injection Eo as -> <-. apply att_loaded_ok. eapply dall_in; [ | exact Ho]. eapply dall_in in W; [ | exact Hm]. auto.
    + unfold distinct_keys, sk_atts in *. simpl. destruct (sk_attachments t) as [a | ]; [ | split; [constructor | intros ? ? []]].
      split; [rewrite dkeys_dmap; auto | ]. intros s' m Hm. unfold dmap in Hm. apply in_map_iff in Hm as ([s2 m2] & Em & Hm).
      injection Em as -> <-. simpl. fold (dmap (obj_set_defaults ver) m2). rewrite dkeys_dmap. eauto.
  - simpl in *. apply Forall_forall. intros [i a] Hi. simpl. pose proof (dall_in _ _ _ _ _ H8 Hi) as A1. pose proof (dall_in _ _ _ _ _ LA Hi) as A2.
    unfold dmap in Hi. apply in_map_iff in Hi as ([i2 a2] & Ei & Hi). injection Ei as -> <-. simpl in *.
    destruct (proj2 Na i a2 Hi) as (v & Pv & Ev). apply mk_animation_keys in Ev as [K1 K2]; auto.
    constructor; auto; simpl; rewrite dkeys_dmap; auto.
  - simpl. rewrite dkeys_dmap. apply Na.
Qed.

(** ** The operations keep the invariant *)
Lemma NoDup_dkeys_filter : forall A (f : string * A -> bool) (d : dict A), NoDup (dkeys d) -> NoDup (dkeys (filter f d)).
Proof.
  intros A f d. induction d as [ | [k v] d IH]; intros N; [constructor | ]. simpl in N. apply NoDup_cons_iff in N as [N1 N2].
  simpl. destruct (f (k, v)); auto. simpl. constructor; auto. intros Hi. apply N1. unfold dkeys in *. apply in_map_iff in Hi as (x & E & Hx).
  apply filter_In in Hx as [Hx _]. apply in_map_iff. eauto.
Qed.
Lemma dall_filter : forall A (Q : A -> Prop) f (d : dict A), dall Q d -> dall Q (filter f d).
Proof.
  intros A Q f d H. unfold dall in *. rewrite Forall_forall in *. intros x Hx. apply filter_In in Hx as [Hx _]. auto.
Qed.
Lemma in_drop_keys : forall A (l : list string) (d : dict A) k v, In (k, v) (drop_keys l d) <-> In (k, v) d /\ ~ In k l.
Proof.
  intros A l d k v. unfold drop_keys. rewrite filter_In. simpl. rewrite negb_true_iff, smem_nin. tauto.
Qed.
Lemma skin_ok_slots : forall ver l s, skin_ok ver s -> skin_ok ver (mkSkin (sk_name s) (Some (drop_keys l (sk_atts s)))).
Proof.
  intros ver l s [H1 H2 H3 [H4 H5]]. constructor; simpl; auto; try discriminate.
  - intros sl m k o Hm Ho. unfold sk_atts in Hm. simpl in Hm. apply in_drop_keys in Hm as [Hm _]. eauto.
  - unfold distinct_keys, sk_atts. simpl. split; [apply NoDup_dkeys_filter; auto | ].
    intros sl m Hm. apply in_drop_keys in Hm as [Hm _]. eauto.
Qed.
Lemma skin_ok_atts : forall ver l s, skin_ok ver s -> skin_ok ver (mkSkin (sk_name s) (Some (dmap (drop_keys l) (sk_atts s)))).
Proof.
  intros ver l s [H1 H2 H3 [H4 H5]]. constructor; simpl; auto; try discriminate.
  - intros sl m k o Hm Ho. unfold sk_atts, dmap in Hm. simpl in Hm. apply in_map_iff in Hm as ([sl2 m2] & E & Hm).
    injection E as -> <-. apply in_drop_keys in Ho as [Ho _]. eauto.
  - unfold distinct_keys, sk_atts. simpl. split; [rewrite dkeys_dmap; auto | ].
    intros sl m Hm. unfold dmap in Hm. apply in_map_iff in Hm as ([sl2 m2] & E & Hm). injection E as -> <-.
    apply NoDup_dkeys_filter. eauto.
Qed.

Lemma anim_ok_slots : forall ver l a, anim_ok ver a ->
  anim_ok ver (remove_deforms_using_slots l
    (mkAnimation (an_ik a) (an_drawOrder a) (an_bones a) (drop_keys l (an_slots a)) (an_events a) (an_transform a) (an_path a) (an_deform a))).
Proof.
  intros ver l a [(H1 & H2 & H3 & H4 & H5 & H6 & H7 & H8) L N1 N2]. constructor; simpl; auto.
  - unfold animation_all. simpl. split; [auto | ]. split; [auto | ]. split; [auto | ]. split; [apply dall_filter; auto | ].
    split; [auto | ]. split; [auto | ]. split; [auto | ]. apply dall_dmap. eapply dall_impl; [ | exact H8]. intros x Hx. apply dall_filter. auto.
  - apply NoDup_dkeys_filter. auto.
  - rewrite dkeys_dmap. auto.
Qed.
Lemma dset_all : forall A (Q : A -> Prop) k v (d : dict A), dall Q d -> Q v -> dall Q (dset k v d).
Proof.
  intros A Q k v d H Hv. induction d as [ | [k' v'] d IH]; simpl.
  - constructor; [auto | constructor].
  - inversion H; subst. destruct (String.eqb k k'); constructor; auto. apply IH. auto.
Qed.
Lemma anim_ok_deform : forall ver l n a, anim_ok ver a -> anim_ok ver (remove_deforms_with_attachments_on_skin l n a).
Proof.
  intros ver l n a H. pose proof H as H0. destruct H as [(H1 & H2 & H3 & H4 & H5 & H6 & H7 & H8) L N1 N2].
  destruct n as [i | ]; simpl; auto. destruct (dget i (an_deform a)) as [x | ] eqn:Ex; auto. constructor; simpl; auto.
  - unfold animation_all. simpl. split; [auto | ]. split; [auto | ]. split; [auto | ]. split; [auto | ].
    split; [auto | ]. split; [auto | ]. split; [auto | ]. apply dset_all; auto. apply dall_dmap. pose proof (dall_get _ _ _ _ _ H8 Ex) as Hx.
    eapply dall_impl; [ | exact Hx]. intros y Hy. apply dall_filter. auto.
  - rewrite dkeys_dset. rewrite (proj2 (smem_in i (dkeys (an_deform a)))); auto. eapply dget_in_keys; eauto.
Qed.
Lemma anim_ok_drop : forall ver n a, anim_ok ver a -> anim_ok ver (drop_deform n a).
Proof.
  intros ver n a [(H1 & H2 & H3 & H4 & H5 & H6 & H7 & H8) L N1 N2]. constructor; simpl; auto.
  - unfold animation_all. simpl. split; [auto | ]. split; [auto | ]. split; [auto | ]. split; [auto | ].
    split; [auto | ]. split; [auto | ]. split; [auto | ]. apply dall_filter. auto.
  - apply NoDup_dkeys_filter. auto.
Qed.

(** Draw orders *)
Lemma offset_oset : forall ver o z, loaded_obj ver CDrawOffset o -> loaded_obj ver CDrawOffset (oset o "offset" (VInt z)).
Proof.
  intros ver o z [(Ec & Ek & G) F]. assert (K : dkeys (dset "offset" (VInt z) (o_attrs o)) = dkeys (o_attrs o)).
  { rewrite dkeys_dset, Ek. reflexivity. }
  split; [split; [auto | split; [simpl; rewrite K; auto | ]] | ].
  - unfold type_guard in *. simpl o_cls. rewrite Ec in *. simpl. rewrite SkinFacts.oget_oset. simpl. simpl in G. auto.
  - intros k x Hk Hx Hn. simpl o_cls in Hk, Hx. rewrite SkinFacts.oget_oset in Hn.
    destruct (String.eqb k "offset") eqn:E; [discriminate | ]. eauto.
Qed.
Lemma offsets_by_slot_in : forall l acc d, foldM (fun d o => match ostr o "slot" with
                    | Some s => Ok (dset s o d)
                    | None => Ok d
                    end) acc l = Ok d -> forall k o, In (k, o) d -> In o l \/ In (k, o) acc.
Proof.
  induction l as [ | x l IH]; simpl; intros acc d E k o H.
  - injection E as <-. auto.
  - destruct (ostr x "slot") as [s | ]; [ | destruct (IH _ _ E k o H); auto]. simpl in E. destruct (IH _ _ E k o H) as [K | K]; auto.
    assert (X : forall a : dict obj, In (k, o) (dset s x a) -> o = x \/ In (k, o) a).
    { induction a as [ | [k' v'] a IHa]; simpl; [intros [Y | []]; injection Y; auto | ].
      destruct (String.eqb s k'); simpl; intros [Y | Y]; auto; [injection Y; auto | ]. destruct (IHa Y); auto. }
    destruct (X acc K) as [-> | Y]; auto.
Qed.
Lemma remove_offsets_all : forall ver rem names d d' r, draw_order_all (loaded_obj ver) d -> loaded_draw_order ver d ->
  remove_offsets_with_ids rem names d = (d', r) -> draw_order_all (loaded_obj ver) d' /\ loaded_draw_order ver d'.
Proof.
  intros ver rem names d d' r H L E. unfold remove_offsets_with_ids in E.
  destruct (let! slot_offsets := offsets_by_slot (do_offsets d) in
            let! final := reorder_slots_with_offset slot_offsets names in
            if forallb has_slot (do_offsets d) then adjust_offsets rem final names slot_offsets else Err (EValue "None is not in list")) as [l | e] eqn:El; injection E as <- _; auto.
  split; [ | auto]. unfold draw_order_all in *. simpl. rewrite Forall_forall in *. intros o Ho.
  inv_bind El. inv_bind El. destruct (forallb has_slot (do_offsets d)); [ | discriminate]. unfold adjust_offsets in El. inv_bind El. injection El as <-. apply filter_In in Ho as [Ho _].
  apply in_map_iff in Ho as ([n o'] & En & Ho). simpl in En. subst o'. apply mapM_ok in E1.
  destruct (Forall2_in_r _ _ _ _ _ E1 (n, o) Ho) as ([n2 o2] & Hi & Ef). simpl in Ef.
  assert (Ho2 : loaded_obj ver CDrawOffset o2).
  { apply H. destruct (offsets_by_slot_in _ _ _ E n2 o2 Hi) as [K | []]. auto. }
  destruct (smem n2 rem); [injection Ef as <- <-; auto | ]. inv_bind Ef. inv_bind Ef. injection Ef as <- <-. apply offset_oset. auto.
Qed.
Lemma mapM_inplace_Forall : forall A (Q : A -> Prop) (f : A -> A * res unit) l l' r, mapM_inplace f l = (l', r) ->
  (forall x y u, Q x -> f x = (y, u) -> Q y) -> Forall Q l -> Forall Q l'.
Proof.
  intros A Q f l. induction l as [ | x l IH]; simpl; intros l' r E H F.
  - injection E as <- _. auto.
  - inversion F; subst. destruct (f x) as [y u] eqn:Ef. pose proof (H x y u H2 Ef) as Hy. destruct u.
    + destruct (mapM_inplace f l) as [l2 r2] eqn:El. injection E as <- _. constructor; eauto.
    + injection E as <- _. constructor; auto.
Qed.
Lemma anim_ok_draw : forall ver rem names a a' r, anim_ok ver a -> remove_draw_order_with_ids rem names a = (a', r) -> anim_ok ver a'.
Proof.
  intros ver rem names a a' r [(H1 & H2 & H3 & H4 & H5 & H6 & H7 & H8) L N1 N2] E. unfold remove_draw_order_with_ids in E.
  destruct (mapM_inplace (remove_offsets_with_ids rem names) (an_drawOrder a)) as [l u] eqn:El. injection E as <- _.
  assert (X : Forall (fun d => draw_order_all (loaded_obj ver) d /\ loaded_draw_order ver d) l).
  { eapply mapM_inplace_Forall; [exact El | | ].
    - intros x y v [K1 K2] Ex. eapply remove_offsets_all; eauto.
    - unfold loaded_anim in L. rewrite Forall_forall in *. auto. }
  constructor; simpl; auto.
  - unfold animation_all. simpl. split; [auto | ]. split; [ | auto 10]. rewrite Forall_forall in *. intros x Hx. apply X. auto.
  - unfold loaded_anim. simpl. rewrite Forall_forall in *. intros x Hx. apply X. auto.
Qed.
Lemma mapM_inplace_keys : forall A (f : A -> A * res unit) (d d' : dict A) r, dmapM_inplace f d = (d', r) -> dkeys d' = dkeys d.
Proof.
  intros A f d. unfold dmapM_inplace. induction d as [ | [k v] d IH]; simpl; intros d' r E.
  - injection E as <- _. auto.
  - destruct (f v) as [v' u]. destruct u.
    + destruct (mapM_inplace _ d) as [d2 r2] eqn:Ed. injection E as <- _. simpl. f_equal. eauto.
    + injection E as <- _. auto.
Qed.
Lemma dmapM_inplace_all : forall A (Q : A -> Prop) (f : A -> A * res unit) (d d' : dict A) r, dmapM_inplace f d = (d', r) ->
  (forall x y u, Q x -> f x = (y, u) -> Q y) -> dall Q d -> dall Q d'.
Proof.
  intros A Q f d d' r E H F. unfold dmapM_inplace in E. eapply mapM_inplace_Forall; [exact E | | exact F].
  intros [k x] [k' y] u Hx Ex. simpl in *. destruct (f x) as [v w] eqn:Ef. injection Ex as <- <- <-. eauto.
Qed.

Lemma dinv_slots_in_skins : forall ver l d, dinv ver d -> dinv ver (clean_slots_in_skins l d).
Proof.
  intros ver l d [H1 H2 H3 H4 H5 H6 H7 H8 H9]. constructor; simpl; auto. rewrite Forall_forall in *.
  intros x Hx. apply in_map_iff in Hx as (s & <- & Hs). apply skin_ok_slots. auto.
Qed.
Lemma dinv_slots_in_anims : forall ver l d, dinv ver d -> dinv ver (clean_slots_in_animations l d).
Proof.
  intros ver l d [H1 H2 H3 H4 H5 H6 H7 H8 H9]. constructor; simpl; auto.
  - apply dall_dmap. eapply dall_impl; [ | exact H8]. intros a. apply anim_ok_slots.
  - rewrite dkeys_dmap. auto.
Qed.
Lemma dinv_draw : forall ver rem names d d' r, dinv ver d -> clean_draw_order_refs rem names d = (d', r) -> dinv ver d'.
Proof.
  intros ver rem names d d' r [H1 H2 H3 H4 H5 H6 H7 H8 H9] E. unfold clean_draw_order_refs in E.
  destruct (dmapM_inplace _ (d_animations d)) as [l u] eqn:El. injection E as <- _. constructor; simpl; auto.
  - eapply dmapM_inplace_all; [exact El | | exact H8]. intros x y v Hx Ex. eapply anim_ok_draw; eauto.
  - rewrite (mapM_inplace_keys _ _ _ _ _ El). auto.
Qed.
Lemma dinv_atts_in_skins : forall ver l d, dinv ver d -> dinv ver (clean_attachments_in_skins l d).
Proof.
  intros ver l d [H1 H2 H3 H4 H5 H6 H7 H8 H9]. unfold clean_attachments_in_skins.
  assert (X : forall ss an, dall (anim_ok ver) an -> NoDup (dkeys an) ->
    let an' := fold_left (fun an s => dmap (remove_deforms_with_attachments_on_skin l (sk_name s)) an) ss an in
    dall (anim_ok ver) an' /\ NoDup (dkeys an')).
  { induction ss as [ | s ss IH]; simpl; intros an A N; [auto | ]. apply IH.
    - apply dall_dmap. eapply dall_impl; [ | exact A]. intros a. apply anim_ok_deform.
    - rewrite dkeys_dmap. auto. }
  destruct (X (d_skins d) (d_animations d) H8 H9) as [X1 X2]. constructor; simpl; auto. rewrite Forall_forall in *.
  intros x Hx. apply in_map_iff in Hx as (s & <- & Hs). apply skin_ok_atts. auto.
Qed.
Lemma slot_unset : forall ver s, loaded_obj ver CSlot s -> loaded_obj ver CSlot (oset s "attachment" VNone).
Proof.
  intros ver o [(Ec & Ek & G) F]. assert (K : dkeys (dset "attachment" VNone (o_attrs o)) = dkeys (o_attrs o)).
  { rewrite dkeys_dset, Ek. reflexivity. }
  split; [split; [auto | split; [simpl; rewrite K; auto | ]] | ].
  - unfold type_guard in *. simpl o_cls. rewrite Ec in *. cbn [name_attrs forallb] in *. rewrite !SkinFacts.oget_oset.
    change (String.eqb "name" "attachment") with false. change (String.eqb "bone" "attachment") with false.
    change (String.eqb "attachment" "attachment") with true. change (String.eqb "color" "attachment") with false. cbv iota.
    destruct (is_str_or_null (oget o "name")), (is_str_or_null (oget o "bone")), (is_str_or_null (oget o "attachment")), (is_str_or_null (oget o "color")); auto; discriminate.
  - intros k x Hk Hx Hn. simpl o_cls in Hk, Hx. rewrite Ec in Hx. unfold default_values in Hx. destruct (ver_ge ver SPINE_3_8); discriminate.
Qed.
Lemma dinv_atts_in_slots : forall ver l d, dinv ver d -> dinv ver (clean_attachments_in_slots l d).
Proof.
  intros ver l d [H1 H2 H3 H4 H5 H6 H7 H8 H9]. constructor; simpl; auto. rewrite Forall_forall in *.
  intros x Hx. apply in_map_iff in Hx as (s & <- & Hs). destruct (ostr s "attachment") as [a | ]; auto.
  destruct (smem (graph_id T_ATTACHMENT a) l); auto. apply slot_unset. auto.
Qed.

(** Removing a skin *)
Lemma fill_dset : forall defs k v (d : dict val), dget k defs = None -> fill_defaults defs (dset k v d) = dset k v (fill_defaults defs d).
Proof.
  intros defs k v d H. induction d as [ | [k' v'] d IH].
  - simpl. rewrite H. destruct v; auto.
  - cbn [dset]. destruct (String.eqb k k') eqn:E.
    + apply String.eqb_eq in E. subst k'. unfold fill_defaults. cbn [map fst snd dset]. rewrite String.eqb_refl, H. destruct v; auto.
    + unfold fill_defaults in *. cbn [map fst snd dset]. rewrite E. f_equal. exact IH.
Qed.
Lemma att_no_default : forall ver o k, In (o_cls o) att_classes -> In k ["name"; "path"; "width"; "height"] ->
  dget k (default_values (o_cls o) ver) = None.
Proof.
  intros ver o k Hc Hk. unfold att_classes in Hc. simpl in Hc, Hk.
  destruct Hc as [<- | [<- | [<- | [<- | []]]]]; unfold default_values; destruct (ver_ge ver SPINE_3_8);
    destruct Hk as [<- | [<- | [<- | [<- | []]]]]; reflexivity.
Qed.
Lemma att_oset : forall ver o k v, att_ok ver o -> In k ["name"; "path"; "width"; "height"] ->
  (In k ["name"; "path"] -> is_str_or_null v = true) -> att_ok ver (oset o k v).
Proof.
  intros ver o k v [H1 H2 H3 H4 H5] Hk Hv. constructor; auto.
  - simpl. rewrite dkeys_dset. destruct (smem k (dkeys (o_attrs o))) eqn:E; auto. apply NoDup_app_intro; auto.
    + constructor; [intros [] | constructor].
    + intros x Hx [<- | []]. apply smem_nin in E. auto.
  - unfold settled, obj_set_defaults in *. simpl. destruct o as [c at_]. simpl in *. unfold oset. simpl. f_equal.
    rewrite fill_dset; [congruence | ]. apply (att_no_default ver (mkObj c at_)); auto.
  - rewrite oget_oset. destruct (String.eqb "path" k) eqn:E; auto. apply String.eqb_eq in E. subst. apply Hv. simpl. auto.
  - rewrite oget_oset. destruct (String.eqb "name" k) eqn:E; auto. apply String.eqb_eq in E. subst. apply Hv. simpl. auto.
Qed.
Lemma copy_mesh_ok : forall ver src o, att_ok ver src -> att_ok ver o -> att_ok ver (copy_mesh src o).
Proof.
  intros ver src o Hs Ho. unfold copy_mesh.
  repeat apply att_oset; auto; try (simpl; tauto); simpl; try (intros [H | [H | []]]; discriminate).
  - intros _. apply (ao_name ver o Ho).
  - intros _. apply (ao_path ver o Ho).
Qed.
Lemma mapM_inplace_rel : forall A (f : A -> A * res unit) (R : A -> A -> Prop) l l' r, mapM_inplace f l = (l', r) ->
  (forall x, R x x) -> (forall x y u, In x l -> f x = (y, u) -> R x y) -> Forall2 R l l'.
Proof.
  intros A f R l l' r E H0 H. destruct (mapM_inplace_all _ _ _ _ _ E) as (F & _). apply Forall2_in_l in F.
  eapply Forall2_impl; [ | exact F]. intros x y [Hx [-> | ->]]; auto. destruct (f x) as [y u] eqn:Ef. simpl. eauto.
Qed.
Lemma relink_skin_keys : forall n source s s' r, relink_skin n source s = (s', r) ->
  sk_name s' = sk_name s /\ (s' = s \/ sk_attachments s' <> None) /\
  Forall2 (fun x y => fst y = fst x /\
    Forall2 (fun p q => fst q = fst p /\ (snd q = snd p \/ exists src, linked_to n (snd p) /\ att_source source (fst x) (fst p) src /\ snd q = copy_mesh src (snd p)))
      (snd x) (snd y)) (sk_atts s) (sk_atts s').
Proof.
  intros n source s s' r E. unfold relink_skin in E.
  assert (R0 : forall sl (m : dict obj), Forall2 (fun p q => fst q = fst p /\ (snd q = snd p \/ exists src, linked_to n (snd p) /\ att_source source sl (fst p) src /\ snd q = copy_mesh src (snd p))) m m).
  { intros sl m. induction m; constructor; auto. }
  destruct (opt_eqb (sk_name s) (Some n)).
  - injection E as <- <-. split; [auto | split; [auto | ]]. induction (sk_atts s); constructor; auto.
  - match type of E with context [mapM_inplace ?h (sk_atts s)] => set (f := h) in E end.
    destruct (mapM_inplace f (sk_atts s)) as [a ra] eqn:Ea. injection E as <- <-. split; [auto | split; [right; discriminate | ]].
    cbn [sk_atts sk_attachments]. eapply mapM_inplace_rel; [exact Ea | intros x; split; auto | ].
    intros [sl m] [sl' m'] u Hx Ex. unfold f in Ex. cbn [fst snd] in Ex.
    destruct (mapM_inplace (relink n source sl) m) as [m2 r2] eqn:Em. injection Ex as <- <- <-. cbn [fst snd]. split; auto.
    eapply mapM_inplace_rel; [exact Em | intros x; auto | ]. intros [k o] [k' o'] v Hp Ep. cbn [fst snd].
    destruct (relink_cases n source sl k o) as [[L' F] | [(src & L & A & F) | (e' & L & B & F)]]; rewrite F in Ep; injection Ep as <- <- _; split; auto.
    right. eauto.
Qed.
Lemma Forall2_keys : forall A B (R : string * A -> string * B -> Prop) l l', Forall2 (fun x y => fst y = fst x /\ R x y) l l' -> dkeys l' = dkeys l.
Proof. intros A B R l l' H. induction H as [ | x y l l' [E _] H IH]; simpl; [auto | ]. congruence. Qed.
Lemma relink_skin_ok : forall ver n source s s' r, skin_ok ver source -> skin_ok ver s ->
  relink_skin n (sk_atts source) s = (s', r) -> skin_ok ver s'.
Proof.
  intros ver n source s s' r Hs H E. pose proof H as H0. destruct H as [H1 H2 H3 [H4 H5]].
  destruct (relink_skin_keys _ _ _ _ _ E) as (K1 & K2 & K3).
  constructor.
  - congruence.
  - destruct K2 as [-> | K2]; auto.
  - intros sl m' k o' Hm Ho. destruct (Forall2_in_r _ _ _ _ _ K3 (sl, m') Hm) as ([sl2 m] & Hm2 & Es & F). simpl in Es, F. subst sl2.
    destruct (Forall2_in_r _ _ _ _ _ F (k, o') Ho) as ([k2 o] & Ho2 & Ek & C). simpl in Ek, C. subst k2.
    destruct C as [-> | (src & _ & (m2 & A1 & A2) & ->)]; [eauto | ]. apply copy_mesh_ok; [ | eauto].
    apply dget_some_in in A1. apply dget_some_in in A2. apply (so_atts ver source Hs sl m2 k src); auto.
  - split.
    + assert (Z : dkeys (sk_atts s') = dkeys (sk_atts s)) by exact (Forall2_keys _ _ _ _ _ K3). rewrite Z. auto.
    + intros sl m' Hm. destruct (Forall2_in_r _ _ _ _ _ K3 (sl, m') Hm) as ([sl2 m] & Hm2 & Es & F). simpl in Es, F. subst sl2.
      assert (Z : dkeys m' = dkeys m) by exact (Forall2_keys _ _ _ _ _ F). rewrite Z. eauto.
Qed.
Lemma dinv_remove_skin : forall ver n d d' r, dinv ver d -> remove_skin n d = (d', r) -> dinv ver d'.
Proof.
  intros ver n d d' r H E. pose proof H as H0. destruct H as [H1 H2 H3 H4 H5 H6 H7 H8 H9]. unfold remove_skin in E.
  destruct (get_skin d n) as [source | ] eqn:G; [ | injection E as <- _; auto].
  assert (Hs : skin_ok ver source).
  { rewrite Forall_forall in H3. apply H3. apply find_some in G. apply G. }
  destruct (mapM_inplace (relink_skin n (sk_atts source)) (d_skins d)) as [skins u] eqn:El.
  assert (F : Forall (skin_ok ver) skins).
  { eapply mapM_inplace_Forall; [exact El | | exact H3]. intros x y v Hx Ex. exact (relink_skin_ok _ _ _ _ _ _ Hs Hx Ex). }
  destruct u; injection E as <- _; constructor; simpl; auto.
  - rewrite Forall_forall in *. intros s K. apply filter_In in K as [K _]. auto.
  - apply dall_dmap. eapply dall_impl; [ | exact H8]. intros an. apply anim_ok_drop.
  - rewrite dkeys_dmap. auto.
Qed.

(** Erasing animations *)
Lemma erase_raw_anims : forall ver d l s d' r, dinv ver d -> erase_raw_animations_data l s d = (d', r) -> dinv ver d'.
Proof.
  intros ver d l s d' r [H1 H2 H3 H4 H5 H6 H7 H8 H9] E. unfold erase_raw_animations_data in E.
  match type of E with context [fold_left ?g l ?a] => set (f := g) in E; destruct (fold_left f l a) as [an nf] eqn:Ef end.
  injection E as <- _.
  assert (X : forall l a nf an nf', fold_left f l (a, nf) = (an, nf') -> dall (anim_ok ver) a -> NoDup (dkeys a) -> dall (anim_ok ver) an /\ NoDup (dkeys an)).
  { clear. induction l as [ | n l IH]; simpl; intros a nf an nf' E A N; [injection E as <- <-; auto | ].
    destruct (dmem n a); apply IH in E; auto.
    - apply dall_filter. auto.
    - apply NoDup_dkeys_filter. auto. }
  apply X in Ef as [A N]; auto. constructor; simpl; auto.
Qed.

(** Scaling *)
Lemma py_mul_not_none : forall a b v, py_mul a b = Ok v -> v <> VNone.
Proof.
  intros a b v E. pose proof (mul_sequence a b v) as M. unfold py_mul in E, M.
  destruct (as_num a) as [[x | x] | ], (as_num b) as [[y | y] | ]; try (injection E as <-; discriminate);
    try (inv_bind E; injection E as <-; discriminate); (destruct M as [(s & ->) | (l & l' & -> & _)]; [auto | exact E | discriminate | discriminate]).
Qed.
Lemma bone_oset : forall ver b k v, loaded_obj ver CBone b -> In k ["scaleX"; "scaleY"] -> v <> VNone -> loaded_obj ver CBone (oset b k v).
Proof.
  intros ver o k v [(Ec & Ek & G) F] Hk Hv. assert (K : dkeys (dset k v (o_attrs o)) = dkeys (o_attrs o)).
  { rewrite dkeys_dset, Ek. destruct Hk as [<- | [<- | []]]; reflexivity. }
  split; [split; [auto | split; [simpl; rewrite K; auto | ]] | ].
  - unfold type_guard in *. simpl o_cls. rewrite Ec in *. cbn [name_attrs forallb] in *. rewrite !SkinFacts.oget_oset.
    destruct Hk as [<- | [<- | []]]; exact G.
  - intros k' x Hk' Hx Hn. simpl o_cls in Hk', Hx. rewrite oget_oset in Hn. destruct (String.eqb k' k); [congruence | eauto].
Qed.
Lemma bone_scale_ok : forall ver sx sy b b' r, loaded_obj ver CBone b -> bone_scale sx sy b = (b', r) -> loaded_obj ver CBone b'.
Proof.
  intros ver sx sy b b' r H E. unfold bone_scale in E. destruct (py_mul (oget b "scaleX") sx) as [x | ] eqn:Ex; [ | injection E as <- _; auto].
  assert (H1 : loaded_obj ver CBone (oset b "scaleX" x)) by (apply bone_oset; [auto | simpl; auto | eapply py_mul_not_none; eauto]).
  destruct (py_mul (oget (oset b "scaleX" x) "scaleY") sy) as [y | ] eqn:Ey; injection E as <- _; auto.
  apply bone_oset; [auto | simpl; auto | eapply py_mul_not_none; eauto].
Qed.
Lemma scale_root_ok : forall ver sx sy l l' r, Forall (loaded_obj ver CBone) l -> scale_root sx sy l = (l', r) -> Forall (loaded_obj ver CBone) l'.
Proof.
  induction l as [ | b l IH]; simpl; intros l' r H E; [injection E as <- _; auto | ]. inversion H; subst.
  destruct (String.eqb (bone_name b) "root").
  - destruct (bone_scale sx sy b) as [b' u] eqn:Eb. injection E as <- _. constructor; auto. eapply bone_scale_ok; eauto.
  - destruct (scale_root sx sy l) as [l2 u] eqn:El. injection E as <- _. constructor; eauto.
Qed.
Lemma scale_bones_ok : forall ver sx sy l l' r, Forall (loaded_obj ver CBone) l -> scale_bones sx sy l = (l', r) -> Forall (loaded_obj ver CBone) l'.
Proof.
  intros ver sx sy l l' r H E. unfold scale_bones in E.
  match type of E with context [mapM_inplace ?g l] => set (f := g) in E end. destruct (mapM_inplace f l) as [l1 u] eqn:El.
  assert (F : Forall (loaded_obj ver CBone) l1).
  { eapply mapM_inplace_Forall; [exact El | | exact H]. intros x y v Hx Ex. unfold f in Ex.
    destruct (scale_independent x); [eapply bone_scale_ok; eauto | injection Ex as <- _; auto]. }
  destruct u; [eapply scale_root_ok; eauto | injection E as <- _; auto].
Qed.
