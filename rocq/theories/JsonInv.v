(** Whatever calls are made on an editor, also calls that raise, what it exports stays JSON:
    no key twice in an object, and every float a binary64 number. *)
From Verif Require Import PyBase PyFacts PyNum Json Version Tags Classes ClassFacts Graph SpineGraph DrawOrder AnimData Editor SpecText SpecFiles FloatFacts.
From Coq Require Import SpecFloat.
Open Scope string_scope.

(** ** Dictionaries *)
Definition dgood {A} (P : A -> Prop) (d : dict A) : Prop := NoDup (dkeys d) /\ forall k x, In (k, x) d -> P x.

Lemma dgood_nil : forall A (P : A -> Prop), dgood P [].
Proof. intros A P. split; [constructor | intros k x []]. Qed.
Lemma dgood_imp : forall A (P Q : A -> Prop) d, (forall x, P x -> Q x) -> dgood P d -> dgood Q d.
Proof. intros A P Q d H [N K]. split; auto. intros k x Hx. eauto. Qed.
Lemma dgood_filter : forall A (P : A -> Prop) f d, dgood P d -> dgood P (filter f d).
Proof.
  intros A P f d [N K]. split.
  - clear K. unfold dkeys in *. induction d as [ | [k x] d IH]; simpl; [constructor | ]. simpl in N.
    apply NoDup_cons_iff in N as [N1 N2]. destruct (f (k, x)); auto. simpl. constructor; auto. intros Hi. apply N1.
    apply in_map_iff in Hi as (y & E & Hy). apply filter_In in Hy as [Hy _]. apply in_map_iff. eauto.
  - intros k x Hx. apply filter_In in Hx as [Hx _]. eauto.
Qed.
Lemma dset_in : forall A k (v : A) d k' x, In (k', x) (dset k v d) -> (k' = k /\ x = v) \/ In (k', x) d.
Proof.
  intros A k v d. induction d as [ | [k0 v0] d IH]; simpl; intros k' x H.
  - destruct H as [H | []]. injection H as <- <-. auto.
  - destruct (String.eqb_spec k k0) as [-> | N]; simpl in H.
    + destruct H as [H | H]; [injection H as <- <- | ]; auto.
    + destruct H as [H | H]; auto. destruct (IH _ _ H); auto.
Qed.
Lemma dset_keys : forall A k (v : A) d, NoDup (dkeys d) -> NoDup (dkeys (dset k v d)).
Proof.
  intros A k v d. induction d as [ | [k0 v0] d IH]; simpl; intros N.
  - constructor; auto.
  - apply NoDup_cons_iff in N as [N1 N2]. destruct (String.eqb_spec k k0) as [-> | X]; simpl; constructor; auto.
    intros Hi. apply in_map_iff in Hi as ((k', x) & E & Hx). simpl in E. subst k'.
    destruct (dset_in _ _ _ _ _ _ Hx) as [[E _] | H]; [congruence | ]. apply N1. apply in_map_iff. exists (k0, x). auto.
Qed.
Lemma dgood_set : forall A (P : A -> Prop) k v d, dgood P d -> P v -> dgood P (dset k v d).
Proof.
  intros A P k v d [N K] H. split; [apply dset_keys; auto | ]. intros k' x Hx.
  destruct (dset_in _ _ _ _ _ _ Hx) as [[_ ->] | Hi]; eauto.
Qed.
Lemma dgood_map : forall A B (P : A -> Prop) (Q : B -> Prop) f d, (forall x, P x -> Q (f x)) -> dgood P d -> dgood Q (dmap f d).
Proof.
  intros A B P Q f d H [N K]. split.
  - unfold dkeys, dmap. rewrite map_map. exact N.
  - intros k x Hx. unfold dmap in Hx. apply in_map_iff in Hx as ((k', y) & E & Hy). injection E as <- <-. eauto.
Qed.
Lemma dgood_get : forall A (P : A -> Prop) d k x, dgood P d -> dget k d = Some x -> P x.
Proof. intros A P d k x [_ K] E. apply dget_some_in in E. eauto. Qed.
Lemma dgood_dmapM : forall A B (P : A -> Prop) (Q : B -> Prop) f d d', (forall x y, P x -> f x = Ok y -> Q y) ->
  dgood P d -> dmapM f d = Ok d' -> dgood Q d'.
Proof.
  intros A B P Q f d d' H [N K] E.
  assert (X : dkeys d' = dkeys d /\ forall k y, In (k, y) d' -> Q y); [ | destruct X as [X1 X2]; split; auto; rewrite X1; auto].
  clear N. revert d' E. induction d as [ | [k x] d IH]; intros d' E; unfold dmapM in E; cbn [mapM] in E.
  - injection E as <-. split; auto. intros k y [].
  - cbn [fst snd] in E. destruct (f x) as [y | ] eqn:Ex; cbn [bind] in E; [ | discriminate].
    destruct (mapM _ d) as [d1 | ] eqn:Ed; cbn [bind] in E; [ | discriminate]. injection E as <-.
    destruct (IH (fun k x Hx => K k x (or_intror Hx)) d1 Ed) as [E1 E2]. split.
    + simpl. f_equal. exact E1.
    + intros k' y' [Hy | Hy]; [ | eauto]. injection Hy as <- <-. eapply H; [ | exact Ex]. eapply K. left. reflexivity.
Qed.
Lemma mapM_all : forall A B (P : A -> Prop) (Q : B -> Prop) (f : A -> res B) l l', (forall x y, P x -> f x = Ok y -> Q y) ->
  Forall P l -> mapM f l = Ok l' -> Forall Q l'.
Proof.
  intros A B P Q f l. induction l as [ | x l IH]; intros l' H K E; cbn [mapM] in E; [injection E as <-; constructor | ].
  apply Forall_cons_iff in K as [K1 K2]. destruct (f x) as [y | ] eqn:Ex; cbn [bind] in E; [ | discriminate].
  destruct (mapM f l) as [l1 | ] eqn:El; cbn [bind] in E; [ | discriminate]. injection E as <-. constructor; eauto.
Qed.
Lemma inplace_all : forall A (P : A -> Prop) (f : A -> A * res unit) l, (forall x, P x -> P (fst (f x))) ->
  Forall P l -> Forall P (fst (mapM_inplace f l)).
Proof.
  intros A P f l H K. induction l as [ | x l IH]; cbn [mapM_inplace fst]; [constructor | ].
  apply Forall_cons_iff in K as [K1 K2]. specialize (H x K1). destruct (f x) as [x' [u | e]]; simpl in *.
  - specialize (IH K2). destruct (mapM_inplace f l). simpl in *. constructor; auto.
  - constructor; auto.
Qed.
Lemma dgood_inplace_kv : forall A (P : A -> Prop) (f : string * A -> (string * A) * res unit) d,
  (forall k x, P x -> fst (fst (f (k, x))) = k /\ P (snd (fst (f (k, x))))) ->
  dgood P d -> dgood P (fst (mapM_inplace f d)).
Proof.
  intros A P f d H [N K].
  assert (X : dkeys (fst (mapM_inplace f d)) = dkeys d /\ forall k y, In (k, y) (fst (mapM_inplace f d)) -> P y);
    [ | destruct X as [X1 X2]; split; auto; rewrite X1; auto]. clear N.
  induction d as [ | [k x] d IH]; cbn [mapM_inplace fst]; [split; auto | ].
  specialize (H k x (K k x (or_introl eq_refl))). destruct (f (k, x)) as [[k' x'] [u | e]]; simpl in *; destruct H as [-> H].
  - specialize (IH (fun k x Hx => K k x (or_intror Hx))). destruct (mapM_inplace f d) as [d1 r]. simpl in *.
    destruct IH as [E1 E2]. split; [f_equal; auto | ]. intros k' y [Hy | Hy]; eauto. congruence.
  - split; auto. intros k' y [Hy | Hy]; eauto. congruence.
Qed.
Lemma dgood_inplace : forall A (P : A -> Prop) (f : A -> A * res unit) d, (forall x, P x -> P (fst (f x))) ->
  dgood P d -> dgood P (fst (dmapM_inplace f d)).
Proof.
  intros A P f d H K. unfold dmapM_inplace. apply dgood_inplace_kv; auto. intros k x Hx. specialize (H x Hx). simpl.
  destruct (f x). auto.
Qed.

(** ** Elements *)
Definition ogood (o : obj) : Prop := dgood json_value (o_attrs o).

Lemma jv_dict_good : forall d, json_value (VDict d) <-> dgood json_value d.
Proof. intros d. split; [intros H; inversion H; subst; split; auto | intros [N K]; constructor; auto]. Qed.
Lemma jv_list_good : forall l, json_value (VList l) <-> Forall json_value l.
Proof. intros l. split; [intros H; inversion H; subst; auto | intros H; constructor; auto]. Qed.
Lemma oget_good : forall o k, ogood o -> json_value (oget o k).
Proof. intros o k H. unfold oget. destruct (dget k (o_attrs o)) eqn:E; [eapply dgood_get; eauto | constructor]. Qed.
Lemma oset_good : forall o k v, ogood o -> json_value v -> ogood (oset o k v).
Proof. intros o k v H Hv. apply dgood_set; auto. Qed.
Lemma defaults_good : forall c ver, dgood json_value (default_values c ver).
Proof.
  assert (F : json_value f1). { unfold f1. constructor. reflexivity. }
  assert (J : forall c ver k x, In (k, x) (default_values c ver) -> json_value x).
  { intros c ver k x. unfold default_values. destruct (ver_ge ver SPINE_3_8); destruct c; cbn; intros H;
      repeat match type of H with
             | False => destruct H
             | _ \/ _ => destruct H as [H | H]; [injection H as <- <-; first [exact F | constructor; solve [constructor | intros ? ? []]] | ]
             end. }
  intros c ver. split; [ | exact (J c ver)]. unfold default_values.
  destruct (ver_ge ver SPINE_3_8); destruct c; cbn; repeat constructor; cbn; intuition discriminate.
Qed.

Lemma build_good : forall c d o, dgood json_value d -> build_attrs c d = Ok o -> ogood o.
Proof.
  intros c d o H E. unfold build_attrs in E. destruct (check_keys _ _ _); cbn [bind] in E; [ | discriminate]. injection E as <-.
  unfold ogood. cbn [o_attrs]. split.
  - unfold dkeys. rewrite map_map. cbn [fst]. rewrite map_id. apply attrs_of_NoDup.
  - intros k v Hi. apply in_map_iff in Hi as (k' & Ei & _). injection Ei as <- <-. unfold get_or_none.
    destruct (dget k' d) eqn:Eg; [eapply dgood_get; eauto | constructor].
Qed.
Lemma values_good : forall c v d, json_value v -> obj_values c v = Ok d -> dgood json_value d.
Proof.
  intros c v d H E. assert (A : forall d', as_dict v = Ok d' -> dgood json_value d').
  { intros d' E'. destruct v; try discriminate. injection E' as <-. apply jv_dict_good. auto. }
  assert (N : Ok [] = Ok d -> dgood json_value d). { intros X. injection X as <-. apply dgood_nil. }
  unfold obj_values in E. destruct c; try (destruct (truthy v); auto); destruct v; auto.
Qed.
Lemma mk_obj_good : forall c v o, json_value v -> mk_obj c v = Ok o -> ogood o.
Proof.
  intros c v o H E. unfold mk_obj, build_obj in E. destruct (obj_values c v) as [d | ] eqn:Ev; cbn [bind] in E; [ | discriminate].
  destruct (build_attrs c d) as [o' | ] eqn:Eb; cbn [bind] in E; [ | discriminate]. destruct (type_guard o'); [ | discriminate].
  injection E as <-. eapply build_good; eauto. eapply values_good; eauto.
Qed.
Lemma set_defaults_good : forall ver o, ogood o -> ogood (obj_set_defaults ver o).
Proof.
  intros ver o [N K]. unfold ogood, obj_set_defaults. cbn [o_attrs]. unfold fill_defaults. split.
  - unfold dkeys. rewrite map_map. exact N.
  - intros k v Hi. apply in_map_iff in Hi as ((k', v') & E & Hv). cbn [fst snd] in E. injection E as <- <-.
    assert (J := K _ _ Hv). destruct v'; auto. destruct (dget k' (default_values (o_cls o) ver)) eqn:Ed; auto.
    eapply dgood_get; [apply defaults_good | exact Ed].
Qed.
Lemma obj_json_good : forall ver o, ogood o -> json_value (obj_json ver o).
Proof. intros ver o H. apply jv_dict_good. apply dgood_filter. exact H. Qed.

(** ** The whole data *)
Definition st_good (t : slot_timeline) : Prop :=
  Forall ogood (st_attachment t) /\ Forall ogood (st_color t) /\ Forall ogood (st_twoColor t).
Definition bt_good (t : bone_timeline) : Prop :=
  Forall ogood (bt_rotate t) /\ Forall ogood (bt_translate t) /\ Forall ogood (bt_scale t) /\ Forall ogood (bt_shear t).
Definition dr_good (k : draw_order) : Prop := json_value (do_time k) /\ Forall ogood (do_offsets k).
Definition kfs_good : dict (list obj) -> Prop := dgood (Forall ogood).
Record agood (a : animation) : Prop := {
  ag_ik : kfs_good (an_ik a);
  ag_draw : Forall dr_good (an_drawOrder a);
  ag_bones : dgood bt_good (an_bones a);
  ag_slots : dgood st_good (an_slots a);
  ag_events : Forall ogood (an_events a);
  ag_transform : kfs_good (an_transform a);
  ag_path : dgood kfs_good (an_path a);
  ag_deform : dgood (dgood kfs_good) (an_deform a) }.
Definition sgood (s : skin) : Prop := match sk_attachments s with Some a => dgood (dgood ogood) a | None => True end.
Record data_good (d : anim_data) : Prop := {
  dg_bones : Forall ogood (d_bones d);
  dg_slots : Forall ogood (d_slots d);
  dg_skins : Forall sgood (d_skins d);
  dg_events : dgood ogood (d_events d);
  dg_ik : Forall ogood (d_ik d);
  dg_transform : Forall ogood (d_transform d);
  dg_path : Forall ogood (d_path d);
  dg_anims : dgood agood (d_animations d) }.

Lemma sk_atts_good : forall s, sgood s -> dgood (dgood ogood) (sk_atts s).
Proof. intros s H. unfold sgood in H. unfold sk_atts. destruct (sk_attachments s); auto. apply dgood_nil. Qed.

(** ** Exporting *)
Lemma jlist_good : forall A (P : A -> Prop) f l, (forall x, P x -> json_value (f x)) -> Forall P l -> json_value (jlist f l).
Proof. intros A P f l H K. constructor. apply Forall_map. eapply Forall_impl; [ | exact K]. auto. Qed.
Lemma jdict_good : forall A (P : A -> Prop) f d, (forall x, P x -> json_value (f x)) -> dgood P d -> json_value (jdict f d).
Proof. intros A P f d H K. apply jv_dict_good. eapply dgood_map; [ | exact K]. auto. Qed.
Lemma export_good : forall ver c d, NoDup (dkeys d) -> Forall json_value (dvals d) -> json_value (export ver c d).
Proof.
  intros ver c d N K. apply jv_dict_good. apply dgood_filter. split; auto. intros k x Hx. rewrite Forall_forall in K.
  apply K. apply in_map_iff. exists (k, x). auto.
Qed.
Ltac keys := cbn; repeat constructor; cbn; intuition discriminate.
Ltac objs ver := eapply jlist_good; [apply (obj_json_good ver) | eassumption].
Ltac kfs ver := eapply jdict_good; [ | eassumption]; intros ? ?; objs ver.
Lemma st_json_good : forall ver t, st_good t -> json_value (slot_timeline_json ver t).
Proof.
  intros ver t (H1 & H2 & H3). apply export_good; [keys | ]. cbn [dvals map snd]. repeat apply Forall_cons; try apply Forall_nil; objs ver.
Qed.
Lemma bt_json_good : forall ver t, bt_good t -> json_value (bone_timeline_json ver t).
Proof.
  intros ver t (H1 & H2 & H3 & H4). apply export_good; [keys | ]. cbn [dvals map snd]. repeat apply Forall_cons; try apply Forall_nil; objs ver.
Qed.
Lemma dr_json_good : forall ver t, dr_good t -> json_value (draw_order_json ver t).
Proof.
  intros ver t (H1 & H2). apply export_good; [keys | ]. cbn [dvals map snd]. repeat apply Forall_cons; [ exact H1 | objs ver | constructor].
Qed.
Lemma animation_json_good : forall ver a, agood a -> json_value (animation_json ver a).
Proof.
  intros ver a [H1 H2 H3 H4 H5 H6 H7 H8]. apply export_good; [keys | ]. cbn [dvals map snd]. unfold kfs_good in *. repeat apply Forall_cons; [ | | | | | | | | constructor].
  - kfs ver.
  - eapply jlist_good; [apply dr_json_good | eassumption].
  - eapply jdict_good; [apply bt_json_good | eassumption].
  - eapply jdict_good; [apply st_json_good | eassumption].
  - objs ver.
  - kfs ver.
  - eapply jdict_good; [ | eassumption]. intros x Hx. kfs ver.
  - eapply jdict_good; [ | eassumption]. intros x Hx. eapply jdict_good; [ | eassumption]. intros y Hy. kfs ver.
Qed.
Lemma skin_json_good : forall ver s, sgood s -> json_value (skin_json ver s).
Proof.
  intros ver s H. apply export_good; [keys | ]. cbn [dvals map snd]. repeat apply Forall_cons; [ | | constructor].
  - destruct (sk_name s); constructor.
  - unfold sgood in H. destruct (sk_attachments s); [ | constructor]. eapply jdict_good; [ | eassumption]. intros x Hx.
    eapply jdict_good; [apply (obj_json_good ver) | eassumption].
Qed.
Lemma document_json_good : forall x, json_value (VDict (doc_skeleton x)) -> data_good (doc_data x) -> json_value (document_json x).
Proof.
  intros x S [H1 H2 H3 H4 H5 H6 H7 H8]. unfold document_json. apply jv_dict_good. apply dgood_set; auto.
  unfold data_json. set (ver := doc_version x). apply jv_dict_good. apply (export_good ver CAnimData); [keys | ].
  cbn [data_attrs dvals map snd]. repeat apply Forall_cons; [ | | | | | | | | constructor]; try solve [objs ver].
  - eapply jlist_good; [apply skin_json_good | eassumption].
  - eapply jdict_good; [apply (obj_json_good ver) | eassumption].
  - eapply jdict_good; [apply animation_json_good | eassumption].
Qed.

(** ** Loading *)
Lemma iter_good : forall v l, json_value v -> py_iter v = Ok l -> Forall json_value l.
Proof.
  intros v l H E. destruct v; try discriminate; injection E as <-.
  - apply Forall_map. apply Forall_forall. intros. constructor.
  - apply jv_list_good. auto.
  - apply Forall_map. apply Forall_forall. intros. constructor.
Qed.
Lemma list_of_good : forall A (P : A -> Prop) f v l, (forall x y, json_value x -> f x = Ok y -> P y) ->
  (forall x, v = Some x -> json_value x) -> list_of f v = Ok l -> Forall P l.
Proof.
  intros A P f v l H K E. destruct v as [v | ]; simpl in E; [ | injection E as <-; constructor].
  destruct (py_iter v) as [xs | ] eqn:Ei; cbn [bind] in E; [ | discriminate].
  eapply mapM_all; [exact H | | exact E]. eapply iter_good; eauto.
Qed.
Lemma dict_of_good : forall A (P : A -> Prop) f v l, (forall x y, json_value x -> f x = Ok y -> P y) ->
  (forall x, v = Some x -> json_value x) -> dict_of f v = Ok l -> dgood P l.
Proof.
  intros A P f v l H K E. assert (N : Ok [] = Ok l -> dgood P l). { intros X. injection X as <-. apply dgood_nil. }
  destruct v as [v | ]; simpl in E; auto. specialize (K v eq_refl).
  destruct v as [ | b | z | x | s | xs | d]; try discriminate.
  - destruct s; auto. discriminate.
  - destruct xs; auto. destruct (by_elements_not _ _ _ _ E).
  - eapply dgood_dmapM; [exact H | | exact E]. apply jv_dict_good. auto.
Qed.
Lemma items_of_good : forall A (P : A -> Prop) f v l, (forall x y, json_value x -> f x = Ok y -> P y) ->
  json_value v -> items_of f v = Ok l -> dgood P l.
Proof.
  intros A P f v l H K E. unfold items_of in E. destruct v; try discriminate. cbn [as_dict bind] in E.
  eapply dgood_dmapM; [exact H | | exact E]. apply jv_dict_good. auto.
Qed.
Ltac unbind E := match type of E with bind ?m _ = Ok _ => let X := fresh "X" in destruct m eqn:X; cbn [bind] in E; [ | discriminate E] end.
Ltac getg := let x := fresh in let E := fresh in intros x E; eapply dgood_get; [ | exact E]; eassumption.
Lemma mk_st_good : forall v t, json_value v -> mk_slot_timeline v = Ok t -> st_good t.
Proof.
  intros v t H E. unfold mk_slot_timeline in E. repeat unbind E. injection E as <-. assert (G := values_good _ _ _ H X).
  repeat apply conj; (eapply list_of_good; [apply mk_obj_good | | eassumption]; getg).
Qed.
Lemma mk_bt_good : forall v t, json_value v -> mk_bone_timeline v = Ok t -> bt_good t.
Proof.
  intros v t H E. unfold mk_bone_timeline in E. repeat unbind E. injection E as <-. assert (G := values_good _ _ _ H X).
  repeat apply conj; (eapply list_of_good; [apply mk_obj_good | | eassumption]; getg).
Qed.
Lemma mk_dr_good : forall v t, json_value v -> mk_draw_order v = Ok t -> dr_good t.
Proof.
  intros v t H E. unfold mk_draw_order in E. repeat unbind E. injection E as <-. assert (G := values_good _ _ _ H X).
  split; cbn [do_time do_offsets].
  - destruct (dget "time" a) eqn:Eg; [eapply dgood_get; eauto | constructor].
  - eapply list_of_good; [apply mk_obj_good | | eassumption]; getg.
Qed.
Lemma kfs_of_good : forall c x l, json_value x -> list_of (mk_obj c) (Some x) = Ok l -> Forall ogood l.
Proof. intros c x l H E. eapply list_of_good; [apply (mk_obj_good c) | | exact E]. intros y Ey. congruence. Qed.
Lemma mk_animation_good : forall v a, json_value v -> mk_animation v = Ok a -> agood a.
Proof.
  intros v a H E. unfold mk_animation in E. repeat unbind E. injection E as <-. assert (G := values_good _ _ _ H X).
  constructor; cbn [an_ik an_drawOrder an_bones an_slots an_events an_transform an_path an_deform]; unfold kfs_good.
  - eapply dict_of_good; [apply (kfs_of_good CIkTimeline) | | eassumption]; getg.
  - eapply list_of_good; [apply mk_dr_good | | eassumption]; getg.
  - eapply dict_of_good; [apply mk_bt_good | | eassumption]; getg.
  - eapply dict_of_good; [apply mk_st_good | | eassumption]; getg.
  - eapply list_of_good; [apply mk_obj_good | | eassumption]; getg.
  - eapply dict_of_good; [apply (kfs_of_good CTransformTimeline) | | eassumption]; getg.
  - eapply items_of_good; [ | | eassumption].
    + intros x y Hx Ey. eapply items_of_good; [apply (kfs_of_good CPathTimeline) | exact Hx | exact Ey].
    + destruct (dget "path" a0) eqn:Eg; [eapply dgood_get; eauto | apply jv_dict_good; apply dgood_nil].
  - eapply items_of_good; [ | | eassumption].
    + intros x y Hx Ey. eapply items_of_good; [ | exact Hx | exact Ey]. intros z w Hz Ew.
      eapply items_of_good; [apply (kfs_of_good CDeform) | exact Hz | exact Ew].
    + destruct (dget "deform" a0) eqn:Eg; [eapply dgood_get; eauto | apply jv_dict_good; apply dgood_nil].
Qed.
Lemma mk_attachment_good : forall v o, json_value v -> mk_attachment v = Ok o -> ogood o.
Proof. intros v o H E. unfold mk_attachment in E. repeat unbind E. eapply mk_obj_good; eauto. Qed.
Lemma mk_skin_good : forall v s, json_value v -> mk_skin v = Ok s -> sgood s.
Proof.
  intros v s H E. unfold mk_skin in E. unbind E. assert (G := values_good _ _ _ H X).
  assert (J : json_value (get_or_none "attachments" a)). { unfold get_or_none. destruct (dget "attachments" a) eqn:Eg; [eapply dgood_get; eauto | constructor]. }
  cbv zeta in E. unbind E. unbind E. destruct (is_str_or_null (get_or_none "name" a)); [ | discriminate]. injection E as <-. unfold sgood. cbn [sk_attachments].
  destruct (is_none (get_or_none "attachments" a)) eqn:En.
  { destruct (get_or_none "attachments" a); try discriminate En. injection X1 as <-. exact I. }
  assert (X1' : (let! x := mk_attachments (get_or_none "attachments" a) in Ok (Some x)) = Ok a1) by (destruct (get_or_none "attachments" a); [discriminate En | | | | | | ]; exact X1).
  clear X1. unbind X1'. injection X1' as <-. apply attachments_of_ok in X1 as (d & Ed & X1). rewrite Ed in J.
  eapply dgood_dmapM; [ | apply jv_dict_good; exact J | exact X1]. intros x y Hx Ey. cbv beta in Ey. apply attachments_of_ok in Ey as (d' & -> & Ey).
  eapply dgood_dmapM; [apply mk_attachment_good | apply jv_dict_good; exact Hx | exact Ey].
Qed.
Lemma mk_data_good : forall d x, dgood json_value d -> mk_data d = Ok x -> data_good x.
Proof.
  intros d x H E. unfold mk_data in E. assert (G : dgood json_value (ddel "skeleton" d)) by (apply dgood_filter; auto).
  set (vs := ddel "skeleton" d) in *. cbv zeta in E. clearbody vs.
  assert (R : forall A (P : A -> Prop) f k l, (forall x y, json_value x -> f x = Ok y -> P y) ->
            (let! x := dget_err k vs in list_of f (Some x)) = Ok l -> Forall P l).
  { intros A P f k l Hf El. unfold dget_err in El. destruct (dget k vs) eqn:Ek; cbn [bind] in El; [ | discriminate].
    eapply list_of_good; [exact Hf | | exact El]. intros y Ey. injection Ey as <-. eapply dgood_get; eauto. }
  repeat unbind E. injection E as <-. constructor; cbn [d_bones d_slots d_skins d_events d_ik d_transform d_path d_animations].
  - eapply R; [apply mk_obj_good | eassumption].
  - eapply R; [apply mk_obj_good | eassumption].
  - eapply R; [apply mk_skin_good | eassumption].
  - eapply dict_of_good; [apply mk_obj_good | | eassumption]; getg.
  - eapply list_of_good; [apply mk_obj_good | | eassumption]; getg.
  - eapply list_of_good; [apply mk_obj_good | | eassumption]; getg.
  - eapply list_of_good; [apply mk_obj_good | | eassumption]; getg.
  - eapply dict_of_good; [apply mk_animation_good | | eassumption]; getg.
Qed.

Lemma Forall_map_imp : forall A B (P : A -> Prop) (Q : B -> Prop) f l, (forall x, P x -> Q (f x)) -> Forall P l -> Forall Q (map f l).
Proof. intros A B P Q f l H K. apply Forall_map. eapply Forall_impl; [ | exact K]. auto. Qed.
Ltac sd := first [eapply Forall_map_imp; [apply set_defaults_good | eassumption] ].
Lemma defaults_anim_good : forall ver a, agood a -> agood (animation_defaults ver a).
Proof.
  intros ver a [H1 H2 H3 H4 H5 H6 H7 H8]. unfold kfs_good in *.
  assert (L : forall l, Forall ogood l -> Forall ogood (map (obj_set_defaults ver) l)). { intros l Hl. sd. }
  constructor; cbn [an_ik an_drawOrder an_bones an_slots an_events an_transform an_path an_deform animation_defaults]; unfold kfs_good; auto;
    try (eapply dgood_map; [ | eassumption]; auto).
  - eapply Forall_map_imp; [ | exact H2]. intros k [K1 K2]. split; cbn [do_time do_offsets draw_order_defaults]; [ | auto].
    destruct (do_time k); auto. destruct (dget "time" (default_values CDrawOrder ver)) eqn:Ed; auto.
    eapply dgood_get; [apply defaults_good | exact Ed].
  - intros t (K1 & K2 & K3 & K4). repeat apply conj; apply L; auto.
  - intros t (K1 & K2 & K3). repeat apply conj; apply L; auto.
  - intros x Hx. eapply dgood_map; [ | exact Hx]. auto.
  - intros x Hx. eapply dgood_map; [ | exact Hx]. intros y Hy. eapply dgood_map; [ | exact Hy]. auto.
Qed.
Lemma data_defaults_good : forall ver d, data_good d -> data_good (data_defaults ver d).
Proof.
  intros ver d [H1 H2 H3 H4 H5 H6 H7 H8]. constructor; cbn [d_bones d_slots d_skins d_events d_ik d_transform d_path d_animations data_defaults]; try sd.
  - eapply Forall_map_imp; [ | exact H3]. intros s Hs. unfold sgood in *. cbn [skin_defaults sk_attachments].
    destruct (sk_attachments s); [ | apply dgood_nil]. eapply dgood_map; [ | exact Hs]. intros x Hx. eapply dgood_map; [ | exact Hx].
    apply set_defaults_good.
  - eapply dgood_map; [ | exact H4]. apply set_defaults_good.
  - eapply dgood_map; [ | exact H8]. apply defaults_anim_good.
Qed.
Lemma load_good : forall j x, json_value j -> load_document j = Ok x -> json_value (VDict (doc_skeleton x)) /\ data_good (doc_data x).
Proof.
  intros j x H E. unfold load_document in E. destruct j as [ | | | | | | d]; try discriminate.
  assert (G := proj1 (jv_dict_good d) H). unbind E. unbind E. destruct a0; try discriminate. unbind E. unbind E.
  destruct a as [ | | | | | | sk]; try discriminate. injection E as <-. cbn [doc_skeleton doc_data]. split.
  - unfold dget_err in X. destruct (dget "skeleton" d) eqn:Ek; [ | discriminate]. injection X as ->. eapply dgood_get; eauto.
  - apply data_defaults_good. eapply mk_data_good; eauto.
Qed.

(** ** Calls keep a property of the state, also when they raise *)
Definition keeps {S A} (P : S -> Prop) (Q : A -> Prop) (m : M S A) : Prop :=
  forall s, P s -> P (fst (m s)) /\ forall x, snd (m s) = Ok x -> Q x.
Definition any {A} (x : A) : Prop := True.
Lemma keeps_ret : forall S A (P : S -> Prop) (Q : A -> Prop) x, Q x -> keeps P Q (mret x).
Proof. intros S A P Q x H s Hs. split; auto. simpl. intros y E. congruence. Qed.
Lemma keeps_lift : forall S A (P : S -> Prop) (Q : A -> Prop) r, (forall x, r = Ok x -> Q x) -> keeps P Q (mlift r).
Proof. intros S A P Q r H s Hs. split; auto. Qed.
Lemma keeps_raise : forall S A (P : S -> Prop) (Q : A -> Prop) e, keeps P Q (mraise e).
Proof. intros S A P Q e s Hs. split; auto. simpl. discriminate. Qed.
Lemma keeps_get : forall S (P : S -> Prop), keeps P P mget.
Proof. intros S P s Hs. split; auto. simpl. intros x E. congruence. Qed.
Lemma keeps_bind : forall S A B (P : S -> Prop) (Q : A -> Prop) (R : B -> Prop) m f,
  keeps P Q m -> (forall x, Q x -> keeps P R (f x)) -> keeps P R (mbind m f).
Proof.
  intros S A B P Q R m f H K s Hs. specialize (H s Hs). unfold mbind. destruct (m s) as [s' [x | e]]; simpl in *; destruct H as [H1 H2].
  - apply K; auto.
  - split; auto. discriminate.
Qed.
Lemma keeps_any : forall S A (P : S -> Prop) (Q : A -> Prop) m, keeps P Q m -> keeps P any m.
Proof. intros S A P Q m H s Hs. split; [apply H; auto | intros; exact I]. Qed.
Lemma keeps_foreach : forall S A B (P : S -> Prop) (f : A -> M S B) l, (forall x, In x l -> keeps P any (f x)) -> keeps P any (mforeach f l).
Proof.
  intros S A B P f l H. induction l as [ | x l IH]; cbn [mforeach]; [apply keeps_ret; exact I | ].
  eapply keeps_bind; [apply H; left; auto | intros y _]. eapply keeps_bind; [apply IH; intros; apply H; right; auto | intros ys _].
  apply keeps_ret. exact I.
Qed.

(** ** The graph: the data of its nodes *)
Definition ggood (g : sgraph) : Prop := forall k n d, In (k, n) (g_nodes g) -> n_data n = Some d -> json_value (nd_data d).
Lemma ggood_set : forall g i n, ggood g -> (forall d, n_data n = Some d -> json_value (nd_data d)) ->
  forall g', g_nodes g' = dset i n (g_nodes g) -> ggood g'.
Proof. intros g i n H K g' E k m d Hi Ed. rewrite E in Hi. destruct (dset_in _ _ _ _ _ _ Hi) as [[_ ->] | X]; eauto. Qed.
Lemma ggood_update : forall g i f, ggood g -> (forall n, n_data (f n) = n_data n) -> ggood (update i f g).
Proof.
  intros g i f H K. unfold update. destruct (dget i (g_nodes g)) as [n | ] eqn:E; auto.
  eapply ggood_set; [exact H | | reflexivity]. intros d Ed. rewrite K in Ed. apply dget_some_in in E. eauto.
Qed.
Lemma unlink_good : forall has upd x l g, (forall n, n_data (upd n) = n_data n) -> ggood g -> ggood (fst (unlink has upd x l g)).
Proof.
  intros has upd x l. induction l as [ | i l IH]; intros g K H; cbn [unlink]; auto.
  destruct (dget i (g_nodes g)); auto. destruct (smem x (has n)); auto. apply IH; auto. apply ggood_update; auto.
Qed.
Lemma g_remove_good : forall i, keeps ggood any (g_remove i).
Proof.
  intros i g H. split; [ | intros; exact I]. unfold g_remove, remove_node_by_id. cbn [get_node].
  destruct (dget i (g_nodes g)) as [n | ]; auto.
  assert (H1 := unlink_good (@n_parents ndata) (without_parent i) i (n_children n) g (fun _ => eq_refl) H).
  destruct (unlink (@n_parents ndata) (without_parent i) i (n_children n) g) as [g1 [u | e]]; auto. cbn [fst] in H1.
  assert (H2 := unlink_good (@n_children ndata) (without_child i) i (n_parents n) g1 (fun _ => eq_refl) H1).
  destruct (unlink (@n_children ndata) (without_child i) i (n_parents n) g1) as [g2 [u' | e]]; auto. cbn [fst] in *.
  intros k m d Hi Ed. apply filter_In in Hi as [Hi _]. eapply H2; eauto.
Qed.
Lemma rounds_good : forall sel t fuel, keeps ggood any sel -> keeps ggood any (remove_rounds fuel sel t).
Proof.
  intros sel t fuel H. induction fuel as [ | fuel IH]; cbn [remove_rounds]; (eapply keeps_bind; [exact H | intros l _]); destruct l as [ | x l];
    try (apply keeps_ret; exact I); [apply keeps_raise | ].
  eapply keeps_bind; [ | intros r _; eapply keeps_bind; [exact IH | intros m _; apply keeps_ret; exact I]].
  apply keeps_foreach. intros i _. eapply keeps_bind; [apply g_remove_good | intros n _; apply keeps_ret; exact I].
Qed.
Lemma heads_good : forall t, keeps ggood any (remove_heads_of_type t).
Proof. intros t g H. unfold remove_heads_of_type. apply rounds_good; auto. intros g' H'. split; [exact H' | intros; exact I]. Qed.
Lemma leafs_good : forall t, keeps ggood any (remove_leafs_of_type t).
Proof. intros t g H. unfold remove_leafs_of_type. apply rounds_good; auto. intros g' H'. split; [exact H' | intros; exact I]. Qed.
Lemma remove_slots_good : forall l, keeps ggood any (remove_slots l).
Proof. intros l. apply keeps_foreach. intros. apply g_remove_good. Qed.
Lemma remove_attachments_good : forall l, keeps ggood any (remove_attachments l).
Proof. intros l. apply keeps_foreach. intros. apply g_remove_good. Qed.

Lemma add_good : forall t i nd, json_value (nd_data nd) -> keeps ggood any (g_add t i nd).
Proof.
  intros t i nd J. eapply keeps_bind; [ | intros; apply keeps_ret; exact I]. intros g H. split; [ | intros; exact I].
  unfold add_node, generate_unique_id. destruct (first_free _ _ _); auto. cbn [fst g_nodes].
  destruct (dmem i (g_nodes g)); auto. destruct (spine_factory (Some (NTStr t))) as [[ty fo] | ]; auto. cbn [fst].
  eapply ggood_set; [exact H | | reflexivity]. cbn [n_data]. congruence.
Qed.
Lemma edge_good : forall p c, keeps ggood any (g_edge p c).
Proof.
  intros p c g H. split; [ | intros; exact I]. unfold g_edge, add_edge. cbn [get_node].
  assert (G : forall g1 i n x g2, ggood g1 -> In (i, n) (g_nodes g) -> (n_data x = n_data n) -> g_nodes g2 = dset (n_id n) x (g_nodes g1) -> ggood g2).
  { intros g1 i n x g2 H1 Hi Ex E2. eapply ggood_set; [exact H1 | | exact E2]. intros d Ed. rewrite Ex in Ed. eauto. }
  destruct (dget p (g_nodes g)) as [n1 | ] eqn:E1; destruct (dget c (g_nodes g)) as [n2 | ] eqn:E2; cbn [add_child add_parent fst]; auto.
  apply dget_some_in in E1. apply dget_some_in in E2.
  destruct (existsb _ _); auto. destruct (String.eqb (n_id n2) (n_id n1)); auto. destruct (String.eqb (n_id n1) (n_id n2)); cbn [fst].
  - eapply G; [exact H | exact E1 | | reflexivity]. reflexivity.
  - eapply G; [ | exact E2 | | reflexivity]; [ | reflexivity]. eapply G; [exact H | exact E1 | | reflexivity]. reflexivity.
Qed.
Lemma has_good : forall i, keeps ggood any (g_has i).
Proof. intros i g H. split; [exact H | intros; exact I]. Qed.
Lemma edge_if_good : forall p c w, keeps ggood any (edge_if_present p c w).
Proof. intros p c w. eapply keeps_bind; [apply has_good | ]. intros b _. destruct b; [apply edge_good | apply keeps_ret; exact I]. Qed.
Lemma lift_any : forall A (r : res A), keeps ggood any (mlift r).
Proof. intros A r. apply keeps_lift. intros; exact I. Qed.

Lemma item_good : forall v k x, json_value v -> py_item v k = Ok x -> json_value x.
Proof.
  intros v k x H E. destruct v as [ | | | | | | d]; try discriminate. simpl in E. unfold dget_err in E.
  destruct (dget k d) eqn:Eg; [ | discriminate]. injection E as <-. eapply dgood_get; [apply jv_dict_good; eauto | eauto].
Qed.
Lemma as_dict_good : forall v d, json_value v -> as_dict v = Ok d -> dgood json_value d.
Proof. intros v d H E. destruct v; try discriminate. injection E as <-. apply jv_dict_good. auto. Qed.
Lemma get_item_good : forall k d, dgood json_value d -> json_value (get_item k d).
Proof. intros k d H. unfold get_item. destruct (dget k d) eqn:E; [eapply dgood_get; eauto | constructor]. Qed.
Ltac kb := eapply keeps_bind; [apply lift_any | intros ? _].
Lemma add_bone_good : forall v i, json_value v -> keeps ggood any (add_bone_to_graph v i).
Proof. intros v i H. kb. kb. eapply keeps_bind; [apply add_good; auto | intros ? _]. kb. kb. apply edge_if_good. Qed.
Lemma add_slot_good : forall v i, json_value v -> keeps ggood any (add_slot_to_graph v i).
Proof.
  intros v i H. kb. kb. eapply keeps_bind; [apply add_good; auto | intros ? _]. kb. kb.
  eapply keeps_bind; [apply edge_if_good | intros ? _]. apply keeps_ret. exact I.
Qed.
Lemma absent_good : forall t i nd, json_value (nd_data nd) -> keeps ggood any (add_if_absent t i nd).
Proof. intros t i nd H. eapply keeps_bind; [apply has_good | ]. intros b _. destruct b; [apply keeps_ret; exact I | apply add_good; auto]. Qed.
Lemma add_att_good : forall i kv, json_value (snd kv) -> keeps ggood any (add_attachment_to_slot i kv).
Proof.
  intros i [k v] H. unfold add_attachment_to_slot. eapply keeps_bind; [apply absent_good; exact H | intros ? _]. kb. kb.
  eapply keeps_bind; [apply absent_good; apply jv_dict_good; apply dgood_nil | intros ? _].
  eapply keeps_bind; [apply edge_good | intros ? _]. apply edge_good.
Qed.
Lemma nth_good : forall l x y, json_value (VList l) -> py_nth l x = Ok y -> json_value y.
Proof.
  intros l x y H E. apply jv_list_good in H. rewrite Forall_forall in H. apply H. unfold py_nth in E. destruct (as_num x) as [[i | ] | ]; try discriminate E. cbv zeta in E.
  destruct (0 <=? _)%Z; [ | discriminate E]. destruct (nth_error _ _) as [v | ] eqn:N; [ | discriminate E]. injection E as <-. eapply nth_error_In; eauto.
Qed.
Lemma add_skin_good : forall i n v, json_value v -> keeps ggood any (add_skin_to_slot i n v).
Proof.
  intros i n v H. unfold add_skin_to_slot. eapply keeps_bind; [apply (keeps_lift _ _ _ (dgood json_value)); intros d Ed; eapply as_dict_good; eauto | ].
  intros d Hd. cbv zeta. destruct (truthy (get_item "attachments" d)); [ | apply keeps_ret; exact I].
  eapply keeps_bind; [apply (keeps_lift _ _ _ (dgood json_value)); intros x Ex; eapply as_dict_good; [ | exact Ex]; apply get_item_good; auto | ].
  intros sd Hsd. eapply (keeps_bind _ _ _ _ json_value).
  { apply keeps_lift. intros x Ex. assert (L : json_value (VList [])) by (constructor; constructor).
    destruct n; try discriminate Ex; injection Ex as <-; auto. destruct (dget s sd) eqn:E; auto. eapply dgood_get; eauto. }
  intros y J. destruct y as [ | | | | t | l | a]; unfold add_skin_attachments_to_slot; try apply keeps_raise.
  - destruct t; [apply keeps_ret; exact I | apply keeps_raise].
  - eapply keeps_bind; [ | intros; apply keeps_ret; exact I]. apply keeps_foreach. intros x Hx. unfold add_listed_attachment.
    eapply keeps_bind; [apply (keeps_lift _ _ _ json_value); intros z Ez; eapply nth_good; [ | exact Ez]; auto | intros z Hz]. apply add_att_good. exact Hz.
  - eapply keeps_bind; [ | intros; apply keeps_ret; exact I]. apply keeps_foreach. intros [k x] Hx. apply add_att_good.
    apply jv_dict_good in J as [_ J]. cbn [snd]. eauto.
Qed.
Lemma add_ik_good : forall v i, json_value v -> keeps ggood any (add_ik_to_graph v i).
Proof.
  intros v i H. kb. kb. eapply keeps_bind; [apply add_good; auto | intros ? _]. kb. kb.
  eapply keeps_bind; [apply keeps_foreach; intros; kb; apply edge_if_good | intros ? _]. kb. cbv zeta. destruct (truthy _); [ | apply keeps_ret; exact I].
  kb. apply edge_if_good.
Qed.
Lemma enumerate_in : forall A (l : list A) i p, In p (enumerate_from i l) -> In (snd p) l.
Proof. intros A l. induction l as [ | x l IH]; intros i p H; simpl in *; auto. destruct H as [<- | H]; eauto. Qed.
Lemma build_graph_good : forall d, dgood json_value d -> keeps ggood any (build_graph_m d).
Proof.
  intros d H. unfold build_graph_m.
  assert (I1 : forall k v l, dget k d = Some v -> py_iter v = Ok l -> Forall json_value l).
  { intros k v l E1 E2. eapply iter_good; [ | exact E2]. eapply dgood_get; eauto. }
  assert (O : forall k l, match dget k d with Some v => py_iter v | None => Ok [] end = Ok l -> Forall json_value l).
  { intros k l E. destruct (dget k d) eqn:Ek; [eauto | injection E as <-; constructor]. }
  eapply keeps_bind; [apply (keeps_lift _ _ _ (Forall json_value)) | intros bs Hb].
  { intros l E. unfold dget_err in E. destruct (dget "bones" d) eqn:Ek; cbn [bind] in E; [eauto | discriminate]. }
  eapply keeps_bind; [apply keeps_foreach; intros p Hp; apply add_bone_good; eapply Forall_forall; [exact Hb | eapply enumerate_in; exact Hp] | intros ? _].
  eapply keeps_bind; [apply (keeps_lift _ _ _ (Forall json_value)); intros l E; eapply O; exact E | intros ss Hs].
  eapply keeps_bind; [apply keeps_foreach; intros p Hp | intros ? _].
  { assert (J : json_value (snd p)) by (eapply Forall_forall; [exact Hs | eapply enumerate_in; exact Hp]). destruct p as [i v]. cbn [snd] in J.
    unfold add_slot_and_attachments. eapply keeps_bind; [apply add_slot_good; auto | intros sid _].
    eapply keeps_bind; [apply (keeps_lift _ _ _ json_value) | intros sk Hsk].
    { intros x9 E. unfold dget_err in E. destruct (dget "skins" d) eqn:Ek; [ | discriminate]. injection E as <-. eapply dgood_get; eauto. }
    eapply keeps_bind; [apply (keeps_lift _ _ _ (Forall json_value)); intros l E; eapply iter_good; eauto | intros l Hl].
    kb. eapply keeps_bind; [ | intros; apply keeps_ret; exact I]. apply keeps_foreach. intros y Hy. apply add_skin_good.
    rewrite Forall_forall in Hl. auto. }
  eapply keeps_bind; [apply (keeps_lift _ _ _ (Forall json_value)); intros l E; eapply O; exact E | intros iks Hi].
  eapply keeps_bind; [apply keeps_foreach; intros p Hp; apply add_ik_good; eapply Forall_forall; [exact Hi | eapply enumerate_in; exact Hp] | intros ? _].
  apply keeps_ret. exact I.
Qed.
Lemma create_good : forall v g, json_value v -> create_from_json_data v = Ok g -> ggood g.
Proof.
  intros v g H E. destruct v as [ | | | | | | d]; try discriminate. unfold create_from_json_data in E.
  apply jv_dict_good in H. assert (K := proj1 (build_graph_good d H new_graph (fun k n d (X : In _ []) _ => match X with end))).
  destruct (build_graph_m d new_graph) as [g' [u | e]]; [ | discriminate]. injection E as <-. exact K.
Qed.
Lemma graph_json_good : forall g o, ggood g -> graph_to_json g = Ok o ->
  Forall json_value (gj_slots o) /\ Forall json_value (gj_bones o) /\ Forall json_value (gj_ik o).
Proof.
  intros g o H E. unfold graph_to_json in E. destruct (forallb _ _); [ | discriminate]. injection E as <-. cbn [gj_slots gj_bones gj_ik].
  assert (S : forall t, Forall json_value (sorted_data (nodes_of_type t g))).
  { intros t. unfold sorted_data. apply Forall_map. apply Forall_forall. intros nd Hn.
    assert (X : forall l, In nd (sort_by nd_idx l) -> In nd l).
    { assert (Y : forall (x : ndata) l, In nd (insert_by nd_idx x l) -> nd = x \/ In nd l).
      { intros x l. induction l as [ | y l IH]; simpl; intros Hy; [destruct Hy; auto; tauto | ]. destruct (Z.leb _ _); simpl in Hy; [destruct Hy; auto | ].
        destruct Hy as [-> | Hy]; auto. destruct (IH Hy); auto. }
      intros l. induction l as [ | y l IH]; simpl; auto. intros Hy. destruct (Y y _ Hy); auto. }
    apply X in Hn. unfold nodes_of_type in Hn. apply in_flat_map in Hn as (n & Hn & Hd). unfold dvals in Hn. apply in_map_iff in Hn as ((k & m) & En & Hk).
    cbn [snd] in En. subst m. destruct (ntype_eqb _ _); [ | destruct Hd]. destruct (n_data n) eqn:Ed; [ | destruct Hd]. destruct Hd as [<- | []]. eapply H; eauto. }
  auto.
Qed.

(** ** The operations on the data *)
Lemma copy_mesh_good : forall a b, ogood a -> ogood b -> ogood (copy_mesh a b).
Proof. intros a b Ha Hb. unfold copy_mesh. repeat apply oset_good; auto; apply oget_good; auto. Qed.
Lemma relink_skin_good : forall n src s, dgood (dgood ogood) src -> sgood s -> sgood (fst (relink_skin n src s)).
Proof.
  intros n src s H K. unfold relink_skin. destruct (opt_eqb (sk_name s) (Some n)); auto.
  match goal with |- context [mapM_inplace ?f ?l] => assert (G : dgood (dgood ogood) (fst (mapM_inplace f l))); [ | destruct (mapM_inplace f l); exact G] end.
  apply dgood_inplace_kv; [ | apply sk_atts_good; auto]. intros k x Hx. cbn [fst snd].
  match goal with |- context [mapM_inplace ?f ?l] => assert (G : dgood ogood (fst (mapM_inplace f l))); [ | destruct (mapM_inplace f l); auto] end.
  apply dgood_inplace_kv; auto. intros i o Ho. unfold relink. destruct (links_to n o); auto.
  destruct (dget_err k src) as [a | ] eqn:E1; cbn [bind]; auto. destruct (dget_err i a) as [m | ] eqn:E2; auto. cbn [fst snd]. split; auto.
  unfold dget_err in E1, E2. destruct (dget k src) eqn:D1; [ | discriminate]. injection E1 as ->. destruct (dget i a) eqn:D2; [ | discriminate]. injection E2 as ->.
  apply copy_mesh_good; auto. eapply dgood_get; [ | exact D2]. eapply dgood_get; eauto.
Qed.
Lemma remove_skin_good : forall n, keeps data_good any (remove_skin n).
Proof.
  intros n d H. split; [ | intros; exact I]. unfold remove_skin. destruct (get_skin d n) as [s | ] eqn:E; auto.
  assert (Hs : sgood s). { unfold get_skin in E. apply find_some in E as [E _]. eapply Forall_forall; [apply (dg_skins d H) | exact E]. }
  assert (G : Forall sgood (fst (mapM_inplace (relink_skin n (sk_atts s)) (d_skins d)))).
  { apply inplace_all; [ | apply dg_skins; auto]. intros x Hx. apply relink_skin_good; auto. apply sk_atts_good. auto. }
  destruct (mapM_inplace (relink_skin n (sk_atts s)) (d_skins d)) as [l [u | e]]; cbn [fst] in *; destruct H as [H1 H2 H3 H4 H5 H6 H7 H8];
    constructor; cbn [d_bones d_slots d_skins d_events d_ik d_transform d_path d_animations set_skins set_animations]; auto.
  - apply Forall_forall. intros x Hx. apply filter_In in Hx as [Hx _]. rewrite Forall_forall in G. auto.
  - eapply dgood_map; [ | exact H8]. intros a [K1 K2 K3 K4 K5 K6 K7 K8].
    constructor; cbn [an_ik an_drawOrder an_bones an_slots an_events an_transform an_path an_deform drop_deform]; auto. apply dgood_filter. auto.
Qed.
Lemma erase_raw_good : forall l strict, keeps data_good any (erase_raw_animations_data l strict).
Proof.
  intros l strict d H. split; [ | intros; exact I]. unfold erase_raw_animations_data.
  assert (F : forall l a nf, dgood agood a -> dgood agood (fst (fold_left (fun acc n => let '(a, nf) := acc in
      if dmem n a then (ddel n a, nf) else (a, (nf ++ [n])%list)) l (a, nf)))).
  { clear. intros l. induction l as [ | n l IH]; intros a nf K; cbn [fold_left fst]; auto. destruct (dmem n a); apply IH; auto. apply dgood_filter. auto. }
  specialize (F l (d_animations d) [] (dg_anims d H)). destruct (fold_left _ l (d_animations d, [])) as [a nf]. cbn [fst] in *.
  destruct H as [H1 H2 H3 H4 H5 H6 H7 H8]. constructor; auto.
Qed.
Lemma adjust_good : forall rem fin orig offs l, dgood ogood offs -> adjust_offsets rem fin orig offs = Ok l -> Forall ogood l.
Proof.
  intros rem fin orig offs l H E. unfold adjust_offsets in E. cbv zeta in E. unbind E. injection E as <-.
  apply Forall_forall. intros o Ho. apply filter_In in Ho as [Ho _]. apply in_map_iff in Ho as (p & <- & Hp).
  assert (G : Forall (fun p => ogood (snd p)) a).
  { eapply (mapM_all _ _ (fun p : string * obj => ogood (snd p))); [ | | exact X].
    - intros [n o] y Ho Ey. cbn [snd] in Ho. cbv beta iota in Ey. destruct (smem n rem); [injection Ey as <-; auto | ].
      repeat unbind Ey. injection Ey as <-. cbn [snd]. apply oset_good; auto. constructor.
    - apply Forall_forall. intros [k x] Hx. destruct H as [_ H]. cbn [snd]. eauto. }
  rewrite Forall_forall in G. auto.
Qed.
Lemma offsets_by_slot_good : forall l d, Forall ogood l -> offsets_by_slot l = Ok d -> dgood ogood d.
Proof.
  intros l d H. unfold offsets_by_slot.
  assert (G : forall l d0 d, Forall ogood l -> dgood ogood d0 ->
    foldM (fun d o => match ostr o "slot" with Some s => Ok (dset s o d) | None => Ok d end) d0 l = Ok d -> dgood ogood d).
  { clear. intros l. induction l as [ | o l IH]; intros d0 d H K E; cbn [foldM] in E; [injection E as <-; auto | ].
    apply Forall_cons_iff in H as [H1 H2]. destruct (ostr o "slot"); cbn [bind] in E; (eapply IH; [exact H2 | | exact E]); [apply dgood_set | ]; auto. }
  intros E. eapply G; [exact H | apply dgood_nil | exact E].
Qed.
Lemma remove_offsets_good : forall ids names k, dr_good k -> dr_good (fst (remove_offsets_with_ids ids names k)).
Proof.
  intros ids names k H. unfold remove_offsets_with_ids. cbv zeta.
  match goal with |- context [match ?r with Ok _ => _ | Err _ => _ end] => destruct r as [l | e] eqn:E; auto end.
  cbn [fst]. destruct H as [H1 H2]. split; auto. cbn [do_offsets]. unbind E. unbind E. destruct (forallb has_slot (do_offsets k)); [ | discriminate]. eapply adjust_good; [ | exact E].
  eapply offsets_by_slot_good; eauto.
Qed.
Lemma remove_draw_good : forall ids names a, agood a -> agood (fst (remove_draw_order_with_ids ids names a)).
Proof.
  intros ids names a [K1 K2 K3 K4 K5 K6 K7 K8]. unfold remove_draw_order_with_ids.
  assert (G := inplace_all _ dr_good (remove_offsets_with_ids ids names) (an_drawOrder a) (remove_offsets_good ids names) K2).
  destruct (mapM_inplace _ (an_drawOrder a)). constructor; auto.
Qed.

(** ** The image references *)
Definition img_good (i : imgref) : Prop := forall s, im_scale i = Some s -> is_float s.
Lemma parse_unsigned_valid : forall neg l f, parse_unsigned neg l = Some f -> is_float f.
Proof.
  intros neg l f E. unfold parse_unsigned in E.
  repeat match type of E with
         | (if ?x then _ else _) = _ => destruct x
         | (let '(_, _) := ?x in _) = _ => destruct x
         | match ?x with _ => _ end = _ => destruct x
         end; try discriminate; injection E as <-; try reflexivity; apply float_of_decimal_valid.
Qed.
Lemma py_float_valid : forall l f, py_float l = Some f -> is_float f.
Proof.
  intros l f E. unfold py_float in E. destruct (drop_underscores false (trim l)) as [x | ]; [ | discriminate].
  assert (G : exists b y, parse_unsigned b y = Some f).
  { destruct x as [ | [b0 b1 b2 b3 b4 b5 b6 b7] x]; [eauto | ].
    repeat match type of E with match ?x with _ => _ end = _ => destruct x end; eauto. }
  destruct G as (b & y & G). eapply parse_unsigned_valid; eauto.
Qed.
Lemma scale_in_name_valid : forall s f, scale_in_name s = Ok f -> is_float f.
Proof.
  intros s f E. unfold scale_in_name in E. unbind E. injection E as <-. destruct (dget "scale" _) eqn:Eg; [ | reflexivity].
  unfold get_tags_from_name in X. eapply (dgood_get _ is_float); [ | exact Eg].
  revert X. assert (G0 : dgood is_float []) by apply dgood_nil. revert G0. generalize (@nil (string * float64)) as d. generalize (find_tags s) as l.
  induction l as [ | t l IH]; intros d G0 X; cbn [foldM] in X; [injection X as <-; auto | ]. unbind X. eapply IH; [ | exact X].
  unfold add_tag in X0. destruct (dmem _ d); [discriminate | ]. destruct (negb _); [discriminate | ]. destruct (py_float _) eqn:Ep; [ | discriminate].
  injection X0 as <-. apply dgood_set; auto. eapply py_float_valid; eauto.
Qed.
Lemma bone_scale_valid : forall fuel d x b f, is_float x -> bone_scale_loop fuel d x b = Ok f -> is_float f.
Proof.
  intros fuel d. induction fuel as [ | fuel IH]; intros x [b | ] f H E; cbn [bone_scale_loop] in E; try discriminate;
    (destruct (String.eqb _ _); [injection E as <-; auto | ]); [discriminate | ].
  unbind E. eapply IH; [ | exact E]. apply fmul_valid; auto. eapply scale_in_name_valid; eauto.
Qed.
Lemma slot_scale_valid : forall d s f, get_slot_custom_scale d s = Ok f -> is_float f.
Proof.
  intros d [s | ] f E; [ | discriminate]. cbn [get_slot_custom_scale] in E. unbind E. unbind E. injection E as <-.
  apply fmul_valid; [eapply scale_in_name_valid; eauto | ]. unfold get_bone_custom_scale_recursive in X0. eapply bone_scale_valid; [ | eauto]. reflexivity.
Qed.
Lemma foldM_all : forall A B (P : A -> Prop) (f : A -> B -> res A), (forall a b a', P a -> f a b = Ok a' -> P a') -> forall l a a', P a -> foldM f a l = Ok a' -> P a'.
Proof. intros A B P f H l. induction l as [ | b l IH]; intros a a' Ha E; cbn [foldM] in E; [injection E as <-; auto | ]. unbind E. eapply IH; [ | exact E]. eapply H; eauto. Qed.
Lemma references_good : forall x l, get_images_references x = Ok l -> dgood img_good l.
Proof.
  intros x l E. unfold get_images_references in E. cbv zeta in E.
  revert E. generalize (match dget "images" (doc_skeleton x) with Some v => v | None => VStr "./images/" end). intros fo E. eapply (foldM_all _ _ (dgood img_good)); [ | apply dgood_nil | exact E].
  intros a s a' Ha Es. cbv beta in Es. destruct (ver_ge _ _); [ | discriminate]. eapply (foldM_all _ _ (dgood img_good)); [ | exact Ha | exact Es].
  intros b kv b' Hb Eb. unfold add_slot_images in Eb. destruct (get_slot_custom_scale _ _) as [sc | ] eqn:X; [ | discriminate]. cbn [bind] in Eb. eapply (foldM_all _ _ (dgood img_good)); [ | exact Hb | exact Eb].
  intros c [k o] c' Hc Ec. unfold add_image in Ec. assert (D : c' = c \/ exists k' p, c' = dset k' (mkImg p (if feqb sc f_one then None else Some sc)) c).
  { destruct (o_cls o); try (left; congruence); (destruct (negb _); [discriminate | ]; destruct fo; try discriminate; injection Ec as <-; eauto). }
  destruct D as [-> | (k' & p & ->)]; auto. apply dgood_set; auto. intros s' Hs. cbn [im_scale] in Hs. destruct (feqb _ _); [discriminate | ].
  injection Hs as <-. eapply slot_scale_valid; eauto.
Qed.

(** ** The editor *)
Record egood (e : editor) : Prop := {
  eg_skeleton : json_value (VDict (doc_skeleton (e_doc e)));
  eg_data : data_good (e_data e);
  eg_graph : ggood (e_graph e);
  eg_images : dgood img_good (e_images e) }.
Lemma on_data_good : forall A (m : M anim_data A), keeps data_good any m -> keeps egood any (on_data m).
Proof.
  intros A m H e [E1 E2 E3 E4]. specialize (H _ E2). split; [ | intros; exact I]. unfold on_data. destruct (m (e_data e)). destruct H as [H _].
  constructor; auto.
Qed.
Lemma on_graph_good : forall A (m : M sgraph A), keeps ggood any m -> keeps egood any (on_graph m).
Proof.
  intros A m H e [E1 E2 E3 E4]. specialize (H _ E3). split; [ | intros; exact I]. unfold on_graph. destruct (m (e_graph e)). destruct H as [H _].
  constructor; auto.
Qed.
Lemma modify_good : forall f, (forall d, data_good d -> data_good (f d)) -> keeps egood any (modify_data f).
Proof. intros f H. apply on_data_good. intros d Hd. split; [apply H; auto | intros; exact I]. Qed.
Lemma images_good : forall l, keeps egood any (clean_images_references l).
Proof. intros l e [E1 E2 E3 E4]. split; [constructor; auto; apply dgood_filter; auto | intros; exact I]. Qed.

Ltac dfields := cbn [d_bones d_slots d_skins d_events d_ik d_transform d_path d_animations set_skins set_animations set_slots set_bones set_ik].
Ltac afields := cbn [an_ik an_drawOrder an_bones an_slots an_events an_transform an_path an_deform].
Lemma slots_in_skins_good : forall l d, data_good d -> data_good (clean_slots_in_skins l d).
Proof.
  intros l d [H1 H2 H3 H4 H5 H6 H7 H8]. unfold clean_slots_in_skins. constructor; dfields; auto.
  eapply Forall_map_imp; [ | exact H3]. intros s Hs. apply dgood_filter. apply sk_atts_good. auto.
Qed.
Lemma slots_in_animations_good : forall l d, data_good d -> data_good (clean_slots_in_animations l d).
Proof.
  intros l d [H1 H2 H3 H4 H5 H6 H7 H8]. unfold clean_slots_in_animations. constructor; dfields; auto.
  eapply dgood_map; [ | exact H8]. intros a [K1 K2 K3 K4 K5 K6 K7 K8]. unfold remove_deforms_using_slots. constructor; afields; auto.
  - apply dgood_filter. auto.
  - eapply dgood_map; [ | exact K8]. intros x Hx. apply dgood_filter. auto.
Qed.
Lemma draw_refs_good : forall l names, keeps data_good any (clean_draw_order_refs l names).
Proof.
  intros l names d [H1 H2 H3 H4 H5 H6 H7 H8]. split; [ | intros; exact I]. unfold clean_draw_order_refs.
  assert (G := dgood_inplace _ agood (remove_draw_order_with_ids l names) (d_animations d) (remove_draw_good l names) H8).
  destruct (dmapM_inplace _ (d_animations d)). constructor; auto.
Qed.
Lemma deforms_on_skin_good : forall l i a, agood a -> agood (remove_deforms_with_attachments_on_skin l i a).
Proof.
  intros l [i | ] a H; auto. unfold remove_deforms_with_attachments_on_skin. destruct (dget i (an_deform a)) eqn:E; auto.
  destruct H as [K1 K2 K3 K4 K5 K6 K7 K8]. constructor; afields; auto. apply dgood_set; auto. eapply dgood_map.
  - intros x Hx. apply dgood_filter. exact Hx.
  - eapply (dgood_get _ (dgood kfs_good)); eauto.
Qed.
Lemma atts_in_skins_good : forall l d, data_good d -> data_good (clean_attachments_in_skins l d).
Proof.
  intros l d [H1 H2 H3 H4 H5 H6 H7 H8]. unfold clean_attachments_in_skins. constructor; dfields; auto.
  - eapply Forall_map_imp; [ | exact H3]. intros s Hs. eapply dgood_map; [ | apply sk_atts_good; exact Hs]. intros x Hx. apply dgood_filter. auto.
  - clear H3. revert H8. generalize (d_animations d). induction (d_skins d) as [ | s ss IH]; intros an Ha; cbn [fold_left]; auto.
    apply IH. eapply dgood_map; [ | exact Ha]. intros a Hx. apply deforms_on_skin_good. auto.
Qed.
Lemma atts_in_slots_good : forall l d, data_good d -> data_good (clean_attachments_in_slots l d).
Proof.
  intros l d [H1 H2 H3 H4 H5 H6 H7 H8]. unfold clean_attachments_in_slots. constructor; dfields; auto.
  eapply Forall_map_imp; [ | exact H2]. intros s Hs. destruct (ostr s "attachment"); auto. destruct (smem _ _); auto. apply oset_good; auto. constructor.
Qed.
Ltac kn := eapply (keeps_bind _ _ _ _ any); [ | intros ? _].
Lemma lift_any_e : forall A (r : res A), keeps egood any (mlift r).
Proof. intros A r. apply keeps_lift. intros; exact I. Qed.
Lemma set_bones_good : forall l d, Forall ogood l -> data_good d -> data_good (set_bones d l).
Proof. intros l d H [H1 H2 H3 H4 H5 H6 H7 H8]. constructor; auto. Qed.
Lemma set_slots_good : forall l d, Forall ogood l -> data_good d -> data_good (set_slots d l).
Proof. intros l d H [H1 H2 H3 H4 H5 H6 H7 H8]. constructor; auto. Qed.
Lemma set_ik_good : forall l d, Forall ogood l -> data_good d -> data_good (set_ik d l).
Proof. intros l d H [H1 H2 H3 H4 H5 H6 H7 H8]. constructor; auto. Qed.
Lemma clean_good : forall enum, keeps egood any (clean_animation enum).
Proof.
  intros enum. unfold clean_animation. kn; [apply (keeps_any _ _ _ _ _ (keeps_get _ egood)) | ]. cbv zeta.
  eapply keeps_bind; [apply lift_any_e | intros [rem atts] _].
  kn; [apply on_graph_good; apply remove_slots_good | ]. kn; [apply on_graph_good; apply remove_attachments_good | ].
  kn; [apply on_graph_good; apply leafs_good | ].
  eapply keeps_bind; [apply (keeps_get _ egood) | intros e He].
  eapply keeps_bind; [apply (keeps_lift _ _ _ (fun o => Forall json_value (gj_slots o) /\ Forall json_value (gj_bones o) /\ Forall json_value (gj_ik o))) | ].
  { intros o Eo. eapply graph_json_good; [apply (eg_graph e He) | exact Eo]. }
  intros o (J1 & J2 & J3).
  assert (MO : forall c l l', Forall json_value l -> mapM (mk_obj c) l = Ok l' -> Forall ogood l').
  { intros c l l' Hl E. eapply mapM_all; [apply (mk_obj_good c) | exact Hl | exact E]. }
  eapply keeps_bind; [apply (keeps_lift _ _ _ (Forall ogood)); intros l E; eapply MO; [ | exact E]; auto | intros bs Hb].
  kn; [apply modify_good; intros d Hd; apply set_bones_good; auto | ].
  eapply keeps_bind; [apply (keeps_lift _ _ _ (Forall ogood)); intros l E; eapply MO; [ | exact E]; auto | intros ss Hs].
  kn; [apply modify_good; intros d Hd; apply set_slots_good; auto | ].
  eapply keeps_bind; [apply (keeps_lift _ _ _ (Forall ogood)); intros l E; eapply MO; [ | exact E]; auto | intros is Hi].
  kn; [apply modify_good; intros d Hd; apply set_ik_good; auto | ].
  kn; [apply modify_good; apply data_defaults_good | ].
  kn.
  { unfold ed_remove_slots. kn; [apply modify_good; apply slots_in_skins_good | ]. kn; [apply modify_good; apply slots_in_animations_good | ].
    apply on_data_good. apply draw_refs_good. }
  kn.
  { unfold ed_remove_attachments. kn; [apply modify_good; apply atts_in_skins_good | ]. apply modify_good. apply atts_in_slots_good. }
  kn; [apply on_graph_good; apply heads_good | ]. kn; [apply on_graph_good; apply leafs_good | ]. kn; [apply on_graph_good; apply heads_good | ].
  kn; [apply images_good | ]. apply keeps_ret. exact I.
Qed.
Lemma editor_json_good : forall e, egood e -> json_value (editor_json e).
Proof. intros e [E1 E2 E3 E4]. apply document_json_good; auto. Qed.
Lemma erase_skins_good : forall enum l safe, keeps egood any (erase_skins enum l safe).
Proof.
  intros enum l safe. unfold erase_skins. kn; [apply keeps_foreach; intros; apply on_data_good; apply remove_skin_good | ].
  eapply keeps_bind; [apply (keeps_get _ egood) | intros e He].
  eapply keeps_bind; [apply (keeps_lift _ _ _ ggood) | intros g Hg].
  { intros g Eg. eapply create_good; [ | exact Eg]. apply editor_json_good. auto. }
  kn; [apply on_graph_good; intros g' _; split; [exact Hg | intros; exact I] | ]. cbv zeta.
  kn; [destruct safe; [apply keeps_ret; exact I | apply clean_good] | ].
  kn; [apply images_good | ]. apply keeps_ret. exact I.
Qed.
Lemma erase_animations_good : forall enum l strict safe, keeps egood any (erase_animations enum l strict safe).
Proof.
  intros enum l strict safe. unfold erase_animations. kn; [apply on_data_good; apply erase_raw_good | ].
  kn; [destruct safe; [apply keeps_ret; exact I | apply clean_good] | ]. kn; [apply (keeps_any _ _ _ _ _ (keeps_get _ egood)) | ].
  apply keeps_ret. exact I.
Qed.

(** Scaling *)
Lemma float_of_Z_valid : forall z f, float_of_Z z = Ok f -> is_float f.
Proof. intros z f E. pose proof (float_of_Z_rounds z) as H. rewrite E in H. apply H. Qed.
Lemma mul_good : forall a b v, json_value a -> json_value b -> py_mul a b = Ok v -> json_value v.
Proof.
  intros a b v Ha Hb E.
  assert (M : (as_num a = None \/ as_num b = None) -> json_value v).
  { intros H. destruct (mul_sequence a b v H E) as [(s & ->) | (l & l' & -> & I & K)]; [constructor | ]. constructor.
    assert (L : Forall json_value l) by (destruct K as [-> | ->]; apply jv_list_good; auto).
    rewrite Forall_forall in *. intros x Hx. apply L. auto. }
  unfold py_mul in E.
  assert (N : forall x f, json_value x -> as_num x = Some (NFloat f) -> is_float f).
  { intros x f Hx Ex. destruct x; try discriminate. injection Ex as <-. inversion Hx; auto. }
  destruct (as_num a) as [[x | x] | ] eqn:Ea; destruct (as_num b) as [[y | y] | ] eqn:Eb; auto.
  - injection E as <-. constructor.
  - unbind E. injection E as <-. constructor. apply fmul_valid; [eapply float_of_Z_valid; eauto | eauto].
  - unbind E. injection E as <-. constructor. apply fmul_valid; [eauto | eapply float_of_Z_valid; eauto].
  - injection E as <-. constructor. apply fmul_valid; eauto.
Qed.
Lemma bone_scale_good : forall sx sy b, json_value sx -> json_value sy -> ogood b -> ogood (fst (bone_scale sx sy b)).
Proof.
  intros sx sy b Hx Hy H. unfold bone_scale. destruct (py_mul (oget b "scaleX") sx) as [x | ] eqn:E1; auto. cbv zeta.
  assert (G : ogood (oset b "scaleX" x)). { apply oset_good; auto. eapply mul_good; [ | | exact E1]; auto. apply oget_good. auto. }
  destruct (py_mul _ sy) as [y | ] eqn:E2; auto. cbn [fst]. apply oset_good; auto. eapply mul_good; [ | | exact E2]; auto. apply oget_good. auto.
Qed.
Lemma scale_good : forall sx sy, json_value sx -> json_value sy -> keeps egood any (scale_animation sx sy).
Proof.
  intros sx sy Hx Hy. unfold scale_animation. apply on_data_good. intros d H. split; [ | intros; exact I].
  assert (G : Forall ogood (fst (scale_bones sx sy (d_bones d)))).
  { unfold scale_bones. assert (A := inplace_all _ ogood (fun b => if scale_independent b then bone_scale sx sy b else (b, Ok tt)) (d_bones d)).
    specialize (A (fun b Hb => match scale_independent b as i return ogood (fst (if i then bone_scale sx sy b else (b, Ok tt))) with true => bone_scale_good sx sy b Hx Hy Hb | false => Hb end) (dg_bones d H)).
    destruct (mapM_inplace _ (d_bones d)) as [l [u | e]]; auto. cbn [fst] in A. clear H. induction l as [ | b l IH]; cbn [scale_root]; [constructor | ].
    apply Forall_cons_iff in A as [A1 A2]. destruct (String.eqb (bone_name b) "root").
    - pose proof (bone_scale_good sx sy b Hx Hy A1) as B. destruct (bone_scale sx sy b). cbn [fst] in *. constructor; auto.
    - specialize (IH A2). destruct (scale_root sx sy l). cbn [fst] in *. constructor; auto. }
  destruct (scale_bones sx sy (d_bones d)). cbn [fst] in *. apply set_bones_good; auto.
Qed.

Lemma mk_editor_good : forall j e, json_value j -> mk_editor j = Ok e -> egood e.
Proof.
  intros j e H E. unfold mk_editor in E. unbind E. unbind E. unbind E. injection E as <-. destruct (load_good _ _ H X) as [G1 G2].
  constructor; auto; [ | eapply references_good; eauto]. eapply create_good; [ | eassumption]. apply document_json_good; auto.
Qed.
Lemma estep_good : forall op e, json_args op -> egood e -> egood (fst (estep e op)).
Proof.
  intros op e H G. destruct op as [enum l safe | enum l strict safe | enum | sx sy]; cbn [estep].
  - pose proof (proj1 (erase_skins_good enum l safe e G)) as K. destruct (erase_skins enum l safe e). exact K.
  - pose proof (proj1 (erase_animations_good enum l strict safe e G)) as K. destruct (erase_animations enum l strict safe e). exact K.
  - pose proof (proj1 (clean_good enum e G)) as K. destruct (clean_animation enum e). exact K.
  - destruct H as [Hx Hy]. exact (proj1 (scale_good sx sy Hx Hy e G)).
Qed.

(** ** Editors in use *)
Lemma used_good : forall e, used e -> egood e.
Proof. intros e U. induction U as [j e J E | e op U IH A]; [eapply mk_editor_good; eauto | apply estep_good; auto]. Qed.
Corollary used_json : forall e, used e -> json_value (editor_json e).
Proof. intros e U. apply editor_json_good. apply used_good. auto. Qed.
