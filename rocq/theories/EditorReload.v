(** Loading again what an editor exports after a history of calls. *)
From Verif Require Import PyBase PyFacts Json Version Graph SpecGraph GraphFacts Classes ClassFacts DocFacts ReloadFacts SpecDoc SpineGraph SpecSpine
  SpineFacts BuildFacts BuildTotal DrawOrder AnimData AnimFacts ScaleFacts Editor SpecAnim SkinFacts SpecEditor EditorGraph EditorData EditorBuild EditorClean EditorOut
  EditorHist EditorFacts EditorRemoved EditorScale EditorErase EditorVersion EditorOrder DrawFacts SpecDraw SpecReload Tags.
Open Scope string_scope.

(** ** Where the attachments come from *)
(** [B] holds of a document with skins, [Psl] of the slots under which skins file
    attachments, [P] of the attachments. *)
Section Walk.
  Variables (B : Prop) (Psl : string -> Prop) (P : obj -> Prop).
  Hypothesis Pcopy : forall src o, P src -> P o -> o_cls o = CSkinLinkedMesh -> P (copy_mesh src o).
  Definition skin_walk (s : skin) : Prop := B /\ forall sl m, In (sl, m) (sk_atts s) -> Psl sl /\ forall k o, In (k, o) m -> P o.
  Definition walk (d : anim_data) : Prop := Forall skin_walk (d_skins d).

  Lemma walk_relink : forall n source s s' r, skin_walk source -> skin_walk s -> relink_skin n (sk_atts source) s = (s', r) -> skin_walk s'.
  Proof.
    intros n source s s' r [_ Hs] [HB H] E. destruct (relink_skin_keys _ _ _ _ _ E) as (_ & _ & K). split; auto.
    intros sl m' Hm. destruct (Forall2_in_r _ _ _ _ _ K (sl, m') Hm) as ([sl2 m] & Hm2 & Es & F). cbn [fst snd] in Es, F. subst sl2.
    destruct (H _ _ Hm2) as [H1 H2]. split; auto. intros k o' Ho.
    destruct (Forall2_in_r _ _ _ _ _ F (k, o') Ho) as ([k2 o] & Ho2 & Ek & C). cbn [fst snd] in Ek, C. subst k2.
    destruct C as [-> | (src & L & (m2 & A1 & A2) & ->)]; [eauto | ]. apply Pcopy; [ | eauto | apply L].
    apply dget_some_in in A1. apply dget_some_in in A2. exact (proj2 (Hs _ _ A1) _ _ A2).
  Qed.
  Lemma walk_remove : forall n d d' r, walk d -> remove_skin n d = (d', r) -> walk d'.
  Proof.
    intros n d d' r H E. unfold remove_skin in E. destruct (get_skin d n) as [source | ] eqn:G; [ | injection E as <- _; auto].
    assert (Hs : skin_walk source). { unfold walk in H. rewrite Forall_forall in H. apply H. apply find_some in G. apply G. }
    destruct (mapM_inplace (relink_skin n (sk_atts source)) (d_skins d)) as [skins u] eqn:El.
    assert (F : Forall skin_walk skins).
    { eapply mapM_inplace_Forall; [exact El | | exact H]. intros x y v Hx Ex. exact (walk_relink _ _ _ _ _ Hs Hx Ex). }
    unfold walk. destruct u; injection E as <- _; cbn [d_skins set_skins set_animations]; auto.
    rewrite Forall_forall in *. intros s K. apply filter_In in K as [K _]. auto.
  Qed.
  Lemma walk_removal : forall l d d' rs, removal l d d' rs -> walk d -> walk d'.
  Proof. intros l d d' rs H. induction H; intros W; auto. apply IHremoval. eapply walk_remove; eauto. Qed.
  Lemma walk_clean : forall rem atts l, Forall skin_walk l -> Forall skin_walk (map (clean_skin rem atts) l).
  Proof.
    intros rem atts l H. apply Forall_map. eapply Forall_impl; [ | exact H]. intros s [HB K]. split; auto.
    intros sl m Hm. unfold clean_skin, sk_atts at 1 in Hm. cbn [sk_attachments] in Hm. unfold dmap in Hm.
    apply in_map_iff in Hm as ([sl2 m2] & E & Hm). injection E as -> <-. apply filter_In in Hm as [Hm _]. destruct (K _ _ Hm) as [K1 K2].
    split; auto. intros k o Ho. apply filter_In in Ho as [Ho _]. eauto.
  Qed.
  Lemma walk_history : forall e0 ops e, history e0 ops e -> walk (e_data e0) -> walk (e_data e).
  Proof.
    intros e0 ops e H W. destruct (last_built_ex _ _ _ H) as [eb L]. clear H.
    induction L as [H | ops e eb op e' H IH O E]; auto.
    destruct (history_state _ _ _ _ H) as [ss St]. destruct (step_run _ _ _ _ _ _ St O E) as (o & e1 & ss1 & e2 & ss2 & R). cbv zeta in R.
    destruct R as (R1 & _ & R3 & -> & _).
    assert (W1 : walk (e_data e1)).
    { destruct R1 as [ | l | sx sy l El | l d1 removed g R _]; auto. exact (walk_removal _ _ _ _ R IH). }
    assert (W2 : walk (e_data e2)).
    { destruct R3 as [ | enum e2 inv atts leafs orphans imgs rem _ C]; auto. unfold walk. rewrite (cl_skins _ _ _ _ _ _ _ _ (co_data _ _ _ _ _ _ _ _ _ _ _ _ C)).
      apply walk_clean. exact W1. }
    destruct o; exact W2.
  Qed.
End Walk.

(** ** The attributes that a class declares *)
Definition declared (c : cls) (k : string) : bool := smem k (attrs_of c).
Definition trim (o : obj) : obj := mkObj (o_cls o) (filter (fun kv => declared (o_cls o) (fst kv)) (o_attrs o)).
Definition trim_skin (s : skin) : skin :=
  mkSkin (sk_name s) (match sk_attachments s with Some a => Some (dmap (dmap trim) a) | None => None end).
Definition trim_data (d : anim_data) : anim_data := set_skins d (map trim_skin (d_skins d)).

Lemma oget_trim : forall o k, oget (trim o) k = if declared (o_cls o) k then oget o k else VNone.
Proof.
  intros o k. unfold oget, trim. cbn [o_attrs]. rewrite (dget_filter_keys (declared (o_cls o))). destruct (declared (o_cls o) k); auto.
Qed.
Lemma trim_same : forall c o, wf_obj c o -> trim o = o.
Proof.
  intros c o (Ec & Ek & _). destruct o as [c' at_]. unfold trim. cbn [o_cls o_attrs] in *. subst c'. f_equal. apply filter_all.
  intros [k v] Hi. cbn [fst]. unfold declared. apply smem_in. rewrite <- Ek. apply (in_map fst) in Hi. exact Hi.
Qed.
Lemma dset_filter : forall A (f : string -> bool) k (v : A) d,
  filter (fun kv => f (fst kv)) (dset k v d) = if f k then dset k v (filter (fun kv => f (fst kv)) d) else filter (fun kv => f (fst kv)) d.
Proof.
  intros A f k v d. induction d as [ | [k' v'] d IH]; cbn [dset filter fst].
  - destruct (f k); reflexivity.
  - destruct (String.eqb_spec k k') as [<- | N]; cbn [filter fst].
    + destruct (f k) eqn:E; cbn [dset]; [rewrite String.eqb_refl; auto | auto].
    + rewrite IH. destruct (f k'), (f k) eqn:E2; cbn [dset]; auto. rewrite (proj2 (String.eqb_neq k k')); auto.
Qed.
Lemma trim_oset : forall o k v, trim (oset o k v) = if declared (o_cls o) k then oset (trim o) k v else trim o.
Proof.
  intros o k v. unfold trim, oset. cbn [o_cls o_attrs]. rewrite (dset_filter _ (declared (o_cls o))). destruct (declared (o_cls o) k); auto.
Qed.

(** What holds of every attachment: all but the attributes that a copy of a mesh gets is as loaded *)
Record att_inv (ver : version) (o : obj) : Prop := {
  ai_ok : att_ok ver o;
  ai_loaded : loaded_att ver (trim o);
  ai_keys : forall k, In k (dkeys (o_attrs o)) -> In k (attrs_of (o_cls o)) \/ In k ["name"; "path"; "width"; "height"] }.

Lemma loaded_oset : forall ver o k v, loaded_att ver o -> In (o_cls o) att_classes -> In k (attrs_of (o_cls o)) -> In k ["name"; "path"; "width"; "height"] ->
  (In k ["name"; "path"] -> is_str_or_null v = true) -> loaded_att ver (oset o k v).
Proof.
  intros ver o k v [[(Ec & Ek & G) Ht] F] Hc Hk Hn Hv. assert (Nt : String.eqb "type" k = false) by (destruct Hn as [<- | [<- | [<- | [<- | []]]]]; reflexivity).
  split; [split; [split; [auto | split] | ] | ].
  - cbn [oset o_attrs o_cls]. rewrite dkeys_dset. rewrite <- Ek in Hk. apply smem_in in Hk. rewrite Hk. exact Ek.
  - unfold type_guard in *. cbn [oset o_cls] in *. apply andb_prop in G as [G1 G2]. apply andb_true_intro. split.
    + rewrite forallb_forall in *. intros x Hx. specialize (G1 x Hx). rewrite oget_oset. destruct (String.eqb_spec x k) as [-> | N]; auto.
      assert (X : In k ["name"; "path"] \/ is_str_or_null v = true); [ | destruct X; auto].
      destruct Hn as [<- | [<- | [<- | [<- | []]]]]; try (left; cbn; tauto); exfalso;
        unfold att_classes in Hc; cbn [In] in Hc; destruct Hc as [E | [E | [E | [E | []]]]]; rewrite <- E in Hx; cbn in Hx; intuition discriminate.
    + unfold att_classes in Hc; cbn [In] in Hc; destruct Hc as [E | [E | [E | [E | []]]]]; rewrite <- E; reflexivity.
  - rewrite oget_oset, Nt. exact Ht.
  - intros x d Hx Hd E. cbn [oset o_cls] in *. rewrite oget_oset in E. destruct (String.eqb_spec x k) as [-> | N]; [ | eauto].
    rewrite (att_no_default ver o k) in Hd by auto. discriminate.
Qed.
Lemma att_inv_oset : forall ver o k v, att_inv ver o -> In k ["name"; "path"; "width"; "height"] ->
  (In k ["name"; "path"] -> is_str_or_null v = true) -> att_inv ver (oset o k v).
Proof.
  intros ver o k v [H1 H2 H3] Hk Hv. constructor; [apply att_oset; auto | | ].
  - rewrite trim_oset. destruct (declared (o_cls o) k) eqn:E; auto. apply loaded_oset; auto; [apply (ao_cls _ _ H1) | apply smem_in; exact E].
  - cbn [oset o_attrs o_cls]. intros x Hx. rewrite dkeys_dset in Hx. destruct (smem k (dkeys (o_attrs o))); auto.
    apply in_app_or in Hx as [Hx | [<- | []]]; auto.
Qed.
Lemma att_inv_copy : forall ver src o, att_inv ver src -> att_inv ver o -> att_inv ver (copy_mesh src o).
Proof.
  intros ver src o Hs Ho. unfold copy_mesh. repeat apply att_inv_oset; auto; try (cbn; tauto); cbn; try (intros [H | [H | []]]; discriminate); intros _.
  - apply (ao_name _ _ (ai_ok _ _ Ho)).
  - apply (ao_path _ _ (ai_ok _ _ Ho)).
Qed.
Lemma att_inv_loaded : forall ver o, att_ok ver o -> loaded_att ver o -> att_inv ver o.
Proof.
  intros ver o H L. pose proof L as [[W _] _]. constructor; auto.
  - rewrite (trim_same _ _ W). auto.
  - intros k Hk. left. destruct W as (_ & Ek & _). rewrite Ek in Hk. auto.
Qed.

(** ** The data without undeclared attributes *)
Definition atts_inv (ver : version) (d : anim_data) : Prop := forall sl k o, skin_attachment d sl k o -> att_inv ver o.
Lemma atts_inv_walk : forall ver d, walk True (fun _ => True) (att_inv ver) d -> atts_inv ver d.
Proof. intros ver d W sl k o (s & m & Hs & Hm & Ho). unfold walk in W. rewrite Forall_forall in W. destruct (W s Hs) as [_ K]. exact (proj2 (K _ _ Hm) _ _ Ho). Qed.
Lemma loaded_walk : forall e, loaded e -> walk True (fun _ => True) (att_inv (e_ver e)) (e_data e).
Proof.
  intros e L. destruct (loaded_sync e L) as (D & _ & _). destruct L as (j & _ & E). apply mk_editor_inv in E as (E & _ & _).
  pose proof (load_document_loaded _ _ E) as (A & _ & _). destruct A as (_ & _ & A & _). unfold walk. rewrite Forall_forall in *. intros s Hs.
  split; auto. intros sl m Hm. split; auto. intros k o Ho. pose proof (di_skins _ _ D) as F. rewrite Forall_forall in F. specialize (F s Hs). specialize (A s Hs).
  apply att_inv_loaded; [eapply so_atts; eauto | ]. unfold skin_all in A. rewrite (sk_atts_some _ _ F) in A.
  eapply dall_in; [ | exact Ho]. eapply dall_in in A; [ | exact Hm]. exact A.
Qed.
Lemma history_atts : forall e0 ops e, history e0 ops e -> atts_inv (e_ver e) (e_data e).
Proof.
  intros e0 ops e H. assert (L : loaded e0) by (clear - H; induction H; auto). destruct (history_constant _ _ _ H) as (_ & _ & _ & _ & V & _ & _).
  rewrite V. apply atts_inv_walk. eapply walk_history; [ | exact H | apply loaded_walk; auto]. intros src o H1 H2 _. apply att_inv_copy; auto.
Qed.
Lemma trim_atts : forall s, sk_atts (trim_skin s) = dmap (dmap trim) (sk_atts s).
Proof. intros [n [a | ]]; reflexivity. Qed.
Lemma in_dmap : forall A C (f : A -> C) d k y, In (k, y) (dmap f d) -> exists x, In (k, x) d /\ y = f x.
Proof. intros A C f d k y H. unfold dmap in H. apply in_map_iff in H as ([k' x] & E & H). cbn [fst snd] in E. injection E as -> <-. eauto. Qed.
Lemma trim_loaded : forall ver d, dinv ver d -> atts_inv ver d -> loaded_data ver (trim_data d).
Proof.
  intros ver d D A. pose proof D as [H1 H2 H3 H4 H5 H6 H7 H8 _]. split; [ | split].
  - unfold data_all, trim_data. cbn [set_skins d_bones d_slots d_skins d_events d_ik d_transform d_path d_animations].
    repeat (split; auto); cycle 1.
    { unfold dall in *. rewrite Forall_forall in *. intros x Hx. apply (no_all _ _ (H8 x Hx)). }
    apply Forall_map. rewrite Forall_forall in *. intros s Hs. unfold skin_all. cbn [trim_skin sk_attachments]. rewrite (sk_atts_some _ _ (H3 s Hs)).
    apply Forall_forall. intros [sl m'] Hm. apply in_dmap in Hm as (m & Hm & ->). cbn [snd]. apply Forall_forall. intros [k o'] Ho. apply in_dmap in Ho as (o & Ho & ->).
    cbn [snd]. apply ai_loaded. apply (A sl k o). exists s, m. auto.
  - cbn [trim_data set_skins d_skins]. apply Forall_map. rewrite Forall_forall in *. intros s Hs. split; cbn [trim_skin sk_name sk_attachments].
    + apply (so_name _ _ (H3 s Hs)).
    + rewrite (sk_atts_some _ _ (H3 s Hs)). discriminate.
  - cbn [trim_data set_skins d_animations]. unfold dall in *. rewrite Forall_forall in *. intros x Hx. apply (no_loaded _ _ (H8 x Hx)).
Qed.

(** Nothing is lost in the export if nothing undeclared has a value. *)
Lemma trim_json : forall ver o, att_inv ver o -> own_attributes o -> obj_json ver (trim o) = obj_json ver o.
Proof.
  intros ver o [H1 _ H3] Ow. unfold obj_json, trim. cbn [o_cls o_attrs]. f_equal. unfold export_attrs. rewrite filter_filter. apply filter_ext_in.
  intros [k v] Hi. cbn [fst snd]. destruct (declared (o_cls o) k) eqn:E; [destruct (exported _ k v); auto | ].
  assert (Hk : In k (dkeys (o_attrs o))) by (apply (in_map fst) in Hi; exact Hi). apply smem_nin in E.
  assert (Ev : v = VNone).
  { assert (G : oget o k = v) by (unfold oget; rewrite (in_dget _ _ _ (ao_keys _ _ H1) Hi); auto). destruct v; auto; exfalso; apply E; apply Ow; rewrite G; discriminate. }
  subst v. destruct (H3 k Hk) as [C | C]; [contradiction | ]. unfold exported. cbn [is_none]. rewrite (att_no_default ver o k); [auto | apply (ao_cls _ _ H1) | auto].
Qed.
Lemma jdict_ext : forall A C (f : A -> val) (f' : C -> val) (g : C -> A) a, (forall k x, In (k, x) a -> f (g x) = f' x) -> jdict f (dmap g a) = jdict f' a.
Proof.
  intros A C f f' g a H. unfold jdict, dmap. f_equal. rewrite map_map. apply map_ext_in. intros [k x] Hx. cbn [fst snd]. f_equal. eauto.
Qed.
Lemma trim_data_json : forall ver d, dinv ver d -> atts_inv ver d -> (forall sl k o, skin_attachment d sl k o -> own_attributes o) ->
  data_json ver (trim_data d) = data_json ver d.
Proof.
  intros ver d D A Ow. unfold data_json, data_attrs. cbn [trim_data set_skins d_bones d_slots d_skins d_events d_ik d_transform d_path d_animations]. f_equal.
  do 2 f_equal. f_equal. f_equal. unfold jlist. f_equal. rewrite map_map. apply map_ext_in. intros s Hs. unfold skin_json. cbn [trim_skin sk_name sk_attachments].
  assert (F : skin_ok ver s). { pose proof (di_skins _ _ D) as F. rewrite Forall_forall in F. auto. }
  rewrite (sk_atts_some _ _ F). do 4 f_equal. apply jdict_ext. intros sl m Hm. apply jdict_ext. intros k o Ho.
  apply trim_json; [eapply A | eapply Ow]; exists s, m; eauto.
Qed.

(** A value of an undeclared attribute makes loading fail. *)
Lemma skins_of_load : forall ver sk d y, mk_data (dset "skeleton" sk (data_json ver d)) = Ok y ->
  forall s, In s (d_skins d) -> exists t, mk_skin (skin_json ver s) = Ok t.
Proof.
  intros ver sk d y H s Hs. unfold mk_data in H. rewrite ddel_skeleton in H. unfold data_json in H.
  set (attrs := data_attrs ver d) in *. assert (Hk : dkeys attrs = attrs_of CAnimData) by reflexivity.
  pose proof (attrs_nodup _ _ Hk) as Hn. inv_bind H. inv_bind H. inv_bind H. clear H.
  rewrite (dget_err_list _ _ _ _ _ attrs "skins" (d_skins d) Hn eq_refl) in E1.
  - exact (mapM_each _ _ _ _ _ _ E1 Hs).
  - left. destruct (d_skins d); [destruct Hs | discriminate].
  - unfold default_values. right. destruct (ver_ge ver SPINE_3_8); reflexivity.
Qed.
Lemma dmapM_jdict : forall A C (f : val -> res C) (g : A -> val) a r k x, dmapM f (dmap g a) = Ok r -> In (k, x) a -> exists y, f (g x) = Ok y.
Proof. intros A C f g a r k x H Hi. eapply dmapM_each; [exact H | ]. unfold dmap. apply in_map_iff. exists (k, x). split; [reflexivity | exact Hi]. Qed.
Lemma atts_of_load : forall ver s t sl m k o, mk_skin (skin_json ver s) = Ok t -> In (sl, m) (sk_atts s) -> In (k, o) m ->
  exists o', mk_attachment (obj_json ver o) = Ok o'.
Proof.
  intros ver s t sl m k o H Hm Ho. unfold mk_skin, skin_json, export in H. rewrite obj_values_dict in H. cbn [bind] in H.
  assert (Ea : get_or_none "attachments" (export_attrs (default_values CSkin38 ver)
     [("name", opt_val (sk_name s)); ("attachments", match sk_attachments s with Some a => jdict (jdict (obj_json ver)) a | None => VNone end)])
     = jdict (jdict (obj_json ver)) (sk_atts s)).
  { unfold sk_atts in Hm |- *. destruct (sk_attachments s) as [[ | x a] | ]; [destruct Hm | | destruct Hm].
    unfold get_or_none. rewrite dget_export by (repeat constructor; simpl; intuition discriminate). unfold default_values. destruct (ver_ge ver SPINE_3_8); reflexivity. }
  rewrite Ea in H. inv_bind H. inv_bind H. clear H. unfold jdict at 1 in E0. cbv iota in E0. inv_bind E0. clear E0. unfold mk_attachments in E1.
  destruct (dmapM_jdict _ _ _ _ _ _ _ _ E1 Hm) as [y Hy]. unfold jdict in Hy. destruct (dmapM_jdict _ _ _ _ _ _ _ _ Hy Ho) as [o' Ho']. eauto.
Qed.
Lemma mk_obj_known : forall c d o k, mk_obj c (VDict d) = Ok o -> In k (dkeys d) -> In k (attrs_of c).
Proof.
  intros c d o k H Hk. apply mk_obj_inv in H as [H _]. unfold build_obj in H. rewrite obj_values_dict in H. cbn [bind] in H. unfold build_attrs in H. inv_bind H.
  unfold check_keys in E. destruct (filter _ (dkeys d)) eqn:F; [ | discriminate E]. destruct (smem k (attrs_of c)) eqn:M; [apply smem_in; auto | ].
  assert (In k []). { rewrite <- F. apply filter_In. rewrite M. auto. } destruct H0.
Qed.
Lemma own_of_load : forall ver o o', att_inv ver o -> mk_attachment (obj_json ver o) = Ok o' -> own_attributes o.
Proof.
  intros ver o o' [H1 [[_ T] _] H3] H k Hk. unfold mk_attachment, obj_json in H. cbn [as_dict bind] in H.
  assert (Et : get_or_none "type" (export_attrs (default_values (o_cls o) ver) (o_attrs o)) = oget o "type").
  { unfold get_or_none. rewrite dget_export by apply H1. unfold oget. destruct (dget "type" (o_attrs o)) as [v | ]; auto. unfold exported, get_or_none. rewrite type_no_default. destruct v; reflexivity. }
  destruct (in_dec string_dec k (attrs_of (o_cls o))) as [ | Hn]; auto. exfalso.
  assert (Ht : oget (trim o) "type" = oget o "type").
  { rewrite oget_trim. destruct (declared (o_cls o) "type") eqn:Ed; auto. unfold oget. destruct (dget "type" (o_attrs o)) eqn:Eg; auto.
    apply dget_in_keys in Eg. apply smem_nin in Ed. destruct (H3 _ Eg) as [C | C]; [contradiction | ]. simpl in C. intuition discriminate. }
  rewrite Et, <- Ht, T in H. cbn [bind trim o_cls] in H. apply Hn. eapply mk_obj_known; [exact H | ].
  assert (D : dget k (o_attrs o) = Some (oget o k)). { unfold oget in *. destruct (dget k (o_attrs o)); auto. destruct Hk. auto. }
  apply dget_some_in in D as I. apply (in_map fst) in I. destruct (H3 k I) as [C | C]; [contradiction | ].
  assert (G : dget k (export_attrs (default_values (o_cls o) ver) (o_attrs o)) = Some (oget o k)).
  { rewrite dget_export by apply H1. rewrite D. unfold exported, get_or_none. rewrite (att_no_default ver o k (ao_cls _ _ H1) C). destruct (oget o k); auto. destruct Hk; auto. }
  apply dget_some_in in G. apply (in_map fst) in G. exact G.
Qed.

(** ** Scales depend on the names and parents of the bones, and on the name and bone of the slot *)
Definition bone_head (b : obj) : string * option string := (bone_name b, ostr b "parent").
Definition slot_head (s : obj) : string * option string := (slot_name s, ostr s "bone").
Definition orel {A} (R : A -> A -> Prop) (x y : option A) : Prop := match x, y with Some a, Some b => R a b | None, None => True | _, _ => False end.
Lemma rel_length : forall A C (R : A -> C -> Prop) l l', Forall2 R l l' -> length l = length l'.
Proof. intros A C R l l' H. induction H; cbn; auto. Qed.
Lemma rel_impl : forall A C (R R' : A -> C -> Prop) l l', (forall x y, R x y -> R' x y) -> Forall2 R l l' -> Forall2 R' l l'.
Proof. intros A C R R' l l' I H. induction H; auto. Qed.
Lemma find_rel : forall A (R : A -> A -> Prop) f l l', Forall2 R l l' -> (forall b b', R b b' -> f b = f b') -> orel R (find f l) (find f l').
Proof.
  intros A R f l l' F H. induction F as [ | b b' l l' Hb F IH]; cbn [find]; [exact I | ]. rewrite (H b b' Hb). destruct (f b'); auto.
Qed.
Definition same_head (b b' : obj) : Prop := bone_head b = bone_head b'.
Lemma get_bone_heads : forall d d' n, Forall2 same_head (d_bones d) (d_bones d') -> orel same_head (get_bone d n) (get_bone d' n).
Proof.
  intros d d' [n | ] F; cbn [get_bone]; [ | exact I]. apply find_rel; auto. intros b b' E. unfold same_head, bone_head in E. injection E as -> _. auto.
Qed.
Lemma loop_heads : forall d d', Forall2 same_head (d_bones d) (d_bones d') -> forall fuel acc b b', orel same_head b b' ->
  bone_scale_loop fuel d acc b = bone_scale_loop fuel d' acc b'.
Proof.
  intros d d' F fuel. induction fuel as [ | fuel IH]; intros acc [b | ] [b' | ] R; try (solve [destruct R]); cbn [bone_scale_loop]; auto;
    unfold same_head, bone_head in R; injection R as E1 E2; rewrite E1; auto.
  destruct (String.eqb _ _); auto. destruct (scale_in_name (bone_name b')); cbn [bind]; auto. apply IH. rewrite E2. apply get_bone_heads. auto.
Qed.
Lemma scale_heads : forall d d' s s', Forall2 same_head (d_bones d) (d_bones d') -> orel (fun a b => slot_head a = slot_head b) s s' ->
  get_slot_custom_scale d s = get_slot_custom_scale d' s'.
Proof.
  intros d d' [s | ] [s' | ] F R; try (solve [destruct R]); cbn [get_slot_custom_scale]; auto. unfold slot_head in R. injection R as -> ->.
  destruct (scale_in_name (slot_name s')); cbn [bind]; auto. unfold get_bone_custom_scale_recursive.
  rewrite (loop_heads d d' F _ _ _ _ (get_bone_heads d d' (ostr s' "bone") F)), (rel_length _ _ _ _ _ F). auto.
Qed.

(** Loading keeps strings. *)
Lemma same_val_str : forall v w, same_val v w -> val_str v = val_str w.
Proof.
  intros v w [-> | E]; auto. destruct v, w; cbn in E |- *; try discriminate; auto. apply String.eqb_eq in E. subst. auto.
Qed.
Lemma same_ostr : forall o o' k, same_obj o o' -> In k (attrs_of (o_cls o)) -> ostr o k = ostr o' k.
Proof. intros o o' k [_ H] Hk. apply same_val_str. auto. Qed.
Lemma reload_heads : forall ver l, Forall (loaded_obj ver CBone) l -> Forall2 same_head l (map (obj_set_defaults ver) (map (raw ver) l)).
Proof.
  intros ver l H. pose proof (objs_keep ver CBone l H) as K. apply rel_impl with (R := fun o o' => o_cls o = CBone /\ same_obj o o').
  - intros o o' [C S]. unfold same_head, bone_head, bone_name. rewrite !(same_ostr o o') by (auto; rewrite C; cbn; tauto). auto.
  - clear -H K. induction K; inversion H; subst; constructor; auto. split; auto. apply H3.
Qed.
Lemma reload_slot_heads : forall ver l, Forall (loaded_obj ver CSlot) l -> Forall2 (fun a b => slot_head a = slot_head b) l (map (obj_set_defaults ver) (map (raw ver) l)).
Proof.
  intros ver l H. pose proof (objs_keep ver CSlot l H) as K. apply rel_impl with (R := fun o o' => o_cls o = CSlot /\ same_obj o o').
  - intros o o' [C S]. unfold slot_head, slot_name. rewrite !(same_ostr o o') by (auto; rewrite C; cbn; tauto). auto.
  - clear -H K. induction K; inversion H; subst; constructor; auto. split; auto. apply H3.
Qed.

(** The bones of an editor have the names and parents they were loaded with. *)
Lemma history_bone_heads : forall e0 ops e, history e0 ops e -> Forall2 same_head (d_bones (e_data e0)) (d_bones (e_data e)).
Proof.
  intros e0 ops e H. destruct (last_built_ex _ _ _ H) as [eb B]. pose proof (bone_heads _ _ _ _ B) as Hh. destruct (history_state _ _ _ _ B) as [ss [De _]].
  assert (L : loaded e0) by (clear - H; induction H; auto). destruct (loaded_sync e0 L) as (D0 & _ & _).
  pose proof (di_bones _ _ De) as F. pose proof (di_bones _ _ D0) as F0. unfold bones_json in Hh. symmetry in Hh. revert Hh F F0. generalize (d_bones (e_data e)) as l, (d_bones (e_data e0)) as l0.
  intros l l0. revert l. induction l0 as [ | b0 l0 IH]; intros [ | b l] E F F0; try discriminate; [constructor | ].
  inversion F; inversion F0; subst. cbn [map] in E. pose proof (f_equal (fun x => List.hd (VNone, VNone) x) E) as Eb. pose proof (f_equal (fun x => List.tl x) E) as El. cbn [List.hd List.tl] in Eb, El.
  constructor; [ | apply IH; auto]. rewrite (head_json _ b0), (head_json _ b) in Eb by (first [apply H2 | apply H6]).
  injection Eb as E1 E2. unfold same_head, bone_head, bone_name, ostr. rewrite E1, E2. auto.
Qed.

(** ** What loading has checked about the images *)
Definition folder_of (x : document) : val := match dget "images" (doc_skeleton x) with Some v => v | None => VStr "./images/" end.
Definition images_walk (x : document) : anim_data -> Prop :=
  walk (ver_ge (doc_version x) SPINE_3_8 = true) (fun sl => exists f, get_slot_custom_scale (doc_data x) (get_slot (doc_data x) sl) = Ok f)
    (fun o => o_cls o = CSkinPath \/ exists f, folder_of x = VStr f).
Lemma images_walk_loaded : forall x l, get_images_references x = Ok l -> images_walk x (doc_data x).
Proof.
  intros x l E. unfold images_walk, walk. apply Forall_forall. intros s Hs. unfold get_images_references in E. fold (folder_of x) in E.
  destruct (foldM_each _ _ _ _ _ _ E s Hs) as (b1 & b2 & E1). destruct (ver_ge (doc_version x) SPINE_3_8) eqn:V; [ | discriminate]. split; auto.
  intros sl m Hm. destruct (foldM_each _ _ _ _ _ _ E1 (sl, m) Hm) as (b3 & b4 & E2). unfold add_slot_images in E2. cbn [fst snd] in E2. inv_bind E2.
  split; [eauto | ]. intros k o Ho. destruct (foldM_each _ _ _ _ _ _ E2 (k, o) Ho) as (b5 & b6 & E3). unfold add_image in E3.
  destruct (o_cls o); auto; right; destruct (has_attr "path" o && has_attr "name" o)%bool; try discriminate E3; destruct (folder_of x); try discriminate E3; eauto.
Qed.
Lemma images_walk_history : forall e0 ops e, history e0 ops e -> images_walk (e_doc e0) (e_data e).
Proof.
  intros e0 ops e H. assert (L : loaded e0) by (clear - H; induction H; auto). destruct L as (j & _ & E). apply mk_editor_inv in E as (_ & E & _).
  eapply walk_history; [ | exact H | eapply images_walk_loaded; eauto]. intros src o Hs _ _. exact Hs.
Qed.
Lemma find_unique : forall l n (s : obj), NoDup (map slot_name l) -> In s l -> slot_name s = n -> find (fun s => String.eqb (slot_name s) n) l = Some s.
Proof.
  intros l n s N H E. induction l as [ | t l IH]; [destruct H | ]. cbn [map] in N. inversion N; subst. cbn [find]. destruct H as [-> | H]; [rewrite String.eqb_refl; auto | ].
  destruct (String.eqb_spec (slot_name t) (slot_name s)) as [C | C]; [ | auto]. exfalso. apply H2. rewrite C. apply in_map. auto.
Qed.
Lemma foldM_total : forall A B (f : B -> A -> res B) l, (forall x b, In x l -> exists b', f b x = Ok b') -> forall b, exists r, foldM f b l = Ok r.
Proof.
  intros A B f l. induction l as [ | x l IH]; intros H b; cbn [foldM]; eauto. destruct (H x b) as [b' ->]; [left; auto | ]. cbn [bind]. apply IH. intros; apply H; right; auto.
Qed.

Lemma rel_map : forall A B C (f : A -> B) (R : B -> C -> Prop) l l', Forall2 R (map f l) l' -> Forall2 (fun x y => R (f x) y) l l'.
Proof.
  intros A B C f R l. induction l as [ | x l IH]; intros l' H; inversion H; subst; constructor; auto.
Qed.

(** What loading again needs to know about an editor *)
Record comes_from (e0 e : editor) : Prop := {
  cf_loaded : loaded e0;
  cf_dinv : dinv (e_ver e) (e_data e);
  cf_atts : atts_inv (e_ver e) (e_data e);
  cf_skeleton : doc_skeleton (e_doc e) = doc_skeleton (e_doc e0);
  cf_ver : e_ver e = e_ver e0;
  cf_heads : Forall2 same_head (d_bones (e_data e0)) (d_bones (e_data e));
  cf_slots : Forall (slot_from (e_data e0)) (d_slots (e_data e));
  cf_images : images_walk (e_doc e0) (e_data e);
  cf_graph : exists g, create_from_json_data (editor_json e) = Ok g }.
Lemma history_from : forall e0 ops e, history e0 ops e -> comes_from e0 e.
Proof.
  intros e0 ops e H. destruct (last_built_ex _ _ _ H) as [eb B]. destruct (history_state _ _ _ _ B) as [ss [D _]]. destruct (history_since _ _ _ _ B) as [ss1 [_ S]].
  constructor; [clear - H; induction H; auto | exact D | exact (history_atts _ _ _ H) | exact (si_skeleton _ _ _ S) | exact (si_ver _ _ _ S) | exact (history_bone_heads _ _ _ H) |
    exact (si_slots _ _ _ S) | exact (images_walk_history _ _ _ H) | ].
  destruct (rebuild_ok e0 ops e (e_data e) H D) as [g G]; [repeat split; auto | ]. exists g. rewrite <- G. reflexivity.
Qed.

(** ** The reloaded data *)
Section Reloaded.
  Variables (e0 e : editor).
  Hypothesis H : comes_from e0 e.
  Let ver := e_ver e.
  Let d := e_data e.
  Let x := with_data e (trim_data d).
  Let y := reload_doc x.

  Lemma hist_dinv : dinv ver d.
  Proof. exact (cf_dinv _ _ H). Qed.
  Lemma hist_atts : atts_inv ver d.
  Proof. exact (cf_atts _ _ H). Qed.
  Lemma x_loaded : loaded_data (doc_version x) (doc_data x).
  Proof. apply trim_loaded; [exact hist_dinv | exact hist_atts]. Qed.
  Lemma hist_loaded : loaded e0.
  Proof. exact (cf_loaded _ _ H). Qed.
  Lemma x_ver : ver_ok x.
  Proof.
    destruct hist_loaded as (j & _ & E). apply mk_editor_inv in E as (E & _ & _). destruct (load_ver_ok _ _ E) as (s & E1 & E2). exists s. unfold x. cbn [with_data doc_skeleton doc_version]. rewrite (cf_skeleton _ _ H), (cf_ver _ _ H). auto.
  Qed.
  Lemma x_json : (forall sl k o, skin_attachment d sl k o -> own_attributes o) -> document_json x = editor_json e.
  Proof. intros Ow. unfold editor_json, document_json, x. cbn [with_data doc_skeleton doc_version doc_data]. do 2 f_equal. exact (trim_data_json ver d hist_dinv hist_atts Ow). Qed.
  Lemma own_needed : forall z, load_document (editor_json e) = Ok z -> forall sl k o, skin_attachment d sl k o -> own_attributes o.
  Proof.
    intros z E sl k o A. pose proof A as (s & m & Hs & Hm & Ho). apply load_document_inv in E as (d1 & sk & s1 & z1 & Hd & _ & _ & _ & Hz & _ & _). unfold editor_json, document_json in Hd. injection Hd as <-.
    destruct (skins_of_load _ _ _ _ Hz s Hs) as [t Ht]. destruct (atts_of_load _ _ _ _ _ _ _ Ht Hm Ho) as [o' Ho']. eapply own_of_load; [ | exact Ho']. apply (hist_atts _ _ _ A).
  Qed.
  Lemma hist_bones : d_bones d <> [].
  Proof.
    intros C. destruct hist_loaded as (j & _ & E). apply mk_editor_inv in E as (_ & _ & G). rewrite document_json_dict in G. destruct (built_has_bones _ _ G) as (v & Ev & _).
    pose proof (cf_heads _ _ H) as F. fold d in F. rewrite C in F. inversion F as [E0 | ]. rewrite get_data_json in Ev by discriminate. unfold data_json in Ev.
    rewrite dget_export in Ev by apply data_attrs_NoDup. cbn [data_attrs dget] in Ev. change (doc_data (e_doc e0)) with (e_data e0) in Ev. rewrite <- E0 in Ev.
    unfold default_values in Ev. destruct (ver_ge _ _) in Ev; cbn in Ev; discriminate.
  Qed.

  Lemma doc_reload : (exists z, load_document (editor_json e) = Ok z) <->
    d_slots d <> [] /\ no_null_required d /\ forall sl k o, skin_attachment d sl k o -> own_attributes o.
  Proof.
    split.
    - intros [z E]. pose proof (own_needed z E) as Ow. rewrite <- (x_json Ow) in E. assert (X : exists z, load_document (document_json x) = Ok z) by eauto.
      apply (reloadable_iff x x_loaded x_ver) in X as (_ & X1 & X2). auto.
    - intros (H1 & H2 & Ow). rewrite <- (x_json Ow). apply (reloadable_iff x x_loaded x_ver). split; [exact hist_bones | ]. split; [exact H1 | exact H2].
  Qed.
  Lemma doc_is : forall z, load_document (editor_json e) = Ok z -> z = y.
  Proof.
    intros z E. pose proof (own_needed z E) as Ow. rewrite <- (x_json Ow) in E. exact (load_unique x z x_loaded x_ver E).
  Qed.

  (** Skins of the reloaded document *)
  Lemma y_skin : forall t, In t (d_skins (doc_data y)) -> exists s, In s (d_skins d) /\ sk_atts t = dmap (dmap (fun o => reload ver (trim o))) (sk_atts s).
  Proof.
    intros t Ht. unfold y, reload_doc, reload_data in Ht. cbn [doc_data data_defaults data_raw d_skins] in Ht. unfold x in Ht. cbn [with_data doc_data doc_version trim_data set_skins d_skins] in Ht.
    rewrite !map_map in Ht. apply in_map_iff in Ht as (s & <- & Hs). exists s. split; auto.
    unfold skin_defaults, skin_raw, trim_skin, sk_atts. cbn [sk_name sk_attachments]. destruct (sk_attachments s) as [[ | q a] | ]; auto.
    cbn [dmap map]. change (dmap (dmap (obj_set_defaults ver)) (dmap (dmap (raw ver)) (dmap (dmap trim) (q :: a))) = dmap (dmap (fun o => reload ver (trim o))) (q :: a)).
    unfold dmap. rewrite !map_map. apply map_ext. intros [k m]. cbn [fst snd]. f_equal. rewrite !map_map. reflexivity.
  Qed.
  Lemma skin_y : forall s, In s (d_skins d) -> exists t, In t (d_skins (doc_data y)) /\ dkeys (sk_atts t) = dkeys (sk_atts s).
  Proof.
    intros s Hs. exists (skin_defaults ver (skin_raw ver (trim_skin s))). split.
    - unfold y, reload_doc, reload_data. cbn [doc_data data_defaults data_raw d_skins]. unfold x. cbn [with_data doc_data doc_version trim_data set_skins d_skins].
      rewrite !map_map. apply in_map_iff. exists s. auto.
    - unfold skin_defaults, skin_raw, trim_skin, sk_atts. cbn [sk_name sk_attachments]. destruct (sk_attachments s) as [[ | q a] | ]; auto.
      cbn [dmap map]. change (dkeys (dmap (dmap (obj_set_defaults ver)) (dmap (dmap (raw ver)) (dmap (dmap trim) (q :: a)))) = dkeys (q :: a)). rewrite !dkeys_dmap. auto.
  Qed.
  Lemma y_bones : Forall2 same_head (d_bones d) (d_bones (doc_data y)).
  Proof. apply reload_heads. apply (di_bones _ _ hist_dinv). Qed.
  Lemma y_slots : Forall2 (fun a b => slot_head a = slot_head b) (d_slots d) (d_slots (doc_data y)).
  Proof. apply reload_slot_heads. apply (di_slots _ _ hist_dinv). Qed.
  Lemma y_slot_names : map slot_name (d_slots (doc_data y)) = map slot_name (d_slots d).
  Proof. pose proof y_slots as F. induction F as [ | a b l l' E F IH]; auto. cbn [map]. rewrite IH. unfold slot_head in E. injection E as -> _. auto. Qed.

  Lemma y_filed : forall l, get_images_references y = Ok l -> filed_under_slots d.
  Proof.
    intros l E s sl m Hs Hm. destruct (skin_y s Hs) as (t & Ht & Ek). assert (Hk : In sl (dkeys (sk_atts t))) by (rewrite Ek; apply (in_map fst) in Hm; exact Hm).
    apply in_map_iff in Hk as ([sl' m'] & Esl & Hm'). cbn [fst] in Esl. subst sl'. pose proof (images_walk_loaded _ _ E) as W. unfold images_walk, walk in W. rewrite Forall_forall in W.
    destruct (W t Ht) as [_ K]. destruct (K _ _ Hm') as [[f Ef] _]. unfold get_slot_custom_scale in Ef. destruct (get_slot (doc_data y) sl) as [so | ] eqn:G; [ | discriminate].
    apply get_slot_in in G. rewrite y_slot_names in G. exact G.
  Qed.
  Lemma slot_unique0 : NoDup (map slot_name (d_slots (e_data e0))).
  Proof.
    destruct (loaded_sync e0 hist_loaded) as (D0 & _ & _). destruct hist_loaded as (j & _ & E). apply mk_editor_inv in E as (_ & _ & G). rewrite document_json_dict in G. apply build_ok in G.
    destruct (built_names _ _ G) as (_ & N & _). rewrite each_slots in N. rewrite names_slots in N by apply (di_slots _ _ D0). exact N.
  Qed.
  Lemma y_scale : forall sl, In sl (map slot_name (d_slots d)) ->
    get_slot_custom_scale (doc_data y) (get_slot (doc_data y) sl) = get_slot_custom_scale (e_data e0) (get_slot (e_data e0) sl).
  Proof.
    intros sl Hsl.
    transitivity (get_slot_custom_scale d (get_slot d sl)).
    - symmetry. apply scale_heads; [exact y_bones | ]. unfold get_slot. apply find_rel; [exact y_slots | ]. intros a b E. unfold slot_head in E. injection E as -> _. auto.
    - symmetry. apply scale_heads; [exact (cf_heads _ _ H) | ]. unfold get_slot. pose proof (cf_slots _ _ H) as F. fold d in F. rewrite Forall_forall in F.
      destruct (find (fun s => String.eqb (slot_name s) sl) (d_slots d)) as [s | ] eqn:Es.
      + apply find_some in Es as [Hs En]. apply String.eqb_eq in En. destruct (F s Hs) as (s0 & H0 & C).
        assert (Eh : slot_head s0 = slot_head s) by (destruct C as [-> | [-> _]]; auto; unfold slot_head, slot_name, ostr; rewrite !oget_oset; reflexivity).
        assert (E0 : find (fun s => String.eqb (slot_name s) sl) (d_slots (e_data e0)) = Some s0).
        { apply find_unique; [exact slot_unique0 | exact H0 | ]. unfold slot_head in Eh. injection Eh as -> _. exact En. }
        rewrite E0. exact Eh.
      + exfalso. apply in_map_iff in Hsl as (s & En & Hs). apply find_none with (x := s) in Es; auto. rewrite En, String.eqb_refl in Es. discriminate.
  Qed.

  Lemma y_images : filed_under_slots d -> exists l, get_images_references y = Ok l.
  Proof.
    intros Fs. unfold get_images_references. fold (folder_of y). assert (Ef : folder_of y = folder_of (e_doc e0)).
    { unfold folder_of, y, x, reload_doc. cbn [with_data doc_skeleton]. rewrite (cf_skeleton _ _ H). auto. }
    assert (Ev : doc_version y = doc_version (e_doc e0)).
    { exact (cf_ver _ _ H). }
    rewrite Ef, Ev. pose proof (cf_images _ _ H) as W. unfold images_walk, walk in W. rewrite Forall_forall in W.
    apply foldM_total. intros t b Ht. destruct (y_skin t Ht) as (s & Hs & Ea). destruct (W s Hs) as [V K]. rewrite V, Ea. apply foldM_total.
    intros [sl m'] b1 Hm. apply in_dmap in Hm as (m & Hm & ->). destruct (K _ _ Hm) as [[f Hf] Ko]. unfold add_slot_images. cbn [fst snd].
    rewrite (y_scale sl (Fs s sl m Hs Hm)). change (doc_data (e_doc e0)) with (e_data e0) in Hf. rewrite Hf. cbn [bind]. apply foldM_total. intros [k o'] b2 Ho. apply in_dmap in Ho as (o & Ho & ->).
    assert (A : att_inv ver o) by (apply (hist_atts sl k o); exists s, m; auto). unfold add_image. change (o_cls (reload ver (trim o))) with (o_cls o).
    assert (Hh : forall k, In k (attrs_of (o_cls o)) -> has_attr k (reload ver (trim o)) = true).
    { intros k0 Hk0. unfold has_attr. apply dmem_in. unfold reload, obj_set_defaults, fill_defaults, raw, dkeys. cbn [o_attrs o_cls trim]. rewrite !map_map. cbn [fst]. rewrite map_id. exact Hk0. }
    pose proof (ao_cls _ _ (ai_ok _ _ A)) as C. unfold att_classes in C. cbn [In] in C. specialize (Ko k o Ho).
    destruct C as [C | [C | [C | [C | []]]]]; rewrite <- C in *; eauto;
      (rewrite !Hh by (cbn; tauto)); cbn [andb negb]; (destruct Ko as [Ko | [fo ->]]; [discriminate | eauto]).
  Qed.
  Lemma y_graph : (forall sl k o, skin_attachment d sl k o -> own_attributes o) -> exists g, create_from_json_data (document_json y) = Ok g.
  Proof.
    intros Ow. destruct (cf_graph _ _ H) as [g G]. exists g. rewrite <- G. rewrite <- (x_json Ow). rewrite !document_json_dict. apply create_same.
    set (x1 := set_animations (trim_data d) []).
    assert (L1 : loaded_data ver x1).
    { destruct x_loaded as ((A1 & A2 & A3 & A4 & A5 & A6 & A7 & _) & A9 & _). split; [ | split]; [ | exact A9 | constructor]. repeat (split; [assumption | ]). constructor. }
    assert (E : data_json ver (reload_data ver x1) = data_json ver x1).
    { apply data_same; [eapply loaded_wf; exact L1 | apply L1 | constructor]. }
    intros k Hk. assert (K0 : k <> "skeleton") by (intros ->; cbn in Hk; intuition discriminate). rewrite !get_data_json by auto.
    change (doc_version y) with ver. change (doc_version x) with ver. change (doc_data x) with (trim_data d). change (doc_data y) with (reload_data ver (trim_data d)).
    assert (E1 : dget k (data_json ver (reload_data ver x1)) = dget k (data_json ver (reload_data ver (trim_data d)))).
    { unfold data_json. rewrite !dget_export by apply data_attrs_NoDup. cbn [In] in Hk. destruct Hk as [<- | [<- | [<- | [<- | []]]]]; reflexivity. }
    assert (E2 : dget k (data_json ver x1) = dget k (data_json ver (trim_data d))).
    { unfold data_json. rewrite !dget_export by apply data_attrs_NoDup. cbn [In] in Hk. destruct Hk as [<- | [<- | [<- | [<- | []]]]]; reflexivity. }
    rewrite <- E1, <- E2, E. auto.
  Qed.

  (** Loading the exported document *)
  Theorem from_iff : (exists e', mk_editor (editor_json e) = Ok e') <-> can_reload d.
  Proof.
    split.
    - intros [e' E]. apply mk_editor_inv in E as (E1 & E2 & E3). assert (X : exists z, load_document (editor_json e) = Ok z) by eauto.
      apply doc_reload in X as (X1 & X2 & X3). rewrite (doc_is _ E1) in E2. constructor; auto. exact (y_filed _ E2).
    - intros [C1 C2 C3 C4]. destruct (proj2 doc_reload (conj C1 (conj C2 C3))) as [z E]. assert (Ez := doc_is z E). subst z.
      destruct (y_images C4) as [l El]. destruct (y_graph C3) as [g G]. unfold mk_editor. rewrite E. cbn [bind]. rewrite El. cbn [bind]. rewrite G. cbn [bind]. eauto.
  Qed.
  (** and what is loaded *)
  Theorem from_kept : forall e', mk_editor (editor_json e) = Ok e' -> no_null_time d \/ ver_ge ver SPINE_3_8 = true ->
    doc_skeleton (e_doc e') = doc_skeleton (e_doc e) /\ e_ver e' = e_ver e /\ same_data d (e_data e') /\ editor_json e' = editor_json e.
  Proof.
    intros e' E T. apply mk_editor_inv in E as (E & _ & _). pose proof (own_needed _ E) as Ow. rewrite <- (x_json Ow) in E.
    destruct (reload_keeps x _ x_loaded x_ver T E) as (K1 & K2 & K3). split; [exact K1 | ]. split; [exact K2 | ]. split.
    - destruct K3 as (S1 & S2 & S3 & S4 & S5 & S6 & S7 & S8). unfold same_data. change (doc_data (e_doc e')) with (e_data e') in *.
      split; [exact S1 | ]. split; [exact S2 | ]. split; [ | split; [exact S4 | split; [exact S5 | split; [exact S6 | split; [exact S7 | exact S8]]]]].
      cbn [x with_data doc_data trim_data set_skins d_skins] in S3. change (doc_data x) with (trim_data d) in S3. cbn [trim_data set_skins d_skins] in S3.
      apply rel_map in S3. eapply rel_impl; [ | exact S3]. intros s t [N1 N2]. split; [exact N1 | ]. cbn [trim_skin sk_attachments] in N2.
      destruct (sk_attachments s) as [a | ], (sk_attachments t) as [b | ]; auto. unfold drel, dmap in *. apply rel_map in N2.
      eapply rel_impl; [ | exact N2]. intros [k1 m1] [k2 m2] [F1 F2]. cbn [fst snd] in *. split; [exact F1 | ]. unfold dmap in F2. apply rel_map in F2.
      eapply rel_impl; [ | exact F2]. intros [k3 o1] [k4 o2] [F3 [F4 F5]]. cbn [fst snd] in *. split; [exact F3 | ]. split; [exact F4 | ]. intros k Hk. specialize (F5 k Hk).
      rewrite oget_trim in F5. assert (D : declared (o_cls o1) k = true) by (apply smem_in; exact Hk). rewrite D in F5. exact F5.
    - change (document_json (e_doc e') = editor_json e). rewrite <- (x_json Ow). exact (reload_stable x _ x_loaded x_ver T E).
  Qed.
End Reloaded.
Theorem reload_iff : forall e0 ops e, history e0 ops e -> ((exists e', mk_editor (editor_json e) = Ok e') <-> can_reload (e_data e)).
Proof. intros e0 ops e H. exact (from_iff e0 e (history_from _ _ _ H)). Qed.
Theorem reload_kept : forall e0 ops e, history e0 ops e -> forall e', mk_editor (editor_json e) = Ok e' -> no_null_time (e_data e) \/ ver_ge (e_ver e) SPINE_3_8 = true ->
  doc_skeleton (e_doc e') = doc_skeleton (e_doc e) /\ e_ver e' = e_ver e /\ same_data (e_data e) (e_data e') /\ editor_json e' = editor_json e.
Proof. intros e0 ops e H. exact (from_kept e0 e (history_from _ _ _ H)). Qed.

(** ** Documents for which less is needed *)
Lemma filed_walk : forall d, filed_under_slots d <-> walk True (fun sl => In sl (map slot_name (d_slots d))) (fun _ => True) d.
Proof.
  intros d. unfold filed_under_slots, walk. rewrite Forall_forall. split.
  - intros F s Hs. split; auto. intros sl m Hm. split; eauto.
  - intros W s sl m Hs Hm. exact (proj1 (proj2 (W s Hs) _ _ Hm)).
Qed.
Lemma loaded_filed : forall e, loaded e -> filed_under_slots (e_data e).
Proof.
  intros e (j & _ & E) s sl m Hs Hm. apply mk_editor_inv in E as (_ & E & _). apply images_walk_loaded in E. unfold images_walk, walk in E. rewrite Forall_forall in E.
  destruct (proj2 (E s Hs) _ _ Hm) as [[f K] _]. change (doc_data (e_doc e)) with (e_data e) in K. destruct (get_slot (e_data e) sl) eqn:G; [ | discriminate]. eapply get_slot_in; eauto.
Qed.
Lemma removal_slots : forall l d d' rs, removal l d d' rs -> d_slots d' = d_slots d.
Proof.
  intros l d d' rs R. induction R as [ | n l d da db r rs R1 R2 IH]; auto. rewrite IH. destruct (remove_skin_rest _ _ _ _ R1) as (source & _ & _ & (_ & Hs & _) & _). exact Hs.
Qed.
Lemma history_filed_slots : forall e0 ops e, plain_slots (e_data e0) -> history e0 ops e -> filed_under_slots (e_data e).
Proof.
  intros e0 ops e Pl H. destruct (last_built_ex _ _ _ H) as [eb B].
  apply (history_all e0 (fun e _ _ _ => filed_under_slots (e_data e))) in B as (ss & _ & _ & K); auto; [apply loaded_filed | ].
  clear - Pl. intros e bs ss is o e1 bs1 ss1 is1 e2 ss2 S I F Q S1 I1 M.
  assert (F1 : filed_under_slots (e_data e1)).
  { destruct Q as [ | l | sx sy l R | l d1 removed g R B]; auto. cbn [e_data e_doc with_data doc_data]. apply filed_walk. rewrite (removal_slots _ _ _ _ R).
    apply (walk_removal True _ (fun _ => True)) with (1 := fun _ _ _ _ _ => Logic.I) (2 := R). apply filed_walk. exact F. }
  assert (F2 : filed_under_slots (e_data e2)).
  { destruct M as [ | enum e2 inv atts leafs orphans imgs rem Oo C]; auto. pose proof (names_of_plain _ _ _ _ _ _ _ _ _ _ _ _ _ Pl I1 S1 C) as En.
    intros s sl m Hs Hm. rewrite En. apply in_without. rewrite (cl_skins _ _ _ _ _ _ _ _ (co_data _ _ _ _ _ _ _ _ _ _ _ _ C)) in Hs. apply in_map_iff in Hs as (s0 & <- & Hs).
    unfold clean_skin, sk_atts at 1 in Hm. cbn [sk_attachments] in Hm. unfold dmap in Hm. apply in_map_iff in Hm as ([sl2 m2] & E & Hm). injection E as -> <-.
    apply in_drop_keys in Hm as [Hm Hr]. split; eauto. }
  destruct o; exact F2.
Qed.

Lemma offset_some : forall o m, offset_of o m -> oget o "offset" <> VNone.
Proof. intros o m [_ E] C. rewrite C in E. unfold int_value in E. intuition discriminate. Qed.
Lemma history_required : forall e0 ops e, no_null_required (e_data e0) -> history e0 ops e -> no_null_required (e_data e).
Proof.
  intros e0 ops e [R1 R2] H. destruct (last_built_ex _ _ _ H) as [eb B]. split.
  { destruct (history_since _ _ _ _ B) as (ss & S & I). intros s Hs. pose proof (si_slots _ _ _ I) as F. rewrite Forall_forall in F.
    destruct (F s Hs) as (s0 & H0 & [-> | [-> _]]); auto. rewrite oget_oset. cbn. auto. }
  apply (history_all e0 (fun e _ _ _ => forall n a dr o, In (n, a) (d_animations (e_data e)) -> In dr (an_drawOrder a) -> In o (do_offsets dr) -> oget o "offset" <> VNone)) in B as (ss & _ & _ & K); auto.
  clear. intros e bs ss is o e1 bs1 ss1 is1 e2 ss2 S I F Q S1 I1 M.
  assert (F1 : forall n a dr o, In (n, a) (d_animations (e_data e1)) -> In dr (an_drawOrder a) -> In o (do_offsets dr) -> oget o "offset" <> VNone).
  { destruct Q as [ | l | sx sy l R | l d1 removed g R B]; auto.
    - intros n a dr x Ha. apply filter_In in Ha as [Ha _]. eauto.
    - cbn [e_data e_doc with_data doc_data]. clear - R F. induction R as [ | n l d da db r rs R1 R2 IH]; auto. apply IH.
      destruct (remove_skin_rest _ _ _ _ R1) as (source & _ & _ & _ & _ & An). intros i a dr x Ha Hdr. destruct (Forall2_in_r _ _ _ _ _ An _ Ha) as ([i' a'] & H1 & _ & W). cbn [snd] in W.
      destruct W as (_ & W & _). rewrite W in Hdr. eauto. }
  assert (F2 : forall n a dr o, In (n, a) (d_animations (e_data e2)) -> In dr (an_drawOrder a) -> In o (do_offsets dr) -> oget o "offset" <> VNone).
  { destruct M as [ | enum e2 inv atts leafs orphans imgs rem Oo C]; auto. pose proof (co_data _ _ _ _ _ _ _ _ _ _ _ _ C) as Cd. intros n a dr x Ha Hdr Hx.
    assert (Ha' : in_animations (e_data e2) a) by (exists n; auto). destruct (cleaned_anim _ _ _ _ _ _ _ _ _ Cd Ha') as (a0 & Ha0 & Ca).
    destruct (Forall2_in_r _ _ _ _ _ (ca_draw _ _ _ _ _ _ Ca) dr Hdr) as (k0 & Hk0 & Rk). apply remove_offsets_in_range in Rk as (_ & ms & Mo & _ & Q2).
    - destruct (Forall2_fwd _ _ _ _ _ Mo x Hx) as (m & Hm & Ho). eapply offset_some; eauto.
    - destruct S1 as [_ S1]. eapply sync_distinct_slots; eauto. }
  destruct o; exact F2.
Qed.

(** A copy has only attributes of its class, unless it copies a path. *)
Lemma loaded_own : forall e, loaded e -> forall sl k o, skin_attachment (e_data e) sl k o -> own_attributes o.
Proof.
  intros e L sl k o A. destruct L as (j & _ & E). apply mk_editor_inv in E as (E & _ & _). pose proof (load_document_loaded _ _ E) as (K & _ & _). destruct K as (_ & _ & K & _).
  destruct A as (s & m & Hs & Hm & Ho). rewrite Forall_forall in K. specialize (K s Hs). unfold skin_all, sk_atts in *. destruct (sk_attachments s) as [a | ]; [ | destruct Hm].
  eapply dall_in in K; [ | exact Hm]. eapply dall_in in K; [ | exact Ho]. destruct K as [[(_ & Ek & _) _] _]. intros k1 Hk. rewrite <- Ek. unfold oget in Hk.
  destruct (dget k1 (o_attrs o)) eqn:G; [eapply dget_in_keys; eauto | destruct Hk; auto].
Qed.
Definition own_mesh (o : obj) : Prop := own_attributes o /\ In (o_cls o) [CSkinAttachment; CSkinMesh; CSkinLinkedMesh].
Lemma own_copy : forall src o, own_mesh src -> own_mesh o -> o_cls o = CSkinLinkedMesh -> own_mesh (copy_mesh src o).
Proof.
  intros src o1 [W1 W2] _ _. split; [ | exact W2]. unfold own_attributes, copy_mesh. cbn [oset o_cls]. intros k1. rewrite !oget_oset.
  repeat match goal with |- (if String.eqb k1 ?x then _ else _) <> _ -> _ => destruct (String.eqb_spec k1 x) as [-> | _];
    [intros _; destruct W2 as [<- | [<- | [<- | []]]]; cbn; tauto | ] end. apply W1.
Qed.
Lemma own_start : forall e, (forall sl k o, skin_attachment (e_data e) sl k o -> o_cls o <> CSkinPath) -> loaded e -> walk True (fun _ => True) own_mesh (e_data e).
Proof.
  intros e Np L. destruct (loaded_sync e L) as (D & _ & _). pose proof (di_skins _ _ D) as F. unfold walk. rewrite Forall_forall in *. intros s Hs. split; auto. intros sl1 m1 Hm1. split; auto.
  intros k1 o1 Ho1. assert (A1 : skin_attachment (e_data e) sl1 k1 o1) by (exists s, m1; auto). split; [eapply loaded_own; eauto | ].
  pose proof (ao_cls _ _ (so_atts _ _ (F s Hs) _ _ _ _ Hm1 Ho1)) as C. specialize (Np _ _ _ A1). unfold att_classes in C. cbn [In] in *. destruct C as [C | [C | [C | [C | []]]]]; auto; congruence.
Qed.
Lemma own_walk : forall d, walk True (fun _ => True) own_mesh d -> forall sl k o, skin_attachment d sl k o -> own_attributes o.
Proof. intros d W sl k o (s & m & Hs & Hm & Ho). unfold walk in W. rewrite Forall_forall in W. apply (proj2 (proj2 (W s Hs) _ _ Hm) _ _ Ho). Qed.
Lemma history_own : forall e0 ops e, (forall sl k o, skin_attachment (e_data e0) sl k o -> o_cls o <> CSkinPath) -> history e0 ops e ->
  forall sl k o, skin_attachment (e_data e) sl k o -> own_attributes o.
Proof.
  intros e0 ops e Np H. assert (L : loaded e0) by (clear - H; induction H; auto). apply own_walk. eapply walk_history; [exact own_copy | exact H | exact (own_start _ Np L)].
Qed.

(** On loading *)
Theorem reload_fresh : forall e, loaded e -> ((exists e', mk_editor (editor_json e) = Ok e') <-> d_slots (e_data e) <> [] /\ no_null_required (e_data e)).
Proof.
  intros e L. assert (H : history e [] e) by (constructor; auto). rewrite (reload_iff _ _ _ H). split; [intros [C1 C2 _ _]; auto | ].
  intros [C1 C2]. constructor; auto; [eapply loaded_own; eauto | apply loaded_filed; auto].
Qed.
(** For documents with plain slot names and without path attachments, only the slots can be missing. *)
Theorem reload_plain : forall e0 ops e, plain_slots (e_data e0) -> (forall sl k o, skin_attachment (e_data e0) sl k o -> o_cls o <> CSkinPath) ->
  (exists e1, mk_editor (editor_json e0) = Ok e1) -> history e0 ops e ->
  ((exists e', mk_editor (editor_json e) = Ok e') <-> d_slots (e_data e) <> []).
Proof.
  intros e0 ops e Pl Np R H. assert (L : loaded e0) by (clear - H; induction H; auto). apply (reload_fresh e0 L) in R as [_ R]. rewrite (reload_iff _ _ _ H). split; [intros [C1 _ _ _]; auto | ].
  intros C1. constructor; auto; [eapply history_required; eauto | eapply history_own; eauto | eapply history_filed_slots; eauto].
Qed.
