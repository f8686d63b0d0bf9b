(** Proofs about scale_animation. *)
From Verif Require Import PyBase PyFacts Json Version Graph SpecGraph Classes ClassFacts DocFacts SpineGraph SpecSpine SpineFacts BuildFacts BuildTotal
  DrawOrder AnimData Editor SpecAnim SkinFacts SpecEditor EditorGraph EditorData EditorBuild EditorClean EditorOut EditorHist EditorFacts EditorKeep SpecProduct ProductFacts.
Open Scope string_scope.

Lemma independent_iff : forall b, scale_independent b = true <-> independent b.
Proof.
  intros b. unfold scale_independent, independent. destruct (ostr b "transform") as [t | ].
  - rewrite smem_in. split; [eauto | intros (t' & E & H); congruence].
  - split; [discriminate | intros (t & E & _); discriminate].
Qed.
Lemma independent_not : forall b, scale_independent b = false <-> ~ independent b.
Proof. intros b. rewrite <- independent_iff. destruct (scale_independent b); split; intros H; congruence. Qed.
Lemma dset_keys : forall (d : dict val) k v, In k (dkeys d) -> dkeys (dset k v d) = dkeys d.
Proof. intros d k v H. rewrite dkeys_dset. apply smem_in in H. rewrite H. auto. Qed.

Definition has_scales (b : obj) : Prop := In "scaleX" (dkeys (o_attrs b)) /\ In "scaleY" (dkeys (o_attrs b)).
Lemma loaded_scales : forall ver b, loaded_obj ver CBone b -> has_scales b.
Proof. intros ver b [(_ & Ek & _) _]. unfold has_scales. rewrite Ek. cbn. tauto. Qed.
Lemma bone_scale_scaled : forall sx sy b b', has_scales b -> bone_scale sx sy b = (b', Ok tt) -> scaled sx sy b b'.
Proof.
  intros sx sy b b' [H1 H2] E. unfold bone_scale in E. destruct (py_mul (oget b "scaleX") sx) as [x | ] eqn:Ex; [ | discriminate].
  rewrite oget_oset in E. cbn [String.eqb Ascii.eqb Bool.eqb] in E. destruct (py_mul (oget b "scaleY") sy) as [y | ] eqn:Ey; [ | discriminate]. injection E as <-.
  split; [reflexivity | ]. split.
  - cbn [oset o_attrs]. rewrite dset_keys; [apply dset_keys; auto | rewrite dset_keys; auto].
  - rewrite !oget_oset. cbn [String.eqb Ascii.eqb Bool.eqb]. split; [apply mul_product; auto | ]. split; [apply mul_product; auto | ]. intros k K1 K2. rewrite !oget_oset.
    apply String.eqb_neq in K1, K2. rewrite K1, K2. auto.
Qed.
Lemma scaled_scales : forall sx sy b b', scaled sx sy b b' -> has_scales b -> has_scales b'.
Proof. intros sx sy b b' (_ & K & _) [H1 H2]. unfold has_scales. rewrite K. auto. Qed.
Lemma scaled_name : forall sx sy b b', scaled sx sy b b' -> bone_name b' = bone_name b.
Proof. intros sx sy b b' (_ & _ & _ & _ & K). unfold bone_name, ostr. rewrite K by discriminate. auto. Qed.

Lemma scale_root_split : forall sx sy l l', scale_root sx sy l = (l', Ok tt) ->
  exists l1 r l2 r', l = (l1 ++ r :: l2)%list /\ bone_name r = "root" /\ (forall b, In b l1 -> bone_name b <> "root") /\
    bone_scale sx sy r = (r', Ok tt) /\ l' = (l1 ++ r' :: l2)%list.
Proof.
  intros sx sy l. induction l as [ | b l IH]; intros l' E; cbn [scale_root] in E; [discriminate | ].
  destruct (String.eqb (bone_name b) "root") eqn:Eb.
  - apply String.eqb_eq in Eb. destruct (bone_scale sx sy b) as [b' u] eqn:Es. injection E as <- ->. exists [], b, l, b'. cbn. repeat split; auto.
  - apply String.eqb_neq in Eb. destruct (scale_root sx sy l) as [l2 u] eqn:El. injection E as <- ->. destruct (IH _ eq_refl) as (l1 & r & l3 & r' & -> & H1 & H2 & H3 & ->).
    exists (b :: l1), r, l3, r'. split; [auto | ]. split; [auto | ]. split; [ | auto]. intros x [<- | Hx]; auto.
Qed.
Definition once (sx sy : val) (b b' : obj) : Prop := (independent b -> scaled sx sy b b') /\ (~ independent b -> b' = b).
Lemma once_name : forall sx sy b b', once sx sy b b' -> bone_name b' = bone_name b.
Proof.
  intros sx sy b b' [H1 H2]. destruct (scale_independent b) eqn:E.
  - apply independent_iff in E. eapply scaled_name; eauto.
  - apply independent_not in E. rewrite H2; auto.
Qed.
Lemma once_scales : forall sx sy b b', once sx sy b b' -> has_scales b -> has_scales b'.
Proof.
  intros sx sy b b' [H1 H2] K. destruct (scale_independent b) eqn:E.
  - apply independent_iff in E. eapply scaled_scales; eauto.
  - apply independent_not in E. rewrite H2; auto.
Qed.
Lemma scale_bones_split : forall sx sy l l', Forall has_scales l -> scale_bones sx sy l = (l', Ok tt) ->
  exists l1 r l2 l1' r1 r' l2', l = (l1 ++ r :: l2)%list /\ bone_name r = "root" /\ (forall b, In b l1 -> bone_name b <> "root") /\
    l' = (l1' ++ r' :: l2')%list /\ Forall2 (once sx sy) l1 l1' /\ Forall2 (once sx sy) l2 l2' /\ once sx sy r r1 /\ scaled sx sy r1 r'.
Proof.
  intros sx sy l l' F E. unfold scale_bones in E.
  match type of E with context [mapM_inplace ?g l] => set (f := g) in E end. destruct (mapM_inplace f l) as [m u] eqn:El.
  destruct u as [[] | ]; [ | discriminate]. apply mapM_inplace_ok in El.
  assert (O : Forall2 (once sx sy) l m).
  { clear E. revert F. induction El as [ | b b' k k' Hb El IH]; intros F; inversion F; subst; constructor; auto. unfold f in Hb.
    destruct (scale_independent b) eqn:Ei.
    - apply independent_iff in Ei. split; [intros _; apply bone_scale_scaled; auto | intros K; destruct (K Ei)].
    - apply independent_not in Ei. injection Hb as <-. split; [intros K; destruct (Ei K) | auto]. }
  apply scale_root_split in E as (m1 & r1 & m2 & r' & -> & Hr & Hn & Es & ->).
  apply Forall2_app_inv_r in O as (l1 & l2 & O1 & O2 & ->). inversion O2 as [ | r q l3 q' Or O3]; subst.
  exists l1, r, l3, m1, r1, r', m2. split; [auto | ]. split; [rewrite <- (once_name _ _ _ _ Or); auto | ]. split.
  - intros b Hb. destruct (Forall2_fwd _ _ _ _ _ O1 b Hb) as (b' & Hb' & Ob). rewrite <- (once_name _ _ _ _ Ob). auto.
  - split; [auto | ]. split; [auto | ]. split; [auto | ]. split; [auto | ]. apply bone_scale_scaled; auto. eapply once_scales; eauto.
    rewrite Forall_forall in F. apply F. apply in_app_iff. right. left. auto.
Qed.
Lemma once_rescaled : forall sx sy b b', bone_name b <> "root" -> once sx sy b b' -> rescaled sx sy b b'.
Proof. intros sx sy b b' N [H1 H2]. exists b'. split; [auto | ]. split; [auto | ]. split; [tauto | auto]. Qed.

(** ** Names of bones *)
Lemma bone_named : forall ver b, wf_obj CBone b -> py_str (field (obj_json ver b) "name") = bone_name b.
Proof.
  intros ver b H. rewrite (field_json ver b) by (first [eapply wf_keys; eauto | destruct H as [-> _]; apply bone_no_default; cbn; auto]).
  destruct (name_str CBone b H) as [n E]; auto. unfold bone_name, ostr. rewrite E. auto.
Qed.
Lemma names_json : forall ver l, Forall (loaded_obj ver CBone) l -> names (map (obj_json ver) l) = map bone_name l.
Proof.
  intros ver l H. induction H as [ | b l [H _] F IH]; auto. unfold names in *. cbn [map]. rewrite (bone_named ver b H), IH. auto.
Qed.
Lemma rescaled_names : forall sx sy l l', Forall has_scales l -> scale_bones sx sy l = (l', Ok tt) -> map bone_name l' = map bone_name l.
Proof.
  intros sx sy l l' F E. apply scale_bones_split in E as (l1 & r & l2 & l1' & r1 & r' & l2' & -> & _ & _ & -> & O1 & O2 & Or & Sr); auto.
  assert (K : forall k k', Forall2 (once sx sy) k k' -> map bone_name k' = map bone_name k).
  { intros k k' O. induction O as [ | b b' k k' Hb O IH]; auto. cbn [map]. rewrite IH, (once_name _ _ _ _ Hb). auto. }
  rewrite !map_app. cbn [map]. rewrite (K _ _ O1), (K _ _ O2), (scaled_name _ _ _ _ Sr), (once_name _ _ _ _ Or). auto.
Qed.
Theorem bone_names : forall e0 ops e eb, last_built e0 ops e eb ->
  NoDup (map bone_name (d_bones (e_data e))) /\ map bone_name (d_bones (e_data e)) = map bone_name (d_bones (e_data e0)).
Proof.
  intros e0 ops e eb H.
  assert (A : map bone_name (d_bones (e_data e)) = map bone_name (d_bones (e_data e0)) /\ map bone_name (d_bones (e_data eb)) = map bone_name (d_bones (e_data e0))).
  { induction H as [H | ops e eb op e' H [IH1 IH2] O E]; auto.
    assert (K : map bone_name (d_bones (e_data e')) = map bone_name (d_bones (e_data e)) \/ map bone_name (d_bones (e_data e')) = map bone_name (d_bones (e_data eb))).
    { assert (H' : last_built e0 (op :: ops) e' (match op with EoEraseSkins _ _ _ => e | _ => eb end)) by (econstructor; eauto).
      destruct (history_state _ _ _ _ H) as [ss [D _]]. destruct (history_state _ _ _ _ H') as [ss' [D' _]].
      destruct (history_state _ _ _ _ H) as [ss0 [_ S0]]. pose proof (sy_bones_ok _ _ _ _ _ _ S0) as Db.
      destruct (history_fixed _ _ _ _ H) as (_ & _ & V & _). destruct (history_fixed _ _ _ _ H') as (_ & _ & V' & _).
      assert (J : forall l, bones_json e' = map (obj_json (e_ver e)) l -> Forall (loaded_obj (e_ver e) CBone) l -> map bone_name (d_bones (e_data e')) = map bone_name l).
      { intros l El Fl. rewrite <- (names_json (e_ver e) l Fl), <- El. unfold bones_json. symmetry. rewrite V', <- V. apply names_json.
        pose proof (di_bones _ _ D') as Q. rewrite V', <- V in Q. exact Q. }
      pose proof (bones_after _ _ _ _ _ _ H O E) as B.
      assert (Vb : e_ver eb = e_ver e0).
      { clear - H. induction H; auto. destruct op; auto. apply (history_fixed _ _ _ _ H). }
      destruct op as [en l safe | en l strict [ | ] | en | sx sy].
      - left. apply J; auto. apply (di_bones _ _ D).
      - left. apply J; auto. apply (di_bones _ _ D).
      - right. apply J; auto. rewrite V, <- Vb. exact B.
      - right. apply J; auto. rewrite V, <- Vb. exact B.
      - left. eapply rescaled_names; [ | exact B]. eapply Forall_impl; [ | exact (di_bones _ _ D)]. intros b. apply loaded_scales. }
    split; [destruct K; congruence | ]. destruct op; auto. }
  destruct A as [A _]. split; auto. rewrite A. assert (L : loaded e0) by (clear - H; induction H; auto).
  pose proof L as (j & _ & Hj). apply mk_editor_inv in Hj as (_ & _ & B). destruct (loaded_sync e0 L) as (D & _ & _).
  rewrite document_json_dict in B. apply build_ok in B. apply built_names in B as (B & _). rewrite each_bones in B. rewrite names_json in B; auto. apply (di_bones _ _ D).
Qed.

(** ** The outcome *)
Theorem scale_exact : forall e0 ops e sx sy e', history e0 ops e -> scale_animation sx sy e = (e', Ok tt) ->
  has_root (e_data e) /\ exists l, e' = put_data e (set_bones (e_data e) l) /\ Forall2 (rescaled sx sy) (d_bones (e_data e)) l.
Proof.
  intros e0 ops e sx sy e' H E. destruct (last_built_ex _ _ _ H) as [eb B]. destruct (bone_names _ _ _ _ B) as [N _]. destruct (history_state _ _ _ _ B) as [ss [D _]].
  apply scale_inv in E as (l & E & ->). apply scale_bones_split in E.
  - destruct E as (l1 & r & l2 & l1' & r1 & r' & l2' & El & Hr & Hn & -> & O1 & O2 & Or & Sr). rewrite El in *. split.
    { exists r. rewrite El. split; auto. apply in_app_iff. right. left. auto. }
    eexists. split; [reflexivity | ].
    assert (N2 : forall b, In b l2 -> bone_name b <> "root").
    { intros b Hb C. rewrite map_app in N. cbn [map] in N. apply NoDup_remove_2 in N. apply N. rewrite Hr, <- C. apply in_app_iff. right. apply in_map. auto. }
    assert (K : forall k k', (forall b, In b k -> bone_name b <> "root") -> Forall2 (once sx sy) k k' -> Forall2 (rescaled sx sy) k k').
    { intros k k' Hk O. induction O as [ | b b' k k' Hb O IH]; constructor; [apply once_rescaled; auto; apply Hk; left; auto | ]. apply IH. intros; apply Hk; right; auto. }
    apply Forall2_app; auto. constructor; auto. destruct Or as [Or1 Or2]. exists r1. split; [auto | ]. split; [auto | ]. split; [auto | congruence].
  - eapply Forall_impl; [ | exact (di_bones _ _ D)]. intros b. apply loaded_scales.
Qed.
Lemma scaled_bone_scale : forall sx sy b b1, scaled sx sy b b1 -> exists b', bone_scale sx sy b = (b', Ok tt).
Proof.
  intros sx sy b b1 (_ & _ & Ex & Ey & _). unfold bone_scale. apply product_result in Ex as (x & -> & _). apply product_result in Ey as (y & Ey & _).
  rewrite oget_oset. cbn [String.eqb Ascii.eqb Bool.eqb]. rewrite Ey. eauto.
Qed.
Lemma bone_scale_values : forall sx sy b b', bone_scale sx sy b = (b', Ok tt) ->
  py_mul (oget b "scaleX") sx = Ok (oget b' "scaleX") /\ py_mul (oget b "scaleY") sy = Ok (oget b' "scaleY").
Proof.
  intros sx sy b b' E. unfold bone_scale in E. destruct (py_mul (oget b "scaleX") sx) as [x | ] eqn:Ex; [ | discriminate].
  rewrite oget_oset in E. cbn [String.eqb Ascii.eqb Bool.eqb] in E. destruct (py_mul (oget b "scaleY") sy) as [y | ] eqn:Ey; [ | discriminate]. injection E as <-.
  rewrite !oget_oset. auto.
Qed.
Lemma scaled_next : forall sx sy b b1 b2 b', scaled sx sy b b1 -> bone_scale sx sy b = (b2, Ok tt) -> scaled sx sy b1 b' ->
  exists b3, bone_scale sx sy b2 = (b3, Ok tt).
Proof.
  intros sx sy b b1 b2 b' (_ & _ & X1 & Y1 & _) E (_ & _ & X2 & Y2 & _). apply bone_scale_values in E as [Ex Ey].
  destruct (product_alike _ _ _ _ _ _ X1 Ex X2) as [x Hx]. destruct (product_alike _ _ _ _ _ _ Y1 Ey Y2) as [y Hy].
  unfold bone_scale. rewrite Hx, oget_oset. cbn [String.eqb Ascii.eqb Bool.eqb]. rewrite Hy. eauto.
Qed.
(** The result depends on the attributes only. *)
Lemma scaled_det : forall sx sy b b1 b', real sx -> real sy -> real (oget b "scaleX") -> real (oget b "scaleY") -> has_scales b -> NoDup (dkeys (o_attrs b)) -> scaled sx sy b b1 -> bone_scale sx sy b = (b', Ok tt) -> b' = b1.
Proof.
  intros sx sy b b1 b' Rx Ry Bx By Hs N S1 E. apply bone_scale_scaled in E; auto. destruct S1 as (C1 & K1 & X1 & Y1 & R1), E as (C2 & K2 & X2 & Y2 & R2).
  apply mul_exact in X1, X2, Y1, Y2; auto.
  assert (G : forall k, oget b' k = oget b1 k).
  { intros k. destruct (string_dec k "scaleX") as [-> | N1]; [congruence | ]. destruct (string_dec k "scaleY") as [-> | N2]; [congruence | ]. rewrite R1, R2; auto. }
  assert (E : dkeys (o_attrs b') = dkeys (o_attrs b1)) by congruence. assert (C : o_cls b' = o_cls b1) by congruence. rewrite <- K2 in N. clear - N E G C.
  destruct b' as [c' a'], b1 as [c1 a1]. cbn [o_cls o_attrs] in *. f_equal; auto.
  revert a1 E G N. unfold oget. cbn [o_attrs]. induction a' as [ | [k v] a' IH]; intros [ | [k1 v1] a1] E G N; try discriminate; auto.
  injection E as -> E. inversion N as [ | ? ? N1 N2]; subst. f_equal.
  - f_equal. specialize (G k1). cbn in G. rewrite String.eqb_refl in G. auto.
  - apply IH; auto. intros k. specialize (G k). cbn in G. destruct (String.eqb k k1) eqn:Ek; auto.
    apply String.eqb_eq in Ek. subst k. rewrite (proj2 (dget_none _ _)) by exact N1. rewrite E in N1. rewrite (proj2 (dget_none _ _)) by exact N1. auto.
Qed.
Lemma scale_root_run : forall sx sy l, (forall b, In b l -> bone_name b = "root" -> exists b', bone_scale sx sy b = (b', Ok tt)) ->
  ((exists b, In b l /\ bone_name b = "root") -> exists l', scale_root sx sy l = (l', Ok tt)) /\
  (~ (exists b, In b l /\ bone_name b = "root") -> exists w, scale_root sx sy l = (l, Err (EAttr w))).
Proof.
  intros sx sy l. induction l as [ | b l IH]; intros H; cbn [scale_root].
  - split; [intros (b & [] & _) | eauto].
  - destruct IH as [IH1 IH2]; [intros; apply H; auto; right; auto | ]. destruct (String.eqb (bone_name b) "root") eqn:Eb.
    + apply String.eqb_eq in Eb. destruct (H b) as [b' ->]; [left; auto | auto | ]. split; [eauto | ]. intros K. destruct K. exists b. split; auto. left. auto.
    + apply String.eqb_neq in Eb. split.
      * intros (x & [<- | Hx] & Ex); [congruence | ]. destruct IH1 as [l' ->]; eauto.
      * intros K. destruct IH2 as [w ->]; eauto. intros (x & Hx & Ex). apply K. exists x. split; auto. right. auto.
Qed.
Theorem scale_works : forall e0 ops e sx sy, history e0 ops e ->
  ((exists e', scale_animation sx sy e = (e', Ok tt)) <-> has_root (e_data e) /\ forall b, In b (d_bones (e_data e)) -> exists b', rescaled sx sy b b') /\
  (~ has_root (e_data e) -> (forall b, In b (d_bones (e_data e)) -> exists b', rescaled sx sy b b') ->
   exists l w, scale_animation sx sy e = (put_data e (set_bones (e_data e) l), Err (EAttr w)) /\ Forall2 (rescaled sx sy) (d_bones (e_data e)) l).
Proof.
  intros e0 ops e sx sy H. destruct (last_built_ex _ _ _ H) as [eb B]. destruct (history_state _ _ _ _ B) as [ss [D _]].
  pose proof (di_bones _ _ D) as F. rewrite Forall_forall in F.
  assert (R : (forall b, In b (d_bones (e_data e)) -> exists b', rescaled sx sy b b') ->
    exists m, mapM_inplace (fun b => if scale_independent b then bone_scale sx sy b else (b, Ok tt)) (d_bones (e_data e)) = (m, Ok tt) /\
      Forall2 (once sx sy) (d_bones (e_data e)) m /\ (forall b, In b m -> bone_name b = "root" -> exists b', bone_scale sx sy b = (b', Ok tt))).
  { generalize (d_bones (e_data e)) F. intros l Fl Hl. induction l as [ | b l IH].
    - exists []. repeat split; auto. intros b [].
    - destruct IH as (m & E & O & Hr); [intros; apply Fl; right; auto | intros; apply Hl; right; auto | ].
      destruct (Hl b) as (b' & b1 & H1 & H2 & H3 & H4); [left; auto | ]. assert (Lb : loaded_obj (e_ver e) CBone b) by (apply Fl; left; auto).
      cbn [mapM_inplace]. rewrite E. destruct (scale_independent b) eqn:Ei; [apply independent_iff in Ei | apply independent_not in Ei].
      + destruct (scaled_bone_scale _ _ _ _ (H1 Ei)) as [b2 E2]. rewrite E2.
        eexists. split; [reflexivity | ]. assert (S2 : scaled sx sy b b2) by (apply bone_scale_scaled; auto; eapply loaded_scales; eauto).
        split; [constructor; auto; split; auto; intros K; destruct (K Ei) | ].
        intros x [<- | Hx] Nx; eauto. rewrite (scaled_name _ _ _ _ S2) in Nx. exact (scaled_next sx sy b b1 b2 b' (H1 Ei) E2 (H3 Nx)).
      + rewrite (H2 Ei) in *. eexists. split; [reflexivity | ]. split; [constructor; auto; split; auto; intros K; destruct (Ei K) | ].
        intros x [<- | Hx] Nx; eauto. eapply scaled_bone_scale; eauto. }
  assert (Q : forall m, Forall2 (once sx sy) (d_bones (e_data e)) m -> ((exists b, In b m /\ bone_name b = "root") <-> has_root (e_data e))).
  { intros m O. split; intros (b & Hb & Eb).
    - destruct (Forall2_in_r _ _ _ _ _ O b Hb) as (b0 & Hb0 & Ob). exists b0. split; auto. rewrite <- (once_name _ _ _ _ Ob). auto.
    - destruct (Forall2_fwd _ _ _ _ _ O b Hb) as (b0 & Hb0 & Ob). exists b0. split; auto. rewrite (once_name _ _ _ _ Ob). auto. }
  unfold scale_animation, on_data, scale_bones. split; [split | ].
  - intros [e' E]. destruct (scale_exact _ _ _ _ _ _ H E) as (Hr & l & _ & Fl). split; auto. intros b Hb. destruct (Forall2_fwd _ _ _ _ _ Fl b Hb) as (b' & _ & Rb). eauto.
  - intros [Hr Hb]. destruct (R Hb) as (m & -> & O & K). destruct (proj1 (scale_root_run sx sy m K)) as [l' ->]; [apply Q; auto | eauto].
  - intros Hr Hb. destruct (R Hb) as (m & -> & O & K). destruct (proj2 (scale_root_run sx sy m K)) as [w ->]; [intros C; apply Hr, (Q m O), C | ].
    exists m, w. split; [reflexivity | ].
    assert (Nr : forall b, In b (d_bones (e_data e)) -> bone_name b <> "root") by (intros b H1 H2; apply Hr; exists b; auto).
    clear - O Nr. induction O as [ | b b' k k' Hb O IH]; constructor; [apply once_rescaled; auto; apply Nr; left; auto | ]. apply IH. intros; apply Nr; right; auto.
Qed.
Theorem history_constant : forall e0 ops e, history e0 ops e ->
  ik_json e = ik_json e0 /\ d_transform (e_data e) = d_transform (e_data e0) /\ d_path (e_data e) = d_path (e_data e0) /\
  d_events (e_data e) = d_events (e_data e0) /\ e_ver e = e_ver e0 /\ doc_skeleton (e_doc e) = doc_skeleton (e_doc e0) /\
  map bone_name (d_bones (e_data e)) = map bone_name (d_bones (e_data e0)).
Proof.
  intros e0 ops e H. destruct (last_built_ex _ _ _ H) as [eb B]. destruct (history_fixed _ _ _ _ B) as ((F1 & F2 & F3 & F4) & _ & V & K).
  destruct (bone_names _ _ _ _ B) as [_ N]. auto 10.
Qed.
