(** Proofs about remove_skin. *)
From Verif Require Import PyBase PyNum Json Version Classes SpineGraph DrawOrder AnimData PyFacts SpecAnim.
Open Scope string_scope.

Lemma opt_eqb_spec : forall a b, opt_eqb a b = true <-> a = b.
Proof.
  intros [a | ] [b | ]; cbn; split; intros H; try discriminate; auto.
  - apply seqb_eq in H. congruence.
  - injection H as ->. apply seqb_refl.
Qed.
Lemma opt_eqb_false : forall a b, opt_eqb a b = false <-> a <> b.
Proof. intros a b. rewrite <- opt_eqb_spec. destruct (opt_eqb a b); split; congruence. Qed.

Lemma find_split : forall A (f : A -> bool) l x,
  find f l = Some x <-> exists l1 l2, l = (l1 ++ x :: l2)%list /\ f x = true /\ forall y, In y l1 -> f y = false.
Proof.
  intros A f l x. induction l as [ | y l IH]; cbn [find].
  - split; [discriminate | ]. intros ([ | z l1] & l2 & H & _); discriminate.
  - destruct (f y) eqn:E.
    + split.
      * intros H. injection H as <-. exists [], l. repeat split; auto. intros z [].
      * intros ([ | z l1] & l2 & H & Hx & H1); injection H as -> ->; auto.
        rewrite (H1 z) in E; [discriminate | left; auto].
    + rewrite IH. split.
      * intros (l1 & l2 & -> & Hx & H1). exists (y :: l1), l2. repeat split; auto.
        intros z [<- | Hz]; auto.
      * intros ([ | z l1] & l2 & H & Hx & H1); injection H as -> ->; [congruence | ].
        exists l1, l2. repeat split; auto. intros w Hw. apply H1. right; auto.
Qed.

Lemma get_skin_spec : forall d n s, get_skin d n = Some s <-> first_skin d n s.
Proof.
  intros. unfold get_skin, first_skin. rewrite find_split. split.
  - intros (l1 & l2 & H & Hs & H1). exists l1, l2. rewrite opt_eqb_spec in Hs. repeat split; auto.
    intros y Hy. apply opt_eqb_false. auto.
  - intros (l1 & l2 & H & Hs & H1). exists l1, l2. rewrite opt_eqb_spec. repeat split; auto.
    intros y Hy. apply opt_eqb_false. auto.
Qed.
Lemma get_skin_none : forall d n, get_skin d n = None <-> forall s, In s (d_skins d) -> sk_name s <> Some n.
Proof.
  intros. unfold get_skin. split.
  - intros H s Hs. apply opt_eqb_false. apply (find_none _ _ H s Hs).
  - intros H. destruct (find _ _) as [s | ] eqn:E; auto. apply find_some in E as [E1 E2].
    apply opt_eqb_spec in E2. exfalso. apply (H s); auto.
Qed.
Lemma first_skin_in : forall d n s, first_skin d n s -> In s (d_skins d) /\ sk_name s = Some n.
Proof. intros d n s (l1 & l2 & -> & H & _). split; auto. apply in_or_app. right. left. auto. Qed.

Lemma links_to_spec : forall n o, links_to n o = true <-> linked_to n o.
Proof.
  intros n o. unfold links_to, linked_to. split.
  - intros H. destruct (o_cls o); try discriminate. split; auto.
    destruct (oget o "skin") as [ | b | z | f | s | l | m]; try discriminate. cbn in H. apply seqb_eq in H. congruence.
  - intros [-> ->]. cbn. apply seqb_refl.
Qed.

Lemma oget_oset : forall o k v k', oget (oset o k v) k' = if String.eqb k' k then v else oget o k'.
Proof. intros. unfold oget, oset. cbn [o_attrs]. rewrite dget_dset. destruct (String.eqb k' k); auto. Qed.

Lemma copy_mesh_spec : forall src o, copy_of src o (copy_mesh src o).
Proof.
  intros src o. unfold copy_of, copy_mesh. repeat split.
  - intros k H. rewrite !oget_oset. cbn [In] in H.
    destruct H as [<- | [<- | [<- | [<- | []]]]]; reflexivity.
  - intros k H. rewrite !oget_oset. cbn [In] in H.
    destruct (String.eqb k "height") eqn:E1; [apply seqb_eq in E1; subst; tauto | ].
    destruct (String.eqb k "width") eqn:E2; [apply seqb_eq in E2; subst; tauto | ].
    destruct (String.eqb k "path") eqn:E3; [apply seqb_eq in E3; subst; tauto | ].
    destruct (String.eqb k "name") eqn:E4; [apply seqb_eq in E4; subst; tauto | ].
    auto.
Qed.

Lemma mapM_inplace_all : forall A (f : A -> A * res unit) l l' r,
  mapM_inplace f l = (l', r) ->
  Forall2 (fun x y => y = x \/ y = fst (f x)) l l' /\
  (forall e, r = Err e -> exists x, In x l /\ snd (f x) = Err e) /\
  (r = Ok tt <-> forall x, In x l -> snd (f x) = Ok tt).
Proof.
  intros A f l. induction l as [ | x l IH]; intros l' r H; cbn [mapM_inplace] in H.
  - injection H as <- <-. split; [constructor | split; [discriminate | ]]. split; auto. intros _ x [].
  - destruct (f x) as [x' rx] eqn:E. destruct rx as [u | e].
    + destruct (mapM_inplace f l) as [l2 r2] eqn:E2. injection H as <- <-.
      destruct (IH _ _ eq_refl) as (I1 & I2 & I3). split; [ | split].
      * constructor; auto. right. rewrite E. auto.
      * intros e He. destruct (I2 _ He) as (y & Hy & Hy'). exists y. split; auto. right; auto.
      * destruct u. rewrite I3. split.
        -- intros H y [<- | Hy]; auto. rewrite E. auto.
        -- intros H y Hy. apply H. right; auto.
    + injection H as <- <-. split; [ | split].
      * constructor; [right; rewrite E; auto | ]. clear. induction l; constructor; auto.
      * intros e' He. injection He as <-. exists x. split; [left; auto | rewrite E; auto].
      * split; [discriminate | ]. intros H. specialize (H x (or_introl eq_refl)). rewrite E in H. discriminate.
Qed.

Definition att_source (source : dict (dict obj)) (sl k : string) (src : obj) : Prop :=
  exists m, dget sl source = Some m /\ dget k m = Some src.

Lemma relink_cases : forall n source sl k o,
  (~ linked_to n o /\ relink n source sl (k, o) = ((k, o), Ok tt)) \/
  (exists src, linked_to n o /\ att_source source sl k src /\
     relink n source sl (k, o) = ((k, copy_mesh src o), Ok tt)) \/
  (exists e, linked_to n o /\ (forall src, ~ att_source source sl k src) /\
     relink n source sl (k, o) = ((k, o), Err (EKey e))).
Proof.
  intros n source sl k o. unfold relink. destruct (links_to n o) eqn:E.
  - right. apply links_to_spec in E. unfold dget_err, att_source.
    destruct (dget sl source) as [m | ] eqn:E1; cbn [bind].
    + destruct (dget k m) as [src | ] eqn:E2.
      * left. exists src. split; [auto | split; [exists m; auto | auto]].
      * right. exists k. split; [auto | split; [ | auto]]. intros src (m2 & A & B). injection A as <-. congruence.
    + right. exists sl. split; [auto | split; [ | auto]]. intros src (m2 & A & B). discriminate.
  - left. split; auto. rewrite <- links_to_spec, E. discriminate.
Qed.

Lemma relink_unlinked : forall n source sl k o, snd (relink n (sk_atts source) sl (k, o)) = Ok tt ->
  unlinked n source sl k o (snd (fst (relink n (sk_atts source) sl (k, o)))) .
Proof.
  intros n source sl k o H.
  destruct (relink_cases n (sk_atts source) sl k o) as [[L E] | [(src & L & (m & A & B) & E) | (e & _ & _ & E)]];
    rewrite E in *; cbn [fst snd] in *; try discriminate.
  - left. auto.
  - right. split; auto. exists m, src. split; [auto | split; [auto | apply copy_mesh_spec]].
Qed.

(** All attachments that link to the skin find a source. *)
Definition sourced (n : string) (source : skin) (s : skin) : Prop :=
  forall sl m k o, In (sl, m) (sk_atts s) -> In (k, o) m -> linked_to n o ->
    exists src, att_source (sk_atts source) sl k src.

Lemma relink_skin_spec : forall n source s s' r, relink_skin n (sk_atts source) s = (s', r) ->
  sk_name s' = sk_name s /\
  (sk_name s = Some n -> s' = s /\ r = Ok tt) /\
  (sk_name s <> Some n ->
    (r = Ok tt <-> sourced n source s) /\
    (forall e, r = Err e -> exists k, e = EKey k) /\
    (r = Ok tt -> skin_unlinked n source s s') /\
    keywise (fun sl => keywise (fun k o o' => o' = o \/ unlinked n source sl k o o')) (sk_atts s) (sk_atts s')).
Proof.
  intros n source s s' r H. unfold relink_skin in H. destruct (opt_eqb (sk_name s) (Some n)) eqn:En.
  - injection H as <- <-. apply opt_eqb_spec in En. repeat split; auto; intros; congruence.
  - apply opt_eqb_false in En.
    match type of H with context [mapM_inplace ?g (sk_atts s)] => set (f := g) in H end.
    destruct (mapM_inplace f (sk_atts s)) as [a r'] eqn:Ea. injection H as <- <-.
    split; [reflexivity | ]. split; [congruence | ]. intros _.
    destruct (mapM_inplace_all _ _ _ _ _ Ea) as (I1 & I2 & I3).
    assert (Hf : forall sl m, snd (f (sl, m)) = Ok tt <->
       forall k o, In (k, o) m -> linked_to n o -> exists src, att_source (sk_atts source) sl k src).
    { intros sl m. unfold f. cbn [fst snd].
      destruct (mapM_inplace (relink n (sk_atts source) sl) m) as [m' rm] eqn:Em. cbn [snd].
      destruct (mapM_inplace_all _ _ _ _ _ Em) as (_ & _ & J3). rewrite J3. split.
      - intros H k o Hin L. specialize (H _ Hin).
        destruct (relink_cases n (sk_atts source) sl k o) as [[L' E] | [(src & _ & A & E) | (e & _ & _ & E)]];
          [contradiction | eauto | rewrite E in H; discriminate].
      - intros H [k o] Hin.
        destruct (relink_cases n (sk_atts source) sl k o) as [[L' E] | [(src & _ & A & E) | (e & L & B & E)]];
          rewrite E; auto. exfalso. destruct (H k o Hin L) as [src Hsrc]. exact (B _ Hsrc). }
    split; [ | split; [ | split]].
    + rewrite I3. split.
      * intros H sl m k o Hm Ho L. exact (proj1 (Hf sl m) (H _ Hm) k o Ho L).
      * intros H [sl m] Hm. apply Hf. intros. eapply H; eauto.
    + intros e He. destruct (I2 _ He) as ([sl m] & Hin & Hx). unfold f in Hx. cbn [fst snd] in Hx.
      destruct (mapM_inplace (relink n (sk_atts source) sl) m) as [m' rm] eqn:Em. cbn [snd] in Hx. subst rm.
      destruct (mapM_inplace_all _ _ _ _ _ Em) as (_ & J2 & _). destruct (J2 e eq_refl) as ([k o] & _ & Hx).
      destruct (relink_cases n (sk_atts source) sl k o) as [[L' E] | [(src & _ & A & E) | (e' & L & B & E)]];
        rewrite E in Hx; cbn [snd] in Hx; try discriminate. injection Hx as <-. eauto.
    + intros ->. split; [reflexivity | ]. cbn [sk_atts sk_attachments].
      apply mapM_inplace_ok in Ea. unfold keywise. eapply Forall2_impl; [ | exact Ea].
      intros [sl m] [sl' m'] E. unfold f in E. cbn [fst snd] in E.
      destruct (mapM_inplace (relink n (sk_atts source) sl) m) as [m2 rm] eqn:Em. injection E as <- <- ->.
      cbn [fst snd]. split; auto. apply mapM_inplace_ok in Em. eapply Forall2_impl; [ | exact Em].
      intros [k o] [k' o'] E.
      assert (k' = k) as ->.
      { destruct (relink_cases n (sk_atts source) sl k o) as [[L' F] | [(src & _ & A & F) | (e' & L & B & F)]];
          rewrite F in E; congruence. }
      cbn [fst snd]. split; auto.
      pose proof (relink_unlinked n source sl k o) as U. rewrite E in U. cbn [fst snd] in U. auto.
    + cbn [sk_atts sk_attachments]. unfold keywise. eapply Forall2_impl; [ | exact I1].
      intros [sl m] [sl' m'] E. cbn [fst snd].
      assert (R : forall m, Forall2 (fun x y : string * obj => fst x = fst y /\
                     (snd y = snd x \/ unlinked n source sl (fst x) (snd x) (snd y))) m m).
      { intros m0. induction m0; constructor; auto. }
      destruct E as [E | E].
      * injection E as -> ->. split; auto.
      * unfold f in E. cbn [fst snd] in E.
        destruct (mapM_inplace (relink n (sk_atts source) sl) m) as [m2 rm] eqn:Em. injection E as -> ->.
        split; auto. destruct (mapM_inplace_all _ _ _ _ _ Em) as (J1 & _). eapply Forall2_impl; [ | exact J1].
        intros [k o] [k' o'] [E | E]; [injection E as -> ->; auto | ]. cbn [fst snd].
        destruct (relink_cases n (sk_atts source) sl k o) as [[L' F] | [(src & L & (mm & A & B) & F) | (e' & L & B & F)]];
          rewrite F in E; injection E as -> ->; split; auto.
        right. right. split; auto. exists mm, src. split; [auto | split; [auto | apply copy_mesh_spec]].
Qed.

Lemma Forall2_filter : forall A (R : A -> A -> Prop) f g l l',
  Forall2 R l l' -> (forall x y, In x l -> R x y -> f x = g y) -> Forall2 R (filter f l) (filter g l').
Proof.
  intros A R f g l l' H. induction H as [ | x y l l' Hxy H IH]; cbn [filter]; intros E; [constructor | ].
  rewrite (E x y (or_introl eq_refl) Hxy). assert (IH' := IH (fun a b Ha => E a b (or_intror Ha))).
  destruct (g y); auto.
Qed.
Lemma Forall2_in_l : forall A B (R : A -> B -> Prop) l l', Forall2 R l l' ->
  Forall2 (fun x y => In x l /\ R x y) l l'.
Proof.
  intros A B R l l' H. induction H as [ | x y l l' Hxy H IH]; constructor.
  - split; auto. left; auto.
  - eapply Forall2_impl; [ | exact IH]. intros a b [I1 I2]. split; auto. right; auto.
Qed.

Theorem remove_skin_unknown : forall d n, (forall s, In s (d_skins d) -> sk_name s <> Some n) ->
  exists w, remove_skin n d = (d, Err (EEditor w)).
Proof.
  intros d n H. unfold remove_skin. apply get_skin_none in H. rewrite H. eauto.
Qed.

Lemma keywise_same : forall n source l,
  keywise (fun sl => keywise (fun k o o' => o' = o \/ unlinked n source sl k o o')) l l.
Proof.
  intros n source l. unfold keywise. induction l as [ | [sl m] l IH]; constructor; auto. split; auto.
  cbn [snd]. clear IH. induction m as [ | [k o] m IH]; constructor; auto.
Qed.

Theorem remove_skin_known : forall d n source, first_skin d n source ->
  (has_source d n source ->
   exists d', remove_skin n d =
     (d', Ok (skin_removed_images source, skin_removed_attachments source)) /\
     d_bones d' = d_bones d /\ d_slots d' = d_slots d /\ d_events d' = d_events d /\ d_ik d' = d_ik d /\
     d_transform d' = d_transform d /\ d_path d' = d_path d /\
     Forall2 (skin_unlinked n source) (others n (d_skins d)) (d_skins d') /\
     Forall2 (fun x y => fst y = fst x /\ without_deform n (snd x) (snd y)) (d_animations d) (d_animations d')) /\
  (~ has_source d n source ->
   exists d' k, remove_skin n d = (d', Err (EKey k)) /\
     d_bones d' = d_bones d /\ d_slots d' = d_slots d /\ d_events d' = d_events d /\ d_ik d' = d_ik d /\
     d_transform d' = d_transform d /\ d_path d' = d_path d /\ d_animations d' = d_animations d /\
     Forall2 (fun s s' => sk_name s' = sk_name s /\ (sk_name s = Some n -> s' = s) /\
       keywise (fun sl => keywise (fun k o o' => o' = o \/ unlinked n source sl k o o')) (sk_atts s) (sk_atts s'))
       (d_skins d) (d_skins d')).
Proof.
  intros d n source Hs. pose proof (proj2 (get_skin_spec _ _ _) Hs) as G.
  unfold remove_skin. rewrite G.
  destruct (mapM_inplace (relink_skin n (sk_atts source)) (d_skins d)) as [skins r] eqn:E.
  destruct (mapM_inplace_all _ _ _ _ _ E) as (I1 & I2 & I3).
  assert (S : r = Ok tt <-> has_source d n source).
  { rewrite I3. split.
    - intros H s sl m k o H1 H2 H3 H4 H5. specialize (H _ H1).
      destruct (relink_skin n (sk_atts source) s) as [s' rs] eqn:F. cbn [snd] in H. subst rs.
      destruct (relink_skin_spec _ _ _ _ _ F) as (_ & _ & X). destruct (X H2) as (X1 & _).
      destruct (proj1 X1 eq_refl _ _ _ _ H3 H4 H5) as (src & m' & A & B). eauto.
    - intros H s H1. destruct (relink_skin n (sk_atts source) s) as [s' rs] eqn:F. cbn [snd].
      destruct (relink_skin_spec _ _ _ _ _ F) as (_ & X0 & X).
      destruct (opt_eqb (sk_name s) (Some n)) eqn:En.
      + apply opt_eqb_spec in En. apply X0. auto.
      + apply opt_eqb_false in En. apply (X En). intros sl m k o A B C.
        destruct (H s sl m k o H1 En A B C) as (m' & src & D1 & D2). exists src, m'. auto. }
  split; intros HS.
  - apply S in HS. subst r. eexists. split; [reflexivity | ]. repeat (split; [reflexivity | ]).
    cbn [d_skins d_animations set_skins set_animations]. split.
    + apply mapM_inplace_ok in E. apply Forall2_in_l in E.
      assert (F : Forall2 (fun s s' => sk_name s' = sk_name s /\ (sk_name s <> Some n -> skin_unlinked n source s s')) (d_skins d) skins).
      { eapply Forall2_impl; [ | exact E]. intros s s' [_ X]. destruct (relink_skin_spec _ _ _ _ _ X) as (Y1 & _ & Y2).
        split; auto. intros N. apply (Y2 N). auto. }
      unfold others, not_named.
      assert (K : Forall2 (fun s s' => sk_name s' = sk_name s /\ (sk_name s <> Some n -> skin_unlinked n source s s'))
                (filter (fun s => negb (opt_eqb (sk_name s) (Some n))) (d_skins d))
                (filter (fun s => negb (opt_eqb (sk_name s) (Some n))) skins)).
      { apply Forall2_filter; auto. intros x y _ [X _]. rewrite X. auto. }
      apply Forall2_in_l in K. eapply Forall2_impl; [ | exact K]. intros s s' [X [_ Y]]. apply Y.
      apply filter_In in X as [_ X]. apply negb_true_iff in X. apply opt_eqb_false. auto.
    + unfold dmap. clear. induction (d_animations d) as [ | [k a] l IH]; constructor; auto. cbn [fst snd].
      split; auto. repeat split; reflexivity.
  - assert (HS' : r <> Ok tt) by tauto. destruct r as [[] | e]; [congruence | ].
    destruct (I2 e eq_refl) as (s & Hin & Hx).
    destruct (relink_skin n (sk_atts source) s) as [s' rs] eqn:F. cbn [snd] in Hx. subst rs.
    destruct (relink_skin_spec _ _ _ _ _ F) as (_ & X0 & X).
    destruct (opt_eqb (sk_name s) (Some n)) eqn:En.
    { apply opt_eqb_spec in En. destruct (X0 En). discriminate. }
    apply opt_eqb_false in En. destruct (X En) as (_ & X2 & _). destruct (X2 e eq_refl) as [k ->].
    eexists _, k. split; [reflexivity | ]. repeat (split; [reflexivity | ]).
    cbn [d_skins set_skins]. eapply Forall2_impl; [ | exact I1].
    intros t t' [-> | ->].
    + split; auto. split; auto.
      apply keywise_same.
    + destruct (relink_skin n (sk_atts source) t) as [t' rt] eqn:Ft. cbn [fst].
      destruct (relink_skin_spec _ _ _ _ _ Ft) as (Y1 & Y2 & Y3). split; auto. split; [intros N; apply Y2; auto | ].
      destruct (opt_eqb (sk_name t) (Some n)) eqn:Et.
      * apply opt_eqb_spec in Et. destruct (Y2 Et) as [-> _].
        apply keywise_same.
      * apply opt_eqb_false in Et. apply Y3. auto.
Qed.

(** ** What remove_skin reports *)
Lemma image_name_spec : forall o x, names_image o x <-> image_name o = x.
Proof.
  intros o x. unfold image_name, py_or, truthy_str, names_image.
  destruct (ostr o "path") as [p | ].
  - eqb_cases p ""; cbn [negb].
    + subst. split.
      * intros [(p & A & B & C) | [_ ->]]; auto. congruence.
      * intros <-. right. auto.
    + split.
      * intros [(p' & A & B & C) | [[H | H] _]]; congruence.
      * intros <-. left. exists p. auto.
  - split.
    + intros [(p & A & _) | [_ ->]]; [discriminate | auto].
    + intros <-. right. auto.
Qed.

Lemma removed_images_spec : forall s x, In x (skin_removed_images s) <->
  exists sl k o, in_skin s sl k o /\
    (((o_cls o = CSkinMesh \/ o_cls o = CSkinLinkedMesh) /\ names_image o x) \/
     (o_cls o <> CSkinAttachment /\ o_cls o <> CSkinMesh /\ o_cls o <> CSkinLinkedMesh /\
      exists p, ostr o "path" = Some p /\ x = Some p)).
Proof.
  intros s x. unfold skin_removed_images, in_skin. rewrite in_flat_map. split.
  - intros ([sl m] & Hm & H). cbn [snd] in H. apply in_flat_map in H as ([k o] & Ho & H).
    exists sl, k, o. split; [eauto | ]. unfold removed_images_of in H. cbn [snd] in H.
    rewrite image_name_spec.
    destruct (o_cls o); cbn [In] in H;
      try (destruct (ostr o "path") as [p | ]; [ | contradiction]);
      try contradiction; destruct H as [H | []];
      try (left; split; auto; fail); right; repeat (split; [discriminate | ]); exists p; auto.
  - intros (sl & k & o & (m & Hm & Ho) & H). exists (sl, m). split; auto. cbn [snd]. apply in_flat_map.
    exists (k, o). split; auto. unfold removed_images_of. cbn [snd].
    destruct H as [[H N] | (N1 & N2 & N3 & p & Hp & ->)].
    + apply image_name_spec in N. destruct H as [-> | ->]; left; auto.
    + rewrite Hp. destruct (o_cls o); try congruence; left; auto.
Qed.

Lemma removed_attachments_of_get : forall m k, NoDup (dkeys m) ->
  dget k (removed_attachments_of m) =
  match dget k m with
  | Some o => match o_cls o with CSkinAttachment => image_name o | _ => None end
  | None => None
  end.
Proof.
  intros m k. induction m as [ | [k' o] m IH]; intros N; auto. inversion N; subst.
  unfold removed_attachments_of. cbn [flat_map fst snd]. fold (removed_attachments_of m).
  cbn [dget]. eqb_cases k k'.
  - subst k'. assert (X : dget k (removed_attachments_of m) = None).
    { rewrite IH by auto. apply dget_none in H1. rewrite H1. auto. }
    destruct (o_cls o); cbn [app]; auto. destruct (image_name o) as [p | ]; cbn [app dget]; auto.
    rewrite seqb_refl. auto.
  - rewrite <- IH by auto. destruct (o_cls o); cbn [app]; auto.
    destruct (image_name o); cbn [app dget]; auto. apply seqb_neq in E. rewrite E. auto.
Qed.

Lemma removed_attachments_spec : forall s, distinct_keys s -> forall sl k p,
  (exists m, dget sl (skin_removed_attachments s) = Some m /\ dget k m = Some p) <->
  exists o, in_skin s sl k o /\ o_cls o = CSkinAttachment /\ names_image o (Some p).
Proof.
  intros s [N1 N2] sl k p. unfold skin_removed_attachments.
  assert (G : forall m, dget sl (filter (fun kv => negb (Nat.eqb (length (snd kv)) 0))
                                   (dmap removed_attachments_of (sk_atts s))) = Some m <->
              m <> [] /\ exists m0, In (sl, m0) (sk_atts s) /\ m = removed_attachments_of m0).
  { intros m. clear N2. induction (sk_atts s) as [ | [sl' m'] l IH]; cbn [dmap map filter fst snd].
    - split; [discriminate | ]. intros (_ & m0 & [] & _).
    - inversion N1; subst. specialize (IH H2).
      assert (X : forall r, removed_attachments_of m' = r -> r <> [] \/ r = []) by (intros [ | ] _; auto; left; discriminate).
      destruct (removed_attachments_of m') as [ | x r] eqn:Er; cbn [length Nat.eqb negb].
      + fold (dmap removed_attachments_of l). rewrite IH. split.
        * intros (A & m0 & B & C). split; auto. exists m0. split; auto. right; auto.
        * intros (A & m0 & [B | B] & C); [injection B as <- <-; congruence | ]. split; auto. exists m0. auto.
      + cbn [dget]. eqb_cases sl sl'.
        * split.
          -- intros H. injection H as <-. split; [discriminate | ]. exists m'. split; [left; congruence | auto].
          -- intros (A & m0 & [B | B] & C); [injection B as <-; congruence | ].
             exfalso. apply H1. subst sl'. apply (in_map fst) in B. auto.
        * fold (dmap removed_attachments_of l). rewrite IH. split.
          -- intros (A & m0 & B & C). split; auto. exists m0. split; auto. right; auto.
          -- intros (A & m0 & [B | B] & C); [congruence | ]. split; auto. exists m0. auto. }
  split.
  - intros (m & Hm & Hk). apply G in Hm as (_ & m0 & Hin & ->).
    rewrite removed_attachments_of_get in Hk by (eapply N2; eauto).
    destruct (dget k m0) as [o | ] eqn:E; [ | discriminate]. exists o.
    destruct (o_cls o) eqn:Ec; try discriminate. split; [ | split; auto; apply image_name_spec; auto].
    exists m0. split; auto. apply dget_some_in. auto.
  - intros (o & (m0 & Hin & Ho) & Hc & Hp). apply image_name_spec in Hp.
    assert (E : dget k (removed_attachments_of m0) = Some p).
    { rewrite removed_attachments_of_get by (eapply N2; eauto).
      rewrite (in_dget _ _ _ (N2 _ _ Hin) Ho), Hc. auto. }
    exists (removed_attachments_of m0). split; auto. apply G. split.
    + intros C. rewrite C in E. discriminate.
    + eauto.
Qed.

Lemma first_skin_fun : forall d n s s', first_skin d n s -> first_skin d n s' -> s = s'.
Proof. intros d n s s' H H'. apply get_skin_spec in H, H'. congruence. Qed.

Lemma has_source_dec : forall d n s, first_skin d n s -> has_source d n s \/ ~ has_source d n s.
Proof.
  intros d n s H. destruct (mapM_inplace (relink_skin n (sk_atts s)) (d_skins d)) as [l r] eqn:E.
  pose proof (remove_skin_known d n s H) as [A B].
  assert (D : forall P Q : Prop, (P \/ ~ P) -> (P <-> Q) -> Q \/ ~ Q) by tauto.
  destruct (mapM_inplace_all _ _ _ _ _ E) as (_ & _ & I3).
  apply (D (r = Ok tt)); [destruct r as [[] | e]; [left; auto | right; discriminate] | ].
  rewrite I3. split.
  - intros X t sl m k o H1 H2 H3 H4 H5. specialize (X _ H1).
    destruct (relink_skin n (sk_atts s) t) as [s' rs] eqn:F. cbn [snd] in X. subst rs.
    destruct (relink_skin_spec _ _ _ _ _ F) as (_ & _ & Y). destruct (Y H2) as (X1 & _).
    destruct (proj1 X1 eq_refl _ _ _ _ H3 H4 H5) as (src & m' & A1 & B1). eauto.
  - intros X t H1. destruct (relink_skin n (sk_atts s) t) as [s' rs] eqn:F. cbn [snd].
    destruct (relink_skin_spec _ _ _ _ _ F) as (_ & X0 & Y).
    destruct (opt_eqb (sk_name t) (Some n)) eqn:En.
    + apply opt_eqb_spec in En. apply X0. auto.
    + apply opt_eqb_false in En. apply (Y En). intros sl m k o A1 B1 C1.
      destruct (X t sl m k o H1 En A1 B1 C1) as (m' & src & D1 & D2). exists src, m'. auto.
Qed.

Lemma remove_skin_inv : forall d n d' r, remove_skin n d = (d', Ok r) ->
  exists source, first_skin d n source /\ has_source d n source.
Proof.
  intros d n d' r H. destruct (get_skin d n) as [s | ] eqn:E.
  - apply get_skin_spec in E. exists s. split; auto. destruct (has_source_dec d n s E) as [S | S]; auto.
    destruct (remove_skin_known d n s E) as [_ B]. destruct (B S) as (d2 & k & E2 & _). congruence.
  - pose proof (proj1 (get_skin_none d n) E) as E0. destruct (remove_skin_unknown d n E0) as [w X]. congruence.
Qed.

Theorem remove_skin_linked : forall d n d' r, remove_skin n d = (d', Ok r) ->
  exists source, first_skin d n source /\
    Forall2 (skin_unlinked n source) (others n (d_skins d)) (d_skins d').
Proof.
  intros d n d' r H. destruct (remove_skin_inv d n d' r H) as (s & H1 & H2). exists s. split; auto.
  destruct (remove_skin_known d n s H1) as [A _]. destruct (A H2) as (d2 & E & R). rewrite E in H.
  injection H as <- <-. tauto.
Qed.
Theorem remove_skin_copied : forall d n d' r source, remove_skin n d = (d', Ok r) -> first_skin d n source ->
  Forall2 (skin_unlinked n source) (others n (d_skins d)) (d_skins d').
Proof.
  intros d n d' r source H F. destruct (remove_skin_linked d n d' r H) as (s & A & B).
  rewrite (first_skin_fun _ _ _ _ F A). auto.
Qed.

Lemma Forall2_in_r : forall A B (R : A -> B -> Prop) l l', Forall2 R l l' -> forall y, In y l' -> exists x, In x l /\ R x y.
Proof.
  intros A B R l l' H. induction H as [ | a b l l' Hab H IH]; intros y Hy; [contradiction | ].
  destruct Hy as [<- | Hy]; [exists a; split; [left; auto | auto] | ].
  destruct (IH _ Hy) as (x & A1 & A2). exists x. split; [right; auto | auto].
Qed.

Theorem remove_skin_no_link : forall d n d' r source, remove_skin n d = (d', Ok r) -> first_skin d n source ->
  (forall sl k o, in_skin source sl k o -> ~ linked_to n o) ->
  forall sl k o, skin_attachment d' sl k o -> ~ linked_to n o.
Proof.
  intros d n d' r source H F N sl k o (s' & m' & Hs & Hm & Ho) L.
  pose proof (remove_skin_copied d n d' r source H F) as R.
  destruct (Forall2_in_r _ _ _ _ _ R s' Hs) as (s & _ & _ & K).
  destruct (Forall2_in_r _ _ _ _ _ K _ Hm) as ([sl0 m] & _ & E & K2). cbn [fst snd] in E, K2. subst sl0.
  destruct (Forall2_in_r _ _ _ _ _ K2 _ Ho) as ([k0 o0] & _ & E & U). cbn [fst snd] in E, U. subst k0.
  destruct U as [[U ->] | (_ & ms & src & A & B & C)]; [contradiction | ].
  apply (N sl k src).
  - exists ms. split; apply dget_some_in; auto.
  - destruct C as (C1 & C2 & C3). destruct L as [L1 L2]. split; [congruence | ].
    rewrite <- C3; auto. cbn. intuition discriminate.
Qed.

Theorem remove_skin_reports : forall d n d' images atts, remove_skin n d = (d', Ok (images, atts)) ->
  exists source, first_skin d n source /\
   (forall x, In x images <-> exists sl k o, in_skin source sl k o /\
      (((o_cls o = CSkinMesh \/ o_cls o = CSkinLinkedMesh) /\ names_image o x) \/
       (o_cls o <> CSkinAttachment /\ o_cls o <> CSkinMesh /\ o_cls o <> CSkinLinkedMesh /\
        exists p, ostr o "path" = Some p /\ x = Some p))) /\
   (distinct_keys source -> forall sl k p,
      (exists m, dget sl atts = Some m /\ dget k m = Some p) <->
      exists o, in_skin source sl k o /\ o_cls o = CSkinAttachment /\ names_image o (Some p)).
Proof.
  intros d n d' images atts H. destruct (remove_skin_inv d n d' _ H) as (s & H1 & H2). exists s. split; auto.
  destruct (remove_skin_known d n s H1) as [A _]. destruct (A H2) as (d2 & E & _). rewrite E in H.
  injection H as _ <- <-. split; [apply removed_images_spec | apply removed_attachments_spec].
Qed.
