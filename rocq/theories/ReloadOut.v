(** What clean-ups export after saving and loading. *)
From Verif Require Import PyBase PyFacts PyNum Json Version Classes ClassFacts DocFacts ReloadFacts SpecDoc Graph SpineGraph DrawOrder SpecDraw AnimData Editor SpecAnim SpecEditor SpecReload
  SpecFail SpecAny AnimFacts EditorFacts EditorData EditorBuild EditorImages EditorReload EditorHist EditorOut EditorClean EditorRemoved EditorFail EditorAny EditorRepair ReloadImages AlikeFacts ReloadClean.
Open Scope string_scope.

(** ** Objects that export the same, whatever is assigned to both *)
Definition entry (defs : dict val) (kv kv' : string * val) : Prop :=
  fst kv' = fst kv /\ exported defs (fst kv) (snd kv') = exported defs (fst kv) (snd kv) /\ (exported defs (fst kv) (snd kv) = true -> snd kv' = snd kv).
Definition twin (ver : version) (o o' : obj) : Prop := o_cls o' = o_cls o /\ Forall2 (entry (default_values (o_cls o) ver)) (o_attrs o) (o_attrs o').
Lemma entries_export : forall defs d d', Forall2 (entry defs) d d' -> export_attrs defs d' = export_attrs defs d.
Proof.
  intros defs d d' F. induction F as [ | [k v] [k' v'] d d' (H1 & H2 & H3) F IH]; [reflexivity | ]. cbn [fst snd] in *. subst k'. unfold export_attrs in *. cbn [filter fst snd].
  rewrite H2. destruct (exported defs k v); [ | exact IH]. rewrite H3 by reflexivity. rewrite IH. reflexivity.
Qed.
Lemma twin_json : forall ver o o', twin ver o o' -> obj_json ver o' = obj_json ver o.
Proof. intros ver o o' [E F]. unfold obj_json. rewrite E. f_equal. apply entries_export. exact F. Qed.
Lemma entries_dset : forall defs k v d d', Forall2 (entry defs) d d' -> Forall2 (entry defs) (dset k v d) (dset k v d').
Proof.
  intros defs k v d d' F. induction F as [ | [k1 v1] [k2 v2] d d' H F IH]; cbn [dset]; [constructor; [split; auto | constructor] | ].
  pose proof H as (E & _ & _). cbn [fst] in E. subst k2. destruct (String.eqb k k1); constructor; auto. split; auto.
Qed.
Lemma twin_oset : forall ver o o' k v, twin ver o o' -> twin ver (oset o k v) (oset o' k v).
Proof. intros ver o o' k v [E F]. split; [exact E | ]. cbn [oset o_cls o_attrs]. apply entries_dset. exact F. Qed.
Lemma entries_of : forall (P : string -> val -> val -> Prop) d d', dkeys d' = dkeys d -> NoDup (dkeys d) ->
  (forall k, In k (dkeys d) -> P k (get_or_none k d) (get_or_none k d')) -> Forall2 (fun kv kv' => fst kv' = fst kv /\ P (fst kv) (snd kv) (snd kv')) d d'.
Proof.
  intros P d. induction d as [ | [k v] d IH]; intros [ | [k' v'] d'] E N Q; try discriminate E; constructor.
  - cbn [dkeys map fst] in E. injection E as E _. cbn [fst snd]. split; [exact E | ]. subst k'. specialize (Q k (or_introl eq_refl)). unfold get_or_none in Q. cbn [dget] in Q. rewrite String.eqb_refl in Q. exact Q.
  - cbn [dkeys map fst] in E, N. injection E as E1 E. subst k'. apply NoDup_cons_iff in N as [N1 N]. apply IH; auto. intros x Hx. specialize (Q x (or_intror Hx)). unfold get_or_none in *. cbn [dget] in Q.
    destruct (String.eqb_spec x k) as [Ex | _]; [ | exact Q]. destruct N1. rewrite <- Ex. exact Hx.
Qed.
Lemma twin_reload : forall ver c o, wf_obj c o -> twin ver o (reload ver o).
Proof.
  intros ver c o W. pose proof W as (Ec & Ek & _). split; [reflexivity | ].
  assert (K : dkeys (o_attrs (reload ver o)) = dkeys (o_attrs o)).
  { unfold reload, obj_set_defaults, raw, fill_defaults, dkeys. cbn [o_attrs o_cls]. rewrite !map_map. cbn [fst]. rewrite map_id, Ec. symmetry. exact Ek. }
  eapply Forall2_impl; [ | apply (entries_of (fun k v v' => exported (default_values (o_cls o) ver) k v' = exported (default_values (o_cls o) ver) k v /\ (exported (default_values (o_cls o) ver) k v = true -> v' = v)))].
  - intros [k v] [k' v'] (H1 & H2 & H3). split; auto.
  - exact K.
  - eapply wf_NoDup; eauto.
  - intros k Hk. rewrite Ek in Hk. pose proof (oget_reload ver c o k W Hk) as G. unfold oget in G. rewrite Ec. change (get_or_none k (o_attrs o)) with (match dget k (o_attrs o) with Some v => v | None => VNone end) in *.
    change (get_or_none k (o_attrs (reload ver o))) with (match dget k (o_attrs (reload ver o)) with Some v => v | None => VNone end). rewrite G. split; [apply exported_reload | ]. intros ->. reflexivity.
Qed.

(** ** Draw orders *)
Definition offset_twin (ver : version) (o o' : obj) : Prop := twin ver o o' /\ offset_alike o o'.
Lemma twin_dset : forall ver k v v' d d', drel (offset_twin ver) d d' -> offset_twin ver v v' -> drel (offset_twin ver) (dset k v d) (dset k v' d').
Proof.
  intros ver k v v' d d' F T. unfold drel in *. induction F as [ | [k1 v1] [k2 v2] d d' [E H] F IH]; cbn [dset]; [constructor; [auto | constructor] | ].
  cbn [fst snd] in E, H. subst k2. destruct (String.eqb k k1); constructor; auto.
Qed.
Lemma twin_dget : forall ver k d d', drel (offset_twin ver) d d' ->
  (dget k d = None /\ dget k d' = None) \/ (exists o o', dget k d = Some o /\ dget k d' = Some o' /\ offset_twin ver o o').
Proof.
  intros ver k d d' F. unfold drel in F. induction F as [ | [k1 v1] [k2 v2] d d' [E H] F IH]; [left; auto | ]. cbn [fst snd] in E, H. subst k2. cbn [dget].
  destruct (String.eqb k k1); [right; eauto | exact IH].
Qed.
Lemma twin_slot : forall ver o o', offset_twin ver o o' -> ostr o' "slot" = ostr o "slot".
Proof. intros ver o o' [_ [E _]]. unfold ostr. rewrite E. reflexivity. Qed.
Lemma twin_by_slot : forall ver l l' s, Forall2 (offset_twin ver) l l' -> offsets_by_slot l = Ok s -> exists s', offsets_by_slot l' = Ok s' /\ drel (offset_twin ver) s s'.
Proof.
  intros ver l l' s F. unfold offsets_by_slot. match goal with |- context [foldM ?f0 _ l] => set (f := f0) end.
  assert (G : forall d d', drel (offset_twin ver) d d' -> foldM f d l = Ok s -> exists s', foldM f d' l' = Ok s' /\ drel (offset_twin ver) s s'); [ | intros E; apply (G [] []); [constructor | exact E]].
  induction F as [ | o o' l l' T F IH]; intros d d' D E.
  - cbn [foldM] in *. injection E as <-. exists d'. auto.
  - cbn [foldM] in *. assert (Q : f d' o' = match ostr o "slot" with Some n => Ok (dset n o' d') | None => Ok d' end) by (unfold f; rewrite (twin_slot _ _ _ T); reflexivity). rewrite Q.
    change (f d o) with (match ostr o "slot" with Some n => Ok (dset n o d) | None => Ok d end) in E. destruct (ostr o "slot") as [n | ]; cbn [bind] in *.
    + eapply IH; [ | exact E]. apply twin_dset; auto.
    + eapply IH; [ | exact E]. exact D.
Qed.
Lemma twin_operations : forall ver s s' names i, drel (offset_twin ver) s s' -> operations s' i names = operations s i names.
Proof.
  intros ver s s' names. induction names as [ | n names IH]; intros i D; [reflexivity | ]. cbn [operations].
  destruct (twin_dget ver n s s' D) as [[-> ->] | (o & o' & -> & -> & _ & _ & E)]; [apply IH; exact D | ]. rewrite E, (IH _ D). reflexivity.
Qed.
Lemma twin_mem : forall ver s s' n, drel (offset_twin ver) s s' -> dmem n s' = dmem n s.
Proof. intros ver s s' n D. unfold dmem. destruct (twin_dget ver n s s' D) as [[-> ->] | (o & o' & -> & -> & _)]; reflexivity. Qed.
Lemma twin_adjust : forall ver rem final names s s' l, drel (offset_twin ver) s s' -> adjust_offsets rem final names s = Ok l ->
  exists l', adjust_offsets rem final names s' = Ok l' /\ Forall2 (offset_twin ver) l l'.
Proof.
  intros ver rem final names s s' l D. unfold adjust_offsets. intros E. cbv zeta in *.
  match type of E with bind (mapM ?f s) _ = _ => set (f0 := f) in * end.
  assert (M : forall m, mapM f0 s = Ok m -> exists m', mapM f0 s' = Ok m' /\ drel (offset_twin ver) m m').
  { clear E. unfold drel in *. induction D as [ | [k o] [k' o'] s s' [Ek T] D IH]; intros m E; [exists []; cbn in *; injection E as <-; split; [reflexivity | constructor] | ].
    cbn [fst snd] in Ek, T. subst k'. cbn [mapM] in *. unfold f0 at 1 in E. unfold f0 at 1. destruct (smem k rem); cbn [bind] in *.
    - destruct (mapM f0 s) as [m1 | x]; [ | discriminate E]. cbn [bind] in E. injection E as <-. destruct (IH _ eq_refl) as (m' & -> & F). eexists. split; [reflexivity | ]. constructor; auto.
    - destruct (py_index (filter _ names) k) as [i1 | x]; [ | discriminate E]. cbn [bind] in *. destruct (py_index (filter _ final) k) as [i2 | x]; [ | discriminate E]. cbn [bind] in *.
      destruct (mapM f0 s) as [m1 | x]; [ | discriminate E]. cbn [bind] in E. injection E as <-. destruct (IH _ eq_refl) as (m' & -> & F). eexists. split; [reflexivity | ]. constructor; [ | exact F].
      cbn [fst snd]. split; [reflexivity | ]. destruct T as [T1 [T2 T3]]. split; [apply twin_oset; exact T1 | ]. split; rewrite !SkinFacts.oget_oset; cbn; auto. }
  destruct (mapM f0 s) as [m | x]; [ | discriminate E]. cbn [bind] in E. injection E as <-. destruct (M _ eq_refl) as (m' & -> & F). cbn [bind]. eexists. split; [reflexivity | ]. clear - F.
  unfold drel in F. induction F as [ | [k o] [k' o'] m m' [_ T] F IH]; [constructor | ]. cbn [map snd filter]. cbn [snd] in T. rewrite (twin_slot _ _ _ T). destruct T as [T1 [T2 T3]]. rewrite T3.
  match goal with |- context [if ?b then _ else _] => destruct b end; [constructor; [split; [exact T1 | split; auto] | exact IH] | exact IH].
Qed.
Definition order_twin (ver : version) (k k' : draw_order) : Prop :=
  entry (default_values CDrawOrder ver) ("time", do_time k) ("time", do_time k') /\ Forall2 (offset_twin ver) (do_offsets k) (do_offsets k').
Lemma twin_remove : forall ver rem names k k' y y', order_twin ver k k' -> remove_offsets_with_ids rem names k = (y, Ok tt) -> remove_offsets_with_ids rem names k' = (y', Ok tt) -> order_twin ver y y'.
Proof.
  intros ver rem names k k' y y' [Tt F] E E'. unfold remove_offsets_with_ids in E, E'. destruct (offsets_by_slot (do_offsets k)) as [s | x] eqn:S; [ | discriminate E]. cbn [bind] in E.
  destruct (twin_by_slot _ _ _ _ F S) as (s' & S' & D). rewrite S' in E'. cbn [bind] in E'.
  assert (Ro : reorder_slots_with_offset s' names = reorder_slots_with_offset s names).
  { unfold reorder_slots_with_offset. rewrite (twin_operations ver s s' names 0 D). destruct (operations s 0 names) as [l | x]; [ | reflexivity]. cbn [bind]. do 2 f_equal.
    apply filter_ext. intros n. rewrite (twin_mem ver s s' n D). reflexivity. }
  rewrite Ro in E'. destruct (reorder_slots_with_offset s names) as [final | x]; [ | discriminate E]. cbn [bind] in E, E'.
  destruct (forallb has_slot (do_offsets k)); [ | discriminate E]. destruct (forallb has_slot (do_offsets k')); [ | discriminate E'].
  destruct (adjust_offsets rem final names s) as [l | x] eqn:A; [ | discriminate E]. destruct (twin_adjust _ _ _ _ _ _ _ D A) as (l' & A' & F'). rewrite A' in E'.
  injection E as <-. injection E' as <-. split; [exact Tt | exact F'].
Qed.
Lemma Forall2_json : forall A (f : A -> val) l l', Forall2 (fun x y => f y = f x) l l' -> map f l' = map f l.
Proof. intros A f l l' F. induction F; cbn [map]; congruence. Qed.
Lemma jlist_eq : forall A (f : A -> val) l l', Forall2 (fun x y => f y = f x) l l' -> jlist f l' = jlist f l.
Proof. intros A f l l' F. unfold jlist. f_equal. apply Forall2_json. exact F. Qed.
Lemma drel_json : forall A (f : A -> val) d d', drel (fun x y => f y = f x) d d' -> jdict f d' = jdict f d.
Proof.
  intros A f d d' F. unfold jdict, dmap. f_equal. unfold drel in F. induction F as [ | [k v] [k' v'] d d' [E H] F IH]; [reflexivity | ]. cbn [fst snd map] in *. subst k'. rewrite H, IH. reflexivity.
Qed.
Lemma order_json : forall ver k k', order_twin ver k k' -> draw_order_json ver k' = draw_order_json ver k.
Proof.
  intros ver k k' [Tt F]. unfold draw_order_json, export. f_equal. apply entries_export. constructor; [exact Tt | ]. constructor; [ | constructor].
  rewrite (jlist_eq _ (obj_json ver) (do_offsets k) (do_offsets k')); [split; auto | ]. eapply Forall2_impl; [ | exact F]. intros o o' [T _]. apply twin_json. exact T.
Qed.

(** ** Animations and documents *)
Record anim_twin (ver : version) (a a' : animation) : Prop := {
  at_ik : jdict (jlist (obj_json ver)) (an_ik a') = jdict (jlist (obj_json ver)) (an_ik a);
  at_draw : Forall2 (order_twin ver) (an_drawOrder a) (an_drawOrder a');
  at_bones : jdict (bone_timeline_json ver) (an_bones a') = jdict (bone_timeline_json ver) (an_bones a);
  at_slots : drel (fun t t' => slot_timeline_json ver t' = slot_timeline_json ver t) (an_slots a) (an_slots a');
  at_events : jlist (obj_json ver) (an_events a') = jlist (obj_json ver) (an_events a);
  at_transform : jdict (jlist (obj_json ver)) (an_transform a') = jdict (jlist (obj_json ver)) (an_transform a);
  at_path : jdict (jdict (jlist (obj_json ver))) (an_path a') = jdict (jdict (jlist (obj_json ver))) (an_path a);
  at_deform : drel (drel (drel (fun l l' => jlist (obj_json ver) l' = jlist (obj_json ver) l))) (an_deform a) (an_deform a') }.
Lemma drel_impl : forall A (R Q : A -> A -> Prop) d d', (forall x y, R x y -> Q x y) -> drel R d d' -> drel Q d d'.
Proof. intros A R Q d d' I F. unfold drel in *. eapply Forall2_impl; [ | exact F]. intros x y [E H]. auto. Qed.
Lemma anim_twin_json : forall ver a a', anim_twin ver a a' -> animation_json ver a' = animation_json ver a.
Proof.
  intros ver a a' [H1 H2 H3 H4 H5 H6 H7 H8]. unfold animation_json. rewrite H1, H3, H5, H6, H7, (drel_json _ _ _ _ H4).
  rewrite (jlist_eq _ (draw_order_json ver) (an_drawOrder a) (an_drawOrder a')); [ | eapply Forall2_impl; [ | exact H2]; apply order_json].
  rewrite (drel_json _ (jdict (jdict (jlist (obj_json ver)))) (an_deform a) (an_deform a')); [reflexivity | ].
  eapply drel_impl; [ | exact H8]. intros x y D. apply drel_json. eapply drel_impl; [ | exact D]. intros. apply drel_json. assumption.
Qed.
Definition skin_twin (ver : version) (s s' : skin) : Prop :=
  sk_name s' = sk_name s /\ drel (drel (fun o o' => obj_json ver o' = obj_json ver o)) (sk_atts s) (sk_atts s').
Record data_twin (ver : version) (d d' : anim_data) : Prop := {
  dt_bones : Forall2 (fun o o' => obj_json ver (reload ver o') = obj_json ver (reload ver o)) (d_bones d) (d_bones d');
  dt_slots : d_slots d' = d_slots d;
  dt_skins : Forall2 (skin_twin ver) (d_skins d) (d_skins d');
  dt_events : jdict (obj_json ver) (d_events d') = jdict (obj_json ver) (d_events d);
  dt_ik : Forall2 (fun o o' => obj_json ver (reload ver o') = obj_json ver (reload ver o)) (d_ik d) (d_ik d');
  dt_transform : jlist (obj_json ver) (d_transform d') = jlist (obj_json ver) (d_transform d);
  dt_path : jlist (obj_json ver) (d_path d') = jlist (obj_json ver) (d_path d);
  dt_anims : drel (anim_twin ver) (d_animations d) (d_animations d') }.

(** ** Clean-ups of such documents *)
Lemma drel_drop : forall A (R : A -> A -> Prop) l l' d d', (forall x, In x l <-> In x l') -> drel R d d' -> drel R (drop_keys l d) (drop_keys l' d').
Proof.
  intros A R l l' d d' E F. rewrite (drop_keys_same _ l l') by auto. unfold drel, drop_keys in *. induction F as [ | [k v] [k' v'] d d' [Ek H] F IH]; [constructor | ].
  cbn [fst snd filter] in *. subst k'. destruct (negb (smem k l')); [constructor; auto | exact IH].
Qed.
Lemma drel_dmap : forall A B (R : A -> A -> Prop) (Q : B -> B -> Prop) f g d d', (forall x y, R x y -> Q (f x) (g y)) -> drel R d d' -> drel Q (dmap f d) (dmap g d').
Proof. intros A B R Q f g d d' I F. unfold drel, dmap in *. induction F as [ | [k v] [k' v'] d d' [Ek H] F IH]; cbn [map fst snd] in *; constructor; [split; [exact Ek | apply I; exact H] | exact IH]. Qed.
Lemma twin_is_skin : forall ver l l' i, Forall2 (skin_twin ver) l l' -> is_skin l' i = is_skin l i.
Proof. intros ver l l' i F. unfold is_skin. induction F as [ | s s' l l' [E _] F IH]; [reflexivity | ]. cbn [existsb]. rewrite E, IH. reflexivity. Qed.
Lemma smem_same : forall x l l', (forall y, In y l <-> In y l') -> smem x l = smem x l'.
Proof.
  intros x l l' E. destruct (smem x l) eqn:A, (smem x l') eqn:B; auto.
  - apply smem_in, E, smem_in in A. congruence.
  - apply smem_in, E, smem_in in B. congruence.
Qed.
Lemma unset_same : forall l l' s, (forall y, In y l <-> In y l') -> unset_slot l s = unset_slot l' s.
Proof. intros l l' s E. unfold unset_slot. destruct (ostr s "attachment") as [a | ]; [ | reflexivity]. rewrite (smem_same _ l l' E). reflexivity. Qed.
Lemma jlist_twice : forall ver l l', Forall2 (fun o o' => obj_json ver (reload ver o') = obj_json ver (reload ver o)) l l' ->
  jlist (obj_json ver) (map (reload ver) l') = jlist (obj_json ver) (map (reload ver) l).
Proof. intros ver l l' F. unfold jlist. f_equal. induction F; cbn [map]; congruence. Qed.
Lemma cleaned_json : forall ver rem rem' atts atts' names bs ss bs' is is' d d' x x', data_twin ver d d' -> (forall n, In n rem <-> In n rem') -> (forall k, In k atts <-> In k atts') ->
  cleaned rem atts names (map (reload ver) bs) ss (map (reload ver) is) d x -> cleaned rem' atts' names (map (reload ver) bs') ss (map (reload ver) is') d' x' ->
  jlist (obj_json ver) (map (reload ver) bs') = jlist (obj_json ver) (map (reload ver) bs) -> jlist (obj_json ver) (map (reload ver) is') = jlist (obj_json ver) (map (reload ver) is) ->
  data_json ver x' = data_json ver x.
Proof.
  intros ver rem rem' atts atts' names bs ss bs' is is' d d' x x' [T1 T2 T3 T4 T5 T6 T7 T8] Er Ea [C1 C2 C3 C4 C5 C6 C7 C8] [Q1 Q2 Q3 Q4 Q5 Q6 Q7 Q8] Lb Li.
  unfold data_json, data_attrs. rewrite C1, C2, C3, C4, C5, C6, C7, Q1, Q2, Q3, Q4, Q5, Q6, Q7, T4, T6, T7.
  rewrite Lb, Li, (map_ext _ _ (fun s => unset_same _ _ s Ea) ss).
  assert (Sk : jlist (skin_json ver) (map (clean_skin rem' atts') (d_skins d')) = jlist (skin_json ver) (map (clean_skin rem atts) (d_skins d))).
  { unfold jlist. f_equal. clear - T3 Er Ea. induction T3 as [ | s s' l l' [E D] F IH]; [reflexivity | ]. cbn [map]. rewrite IH. f_equal. unfold skin_json, clean_skin. cbn [sk_name sk_attachments]. rewrite E.
    rewrite (drel_json _ (jdict (obj_json ver)) (dmap (drop_keys atts) (drop_keys rem (sk_atts s))) (dmap (drop_keys atts') (drop_keys rem' (sk_atts s')))); [reflexivity | ].
    eapply drel_dmap; [ | apply drel_drop; [exact Er | exact D]]. intros m m' M. apply drel_json. apply drel_drop; [exact Ea | exact M]. }
  rewrite Sk.
  assert (An : jdict (animation_json ver) (d_animations x') = jdict (animation_json ver) (d_animations x)).
  { apply drel_json. clear - T3 T8 C8 Q8 Er Ea. revert x x' C8 Q8. generalize (d_animations d), (d_animations d'), T8. clear T8. intros la la' F x x'. generalize (d_animations x), (d_animations x'). clear x x'.
    unfold drel in *. induction F as [ | [k a] [k' a'] la la' [E A] F IH]; intros lx lx' C Q; inversion C as [ | ? [j b] ? lb [Ej Cb] Cl]; inversion Q as [ | ? [j' b'] ? lb' [Ej' Cb'] Cl']; subst; [constructor | ].
    cbn [fst snd] in *. subst. constructor; [ | apply IH; auto]. cbn [fst snd]. split; [reflexivity | ]. apply anim_twin_json.
    destruct A as [A1 A2 A3 A4 A5 A6 A7 A8], Cb as [B1 B2 B3 B4 B5 B6 B7 B8], Cb' as [D1 D2 D3 D4 D5 D6 D7 D8]. constructor; try congruence.
    - revert D7. generalize (an_drawOrder b'). revert B7. generalize (an_drawOrder b). clear - A2 Er. induction A2 as [ | y y' l l' T F IH]; intros lb B lb' D; inversion B as [ | ? z ? lz Ez Fz]; inversion D as [ | ? z' ? lz' Ez' Fz']; subst; [constructor | ].
      constructor; [ | apply IH; auto]. eapply twin_remove; [exact T | exact Ez | ]. rewrite (remove_offsets_same rem rem') by auto. exact Ez'.
    - rewrite B6, D6. apply drel_drop; auto.
    - rewrite B8, D8. clear - A8 T3 Er Ea. unfold drel in A8. induction A8 as [ | [i m] [i' m'] l l' [E M] F IH]; cbn [map]; [constructor | ]. constructor; [ | exact IH]. unfold clean_deform. cbn [fst snd] in *. subst i'.
      split; [reflexivity | ]. rewrite (twin_is_skin _ _ _ i T3). destruct (is_skin (d_skins d) i); [ | apply drel_drop; auto].
      eapply drel_dmap; [ | apply drel_drop; [exact Er | exact M]]. intros y y' Y. apply drel_drop; [exact Ea | exact Y]. }
  rewrite An. reflexivity.
Qed.

(** ** The reloaded document *)
Lemma Forall2_of_map : forall A B (R : A -> B -> Prop) (P : A -> Prop) f l, (forall x, P x -> R x (f x)) -> Forall P l -> Forall2 R l (map f l).
Proof. intros A B R P f l H F. induction F; cbn [map]; constructor; auto. Qed.
Lemma drel_of_dmap : forall A (R : A -> A -> Prop) (P : A -> Prop) f d, (forall x, P x -> R x (f x)) -> dall P d -> drel R d (dmap f d).
Proof.
  intros A R P f d H F. unfold drel, dmap. eapply Forall2_of_map; [ | exact F]. intros [k v] Q. cbn [fst snd] in *. split; [reflexivity | apply H; exact Q].
Qed.
Lemma jlist_reload : forall ver c l, Forall (loaded_obj ver c) l -> jlist (obj_json ver) (map (obj_set_defaults ver) (map (raw ver) l)) = jlist (obj_json ver) l.
Proof. intros ver c l F. apply (jlist_rl ver c). eapply Forall_impl; [ | exact F]. intros o [W _]. exact W. Qed.
Lemma reload_order_twin : forall ver k, draw_order_all (loaded_obj ver) k -> time_ok ver k -> order_twin ver k (draw_order_defaults ver (draw_order_raw ver k)).
Proof.
  intros ver k F Ht. split.
  - split; [reflexivity | ]. cbn [fst snd draw_order_defaults draw_order_raw do_time do_offsets]. set (defs := default_values CDrawOrder ver) in *. unfold time_ok in Ht. fold defs in Ht.
    assert (Dd : dget "time" defs = Some (VInt 0) \/ dget "time" defs = None) by (unfold defs, default_values; destruct (ver_ge ver SPINE_3_8); [left | right]; reflexivity).
    destruct (exported defs "time" (do_time k)) eqn:X.
    + assert (N : do_time k <> VNone).
      { destruct Dd as [Dd | Dd]; [ | auto]. intros N. rewrite N in X. unfold exported in X. cbn [is_none] in X. rewrite Dd in X. discriminate X. }
      assert (Q : (match do_time k with VNone => match dget "time" defs with Some v => v | None => VNone end | v => v end) = do_time k) by (destruct (do_time k); congruence).
      assert (Q2 : match do_time k, dget "time" defs with VNone, Some v => v | v, _ => v end = do_time k) by (destruct (do_time k); congruence).
      rewrite Q2. auto.
    + split; [ | discriminate]. cbv iota. destruct Dd as [Dd | Dd]; unfold exported, get_or_none in *; rewrite Dd in *; cbn [is_none] in *; [reflexivity | ].
      destruct (do_time k) eqn:Et; try discriminate X. destruct (Ht eq_refl eq_refl).
  - unfold draw_order_defaults, draw_order_raw. cbn [do_offsets]. rewrite map_reload. eapply Forall2_of_map; [ | exact F]. intros o L. split; [ | apply reload_offset; exact L]. destruct L as [W _]. eapply twin_reload; eauto.
Qed.
Lemma reload_anim_twin : forall ver a, animation_all (loaded_obj ver) a -> Forall (time_ok ver) (an_drawOrder a) -> anim_twin ver a (animation_defaults ver (animation_raw ver a)).
Proof.
  intros ver a (H1 & H2 & H3 & H4 & H5 & H6 & H7 & H8) Ht.
  assert (E : forall c d, dall (Forall (loaded_obj ver c)) d -> jdict (jlist (obj_json ver)) (dmap (map (obj_set_defaults ver)) (dmap (map (raw ver)) d)) = jdict (jlist (obj_json ver)) d).
  { intros c d D. rewrite dmap_dmap. eapply jdict_ext2; [ | exact D]. intros l L. eapply jlist_reload; eauto. }
  assert (W : forall c l, Forall (loaded_obj ver c) l -> Forall (wf_obj c) l) by (intros c l L; eapply Forall_impl; [ | exact L]; intros o [Wo _]; exact Wo).
  unfold animation_defaults, animation_raw. constructor; cbn [an_ik an_drawOrder an_bones an_slots an_events an_transform an_path an_deform].
  - apply (E _ _ H1).
  - rewrite map_map. apply Forall2_of_map with (P := fun k => draw_order_all (loaded_obj ver) k /\ time_ok ver k); [intros k [K1 K2]; apply reload_order_twin; auto | ]. rewrite Forall_forall in *. auto.
  - rewrite dmap_dmap. eapply jdict_ext2; [ | exact H3]. intros t (B1 & B2 & B3 & B4). apply bone_timeline_same. repeat split; auto.
  - rewrite dmap_dmap. eapply drel_of_dmap; [ | exact H4]. intros t (B1 & B2 & B3). apply slot_timeline_same. repeat split; auto.
  - eapply jlist_reload; exact H5.
  - apply (E _ _ H6).
  - rewrite dmap_dmap. eapply jdict_ext2; [ | exact H7]. intros d D. apply (E _ _ D).
  - rewrite dmap_dmap. eapply drel_of_dmap; [ | exact H8]. intros d D. rewrite dmap_dmap. eapply drel_of_dmap; [ | exact D]. intros d' D'. rewrite dmap_dmap. eapply drel_of_dmap; [ | exact D'].
    intros l L. eapply jlist_reload; exact L.
Qed.
Lemma slot_reload : forall ver s, loaded_obj ver CSlot s -> reload ver s = s.
Proof. intros ver s L. unfold reload. rewrite slot_raw by apply L. exact (loaded_settled _ _ _ L). Qed.
Section Reloaded.
  Variables (e0 : editor) (ops : list eop) (e e' : editor).
  Hypothesis H : any_calls e0 ops e.
  Hypothesis R : mk_editor (editor_json e) = Ok e'.
  Hypothesis T : no_null_time (e_data e) \/ ver_ge (e_ver e) SPINE_3_8 = true.

  Lemma reloaded_twin : data_twin (e_ver e) (e_data e) (e_data e').
  Proof.
    pose proof (calls_from _ _ _ H) as C. pose proof (cf_dinv _ _ C) as D. destruct (any_reloaded _ _ _ H e' R T) as (_ & V & _ & _). pose proof (reloaded_dinv _ _ _ _ H R T) as D'. rewrite V in D'.
    pose proof (mk_editor_inv _ _ R) as (E & _ & _). pose proof (own_needed e0 e C _ E) as Ow. pose proof (hist_atts e0 e C) as At.
    pose proof (reloaded_data _ _ _ _ H R) as X. set (ver := e_ver e) in *.
    assert (Rl : forall c l, Forall (loaded_obj ver c) l -> Forall (loaded_obj ver c) (map (reload ver) l) -> Forall2 (fun o o' => obj_json ver (reload ver o') = obj_json ver (reload ver o)) l (map (reload ver) l)).
    { intros c l L L'. apply Forall2_of_map with (P := fun o => loaded_obj ver c (reload ver o)); [intros o [W _]; eapply reload_json; exact W | ]. rewrite Forall_map in L'. exact L'. }
    pose proof (f_equal d_bones X) as Xb. pose proof (f_equal d_slots X) as Xs. pose proof (f_equal d_skins X) as Xk. pose proof (f_equal d_events X) as Xe. pose proof (f_equal d_ik X) as Xi.
    pose proof (f_equal d_transform X) as Xt. pose proof (f_equal d_path X) as Xp. pose proof (f_equal d_animations X) as Xa.
    unfold reload_data, data_defaults, data_raw, trim_data, set_skins in Xb, Xs, Xk, Xe, Xi, Xt, Xp, Xa. cbn [d_bones d_slots d_skins d_events d_ik d_transform d_path d_animations] in *.
    rewrite map_reload in Xb, Xs, Xi. constructor.
    - pose proof (di_bones _ _ D') as L'. rewrite Xb in *. apply (Rl CBone); [exact (di_bones _ _ D) | exact L'].
    - rewrite Xs. rewrite <- (map_id (d_slots (e_data e))) at 2. apply map_ext_in. intros s Hs. pose proof (di_slots _ _ D) as F. rewrite Forall_forall in F. apply slot_reload. auto.
    - rewrite Xk, !map_map. apply Forall2_of_map with (P := fun s => In s (d_skins (e_data e))); [ | apply Forall_forall; auto]. intros s Hs.
      pose proof (di_skins _ _ D) as F. rewrite Forall_forall in F. specialize (F s Hs). split.
      + unfold skin_defaults, skin_raw, trim_skin. cbn [sk_name sk_attachments]. pose proof (so_name _ _ F) as Nn. destruct (sk_name s) as [n | ]; [ | congruence]. cbn [opt_eqb]. destruct (String.eqb_spec n "") as [-> | _]; reflexivity.
      + assert (Ea : sk_atts (skin_defaults ver (skin_raw ver (trim_skin s))) = dmap (dmap (fun o => reload ver (trim o))) (sk_atts s)).
        { unfold sk_atts, skin_defaults, skin_raw, trim_skin. cbn [sk_attachments]. destruct (sk_attachments s) as [[ | x l] | ]; try reflexivity. cbv iota.
          change (dmap (dmap (obj_set_defaults ver)) (dmap (dmap (raw ver)) (dmap (dmap trim) (x :: l))) = dmap (dmap (fun o => reload ver (trim o))) (x :: l)).
          rewrite !dmap_dmap. apply dmap_ext. intros k m _. rewrite !dmap_dmap. reflexivity. }
        rewrite Ea. apply drel_of_dmap with (P := fun m => exists sl, In (sl, m) (sk_atts s)).
        * intros m [sl Hm]. apply drel_of_dmap with (P := fun o => exists k, In (k, o) m).
          -- intros o [k Ho]. assert (A : skin_attachment (e_data e) sl k o) by (exists s, m; auto). pose proof (At _ _ _ A) as Ai. destruct (ai_loaded _ _ Ai) as [[W _] _].
             rewrite (reload_json ver _ _ W). apply trim_json; [exact Ai | exact (Ow _ _ _ A)].
          -- apply Forall_forall. intros [k o] Ho. exists k. exact Ho.
        * apply Forall_forall. intros [sl m] Hm. exists sl. exact Hm.
    - rewrite Xe, dmap_dmap. eapply jdict_ext2; [ | exact (di_events _ _ D)]. intros o [W _]. eapply reload_json; exact W.
    - pose proof (di_ik _ _ D') as L'. rewrite Xi in *. apply (Rl CIk); [exact (di_ik _ _ D) | exact L'].
    - rewrite Xt. eapply jlist_reload. exact (di_transform _ _ D).
    - rewrite Xp. eapply jlist_reload. exact (di_path _ _ D).
    - rewrite Xa, dmap_dmap. apply drel_of_dmap with (P := fun a => anim_ok ver a /\ Forall (time_ok ver) (an_drawOrder a)).
      + intros a [A Ht]. apply reload_anim_twin; [exact (no_all _ _ A) | exact Ht].
      + unfold dall. apply Forall_forall. intros [n a] Ha. cbn [snd]. split; [exact (dall_in _ _ _ _ _ (di_anims _ _ D) Ha) | ]. apply Forall_forall. intros k Hk N.
        destruct T as [T1 | T1]; [exact (T1 _ _ _ Ha Hk) | ]. fold ver in T1. unfold default_values in N. rewrite T1 in N. discriminate N.
  Qed.
End Reloaded.

(** ** Clean-ups *)
Lemma keep_same : forall L L' ss, map slot_name (filter (keep L) ss) = map slot_name (filter (keep L') ss) -> filter (keep L) ss = filter (keep L') ss.
Proof.
  intros L L' ss E. apply filter_ext_in. intros s Hs.
  assert (G : forall A B, map slot_name (filter (keep A) ss) = map slot_name (filter (keep B) ss) -> keep A s = true -> keep B s = true).
  { intros A B Q K. assert (I : In (slot_name s) (map slot_name (filter (keep B) ss))) by (rewrite <- Q; apply in_map, filter_In; auto).
    apply in_map_iff in I as (s' & En & Hs'). apply filter_In in Hs' as [_ Hk]. unfold keep in *. rewrite En in Hk. exact Hk. }
  destruct (keep L s) eqn:A, (keep L' s) eqn:B; auto; [apply (G L L' E) in A | apply (G L' L (eq_sym E)) in B]; congruence.
Qed.
Section Cleaned.
  Variables (e0 : editor) (ops : list eop) (e e' e1 : editor) (enum enum' enum1 : order).
  Hypothesis H : any_calls e0 ops e.
  Hypothesis R : mk_editor (editor_json e) = Ok e'.
  Hypothesis T : no_null_time (e_data e) \/ ver_ge (e_ver e) SPINE_3_8 = true.
  Hypotheses (Pl : plain_slots (e_data e0)) (O : order_ok enum) (O' : order_ok enum') (E1 : estep e (EoEraseSkins enum1 [] true) = (e1, Ok tt)).

  Theorem reload_export : forall e2 rem atts e2' rem' atts', clean_animation enum e1 = (e2, Ok (rem, atts)) -> clean_animation enum' e' = (e2', Ok (rem', atts')) ->
    editor_json e2' = editor_json e2.
  Proof.
    intros e2 rem atts e2' rem' atts' C C'. destruct (reload_report e0 ops e e' e1 enum enum' enum1 H R T Pl O O' E1 _ _ _ _ _ _ C C') as (Kn & Ka & Ns & _).
    destruct (repaired e0 ops e e1 enum1 H Pl E1) as (Ed & _ & S). pose proof (reloaded_in_step e0 ops e e' H R T Pl) as S'. pose proof (reloaded_twin e0 ops e e' H R T) as Tw.
    destruct (any_reloaded _ _ _ H e' R T) as (Sk & V & _ & _).
    destruct S as [[D Sy] _ _ _], S' as [[D' Sy'] _ _ _].
    destruct (clean_success _ _ _ _ _ _ _ _ D Sy O C) as (inv & leafs & orphans & imgs & K). destruct (clean_success _ _ _ _ _ _ _ _ D' Sy' O' C') as (inv' & leafs' & orphans' & imgs' & K').
    pose proof (co_data _ _ _ _ _ _ _ _ _ _ _ _ K) as Cl. pose proof (co_data _ _ _ _ _ _ _ _ _ _ _ _ K') as Cl'.
    assert (V1 : e_ver e1 = e_ver e) by (unfold e_ver; rewrite Ed; reflexivity). assert (Dd : e_data e1 = e_data e) by (unfold e_data; rewrite Ed; reflexivity).
    rewrite V1, Dd in Cl. rewrite V in Cl'. pose proof (dt_slots _ _ _ Tw) as Es. rewrite Es in Cl'.
    assert (Fk : filter (keep (inv ++ leafs)) (d_slots (e_data e)) = filter (keep (inv' ++ leafs')) (d_slots (e_data e))).
    { apply keep_same. rewrite (cl_slots _ _ _ _ _ _ _ _ Cl), (cl_slots _ _ _ _ _ _ _ _ Cl') in Ns. rewrite !map_map in Ns.
      rewrite (map_ext _ slot_name (unset_name atts)), (map_ext _ slot_name (unset_name atts')) in Ns. exact Ns. }
    rewrite <- Fk in Cl'. pose proof (cleaned_json _ _ _ _ _ _ _ _ _ _ _ _ _ _ _ Tw Kn Ka Cl Cl' (jlist_twice _ _ _ (dt_bones _ _ _ Tw)) (jlist_twice _ _ _ (dt_ik _ _ _ Tw))) as J.
    unfold editor_json, document_json. fold (e_ver e2) (e_ver e2') (e_data e2) (e_data e2').
    rewrite (co_skeleton _ _ _ _ _ _ _ _ _ _ _ _ K), (co_skeleton _ _ _ _ _ _ _ _ _ _ _ _ K'), (co_ver _ _ _ _ _ _ _ _ _ _ _ _ K), (co_ver _ _ _ _ _ _ _ _ _ _ _ _ K'), V, V1, Sk, Ed, J. reflexivity.
  Qed.
End Cleaned.
Print Assumptions reload_export.
