(** Proofs: scaling that fails and the exceptions of the calls. *)
From Verif Require Import PyBase PyFacts Json Version Graph SpecGraph GraphFacts GraphRemove IdFacts Classes ClassFacts DocFacts ReloadFacts SpineGraph SpecSpine
  SpineFacts BuildFacts SpineRemove DrawOrder SpecDraw DrawFacts DrawAny AnimData AnimFacts AnimErr Editor SpecAnim SkinFacts SpecEditor SpecFail EditorGraph EditorData EditorBuild EditorClean EditorOut EditorHist EditorFacts
  EditorRemoved EditorOrder EditorScale EditorErase EditorEntries EditorFail SpecProduct ProductFacts.
Open Scope string_scope.
Open Scope list_scope.

(** ** Scaling *)
Lemma bone_scale_fails : forall sx sy b b' x, has_scales b -> bone_scale sx sy b = (b', Err x) -> scaling_fails sx sy b x b'.
Proof.
  intros sx sy b b' x [H1 H2] E. unfold bone_scale in E. destruct (py_mul (oget b "scaleX") sx) as [v | ] eqn:Ex.
  - rewrite oget_oset in E. cbn [String.eqb Ascii.eqb Bool.eqb] in E. destruct (py_mul (oget b "scaleY") sy) as [y | ] eqn:Ey; [discriminate | ]. injection E as <- ->.
    apply fails_at_y; [reflexivity | cbn [oset o_attrs]; apply dset_keys; auto | | | apply mul_refused; auto].
    + rewrite oget_oset. cbn [String.eqb Ascii.eqb Bool.eqb]. apply mul_product. auto.
    + intros k K. rewrite oget_oset. apply String.eqb_neq in K. rewrite K. auto.
  - injection E as <- ->. apply fails_at_x. apply mul_refused. auto.
Qed.
Lemma first_pass : forall sx sy l m u, Forall has_scales l -> mapM_inplace (fun b => if scale_independent b then bone_scale sx sy b else (b, Ok tt)) l = (m, u) ->
  match u with
  | Ok _ => Forall2 (if_independent sx sy) l m
  | Err x => exists l1 b l2 l1' b', l = l1 ++ b :: l2 /\ m = l1' ++ b' :: l2 /\ Forall2 (if_independent sx sy) l1 l1' /\ independent b /\ scaling_fails sx sy b x b'
  end.
Proof.
  intros sx sy l. induction l as [ | b l IH]; intros m u F E; cbn [mapM_inplace] in E; [injection E as <- <-; constructor | ].
  inversion F as [ | ? ? Fb Fl]; subst. destruct (scale_independent b) eqn:I.
  - apply independent_iff in I. destruct (bone_scale sx sy b) as [b' [[] | x]] eqn:Eb.
    + destruct (mapM_inplace _ l) as [m1 u1] eqn:El. injection E as <- <-. specialize (IH _ _ Fl eq_refl).
      assert (P : if_independent sx sy b b') by (split; [intros _; apply bone_scale_scaled; auto | tauto]).
      destruct u1 as [[] | x]; [constructor; auto | ]. destruct IH as (l1 & c & l2 & l1' & c' & -> & -> & F1 & Ic & Fc). exists (b :: l1), c, l2, (b' :: l1'), c'. split; [auto | ]. split; [auto | ]. split; [constructor; auto | auto].
    + injection E as <- <-. exists [], b, l, [], b'. split; [auto | ]. split; [auto | ]. split; [constructor | ]. split; [auto | ]. apply bone_scale_fails; auto.
  - apply independent_not in I. destruct (mapM_inplace _ l) as [m1 u1] eqn:El. injection E as <- <-. specialize (IH _ _ Fl eq_refl).
    assert (P : if_independent sx sy b b) by (split; [tauto | auto]).
    destruct u1 as [[] | x]; [constructor; auto | ]. destruct IH as (l1 & c & l2 & l1' & c' & -> & -> & F1 & Ic & Fc). exists (b :: l1), c, l2, (b :: l1'), c'. split; [auto | ]. split; [auto | ]. split; [constructor; auto | auto].
Qed.
Lemma root_fails : forall sx sy l l' x, scale_root sx sy l = (l', Err x) ->
  (exists l1 r l2 r', l = l1 ++ r :: l2 /\ l' = l1 ++ r' :: l2 /\ (forall b, In b l1 -> bone_name b <> "root") /\ bone_name r = "root" /\ bone_scale sx sy r = (r', Err x)) \/
  ((forall b, In b l -> bone_name b <> "root") /\ l' = l /\ exists w, x = EAttr w).
Proof.
  intros sx sy l. induction l as [ | b l IH]; intros l' x E; cbn [scale_root] in E; [injection E as <- <-; right; split; [intros b [] | eauto] | ].
  destruct (String.eqb (bone_name b) "root") eqn:Eb.
  - apply String.eqb_eq in Eb. destruct (bone_scale sx sy b) as [b' u] eqn:Es. injection E as <- ->. left. exists [], b, l, b'. repeat split; auto.
  - apply String.eqb_neq in Eb. destruct (scale_root sx sy l) as [l2 u] eqn:El. injection E as <- ->.
    destruct (IH _ _ eq_refl) as [(l1 & r & l3 & r' & -> & -> & H1 & H2 & H3) | (H1 & -> & H2)].
    + left. exists (b :: l1), r, l3, r'. split; [auto | ]. split; [auto | ]. split; [ | auto]. intros c [<- | Hc]; auto.
    + right. split; [ | auto]. intros c [<- | Hc]; auto.
Qed.
Lemma if_independent_name : forall sx sy b b', if_independent sx sy b b' -> bone_name b' = bone_name b.
Proof. exact once_name. Qed.
Theorem scale_fails : forall e0 ops e sx sy e' x, history e0 ops e -> scale_animation sx sy e = (e', Err x) ->
  exists l, e' = put_data e (set_bones (e_data e) l) /\ scale_stops sx sy x (d_bones (e_data e)) l.
Proof.
  intros e0 ops e sx sy e' x H E. destruct (last_built_ex _ _ _ H) as [eb B]. destruct (history_state _ _ _ _ B) as (ss & [D S]).
  assert (Fs : Forall has_scales (d_bones (e_data e))) by (eapply Forall_impl; [ | exact (di_bones _ _ D)]; intros b; apply loaded_scales).
  unfold scale_animation, on_data in E. destruct (scale_bones sx sy (d_bones (e_data e))) as [l u] eqn:El. injection E as <- ->.
  exists l. split; [reflexivity | ]. unfold scale_bones in El. destruct (mapM_inplace _ (d_bones (e_data e))) as [m u] eqn:Em.
  pose proof (first_pass _ _ _ _ _ Fs Em) as P. destruct u as [[] | y].
  - destruct (root_fails _ _ _ _ _ El) as [(m1 & r1 & m2 & r' & -> & -> & H1 & H2 & H3) | (H1 & -> & w & ->)].
    + apply Forall2_app_inv_r in P as (l1 & l2 & O1 & O2 & Eq). rewrite Eq in *. inversion O2 as [ | r q l3 q' Or O3]; subst.
      assert (Sr : has_scales r1). { eapply once_scales; [exact Or | ]. rewrite Forall_forall in Fs. apply Fs. apply in_app_iff. right. left. auto. }
      apply stops_root with (r1 := r1); auto.
      * intros b Hb. destruct (Forall2_fwd _ _ _ _ _ O1 b Hb) as (b' & Hb' & Ob). rewrite <- (if_independent_name _ _ _ _ Ob). auto.
      * rewrite <- (if_independent_name _ _ _ _ Or). auto.
      * apply bone_scale_fails; auto.
    + eapply stops_no_root; [exact P | | reflexivity]. intros b Hb. destruct (Forall2_fwd _ _ _ _ _ P b Hb) as (b' & Hb' & Ob). rewrite <- (if_independent_name _ _ _ _ Ob). auto.
  - injection El as <- ->. destruct P as (l1 & b & l2 & l1' & b' & -> & -> & F1 & I & Fb). apply stops_first; auto.
Qed.
Lemma no_product_kind : forall a b x, no_product a b x -> (exists w, x = EType w) \/ x = EOverflow.
Proof. intros a b x [_ [[_ ->] | [_ H]]]; auto. Qed.
Lemma fails_kind : forall sx sy b x b', scaling_fails sx sy b x b' -> (exists w, x = EType w) \/ x = EOverflow.
Proof. intros sx sy b x b' H. destruct H; eapply no_product_kind; eauto. Qed.
Lemma stops_kind : forall sx sy x l l', scale_stops sx sy x l l' -> (exists w, x = EType w) \/ x = EOverflow \/ (exists w, x = EAttr w).
Proof.
  intros sx sy x l l' H. destruct H as [l1 b l2 l1' b' _ _ F | l1 r l2 l1' r1 r' l2' _ _ _ _ _ F | l l' w _ _ ->]; [ | | eauto];
    destruct (fails_kind _ _ _ _ _ F) as [K | K]; auto.
Qed.


(** ** The exceptions of the calls *)
Lemma analysis_kind : forall e0 ops e x, history e0 ops e -> get_unused_slots_and_attachments (e_data e) = Err x ->
  (exists w, x = EValue w) \/ (exists k, x = EKey k) \/ (exists w, x = EType w).
Proof.
  intros e0 ops e x H E. destruct (history_distinct _ _ _ H) as [Ds Dt].
  destruct (all_cases (e_data e) Ds Dt) as [A | [C | (C & [S | S])]].
  - apply (unused_total _ Ds Dt) in A as [r A]. congruence.
  - destruct (bad_color (e_data e) C) as [w W]. left. exists w. congruence.
  - destruct (stray_key (e_data e) Ds Dt C S) as [w W]. right. left. exists w. congruence.
  - destruct (nothing_type (e_data e) Ds Dt C S) as [w W]. right. right. exists w. congruence.
Qed.
Lemma draw_kind : forall rem names k k' x, NoDup names -> remove_offsets_with_ids rem names k = (k', Err x) -> (exists w, x = EValue w) \/ (exists w, x = EType w).
Proof.
  intros rem names k k' x N E. destruct (remove_offsets_any rem names k N) as (A & B & C).
  destruct (not_by_int_dec names k N) as [P | P]; [destruct (A P) as [w W]; right; exists w; congruence | ].
  destruct (no_slot_dec rem names (do_offsets k)) as [Q | Q]; [destruct (B P Q) as [w W]; left; exists w; congruence | ].
  destruct (C P Q) as [k2 W]. congruence.
Qed.
Theorem clean_kind : forall e0 ops e enum e' x, history e0 ops e -> order_ok enum -> clean_animation enum e = (e', Err x) -> clean_raises x.
Proof.
  intros e0 ops e enum e' x H O E. destruct (last_built_ex _ _ _ H) as [eb B]. destruct (history_old _ _ _ _ B) as (ss & [D S] & I & Fo).
  unfold clean_raises. destruct (get_unused_slots_and_attachments (e_data e)) as [[inv atts] | y] eqn:U.
  2: { rewrite (clean_fails enum e y U) in E. injection E as _ <-. destruct (analysis_kind _ _ _ _ H U) as [K | [K | K]]; auto. }
  destruct (clean_run e _ ss _ D S inv atts U) as (leafs & orphans & imgs & Ch & R). rewrite (R enum O) in E. clear R. cbv zeta in E.
  assert (Ls : Forall (loaded_obj (e_ver e) CSlot) (filter (keep (inv ++ leafs)) ss)).
  { pose proof (sy_slots_ok _ _ _ _ _ _ S) as L. rewrite Forall_forall in *. intros s K. apply filter_In in K as [K _]. auto. }
  destruct (read_slots (e_ver e) _ Ls) as [[Bs Rs] | [K _]].
  2: { destruct K. apply (kept_bones e0 e _ ss _ (history_loaded _ _ _ H) (conj D S) I Fo inv atts). intros s. apply (ch_leafs _ _ _ _ _ _ Ch). }
  rewrite Rs in E. unfold clean_data, clean_draw_order_refs in E.
  match type of E with context [dmapM_inplace (remove_draw_order_with_ids ?r ?n) ?l] =>
    destruct (visit_keys r n l) as [(l' & Ev & _) | (b & k & a & b' & l' & er & _ & Ex & _ & _ & Ev)] end; rewrite Ev in E; [discriminate | ].
  injection E as _ <-. destruct (draw_kind _ _ _ _ _ (sync_distinct_slots _ _ _ _ _ _ S) Ex) as [K | K]; auto.
Qed.
Lemma skins_kind : forall e0 ops e enum l e' x, history e0 ops e -> erase_skins enum l true e = (e', Err x) -> (exists w, x = EEditor w) \/ (exists k, x = EKey k).
Proof.
  intros e0 ops e enum l e' x H E. destruct (safe_outcome _ _ _ _ _ _ _ H E) as (_ & _ & [(ss & imgs & R & _) | (l1 & n & l2 & d1 & ss & _ & _ & _ & [(_ & _ & w & R) | (s & k & _ & _ & R)])]); [discriminate | left | right]; injection R as ->; eauto.
Qed.
Lemma raw_kind : forall l strict d d' x, erase_raw_animations_data l strict d = (d', Err x) -> strict = true /\ exists w, x = EValue w.
Proof.
  intros l strict d d' x E. unfold erase_raw_animations_data in E. destruct (fold_left _ l (d_animations d, [])) as [a nf]. destruct nf; [discriminate | ]. destruct strict; [ | discriminate]. injection E as _ <-. eauto.
Qed.
Theorem step_kind : forall e0 ops e op e' x, history e0 ops e -> eop_ok op -> estep e op = (e', Err x) -> may_raise op x.
Proof.
  intros e0 ops e op e' x H O E. destruct op as [enum l safe | enum l strict safe | enum | sx sy]; cbn [estep may_raise eop_ok] in *.
  - destruct (erase_skins enum l safe e) as [e1 [r | y]] eqn:Es; [discriminate | ]. injection E as -> ->.
    destruct safe; [destruct (skins_kind _ _ _ _ _ _ _ H Es); auto | ].
    pose proof (erase_then_clean _ _ _ enum l H) as T. destruct (erase_skins enum l true e) as [e2 [[p imgs] | z]] eqn:Et.
    + assert (H2 : history e0 (EoEraseSkins enum l true :: ops) e2) by (econstructor; [exact H | exact O | cbn [estep]; rewrite Et; reflexivity]).
      destruct (clean_animation enum e2) as [e3 [rep | z]] eqn:Ec; [rewrite T in Es; discriminate | ].
      destruct T as (e4 & T & _). rewrite T in Es. injection Es as _ <-. right. right. split; auto. eapply clean_kind; eauto.
    + rewrite T in Es. injection Es as <- <-. destruct (skins_kind _ _ _ _ _ _ _ H Et); auto.
  - destruct (erase_animations enum l strict safe e) as [e1 [r | y]] eqn:Es; [discriminate | ]. injection E as -> ->.
    pose proof (animations_then_clean e enum l strict) as T.
    assert (K : forall e1 y, erase_animations enum l strict true e = (e1, Err y) -> strict = true /\ exists w, y = EValue w).
    { clear. intros e1 y E. unfold erase_animations in E. unfold mbind at 1 in E. unfold on_data at 1 in E.
      destruct (erase_raw_animations_data l strict (e_data e)) as [d1 [u | z]] eqn:Er; [discriminate | ]. injection E as _ <-. eapply raw_kind; eauto. }
    destruct safe; [left; eapply K; eauto | ].
    destruct (erase_animations enum l strict true e) as [e2 [[p imgs] | z]] eqn:Et.
    + assert (H2 : history e0 (EoEraseAnimations enum l strict true :: ops) e2) by (econstructor; [exact H | exact O | cbn [estep]; rewrite Et; reflexivity]).
      destruct (clean_animation enum e2) as [e3 [rep | z]] eqn:Ec; [rewrite T in Es; discriminate | ].
      rewrite T in Es. injection Es as _ <-. right. split; auto. eapply clean_kind; eauto.
    + rewrite T in Es. injection Es as <- <-. left. eauto.
  - destruct (clean_animation enum e) as [e1 [r | y]] eqn:Ec; [discriminate | ]. injection E as -> ->. eapply clean_kind; eauto.
  - destruct (scale_fails _ _ _ _ _ _ _ H E) as (l & _ & S). eapply stops_kind; eauto.
Qed.
