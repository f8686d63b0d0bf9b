(** Proofs: in a document whose draw orders are sound no call that fails leaves the graph out of step. *)
From Verif Require Import PyBase PyFacts Json Version Graph SpecGraph GraphFacts GraphRemove IdFacts Classes ClassFacts DocFacts ReloadFacts SpineGraph SpecSpine
  SpineFacts BuildFacts BuildTotal SpineRemove DrawOrder SpecDraw DrawFacts AnimData AnimFacts Editor SpecAnim SkinFacts SpecEditor SpecFail SpecAny SpecCare EditorGraph EditorData EditorBuild EditorClean EditorOut EditorHist EditorFacts
  EditorImages EditorRemoved EditorOrder EditorFail EditorReload EditorAny EditorRepair ImagesAny ImagesCare.
Open Scope string_scope.

Section Ready.
  Variable e0 : editor.
  Hypotheses (L : loaded e0) (Pl : plain_slots (e_data e0)).

  Definition calm (e : editor) : Prop := draw_orders_ok (e_data e) /\ exists bs ss is, st e bs ss is /\ since e0 e ss /\ edges_old e0 e.

  Lemma calm_skin : forall n e d r, calm e -> remove_skin n (e_data e) = (d, r) -> calm (put_data e d).
  Proof.
    intros n e d r (Dr & bs & ss & is & [D S] & I & F) E. destruct (remove_skin_kept _ _ _ _ E) as (_ & Es & _). pose proof (remove_skin_any _ _ _ _ E) as A. split.
    - intros a k o [i Ha] Hk Ho. cbn [put_data e_data e_doc with_data doc_data] in *. destruct (remove_skin_anims _ _ _ _ _ _ E Ha) as (a0 & Ha0 & _ & Ed). rewrite Ed in Hk. rewrite Es. apply (Dr a0 k o); auto. exists i. exact Ha0.
    - exists bs, ss, is. split; [split | split].
      + eapply dinv_remove_skin; eauto.
      + destruct S. constructor; auto; cbn [put_data e_data e_doc with_data doc_data].
        * rewrite Es. auto.
        * intros sl k o Ho. destruct (A sl k o Ho) as (o1 & H1 & P1 & N1 & _). rewrite (att_image_same k o o1 P1 N1). auto.
      + destruct I. constructor; auto; cbn [put_data e_data e_doc with_data doc_data].
        * eapply desc_trans; eauto.
        * rewrite Es. auto.
      + exact F.
  Qed.
  Lemma calm_erase : forall l e, calm e -> calm (put_data e (not_erased l (e_data e))).
  Proof.
    intros l e (Dr & bs & ss & is & S & I & F). split.
    - intros a k o [i Ha] Hk Ho. apply filter_In in Ha as [Ha _]. apply (Dr a k o); auto. exists i. auto.
    - exists bs, ss, is. split; [apply st_anims; exact S | ]. split; [destruct I; constructor; auto | exact F].
  Qed.
  Lemma calm_scale : forall sx sy e l r, calm e -> scale_bones sx sy (d_bones (e_data e)) = (l, r) -> calm (put_data e (set_bones (e_data e) l)).
  Proof.
    intros sx sy e l r (Dr & bs & ss & is & S & I & F) E. split; [exact Dr | ]. exists bs, ss, is. split; [ | split; [destruct I; constructor; auto | exact F]].
    apply st_scale; [exact S | ]. eapply scale_bones_ok; [ | exact E]. apply (di_bones _ _ (proj1 S)).
  Qed.
  Lemma calm_build : forall e g, calm e -> create_from_json_data (document_json (e_doc e)) = Ok g -> calm (mkEditor (e_doc e) (e_images e) g).
  Proof.
    intros e g (Dr & bs & ss & is & [D S] & I & F) G. split; [exact Dr | ]. exists (d_bones (e_data e)), (d_slots (e_data e)), (d_ik (e_data e)). split; [split | split].
    - exact D.
    - apply (build_sync (e_doc e) g D (sync_skins _ _ _ _ _ _ S) G).
    - destruct I as [I1 I2 I3 I4 I5 I6]. constructor; auto. intros i Hi. destruct (built_imgs (e_doc e) g i D G Hi) as (sl & k & o & Ho & ->). destruct (I3 sl k o Ho) as (o1 & A1 & P1 & N1 & _).
      exists sl, k, o1. split; [exact A1 | ]. apply att_image_same; auto.
    - intros s k H. apply built_filed with (im := e_images e) in G; [ | exact D]. destruct (G s k H) as [x Hx]. destruct (si_desc _ _ _ I s k x Hx) as (x0 & H0 & _). eauto.
  Qed.
  Lemma calm_clean : forall enum e, order_ok enum -> calm e ->
    (analysable (e_data e) -> exists e' r, clean_animation enum e = (e', Ok r) /\ calm e') /\
    (~ analysable (e_data e) -> exists x, clean_animation enum e = (e, Err x)).
  Proof.
    intros enum e O (Dr & bs & ss & is & S & I & F). pose proof S as [D Sy]. split; intros A.
    - destruct (clean_total enum e bs ss is S O A (kept_bones e0 e bs ss is L S I F) Dr) as (e' & [rem atts] & E). exists e', (rem, atts). split; [exact E | ].
      destruct (clean_success _ _ _ _ _ _ _ _ D Sy O E) as (inv & leafs & orphans & imgs & C). split.
      + pose proof (names_of_plain _ _ _ _ _ _ _ _ _ _ _ _ _ Pl I S C) as En. pose proof (co_data _ _ _ _ _ _ _ _ _ _ _ _ C) as Cd.
        unfold draw_orders_ok. rewrite En. intros a k x Ha Hk Hx. destruct (cleaned_anim _ _ _ _ _ _ _ _ _ Cd Ha) as (a0 & Ha0 & Ca).
        destruct (Forall2_in_r _ _ _ _ _ (ca_draw _ _ _ _ _ _ Ca) k Hk) as (k0 & Hk0 & Rk). apply remove_offsets_in_range in Rk as (_ & ms & Mo & _ & Q2).
        * destruct (Forall2_fwd _ _ _ _ _ Mo x Hx) as ([s z] & Hm & Ho). exists s, z. split; auto. apply Q2 in Hm. apply in_without. tauto.
        * eapply sync_distinct_slots; eauto.
      + exists bs, (filter (keep (inv ++ leafs)%list) ss), is. split; [eapply st_mid; [exact S | econstructor; eauto] | ]. split; [eapply since_clean; eauto | ].
        intros s k H. rewrite (co_graph _ _ _ _ _ _ _ _ _ _ _ _ C) in H. apply edge_minus in H as (H & _). auto.
    - destruct (get_unused_slots_and_attachments (e_data e)) as [r | x] eqn:U; [ | exists x; apply clean_fails; auto].
      destruct A. apply unused_total; eauto using dinv_timelines. eapply sync_distinct_slots; eauto.
  Qed.
  Lemma calm_loaded : draw_orders_ok (e_data e0) -> calm e0.
  Proof.
    intros Dr. split; [exact Dr | ]. destruct (steady_loaded _ L) as [(bs & ss & is & S & I) _]. exists bs, ss, is. split; [exact S | ]. split; [exact I | ].
    pose proof L as (j & _ & Hj). apply mk_editor_inv in Hj as (_ & _ & B). pose proof (built_filed (e_doc e0) (e_graph e0) (e_images e0) (proj1 S) B) as F. destruct e0; exact F.
  Qed.
  Lemma calm_cleans : forall enum e e' r, order_ok enum -> calm e -> clean_animation enum e = (e', r) -> calm e'.
  Proof.
    intros enum e e' r O C E. destruct (calm_clean enum e O C) as [A B]. destruct C as (Dr & bs & ss & is & [D S] & I & F).
    destruct (get_unused_slots_and_attachments (e_data e)) as [v | x] eqn:U.
    - destruct A as (e1 & r1 & E1 & C1); [apply unused_total; eauto using dinv_timelines; eapply sync_distinct_slots; eauto | ]. rewrite E in E1. injection E1 as -> _. exact C1.
    - rewrite (clean_fails _ _ _ U) in E. injection E as <- _. split; [exact Dr | ]. exists bs, ss, is. split; [split; auto | auto].
  Qed.
  Lemma calm_step : forall op e e' r, eop_ok op -> sound e0 e -> calm e -> estep e op = (e', r) -> calm e'.
  Proof.
    apply (P_step e0 calm L).
    - intros n e d r _. apply calm_skin.
    - intros l e _. apply calm_erase.
    - intros sx sy e l r _. apply calm_scale.
    - intros e g _. apply calm_build.
    - intros e i (Dr & bs & ss & is & S & I & F). split; [exact Dr | ]. exists bs, ss, is. split; [exact S | ]. split; [destruct I; constructor; auto | exact F].
    - intros enum e e' r O _. apply calm_cleans. exact O.
  Qed.
  Lemma calm_calls : draw_orders_ok (e_data e0) -> forall ops e, any_calls e0 ops e -> calm e.
  Proof.
    intros Dr ops e H. induction H as [L' | ops e op e' r H IH O E]; [apply calm_loaded; exact Dr | ]. destruct (calls_sound _ _ _ H) as [_ So]. eapply calm_step; eauto.
  Qed.
End Ready.

Theorem orders_kept : forall e0 ops e, plain_slots (e_data e0) -> draw_orders_ok (e_data e0) -> any_calls e0 ops e -> draw_orders_ok (e_data e).
Proof. intros e0 ops e Pl Dr H. destruct (calls_sound _ _ _ H) as [L _]. exact (proj1 (calm_calls e0 L Pl Dr _ _ H)). Qed.
Theorem orders_clean : forall e0 ops e enum, plain_slots (e_data e0) -> draw_orders_ok (e_data e0) -> any_calls e0 ops e -> order_ok enum ->
  (analysable (e_data e) -> exists e' r, clean_animation enum e = (e', Ok r)) /\ (~ analysable (e_data e) -> exists x, clean_animation enum e = (e, Err x)).
Proof.
  intros e0 ops e enum Pl Dr H O. destruct (calls_sound _ _ _ H) as [L _]. destruct (calm_clean e0 L Pl enum e O (calm_calls e0 L Pl Dr _ _ H)) as [A B]. split; [ | exact B].
  intros K. destruct (A K) as (e' & r & E & _). eauto.
Qed.
Theorem orders_images : forall e0 ops e, plain_slots (e_data e0) -> plain_images (e_data e0) -> draw_orders_ok (e_data e0) -> any_calls e0 ops e ->
  forall i, image_in_use (e_data e) i -> In i (dkeys (e_images e)).
Proof.
  intros e0 ops e Pl Pi Dr H. change (covers e). induction H as [L | ops e op e' r H IH O E]; [apply steady_loaded; exact L | ]. destruct (calls_sound _ _ _ H) as [L So].
  destruct r as [[] | x].
  - destruct (calm_calls e0 L Pl Dr _ _ H) as (_ & bs & ss & is & S & I & _). apply (steady_step e0 e op e' Pi); auto. exists bs, ss, is. auto.
  - intros i Hi. rewrite (failed_images _ _ _ _ E). apply IH. eapply desc_use; [ | exact Hi]. eapply step_desc; eauto.
Qed.
