(** Proofs: clean-ups that fail. *)
From Verif Require Import PyBase PyFacts Json Version Graph SpecGraph GraphFacts GraphRemove IdFacts Classes ClassFacts DocFacts ReloadFacts SpineGraph SpecSpine
  SpineFacts BuildFacts SpineRemove DrawOrder SpecDraw DrawFacts DrawAny AnimData AnimFacts AnimErr Editor SpecAnim SkinFacts SpecEditor SpecFail EditorGraph EditorData EditorBuild EditorClean EditorOut EditorHist EditorFacts EditorRemoved EditorOrder.
Open Scope string_scope.
Open Scope list_scope.

(** ** The analysis *)
Lemma history_distinct : forall e0 ops e, history e0 ops e -> distinct_slots (e_data e) /\ distinct_timelines (e_data e).
Proof.
  intros e0 ops e H. destruct (last_built_ex _ _ _ H) as [eb B]. destruct (history_state _ _ _ _ B) as (ss & [D S]).
  split; eauto using dinv_timelines. eapply sync_distinct_slots; eauto.
Qed.
Theorem clean_color : forall e0 ops e enum, history e0 ops e -> (exists s, In s (d_slots (e_data e)) /\ ~ readable_color s) ->
  exists w, clean_animation enum e = (e, Err (EValue w)).
Proof. intros e0 ops e enum H C. destruct (bad_color (e_data e) C) as [w E]. exists w. apply clean_fails. auto. Qed.
Theorem clean_stray : forall e0 ops e enum, history e0 ops e -> colors_ok (e_data e) -> stops_at (e_data e) (stray_timeline (e_data e)) ->
  exists k, clean_animation enum e = (e, Err (EKey k)).
Proof. intros e0 ops e enum H C S. destruct (history_distinct _ _ _ H) as [Ds Dt]. destruct (stray_key (e_data e) Ds Dt C S) as [w E]. exists w. apply clean_fails. auto. Qed.
Theorem clean_nothing : forall e0 ops e enum, history e0 ops e -> colors_ok (e_data e) -> stops_at (e_data e) (nothing_shown (e_data e)) ->
  exists w, clean_animation enum e = (e, Err (EType w)).
Proof. intros e0 ops e enum H C S. destruct (history_distinct _ _ _ H) as [Ds Dt]. destruct (nothing_type (e_data e) Ds Dt C S) as [w E]. exists w. apply clean_fails. auto. Qed.
Theorem clean_cases : forall e0 ops e, history e0 ops e ->
  analysable (e_data e) \/ (exists s, In s (d_slots (e_data e)) /\ ~ readable_color s) \/
  (colors_ok (e_data e) /\ (stops_at (e_data e) (stray_timeline (e_data e)) \/ stops_at (e_data e) (nothing_shown (e_data e)))).
Proof. intros e0 ops e H. destruct (history_distinct _ _ _ H) as [Ds Dt]. exact (all_cases (e_data e) Ds Dt). Qed.

(** ** The draw orders *)
Section Visit.
  Context {A : Type} (f : A -> A * res unit).
  Hypothesis same : forall x y e, f x = (y, Err e) -> y = x.
  Lemma visit_all : forall l, (exists l', mapM_inplace f l = (l', Ok tt) /\ Forall2 (fun x y => f x = (y, Ok tt)) l l') \/
    (exists b x a b' e, l = b ++ x :: a /\ f x = (x, Err e) /\ Forall2 (fun x y => f x = (y, Ok tt)) b b' /\ mapM_inplace f l = (b' ++ x :: a, Err e)).
  Proof.
    induction l as [ | x l IH]; [left; exists []; split; auto | ]. cbn [mapM_inplace]. destruct (f x) as [y [[] | e]] eqn:E.
    - destruct IH as [(l' & -> & F) | (b & z & a & b' & e & -> & Ez & F & ->)].
      + left. exists (y :: l'). split; auto.
      + right. exists (x :: b), z, a, (y :: b'), e. split; auto.
    - right. pose proof (same _ _ _ E) as ->. exists [], x, l, [], e. split; auto.
  Qed.
  Lemma first_same : forall b x a b0 x0 a0 e, b ++ x :: a = b0 ++ x0 :: a0 -> (forall y, In y b -> exists z, f y = (z, Ok tt)) -> f x = (x, Err e) ->
    (forall y, In y b0 -> exists z, f y = (z, Ok tt)) -> (exists e0, f x0 = (x0, Err e0)) -> b = b0 /\ x = x0 /\ a = a0.
  Proof.
    induction b as [ | y b IH]; intros x a [ | y0 b0] x0 a0 e E Hb Hx Hb0 [e0 Hx0]; cbn [app] in E; injection E as E1 E2.
    - auto.
    - subst y0. destruct (Hb0 x (or_introl eq_refl)) as [z Hz]. congruence.
    - subst y. destruct (Hb x0 (or_introl eq_refl)) as [z Hz]. congruence.
    - subst y0. destruct (IH x a b0 x0 a0 e E2) as (-> & -> & ->); eauto; intros w I; [apply Hb | apply Hb0]; right; auto.
  Qed.
End Visit.

Section Keys.
  Variables (rem names : list string).
  Let f := remove_offsets_with_ids rem names.
  Let keys (l : dict animation) := flat_map (fun kv => an_drawOrder (snd kv)) l.
  Lemma offsets_same : forall x y e, f x = (y, Err e) -> y = x.
  Proof.
    intros x y e. unfold f, remove_offsets_with_ids. match goal with |- context [match ?m with Ok _ => _ | Err _ => _ end] => destruct m end; intros H; [discriminate | congruence].
  Qed.
  Lemma visit_keys : forall l, (exists l', dmapM_inplace (remove_draw_order_with_ids rem names) l = (l', Ok tt) /\ Forall2 (fun x y => f x = (y, Ok tt)) (keys l) (keys l')) \/
    (exists b x a b' l' e, keys l = b ++ x :: a /\ f x = (x, Err e) /\ Forall2 (fun x y => f x = (y, Ok tt)) b b' /\ keys l' = b' ++ x :: a /\
       dmapM_inplace (remove_draw_order_with_ids rem names) l = (l', Err e)).
  Proof.
    unfold dmapM_inplace, keys. induction l as [ | [i an] l IH]; [left; exists []; split; auto; constructor | ]. cbn [mapM_inplace flat_map fst snd]. unfold remove_draw_order_with_ids at 1 3. fold f.
    destruct (visit_all f offsets_same (an_drawOrder an)) as [(l1 & -> & F1) | (b & x & a & b' & e & E & Ex & F1 & ->)].
    - destruct IH as [(l' & -> & F) | (b & x & a & b' & l' & e & E & Ex & F & E' & ->)].
      + left. eexists. split; [reflexivity | ]. cbn [flat_map snd an_drawOrder]. apply Forall2_app; auto.
      + right. exists (an_drawOrder an ++ b), x, a, (l1 ++ b'). eexists _, e. rewrite E. rewrite app_assoc. split; auto. split; auto. split; [apply Forall2_app; auto | ]. split; [ | reflexivity].
        cbn [flat_map snd an_drawOrder]. rewrite E'. rewrite app_assoc. auto.
    - right. exists b, x, (a ++ flat_map (fun kv => an_drawOrder (snd kv)) l), b'. eexists _, e. rewrite E. split; [rewrite <- app_assoc; auto | ]. split; auto. split; auto. split; [ | reflexivity].
      cbn [flat_map snd an_drawOrder]. rewrite <- app_assoc. auto.
  Qed.
End Keys.

Lemma no_slot_sub : forall rem names l, (forall x, In x rem -> In x names) -> (of_no_slot rem names l <-> of_no_slot [] names l).
Proof.
  intros rem names l H. split; intros (o & Ho & K); exists o; (split; [auto | ]); intros s E; destruct (K s E) as [K1 K2]; split; auto.
Qed.
Lemma not_by_int_dec : forall names k, NoDup names -> not_by_int names (do_offsets k) \/ ~ not_by_int names (do_offsets k).
Proof.
  intros names k N. destruct (offsets_by_slot_total (do_offsets k)) as [slots Es]. pose proof (counted_get _ _ Es) as C.
  assert (K : (exists s o, In s names /\ dget s slots = Some o /\ forall z, ~ int_value (oget o "offset") z) \/ ~ exists s o, In s names /\ dget s slots = Some o /\ forall z, ~ int_value (oget o "offset") z).
  { clear. induction names as [ | n names IH]; [right; intros (s & _ & [] & _) | ]. destruct IH as [(s & o & H & K) | IH]; [left; exists s, o; split; [right | ]; auto | ].
    destruct (dget n slots) as [o | ] eqn:G.
    - destruct (as_int_other (oget o "offset")) as [(z & _ & V) | [_ V]]; [right | left; exists n, o; simpl; auto].
      intros (s & o' & [<- | Hs] & G' & V'); [rewrite G in G'; injection G' as <-; exact (V' z V) | apply IH; eauto].
    - right. intros (s & o' & [<- | Hs] & G' & V'); [congruence | apply IH; eauto]. }
  destruct K as [(s & o & Hs & G & V) | K]; [left; exists s, o; rewrite <- C; auto | right; intros (s & o & Hs & G & V); apply K; exists s, o; rewrite C; auto].
Qed.
Lemma no_slot_dec : forall rem names l, of_no_slot rem names l \/ ~ of_no_slot rem names l.
Proof.
  intros rem names l. induction l as [ | o l IH]; [right; intros (o & [] & _) | ].
  destruct IH as [(o' & H & K) | IH]; [left; exists o'; split; [right | ]; auto | ].
  destruct (ostr o "slot") as [s | ] eqn:E.
  - pose proof (proj1 (ostr_named _ _) E) as E'. unfold named in E'.
    destruct (in_dec string_dec s (names ++ rem)) as [I | I]; rewrite in_app_iff in I.
    + right. intros (o' & [<- | H] & K); [destruct (K s E'); tauto | apply IH; exists o'; auto].
    + left. exists o. split; [left; auto | ]. intros s' E2. rewrite E' in E2. injection E2 as <-. tauto.
  - left. exists o. split; [left; auto | ]. intros s E2. apply ostr_named in E2. congruence.
Qed.
Lemma offsets_sound : forall rem names k, NoDup names -> (forall x, In x rem -> In x names) ->
  (sound_key names k <-> exists k', remove_offsets_with_ids rem names k = (k', Ok tt)).
Proof.
  intros rem names k N H. destruct (remove_offsets_any rem names k N) as (A & B & C). rewrite (no_slot_sub rem names) in * by auto. unfold sound_key. split.
  - intros [S1 S2]. auto.
  - intros [k' E]. destruct (not_by_int_dec names k N) as [P | P]; [destruct (A P) as [w W]; congruence | ].
    split; auto. intros Q. destruct (B P Q) as [w W]. congruence.
Qed.

(** ** Slots with attachments have bones *)
Theorem history_boned : forall e0 ops e s k o, history e0 ops e -> In s (d_slots (e_data e)) -> skin_attachment (e_data e) (slot_name s) k o -> oget s "bone" <> VNone.
Proof.
  intros e0 ops e s k o H Hs Ho. destruct (last_built_ex _ _ _ H) as [eb B]. destruct (history_since _ _ _ _ B) as (ss & _ & I).
  pose proof (si_slots _ _ _ I) as F. rewrite Forall_forall in F. destruct (si_desc _ _ _ I _ _ _ Ho) as (o0 & H0 & _).
  destruct (F s Hs) as (x0 & Hx & [-> | [-> _]]); [exact (att_boned _ _ _ _ (history_loaded _ _ _ H) Hx H0) | ].
  rewrite oget_oset. cbn [String.eqb Ascii.eqb Bool.eqb]. assert (En : slot_name (oset x0 "attachment" VNone) = slot_name x0) by (unfold slot_name, ostr; rewrite oget_oset; reflexivity).
  rewrite En in H0. exact (att_boned _ _ _ _ (history_loaded _ _ _ H) Hx H0).
Qed.
(** What [DrawOrder.remove_offsets_with_ids] makes of a key *)
Definition rewritten (gone names : list string) (k k' : draw_order) : Prop := remove_offsets_with_ids gone names k = (k', Ok tt).
Lemma sound_or_not : forall d, NoDup (map slot_name (d_slots d)) ->
  (forall k, In k (draw_keys d) -> sound_key (map slot_name (d_slots d)) k) \/ exists before k after, first_unsound d before k after.
Proof.
  intros d N. set (names := map slot_name (d_slots d)) in *.
  unfold first_unsound. fold names. cbv zeta. induction (draw_keys d) as [ | k l IH]; [left; intros k [] | ].
  assert (Dk : sound_key names k \/ ~ sound_key names k).
  { unfold sound_key. destruct (not_by_int_dec names k N), (no_slot_dec [] names (do_offsets k)); tauto. }
  destruct Dk as [Dk | Dk]; [ | right; exists [], k, l; split; [reflexivity | split; [intros k' [] | auto]]].
  destruct IH as [IH | (b & k0 & a & -> & Hb & Hk)]; [left; intros k' [<- | I]; auto | right].
  exists (k :: b), k0, a. split; auto. split; auto. intros k' [<- | I]; auto.
Qed.
(** Graph and document agree, and the slots have plain names. *)
Record in_step (e : editor) (bs ss is : list obj) : Prop := {
  is_st : st e bs ss is;
  is_filed : edges_filed e;
  is_plain : forall s, In s (d_slots (e_data e)) -> slot_base (slot_name s) = slot_name s;
  is_boned : forall inv atts leafs, (forall s, is_leaf (e_graph e) inv atts s -> In s leafs) -> Forall boned (filter (keep (inv ++ leafs)) ss) }.
Section Step.
  Variables (e : editor) (bs ss is : list obj) (enum : order).
  Hypotheses (H : in_step e bs ss is) (O : order_ok enum) (A : analysable (e_data e)).
  Let names := map slot_name (d_slots (e_data e)).

  Lemma names_nodup : NoDup names.
  Proof. destruct (is_st _ _ _ _ H) as [_ S]. exact (sync_distinct_slots _ _ _ _ _ _ S). Qed.

  Lemma clean_outcome : exists rem, (forall x, In x rem -> In x names) /\
    ((exists e' r, clean_animation enum e = (e', Ok r) /\ forall k, In k (draw_keys (e_data e)) -> exists k', remove_offsets_with_ids rem names k = (k', Ok tt)) \/
     (exists e' x before k after, clean_animation enum e = (e', Err x) /\ draw_keys (e_data e) = before ++ k :: after /\
        (forall k', In k' before -> exists k'', remove_offsets_with_ids rem names k' = (k'', Ok tt)) /\
        remove_offsets_with_ids rem names k = (k, Err x) /\ half_cleaned rewritten e e' before (k :: after) rem)).
  Proof.
    destruct H as [[D S] F Pl Bo].
    pose proof (sync_distinct_slots _ _ _ _ _ _ S) as Ds. pose proof (dinv_timelines _ _ D) as Dt.
    destruct (proj2 (unused_total _ Ds Dt) A) as [[inv atts] U].
    destruct (unused_spec _ _ _ Ds Dt U) as [Ui Ua].
    destruct (clean_run e _ ss _ D S inv atts U) as (leafs & orphans & imgs & Ch & R). specialize (R enum O). cbv zeta in R.
    set (rem := enum 2 (set_union inv (map slot_base leafs))) in *. exists rem.
    assert (Ln : forall s, In s leafs -> In s names).
    { intros s Hs. apply (ch_leafs _ _ _ _ _ _ Ch) in Hs as [Hs _]. unfold names. rewrite (sy_names _ _ _ _ _ _ S). eapply sync_has; eauto. }
    assert (Lb : forall s, In s leafs -> slot_base s = s).
    { intros s Hs. apply Ln in Hs. apply in_map_iff in Hs as (o & <- & Ho). auto. }
    assert (Rin : forall x, In x rem <-> In x (inv ++ leafs)).
    { intros x. unfold rem. rewrite in_order by auto. rewrite in_set_union, in_map_iff, in_app_iff. split; (intros [K | K]; [auto | right]).
      - destruct K as (s & <- & Hs). rewrite (Lb s Hs). auto.
      - exists x. auto. }
    assert (Rn : forall x, In x rem -> In x names).
    { intros x Hx. apply Rin in Hx. apply in_app_iff in Hx as [Hx | Hx]; [apply Ui in Hx as (s & Hs & <- & _); apply in_map; auto | auto]. }
    assert (Gn : forall n, In n (inv ++ leafs) <-> exists s, In s (d_slots (e_data e)) /\ slot_name s = n /\ slot_goes (e_data e) s).
    { intros n. rewrite in_app_iff. split.
      - intros [Hi | Hl].
        + apply Ui in Hi as (s & Hs & <- & Nu). exists s. unfold slot_goes. auto.
        + pose proof (Ln _ Hl) as Hn. apply in_map_iff in Hn as (s & <- & Hs). exists s. split; auto. split; auto. right. intros k o Ho.
          apply (ch_leafs _ _ _ _ _ _ Ch) in Hl as (_ & _ & Hl). specialize (Hl k (proj1 (sy_atts _ _ _ _ _ _ S _ _ _ Ho))).
          apply Ua in Hl as (Nu & sl & o' & Ho' & Hm). split; auto. exists sl, o'. split; auto. intros Hc. apply Ui; auto.
      - intros (s & Hs & <- & K).
        assert (Hu : In (slot_name s) inv <-> ~ used_slot (e_data e) s).
        { rewrite Ui. split; [intros (s' & Hs' & En & N); rewrite <- (unique_name _ _ _ Ds Hs' Hs En); auto | eauto]. }
        destruct K as [K | K]; [left; apply Hu; auto | ]. destruct (in_dec string_dec (slot_name s) inv) as [Hi | Hi]; [left; auto | right].
        apply (ch_leafs _ _ _ _ _ _ Ch). split; [ | split; auto].
        + assert (Hn : In (slot_name s) (map slot_name ss)) by (rewrite <- (sy_names _ _ _ _ _ _ S); apply in_map; auto). eapply sync_has; eauto.
        + intros k Hk. destruct (F _ _ Hk) as [o Ho]. destruct (K k o Ho) as (Nu & sl & o' & Ho' & Hm). apply Ua. split; auto. exists sl, o'. split; auto. intros Hc. apply Ui. auto. }
    split; auto.
    assert (Ls : Forall (loaded_obj (e_ver e) CSlot) (filter (keep (inv ++ leafs)) ss)).
    { pose proof (sy_slots_ok _ _ _ _ _ _ S) as L. rewrite Forall_forall in *. intros s K. apply filter_In in K as [K _]. auto. }
    destruct (read_slots (e_ver e) _ Ls) as [[_ Rs] | [K _]].
    2: { destruct K. apply (Bo inv atts). intros s. apply (ch_leafs _ _ _ _ _ _ Ch). }
    rewrite Rs in R. unfold clean_data in R. unfold clean_draw_order_refs in R.
    match type of R with context [clean_slots_in_animations rem ?x] => set (d1 := x) in * end.
    assert (Ek : forall l, flat_map (fun kv => an_drawOrder (snd kv)) (dmap (fun a => remove_deforms_using_slots rem (mkAnimation (an_ik a) (an_drawOrder a) (an_bones a) (drop_keys rem (an_slots a)) (an_events a) (an_transform a) (an_path a) (an_deform a))) l) =
       flat_map (fun kv : string * animation => an_drawOrder (snd kv)) l).
    { induction l as [ | [i a] l IH]; [reflexivity | ]. cbn [dmap map flat_map fst snd]. unfold dmap in IH. rewrite IH. reflexivity. }
    destruct (visit_keys rem names (d_animations (clean_slots_in_animations rem d1))) as [(l' & E & Fk) | (b & x & a & b' & l' & er & Eb & Ex & Fk & E' & E)].
    - left. fold names in R. rewrite E in R. eexists _, _. split; [exact R | ]. intros k Hk.
      unfold clean_slots_in_animations in Fk. cbn [d_animations set_animations] in Fk. rewrite Ek in Fk.
      assert (G : forall (l l2 : list draw_order), Forall2 (fun x y => remove_offsets_with_ids rem names x = (y, Ok tt)) l l2 -> In k l -> exists k', remove_offsets_with_ids rem names k = (k', Ok tt)).
      { clear. intros l l2 F. induction F; [intros [] | intros [-> | K]; eauto]. }
      exact (G _ _ Fk Hk).
    - right. fold names in R. rewrite E in R. eexists _, er, b, x, a. split; [exact R | ].
      unfold clean_slots_in_animations in Eb. cbn [d_animations set_animations] in Eb. rewrite Ek in Eb.
      split; [exact Eb | ]. split.
      { clear - Fk. induction Fk; [intros k [] | intros k [<- | K]; eauto]. }
      split; [exact Ex | ]. constructor; try reflexivity.
      + intros n. rewrite Rin. apply Gn.
      + cbn [e_data e_doc with_data doc_data set_animations d_slots]. unfold d1. cbn. rewrite keep_names, (sy_names _ _ _ _ _ _ S). apply without_same. intros y. rewrite Rin. tauto.
      + intros sl k o. cbn [e_data e_doc with_data doc_data set_animations d_skins]. unfold skin_attachment. cbn. split.
        * intros (s' & m & Hs & Hm & Ho). apply in_map_iff in Hs as (s & <- & Hs). unfold sk_atts in Hm. cbn [sk_attachments] in Hm. apply in_drop_keys in Hm as [Hm Nr]. split; auto. exists s, m. auto.
        * intros ((s & m & Hs & Hm & Ho) & Nr). exists (mkSkin (sk_name s) (Some (drop_keys rem (sk_atts s)))), m. split; [apply in_map_iff; exists s; auto | ]. split; auto.
          unfold sk_atts at 1. cbn [sk_attachments]. apply in_drop_keys. auto.
      + exists b'. split; [exact E' | exact Fk].
  Qed.
  Theorem step_draw_fails : forall before k after, first_unsound (e_data e) before k after ->
    exists e' x gone, clean_animation enum e = (e', Err x) /\ half_cleaned rewritten e e' before (k :: after) gone /\
      (not_by_int names (do_offsets k) -> exists w, x = EType w) /\ (~ not_by_int names (do_offsets k) -> exists w, x = EValue w).
  Proof.
    intros before k after (Ek & Hb & Hk). destruct clean_outcome as (rem & Rn & K). pose proof names_nodup as N. fold names in Hb, Hk.
    assert (Nk : exists x, remove_offsets_with_ids rem names k = (k, Err x) /\ (not_by_int names (do_offsets k) -> exists w, x = EType w) /\ (~ not_by_int names (do_offsets k) -> exists w, x = EValue w)).
    { destruct (remove_offsets_any rem names k N) as (A1 & B1 & C1). rewrite (no_slot_sub rem names) in * by auto.
      destruct (not_by_int_dec names k N) as [P | P].
      - destruct (A1 P) as [w W]. exists (EType w). split; auto. split; [eauto | intros Q; contradiction].
      - destruct (no_slot_dec [] names (do_offsets k)) as [Q | Q]; [ | destruct Hk; split; auto]. destruct (B1 P Q) as [w W]. exists (EValue w). split; auto. split; [contradiction | eauto]. }
    destruct Nk as (x & Ex & Kx).
    destruct K as [(e' & r & E & K) | (e' & y & b & k0 & a & E & Ek' & Hb' & Ey & Hc)].
    - destruct (K k) as [k' E']; [rewrite Ek; apply in_app_iff; right; left; auto | congruence].
    - rewrite Ek in Ek'. destruct (first_same (remove_offsets_with_ids rem names) _ _ _ _ _ _ x Ek') as (-> & -> & ->); eauto.
      + intros k' I. apply offsets_sound; auto.
      + rewrite Ey in Ex. injection Ex as ->. exists e', x, rem. auto.
  Qed.
  Theorem step_draw_works : (forall k, In k (draw_keys (e_data e)) -> sound_key names k) -> exists e' r, clean_animation enum e = (e', Ok r).
  Proof.
    intros S. destruct clean_outcome as (rem & Rn & [(e' & r & E & _) | (e' & y & b & k0 & a & E & Ek' & Hb' & Ey & Hc)]); eauto.
    destruct (proj1 (offsets_sound rem names k0 names_nodup Rn)) as [k' E']; [ | congruence]. apply S. rewrite Ek'. apply in_app_iff. right. left. auto.
  Qed.
End Step.
Lemma history_in_step : forall e0 ops e, history e0 ops e -> plain_slots (e_data e0) -> exists bs ss is, in_step e bs ss is.
Proof.
  intros e0 ops e H Pl. destruct (last_built_ex _ _ _ H) as [eb B]. destruct (history_filed _ _ _ _ Pl B) as (ss & S & I & F).
  assert (Fo : edges_old e0 e) by (destruct (history_old _ _ _ _ B) as (? & _ & _ & Fo); exact Fo).
  eexists _, ss, _. constructor; [exact S | exact F | | ].
  - intros s Hs. pose proof (si_slots _ _ _ I) as Fr. rewrite Forall_forall in Fr. destruct (from_name _ _ (Fr s Hs)) as (s0 & H0 & E0). apply plain_base. rewrite <- E0. apply Pl. auto.
  - apply (kept_bones e0 e _ ss _ (history_loaded _ _ _ H) S I Fo).
Qed.
Section Fail.
  Variables (e0 : editor) (ops : list eop) (e : editor) (enum : order).
  Hypotheses (H : history e0 ops e) (O : order_ok enum) (Pl : plain_slots (e_data e0)) (A : analysable (e_data e)).
  Let names := map slot_name (d_slots (e_data e)).
  Theorem clean_draw_fails : forall before k after, first_unsound (e_data e) before k after ->
    exists e' x gone, clean_animation enum e = (e', Err x) /\ half_cleaned rewritten e e' before (k :: after) gone /\
      (not_by_int names (do_offsets k) -> exists w, x = EType w) /\ (~ not_by_int names (do_offsets k) -> exists w, x = EValue w).
  Proof. destruct (history_in_step _ _ _ H Pl) as (bs & ss & is & S). exact (step_draw_fails _ _ _ _ enum S O A). Qed.
  Theorem clean_draw_works : (forall k, In k (draw_keys (e_data e)) -> sound_key names k) -> exists e' r, clean_animation enum e = (e', Ok r).
  Proof. destruct (history_in_step _ _ _ H Pl) as (bs & ss & is & S). exact (step_draw_works _ _ _ _ enum S O A). Qed.
End Fail.
Theorem unsound_or_sound : forall e0 ops e, history e0 ops e ->
  (forall k, In k (draw_keys (e_data e)) -> sound_key (map slot_name (d_slots (e_data e))) k) \/ exists before k after, first_unsound (e_data e) before k after.
Proof. intros e0 ops e H. apply sound_or_not. exact (proj1 (history_distinct _ _ _ H)). Qed.
