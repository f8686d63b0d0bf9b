(** Proofs: clean-ups after a clean-up that failed. *)
From Verif Require Import PyBase PyFacts Json Version Graph SpecGraph GraphFacts GraphRemove IdFacts Classes ClassFacts DocFacts ReloadFacts SpineGraph SpecSpine
  SpineFacts BuildFacts SpineRemove DrawOrder SpecDraw DrawFacts DrawAny AnimData AnimFacts AnimErr Editor SpecAnim SkinFacts SpecEditor SpecFail SpecAgain EditorGraph EditorData EditorBuild EditorClean EditorOut EditorHist EditorFacts EditorRemoved EditorOrder EditorFail ContainerFacts.
Open Scope string_scope.
Open Scope list_scope.

(** ** What a clean-up that works has done *)
Lemma bind_ok : forall S A B (m : M S A) (k : A -> M S B) s s' b, mbind m k s = (s', Ok b) ->
  exists s1 a, m s = (s1, Ok a) /\ k a s1 = (s', Ok b).
Proof. intros S A B m k s s' b H. unfold mbind in H. destruct (m s) as [s1 [a | x]]; [eauto | discriminate]. Qed.
Ltac next H s a E := apply bind_ok in H as (s & a & E & H).
Lemma on_graph_ok : forall A (m : M sgraph A) e e' a, on_graph m e = (e', Ok a) -> exists g, m (e_graph e) = (g, Ok a) /\ e' = mkEditor (e_doc e) (e_images e) g.
Proof. intros A m e e' a H. unfold on_graph in H. destruct (m (e_graph e)) as [g r]. injection H as <- ->. eauto. Qed.
Lemma on_data_ok : forall A (m : M anim_data A) e e' a, on_data m e = (e', Ok a) -> exists d, m (e_data e) = (d, Ok a) /\ e' = mkEditor (with_data e d) (e_images e) (e_graph e).
Proof. intros A m e e' a H. unfold on_data in H. destruct (m (e_data e)) as [d r]. injection H as <- ->. eauto. Qed.
Lemma modify_ok : forall f e e' u, modify_data f e = (e', Ok u) -> e' = mkEditor (with_data e (f (e_data e))) (e_images e) (e_graph e).
Proof. intros f e e' u H. unfold modify_data in H. apply on_data_ok in H as (d & E & ->). injection E as <- _. reflexivity. Qed.
Lemma lift_ok : forall S A (r : res A) (s s' : S) a, mlift r s = (s', Ok a) -> r = Ok a /\ s' = s.
Proof. intros S A r s s' a H. unfold mlift in H. injection H as <- ->. auto. Qed.

Lemma anims_keys : forall rem l, flat_map (fun kv => an_drawOrder (snd kv)) (dmap (fun a => remove_deforms_using_slots rem (mkAnimation (an_ik a) (an_drawOrder a) (an_bones a) (drop_keys rem (an_slots a)) (an_events a) (an_transform a) (an_path a) (an_deform a))) l) =
  flat_map (fun kv : string * animation => an_drawOrder (snd kv)) l.
Proof. intros rem. induction l as [ | [i a] l IH]; [reflexivity | ]. cbn [dmap map flat_map fst snd]. unfold dmap in IH. rewrite IH. reflexivity. Qed.

Lemma clean_ok_inv : forall enum e e' r, dinv (e_ver e) (e_data e) -> clean_animation enum e = (e', Ok r) ->
  exists inv atts g1 r1 g2 r2 g3 leafs, get_unused_slots_and_attachments (e_data e) = Ok (inv, atts) /\
    remove_slots (enum 0 inv) (e_graph e) = (g1, Ok r1) /\ remove_attachments (enum 1 atts) g1 = (g2, Ok r2) /\
    remove_leafs_of_type T_SLOT g2 = (g3, Ok leafs) /\
    forall k, In k (draw_keys (e_data e)) -> exists k', remove_offsets_with_ids (enum 2 (set_union inv leafs)) (map slot_name (d_slots (e_data e))) k = (k', Ok tt).
Proof.
  intros enum e e' r D H. unfold clean_animation in H.
  next H s0 e1 E. unfold mget in E. injection E as <- <-.
  next H s1 p E. apply lift_ok in E as [U ->]. destruct p as [inv atts].
  next H s2 r1 E. apply on_graph_ok in E as (g1 & E1 & ->).
  next H s2 r2 E. apply on_graph_ok in E as (g2 & E2 & ->). cbn [e_graph e_doc e_images] in E2.
  next H s2 leafs E. apply on_graph_ok in E as (g3 & E3 & ->). cbn [e_graph e_doc e_images] in *.
  exists inv, atts, g1, r1, g2, r2, g3, leafs. do 4 (split; [assumption | ]).
  next H s2 e1 E. unfold mget in E. injection E as <- <-.
  next H s2 out E. apply lift_ok in E as [_ ->].
  next H s2 bs E. apply lift_ok in E as [_ ->].
  next H s2 u E. apply modify_ok in E as ->. clear u.
  next H s2 ss E. apply lift_ok in E as [_ ->].
  next H s2 u E. apply modify_ok in E as ->. clear u.
  next H s2 is E. apply lift_ok in E as [_ ->].
  next H s2 u E. apply modify_ok in E as ->. clear u.
  next H s2 u E. apply modify_ok in E as ->. clear u.
  next H s2 u E. clear H. unfold ed_remove_slots in E.
  next E s3 u' F. apply modify_ok in F as ->. clear u'.
  next E s3 u' F. apply modify_ok in F as ->. clear u'.
  apply on_data_ok in E as (d1 & E & _). unfold clean_draw_order_refs in E.
  set (rem := enum 2 (set_union inv leafs)) in *.
  pose proof (dinv_settled _ _ D) as X. unfold data_defaults in X.
  apply (f_equal d_animations) in X. cbn [d_animations] in X.
  unfold e_data in *. cbn [e_doc e_images e_graph with_data doc_data doc_skeleton doc_version e_ver] in *.
  match type of E with context [dmapM_inplace _ ?l] => destruct (visit_keys rem (map slot_name (d_slots (doc_data (e_doc e)))) l) as [(l' & E' & Fk) | (b & x & a & b' & l' & er & Eb & Ex & Fk & E' & E2')] end.
  2: { rewrite E2' in E. discriminate. }
  intros k Hk. clear E E'.
  unfold clean_slots_in_animations, clean_slots_in_skins, data_defaults in Fk. cbn [d_animations set_animations set_skins set_ik set_slots set_bones] in Fk. rewrite anims_keys in Fk.
  change (e_ver e) with (doc_version (e_doc e)) in X.
  assert (G : forall (l l2 : list draw_order), Forall2 (fun x y => remove_offsets_with_ids rem (map slot_name (d_slots (doc_data (e_doc e)))) x = (y, Ok tt)) l l2 -> In k l -> exists k', remove_offsets_with_ids rem (map slot_name (d_slots (doc_data (e_doc e)))) k = (k', Ok tt)).
  { clear. intros l l2 F. induction F; [intros [] | intros [-> | K]; eauto]. }
  apply (G _ _ Fk). unfold draw_keys, e_data in Hk.
  rewrite <- X in Hk. exact Hk.
Qed.

(** ** The state that a failed clean-up leaves *)
Section Again.
  Variables (e0 : editor) (ops : list eop) (e : editor) (enum : order).
  Hypotheses (H : history e0 ops e) (O : order_ok enum) (Pl : plain_slots (e_data e0)) (A : analysable (e_data e)).
  Let names := map slot_name (d_slots (e_data e)).

  Lemma left_behind : forall e' x, clean_animation enum e = (e', Err x) ->
    exists gone, good (e_graph e') /\ dinv (e_ver e') (e_data e') /\ distinct_slots (e_data e') /\
      map slot_name (d_slots (e_data e')) = without gone names /\ (forall n, In n gone -> In n names) /\
      (forall s, has (e_graph e') T_SLOT s -> In s (without gone names)) /\
      (forall s, In s names -> slot_base s = s) /\
      (forall k, goes (e_data e) k -> ~ has (e_graph e') T_ATTACHMENT k) /\
      exists k, In k (draw_keys (e_data e')) /\ ~ sound_key names k.
  Proof.
    intros e' x Cl.
    destruct (last_built_ex _ _ _ H) as [eb B]. destruct (history_filed _ _ _ _ Pl B) as (ss & [D S] & I & F).
    assert (Fo : edges_old e0 e) by (destruct (history_old _ _ _ _ B) as (? & _ & _ & Fo); exact Fo).
    pose proof (sync_distinct_slots _ _ _ _ _ _ S) as Ds. pose proof (dinv_timelines _ _ D) as Dt.
    destruct (proj2 (unused_total _ Ds Dt) A) as [[inv atts] U].
    destruct (unused_spec _ _ _ Ds Dt U) as [Ui Ua].
    destruct (clean_run e _ ss _ D S inv atts U) as (leafs & orphans & imgs & Ch & R). specialize (R enum O). cbv zeta in R.
    set (rem := enum 2 (set_union inv (map slot_base leafs))) in *. exists (inv ++ leafs).
    assert (Nb : forall s, In s names -> slot_base s = s).
    { intros s Hs. apply in_map_iff in Hs as (o & <- & Ho). pose proof (si_slots _ _ _ I) as Fr. rewrite Forall_forall in Fr.
      destruct (from_name _ _ (Fr o Ho)) as (s0 & H0 & E0). apply plain_base. rewrite <- E0. apply Pl. auto. }
    assert (Ln : forall s, In s leafs -> In s names).
    { intros s Hs. apply (ch_leafs _ _ _ _ _ _ Ch) in Hs as [Hs _]. unfold names. rewrite (sy_names _ _ _ _ _ _ S). eapply sync_has; eauto. }
    assert (Rin : forall x, In x rem <-> In x (inv ++ leafs)).
    { intros y. unfold rem. rewrite in_order by auto. rewrite in_set_union, in_map_iff, in_app_iff. split; (intros [K | K]; [auto | right]).
      - destruct K as (s & <- & Hs). rewrite (Nb s (Ln s Hs)). auto.
      - exists y. auto. }
    assert (Gn : forall n, In n (inv ++ leafs) -> In n names).
    { intros n Hn. apply in_app_iff in Hn as [Hx | Hx]; [apply Ui in Hx as (s & Hs & <- & _); apply in_map; auto | auto]. }
    assert (Ls : Forall (loaded_obj (e_ver e) CSlot) (filter (keep (inv ++ leafs)) ss)).
    { pose proof (sy_slots_ok _ _ _ _ _ _ S) as L. rewrite Forall_forall in *. intros s K. apply filter_In in K as [K _]. auto. }
    destruct (read_slots (e_ver e) _ Ls) as [[_ Rs] | [K _]].
    2: { destruct K. apply (kept_bones e0 e _ ss _ (history_loaded _ _ _ H) (conj D S) I Fo inv atts). intros s. apply (ch_leafs _ _ _ _ _ _ Ch). }
    rewrite Rs in R. rewrite R in Cl. clear R.
    match type of Cl with context [clean_data ?a ?b ?c ?bs ?ss ?is ?d] => destruct (clean_data a b c bs ss is d) as [d' [u | w]] eqn:Ed end; [discriminate Cl | ].
    injection Cl as <- <-.
    destruct (unused_nodup _ _ _ U) as [Ninv Natts]. pose proof (unused_inv e _ ss _ D S inv atts U) as Hinv. pose proof (unused_atts e _ ss _ D S inv atts U) as Hatts.
    destruct (ch_leafs _ _ _ _ _ _ Ch) as [Nl Hl].
    assert (Ns : map slot_name (d_slots d') = without (inv ++ leafs) names).
    { unfold clean_data, clean_draw_order_refs in Ed. destruct (dmapM_inplace _ _) as [l [v | v]]; [discriminate Ed | ]. injection Ed as <- _. cbn. rewrite keep_names. unfold names. rewrite (sy_names _ _ _ _ _ _ S). reflexivity. }
    cbn [e_graph e_ver e_doc with_data doc_version]. change (e_data (mkEditor (with_data e d') (e_images e) (minus (e_graph e) (gone2 inv atts leafs)))) with d'.
    assert (G2 : good (minus (e_graph e) (gone2 inv atts leafs))) by (apply (good2 _ inv atts (sy_view _ _ _ _ _ _ S) Ninv Natts Hinv Hatts leafs); auto).
    split; [exact G2 | ]. split.
    { eapply cleaned_dinv; [exact D | | exact Ls | | exact Ed].
      - rewrite Forall_forall. intros b Hb. apply in_map_iff in Hb as (b0 & <- & Hb). pose proof (sy_bones_ok _ _ _ _ _ _ S) as L. rewrite Forall_forall in L. destruct (L b0 Hb) as [W _]. apply reload_loaded; auto using bone_req.
      - rewrite Forall_forall. intros b Hb. apply in_map_iff in Hb as (b0 & <- & Hb). pose proof (sy_ik_ok _ _ _ _ _ _ S) as L. rewrite Forall_forall in L. destruct (L b0 Hb) as [W _]. apply reload_loaded; auto using ik_req. }
    split; [unfold distinct_slots; rewrite Ns; apply NoDup_filter; exact Ds | ]. split; [exact Ns | ]. split; [exact Gn | ]. split.
    { intros s Hs. unfold has in Hs. rewrite ids_minus, in_keep in Hs. destruct Hs as [Hs Nr]. unfold without. apply filter_In. split.
      - unfold names. rewrite (sy_names _ _ _ _ _ _ S). eapply sync_has; eauto.
      - apply negb_true_iff, smem_nin. intros K. apply Nr. apply in_gone2_slot. apply in_app_iff. auto. }
    split; [exact Nb | ]. split.
    { intros k (Nu & sl & o & Ho & Hm) Hk. unfold has in Hk. rewrite ids_minus, in_keep in Hk. destruct Hk as [_ Nr]. apply Nr. apply in_gone2_att. apply Ua. split; auto. exists sl, o. split; auto. intros Hc. apply Ui. auto. }
    unfold clean_data, clean_draw_order_refs in Ed.
    match type of Ed with context [dmapM_inplace _ ?l] => destruct (visit_keys rem names l) as [(l' & E' & _) | (b & y & a & b' & l' & er & Eb & Ex & Fk & E' & E)] end.
    { unfold names in E'. rewrite E' in Ed. discriminate Ed. }
    unfold names in E. rewrite E in Ed. injection Ed as <- _. exists y. split.
    - unfold draw_keys. cbn [d_animations set_animations]. rewrite E'. apply in_or_app. right. left. auto.
    - intros K. apply (offsets_sound rem names y Ds) in K as [k' K]; [congruence | ]. intros z Hz. apply Gn, Rin. auto.
  Qed.

  (** *** Trying again at once *)
  Theorem tried_again : forall e' x enum2, order_ok enum2 -> clean_animation enum e = (e', Err x) ->
    exists e'' y, clean_animation enum2 e' = (e'', Err y).
  Proof.
    intros e' x enum2 O2 Cl. destruct (left_behind _ _ Cl) as (gone & G & D & Ds & Ns & Gn & Hs & Nb & _ & k & Hk & Un).
    destruct (clean_animation enum2 e') as [e'' [r | y]] eqn:C2; [exfalso | eauto].
    destruct (clean_ok_inv _ _ _ _ D C2) as (inv & atts & g1 & r1 & g2 & r2 & g3 & leafs & U & E1 & E2 & E3 & K).
    destruct (unused_spec _ _ _ Ds (dinv_timelines _ _ D) U) as [Ui _].
    assert (T1 : exists l, g1 = minus (e_graph e') l /\ NoDup l /\ incl l (ids (e_graph e'))).
    { pose proof (remove_each slot_id slot_inj (enum2 0 inv) [] (e_graph e') (good_wf _ G) (NoDup_nil _)) as X. cbn [map app] in X. rewrite minus_nil in X.
      destruct X as [(r0 & X & T & _) | (l1 & s & l2 & w & _ & _ & _ & X)]; [intros i [] | | ]; pose proof (eq_trans (eq_sym E1) X) as Y; [ | discriminate Y].
      injection Y as -> _. apply (there_incl slot_id) in T as [N T]. exists (map slot_id (enum2 0 inv)). split; auto. split; auto. apply NoDup_map'; auto using slot_inj. }
    destruct T1 as (l1 & -> & N1 & I1). pose proof (good_minus _ _ G N1 I1) as G1.
    assert (T2 : exists l, g2 = minus (minus (e_graph e') l1) l /\ NoDup l /\ incl l (ids (minus (e_graph e') l1))).
    { pose proof (remove_each att_id att_inj (enum2 1 atts) [] _ (good_wf _ G1) (NoDup_nil _)) as X. cbn [map app] in X. rewrite minus_nil in X.
      destruct X as [(r0 & X & T & _) | (l2 & s & l3 & w & _ & _ & _ & X)]; [intros i [] | | ]; pose proof (eq_trans (eq_sym E2) X) as Y; [ | discriminate Y].
      injection Y as -> _. apply (there_incl att_id) in T as [N T]. exists (map att_id (enum2 1 atts)). split; auto. split; auto. apply NoDup_map'; auto using att_inj. }
    destruct T2 as (l2 & -> & N2 & I2). pose proof (good_minus _ _ G1 N2 I2) as G2.
    destruct (leafs_run T_SLOT _ G2) as (ll & E4 & _ & _ & Il); [five | ]. rewrite E4 in E3. injection E3 as _ <-.
    assert (Rn : forall y, In y (enum2 2 (set_union inv (map (fun s => to_base_id T_SLOT (graph_id T_SLOT s)) ll))) -> In y (map slot_name (d_slots (e_data e')))).
    { intros y Hy. rewrite in_order in Hy by auto. apply in_set_union in Hy as [Hy | Hy]; [apply Ui in Hy as (s & Hs' & <- & _); apply in_map; auto | ].
      apply in_map_iff in Hy as (s & <- & Hl). rewrite Ns. assert (Hg : has (e_graph e') T_SLOT s).
      { assert (Q : In (graph_id T_SLOT s) (map (graph_id T_SLOT) ll)) by (apply in_map; auto). apply Il in Q. rewrite !ids_minus, !in_keep in Q. apply Q. }
      apply Hs in Hg. assert (Hn : In s names) by (unfold without in Hg; apply filter_In in Hg; apply Hg). pose proof (Nb s Hn) as Eb. unfold slot_base in Eb. change (to_base_id T_SLOT (graph_id T_SLOT s)) with (to_base_id T_SLOT (slot_id s)). rewrite Eb. exact Hg. }
    specialize (K k Hk). apply offsets_sound in K; [ | exact Ds | exact Rn]. apply Un. rewrite Ns in K.
    assert (Sub : forall s, In s (without gone names) -> In s names) by (intros s Hw; unfold without in Hw; apply filter_In in Hw; apply Hw).
    destruct K as [K1 K2]. split.
    - intros (s & o & Hn & Hc & Hz). destruct (in_dec string_dec s (without gone names)) as [Hi | Hi].
      + apply K1. exists s, o. auto.
      + apply K2. destruct Hc as (a & b & -> & Es & _). exists o. split; [apply in_or_app; right; left; auto | ]. intros s' Es'. assert (s' = s) by congruence. subst s'. split; auto.
    - intros (o & Ho & Hf). apply K2. exists o. split; auto. intros s Es. destruct (Hf s Es) as [N1' N2']. split; auto.
  Qed.

  (** *** Later *)
  Lemma light_kept : forall e1 op e2 r, light op -> estep e1 op = (e2, r) ->
    e_graph e2 = e_graph e1 /\ d_slots (e_data e2) = d_slots (e_data e1) /\ incl (d_animations (e_data e2)) (d_animations (e_data e1)).
  Proof.
    intros e1 op e2 r L E. destruct op as [enum' l safe | enum' l strict safe | enum' | sx sy]; cbn [light] in L; try contradiction; cbn [estep] in E.
    - subst safe. unfold erase_animations in E. unfold mbind at 1 in E. unfold on_data in E.
      assert (K : forall l (acc : dict animation * list string), incl (fst (fold_left (fun acc n => let '(a, nf) := acc in if dmem n a then (ddel n a, nf) else (a, (nf ++ [n])%list)) l acc)) (fst acc)).
      { clear. induction l as [ | n l IH]; intros [a nf] x Hx; [exact Hx | ]. cbn [fold_left] in Hx. apply IH in Hx. destruct (dmem n a); cbn [fst] in *; auto. unfold ddel in Hx. apply filter_In in Hx. apply Hx. }
      specialize (K l (d_animations (e_data e1), [])). cbn [fst] in K.
      unfold erase_raw_animations_data in E. destruct (fold_left _ l _) as [anims nf]. cbn [fst] in K.
      destruct nf as [ | n nf]; [ | destruct strict]; injection E as <- _; cbn; auto.
    - unfold scale_animation, on_data in E. destruct (scale_bones sx sy (d_bones (e_data e1))) as [l r0]. injection E as <- _. cbn. auto using incl_refl.
  Qed.
  Lemma light_all : forall e1 e2, light_calls e1 e2 ->
    e_graph e2 = e_graph e1 /\ d_slots (e_data e2) = d_slots (e_data e1) /\ incl (d_animations (e_data e2)) (d_animations (e_data e1)).
  Proof.
    intros e1 e2 L. induction L as [ | e2 op e3 r L IH Lo E]; [auto using incl_refl | ]. destruct (light_kept _ _ _ _ Lo E) as (K1 & K2 & K3).
    destruct IH as (I1 & I2 & I3). rewrite K1, K2. split; auto. split; auto. eauto using incl_tran.
  Qed.
  Theorem attachment_lost : forall e' x e'' enum2 k, order_ok enum2 -> clean_animation enum e = (e', Err x) -> light_calls e' e'' ->
    analysable (e_data e'') -> goes (e_data e) k -> goes (e_data e'') k ->
    exists e3 w, clean_animation enum2 e'' = (e3, Err (EValue w)).
  Proof.
    intros e' x e'' enum2 k O2 Cl L A2 Gk Gk2. destruct (left_behind _ _ Cl) as (gone & G & D & Ds & _ & _ & _ & _ & Ng & _).
    destruct (light_all _ _ L) as (Eg & Es & Ia). specialize (Ng k Gk). rewrite <- Eg in *.
    assert (Ds2 : distinct_slots (e_data e'')) by (unfold distinct_slots; rewrite Es; exact Ds).
    assert (Dt2 : distinct_timelines (e_data e'')). { intros a [i Hi]. apply (dinv_timelines _ _ D). exists i. apply Ia. auto. }
    destruct (proj2 (unused_total _ Ds2 Dt2) A2) as [[inv atts] U]. destruct (unused_spec _ _ _ Ds2 Dt2 U) as [Ui Ua].
    assert (Hk : In k (enum2 1 atts)).
    { apply in_order; auto. apply Ua. destruct Gk2 as (Nu & sl & o & Ho & Hm). split; auto. exists sl, o. split; auto. intros Hc. apply Ui. auto. }
    unfold clean_animation. unfold mbind at 1. unfold mget at 1. cbv beta iota. unfold mbind at 1, mlift at 1. rewrite U. cbv beta iota.
    pose proof (remove_each slot_id slot_inj (enum2 0 inv) [] (e_graph e'') (good_wf _ G) (NoDup_nil _)) as X. cbn [map app] in X. rewrite minus_nil in X.
    destruct X as [(r0 & X & T & _) | (l1 & s & l2 & w & _ & _ & _ & X)]; [intros i [] | | ]; unfold mbind at 1, on_graph at 1; match type of X with ?l = ?r => change (remove_slots (enum2 0 inv) (e_graph e'')) with l end; rewrite X; cbv beta iota; [ | eauto].
    apply (there_incl slot_id) in T as [N T]. pose proof (good_minus _ _ G (NoDup_map' _ _ slot_id _ slot_inj N) T) as G1.
    pose proof (remove_each att_id att_inj (enum2 1 atts) [] _ (good_wf _ G1) (NoDup_nil _)) as X2. cbn [map app] in X2. rewrite minus_nil in X2.
    destruct X2 as [(r2 & _ & T2 & _) | (l1 & s & l2 & w & _ & _ & _ & X2)]; [intros i [] | exfalso | ].
    - apply (there_incl att_id) in T2 as [_ T2]. specialize (T2 (att_id k) (in_map _ _ _ Hk)). rewrite ids_minus, in_keep in T2. apply Ng. apply T2.
    - unfold mbind at 1, on_graph at 1. cbn [e_graph]. match type of X2 with ?l = ?r => match goal with |- context [remove_attachments ?a ?b] => change (remove_attachments a b) with l end end. rewrite X2. cbv beta iota. eauto.
  Qed.
End Again.

Theorem fails_again : forall e0 ops e enum e' x enum2, history e0 ops e -> order_ok enum -> order_ok enum2 -> plain_slots (e_data e0) ->
  clean_animation enum e = (e', Err x) -> exists e'' y, clean_animation enum2 e' = (e'', Err y).
Proof.
  intros e0 ops e enum e' x enum2 H O O2 Pl Cl. destruct (get_unused_slots_and_attachments (e_data e)) as [[inv atts] | y] eqn:U.
  - destruct (history_distinct _ _ _ H) as [Ds Dt]. apply (tried_again e0 ops e enum H O Pl) with (x := x); auto. apply (unused_total _ Ds Dt). eauto.
  - rewrite (clean_fails enum e y U) in Cl. injection Cl as <- <-. exists e, y. apply clean_fails. auto.
Qed.
