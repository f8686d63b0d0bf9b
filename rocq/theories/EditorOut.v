(** What a clean-up leaves: the data, item by item, and the invariants. *)
From Verif Require Import PyBase PyFacts Json Version Graph SpecGraph GraphFacts GraphApi GraphRemove IdFacts Classes ClassFacts DocFacts ReloadFacts SpineGraph SpecSpine
  SpineFacts BuildFacts BuildTotal SpineRemove DrawOrder SpecDraw DrawFacts AnimData AnimFacts Editor SpecAnim SkinFacts SpecEditor EditorGraph EditorData EditorBuild EditorClean.
From Coq Require Import Sorting.Sorted Permutation.
Open Scope string_scope.

Definition unset_slot (atts : list string) (s : obj) : obj :=
  match ostr s "attachment" with
  | Some a => if smem (graph_id T_ATTACHMENT a) atts then oset s "attachment" VNone else s
  | None => s
  end.
Definition clean_skin (rem atts : list string) (s : skin) : skin :=
  mkSkin (sk_name s) (Some (dmap (drop_keys atts) (drop_keys rem (sk_atts s)))).
Definition is_skin (skins : list skin) (i : string) : bool := existsb (fun s => opt_eqb (sk_name s) (Some i)) skins.
Definition clean_deform (rem atts : list string) (skins : list skin) (kv : string * dict (dict (list obj))) : string * dict (dict (list obj)) :=
  (fst kv, if is_skin skins (fst kv) then dmap (drop_keys atts) (drop_keys rem (snd kv)) else drop_keys rem (snd kv)).
Record clean_anim (rem atts names : list string) (skins : list skin) (a a' : animation) : Prop := {
  ca_ik : an_ik a' = an_ik a;
  ca_bones : an_bones a' = an_bones a;
  ca_events : an_events a' = an_events a;
  ca_transform : an_transform a' = an_transform a;
  ca_path : an_path a' = an_path a;
  ca_slots : an_slots a' = drop_keys rem (an_slots a);
  ca_draw : Forall2 (fun x y => remove_offsets_with_ids rem names x = (y, Ok tt)) (an_drawOrder a) (an_drawOrder a');
  ca_deform : an_deform a' = map (clean_deform rem atts skins) (an_deform a) }.
Record cleaned (rem atts names : list string) (bs ss is : list obj) (d d' : anim_data) : Prop := {
  cl_bones : d_bones d' = bs;
  cl_slots : d_slots d' = map (unset_slot atts) ss;
  cl_skins : d_skins d' = map (clean_skin rem atts) (d_skins d);
  cl_events : d_events d' = d_events d;
  cl_ik : d_ik d' = is;
  cl_transform : d_transform d' = d_transform d;
  cl_path : d_path d' = d_path d;
  cl_anims : Forall2 (fun x y => fst y = fst x /\ clean_anim rem atts names (d_skins d) (snd x) (snd y)) (d_animations d) (d_animations d') }.

(** ** Deforms *)
Lemma dmap_dmap : forall A B C (f : A -> B) (g : B -> C) d, dmap g (dmap f d) = dmap (fun x => g (f x)) d.
Proof. intros A B C f g d. unfold dmap. rewrite map_map. auto. Qed.
Lemma drop_keys_twice : forall A l (d : dict A), drop_keys l (drop_keys l d) = drop_keys l d.
Proof. intros A l d. apply filter_all. intros x Hx. apply filter_In in Hx. apply Hx. Qed.
Lemma dset_map : forall A k (v : A) d, NoDup (dkeys d) -> In k (dkeys d) ->
  dset k v d = map (fun kv => (fst kv, if String.eqb (fst kv) k then v else snd kv)) d.
Proof.
  intros A k v d. induction d as [ | [k' v'] d IH]; intros N Hk; [destruct Hk | ]. simpl in N. apply NoDup_cons_iff in N as [N1 N2].
  cbn [dset map fst snd]. rewrite (String.eqb_sym k' k). eqb_cases k k'.
  - subst. f_equal. rewrite <- (map_id d) at 1. apply map_ext_in. intros [k v2] Hi. cbn [fst snd].
    eqb_cases k k'; auto. subst. destruct N1. apply (in_map fst) in Hi. auto.
  - f_equal. apply IH; auto. destruct Hk as [Hk | Hk]; auto. cbn in Hk. congruence.
Qed.
Section Deform.
  Variable l : list string.
  Let step := fun (a : animation) (s : skin) => remove_deforms_with_attachments_on_skin l (sk_name s) a.
  Let mark (skins : list skin) := fun (kv : string * dict (dict (list obj))) => (fst kv, if is_skin skins (fst kv) then dmap (drop_keys l) (snd kv) else snd kv).
  Lemma step_deform : forall s a, NoDup (dkeys (an_deform a)) -> an_deform (step a s) = map (mark [s]) (an_deform a).
  Proof.
    intros s a N. unfold step, remove_deforms_with_attachments_on_skin, mark, is_skin. cbn [existsb]. destruct (sk_name s) as [n | ].
    2: { rewrite <- (map_id (an_deform a)) at 1. apply map_ext. intros [k x]. reflexivity. }
    destruct (dget n (an_deform a)) as [x | ] eqn:E; cbn [an_deform].
    - rewrite dset_map by eauto using dget_in_keys. apply map_ext_in. intros [k y] Hi. cbn [fst snd].
      unfold opt_eqb. rewrite (String.eqb_sym n k), orb_false_r. eqb_cases k n; auto. subst. rewrite (in_dget n _ y N Hi) in E. injection E as ->. auto.
    - rewrite <- (map_id (an_deform a)) at 1. apply map_ext_in. intros [k y] Hi. cbn [fst snd]. unfold opt_eqb.
      rewrite (String.eqb_sym n k), orb_false_r. eqb_cases k n; auto. subst. apply dget_none in E. destruct E. apply (in_map fst) in Hi. auto.
  Qed.
  Lemma step_rest : forall s a, an_ik (step a s) = an_ik a /\ an_drawOrder (step a s) = an_drawOrder a /\ an_bones (step a s) = an_bones a /\
    an_slots (step a s) = an_slots a /\ an_events (step a s) = an_events a /\ an_transform (step a s) = an_transform a /\ an_path (step a s) = an_path a.
  Proof.
    intros s a. unfold step, remove_deforms_with_attachments_on_skin. destruct (sk_name s) as [n | ]; [destruct (dget n (an_deform a)) | ]; cbn; auto 10.
  Qed.
  Lemma steps_deform : forall skins a, NoDup (dkeys (an_deform a)) -> an_deform (fold_left step skins a) = map (mark skins) (an_deform a).
  Proof.
    induction skins as [ | s skins IH]; intros a N; cbn [fold_left].
    - rewrite <- (map_id (an_deform a)) at 1. apply map_ext. intros [k x]. reflexivity.
    - assert (K : dkeys (an_deform (step a s)) = dkeys (an_deform a)).
      { rewrite step_deform by auto. unfold dkeys. rewrite map_map. apply map_ext. intros [k x]. reflexivity. }
      rewrite IH by (rewrite K; auto). rewrite step_deform by auto. rewrite map_map. apply map_ext. intros [k x]. unfold mark, is_skin. cbn [fst snd existsb].
      rewrite orb_false_r. destruct (opt_eqb (sk_name s) (Some k)); cbn [orb]; auto.
      destruct (existsb _ skins); auto. rewrite dmap_dmap. f_equal. apply map_ext. intros [k' x']. cbn [fst snd]. rewrite drop_keys_twice. auto.
  Qed.
  Lemma steps_rest : forall skins a, let a' := fold_left step skins a in an_ik a' = an_ik a /\ an_drawOrder a' = an_drawOrder a /\ an_bones a' = an_bones a /\
    an_slots a' = an_slots a /\ an_events a' = an_events a /\ an_transform a' = an_transform a /\ an_path a' = an_path a.
  Proof.
    induction skins as [ | s skins IH]; intros a; cbn [fold_left]; [auto 10 | ].
    destruct (IH (step a s)) as (I1 & I2 & I3 & I4 & I5 & I6 & I7). destruct (step_rest s a) as (S1 & S2 & S3 & S4 & S5 & S6 & S7).
    cbv zeta. rewrite I1, I2, I3, I4, I5, I6, I7. auto 10.
  Qed.
  Lemma steps_dmap : forall skins an, fold_left (fun an s => dmap (remove_deforms_with_attachments_on_skin l (sk_name s)) an) skins an =
    dmap (fun a => fold_left step skins a) an.
  Proof.
    induction skins as [ | s skins IH]; intros an; cbn [fold_left].
    - unfold dmap. rewrite <- (map_id an) at 1. apply map_ext. intros [k x]. reflexivity.
    - rewrite IH, dmap_dmap. reflexivity.
  Qed.
End Deform.

(** ** Draw orders *)
Lemma Forall2_map_l : forall A B C (f : A -> B) (R : B -> C -> Prop) l l', Forall2 R (map f l) l' <-> Forall2 (fun x y => R (f x) y) l l'.
Proof.
  intros A B C f R l. induction l as [ | x l IH]; intros l'; simpl; split; intros H; inversion H; subst; constructor; auto; apply IH; auto.
Qed.
Lemma Forall2_map_r : forall A B C (f : A -> B) (R : C -> B -> Prop) l l', Forall2 R l (map f l') <-> Forall2 (fun x y => R x (f y)) l l'.
Proof.
  intros A B C f R l l'. revert l. induction l' as [ | x l' IH]; intros l; simpl; split; intros H; inversion H; subst; constructor; auto; apply IH; auto.
Qed.
Definition other_fields (a b : animation) : Prop :=
  an_ik b = an_ik a /\ an_bones b = an_bones a /\ an_slots b = an_slots a /\ an_events b = an_events a /\
  an_transform b = an_transform a /\ an_path b = an_path a /\ an_deform b = an_deform a.
Lemma draw_refs_ok : forall rem names d d' u, clean_draw_order_refs rem names d = (d', Ok u) ->
  d' = set_animations d (d_animations d') /\
  Forall2 (fun x y => fst y = fst x /\ other_fields (snd x) (snd y) /\
    Forall2 (fun p q => remove_offsets_with_ids rem names p = (q, Ok tt)) (an_drawOrder (snd x)) (an_drawOrder (snd y))) (d_animations d) (d_animations d').
Proof.
  intros rem names d d' u E. unfold clean_draw_order_refs in E. destruct (dmapM_inplace _ (d_animations d)) as [l r] eqn:El.
  injection E as <- ->. split; [reflexivity | ]. cbn [d_animations set_animations]. destruct u. unfold dmapM_inplace in El. apply mapM_inplace_ok in El.
  eapply Forall2_impl; [ | exact El]. intros [i a] [i' a'] H. cbn [fst snd] in *. unfold remove_draw_order_with_ids in H.
  destruct (mapM_inplace (remove_offsets_with_ids rem names) (an_drawOrder a)) as [l2 r2] eqn:E2. injection H as <- <- ->.
  apply mapM_inplace_ok in E2. cbn. unfold other_fields. cbn. auto 12.
Qed.

Lemma clean_data_ok : forall ver rem atts names bs ss is d d' u, dinv ver d ->
  clean_data rem atts names bs ss is d = (d', Ok u) -> cleaned rem atts names bs ss is d d'.
Proof.
  intros ver rem atts names bs ss is d d' u D E. unfold clean_data in E.
  set (d1 := clean_slots_in_animations rem (clean_slots_in_skins rem (set_ik (set_slots (set_bones d bs) ss) is))) in *.
  destruct (clean_draw_order_refs rem names d1) as [d2 [v | x]] eqn:Ed; [ | discriminate]. injection E as <- _.
  destruct (draw_refs_ok _ _ _ _ _ Ed) as [E2 F]. constructor.
  - rewrite E2. reflexivity.
  - cbn [d_slots clean_attachments_in_slots clean_attachments_in_skins set_slots set_skins set_animations]. rewrite E2. reflexivity.
  - rewrite E2. cbn. rewrite map_map. reflexivity.
  - rewrite E2. reflexivity.
  - rewrite E2. reflexivity.
  - rewrite E2. reflexivity.
  - rewrite E2. reflexivity.
  - assert (Sk : d_skins d2 = map (fun s => mkSkin (sk_name s) (Some (drop_keys rem (sk_atts s)))) (d_skins d)) by (rewrite E2; reflexivity).
    change (d_animations (clean_attachments_in_slots atts (clean_attachments_in_skins atts d2))) with
      (fold_left (fun an s => dmap (remove_deforms_with_attachments_on_skin atts (sk_name s)) an) (d_skins d2) (d_animations d2)).
    rewrite steps_dmap. unfold dmap at 1. apply Forall2_map_r.
    change (d_animations d1) with (dmap (fun a => remove_deforms_using_slots rem
                      (mkAnimation (an_ik a) (an_drawOrder a) (an_bones a)
                         (drop_keys rem (an_slots a)) (an_events a) (an_transform a)
                         (an_path a) (an_deform a))) (d_animations d)) in F.
    unfold dmap in F. apply Forall2_map_l in F. apply Forall2_in_l in F. eapply Forall2_impl; [ | exact F]. intros [i a] [i' a'] (Hi & H1 & H2 & H3).
    cbn [fst snd an_drawOrder remove_deforms_using_slots] in *. split; [auto | ]. destruct H2 as (O1 & O2 & O3 & O4 & O5 & O6 & O7).
    cbn [an_ik an_bones an_slots an_events an_transform an_path an_deform remove_deforms_using_slots] in O1, O2, O3, O4, O5, O6, O7.
    pose proof (steps_rest atts (d_skins d2) a') as (S1 & S2 & S3 & S4 & S5 & S6 & S7). pose proof (dinv_deforms ver d i a D Hi) as N.
    constructor.
    + rewrite S1. auto.
    + rewrite S3. auto.
    + rewrite S5. auto.
    + rewrite S6. auto.
    + rewrite S7. auto.
    + rewrite S4. auto.
    + rewrite S2. auto.
    + rewrite steps_deform.
      2: { rewrite O7, dkeys_dmap. auto. }
      rewrite O7. unfold dmap. rewrite map_map. apply map_ext. intros [k x]. cbn [fst snd]. unfold clean_deform. cbn [fst snd].
      assert (K : is_skin (d_skins d2) k = is_skin (d_skins d) k).
      { rewrite Sk. unfold is_skin. clear. induction (d_skins d) as [ | s l IH]; auto. cbn [map existsb sk_name]. rewrite IH. auto. }
      rewrite K. reflexivity.
Qed.

(** The outcome depends on the elements of the lists only. *)
Lemma smem_same : forall l l', (forall x, In x l <-> In x l') -> forall x, smem x l = smem x l'.
Proof. intros l l' H x. apply smem_iff. auto. Qed.
Lemma drop_keys_same : forall A l l' (d : dict A), (forall x, In x l <-> In x l') -> drop_keys l d = drop_keys l' d.
Proof. intros A l l' d H. apply filter_ext. intros kv. rewrite (smem_same l l' H). auto. Qed.
Lemma mapM_ext : forall A B (f g : A -> res B) l, (forall x, In x l -> f x = g x) -> mapM f l = mapM g l.
Proof.
  intros A B f g l. induction l as [ | x l IH]; intros H; auto. simpl. rewrite (H x (or_introl eq_refl)). destruct (g x); auto. simpl.
  rewrite IH; auto. intros y Hy. apply H. right. auto.
Qed.
Lemma mapM_inplace_ext : forall A (f g : A -> A * res unit) l, (forall x, In x l -> f x = g x) -> mapM_inplace f l = mapM_inplace g l.
Proof.
  intros A f g l. induction l as [ | x l IH]; intros H; auto. simpl. rewrite (H x (or_introl eq_refl)). destruct (g x) as [y [u | e]]; auto.
  rewrite IH; auto. intros z Hz. apply H. right. auto.
Qed.
Lemma remove_offsets_same : forall l l' names d, (forall x, In x l <-> In x l') -> remove_offsets_with_ids l names d = remove_offsets_with_ids l' names d.
Proof.
  intros l l' names d H. pose proof (smem_same l l' H) as M. unfold remove_offsets_with_ids.
  destruct (offsets_by_slot (do_offsets d)) as [o | e]; auto. cbn [bind]. destruct (reorder_slots_with_offset o names) as [f | e]; auto. cbn [bind]. destruct (forallb has_slot (do_offsets d)); auto.
  assert (X : adjust_offsets l f names o = adjust_offsets l' f names o).
  { unfold adjust_offsets.
    assert (K : forall m : list string, filter (fun n => negb (smem n l)) m = filter (fun n => negb (smem n l')) m) by (intros m; apply filter_ext; intros n; rewrite M; auto).
    rewrite !K.
    match goal with |- (let! a := mapM ?f _ in _) = (let! b := mapM ?g _ in _) => assert (Y : mapM f o = mapM g o) end.
    { apply mapM_ext. intros [n x] _. rewrite M. auto. }
    rewrite Y. match goal with |- (let! a := ?m in _) = _ => destruct m as [z | e] end; auto. cbn [bind]. f_equal. apply filter_ext. intros x. destruct (ostr x "slot"); auto. rewrite M. auto. }
  rewrite X. auto.
Qed.
Lemma clean_data_same : forall rem rem' atts names bs ss is d, (forall x, In x rem <-> In x rem') ->
  clean_data rem atts names bs ss is d = clean_data rem' atts names bs ss is d.
Proof.
  intros rem rem' atts names bs ss is d H. unfold clean_data.
  set (d0 := set_ik (set_slots (set_bones d bs) ss) is).
  assert (E1 : clean_slots_in_skins rem d0 = clean_slots_in_skins rem' d0).
  { unfold clean_slots_in_skins. f_equal. apply map_ext. intros s. rewrite (drop_keys_same _ rem rem'); auto. }
  rewrite E1. set (d1 := clean_slots_in_skins rem' d0).
  assert (E2 : clean_slots_in_animations rem d1 = clean_slots_in_animations rem' d1).
  { unfold clean_slots_in_animations. f_equal. apply dmap_ext. intros k a Ha. rewrite (drop_keys_same _ rem rem'); auto. unfold remove_deforms_using_slots. f_equal.
    apply dmap_ext. intros k' x Hx. apply drop_keys_same. auto. }
  rewrite E2. set (d2 := clean_slots_in_animations rem' d1).
  assert (E3 : clean_draw_order_refs rem names d2 = clean_draw_order_refs rem' names d2).
  { unfold clean_draw_order_refs, dmapM_inplace.
    match goal with |- (let '(a, b) := mapM_inplace ?f _ in _) = (let '(p, q) := mapM_inplace ?g _ in _) => assert (Y : mapM_inplace f (d_animations d2) = mapM_inplace g (d_animations d2)) end.
    { apply mapM_inplace_ext. intros [k a] _. cbn [fst snd]. unfold remove_draw_order_with_ids.
      assert (Z : mapM_inplace (remove_offsets_with_ids rem names) (an_drawOrder a) = mapM_inplace (remove_offsets_with_ids rem' names) (an_drawOrder a)).
      { apply mapM_inplace_ext. intros x _. apply remove_offsets_same. auto. }
      rewrite Z. auto. }
    rewrite Y. auto. }
  rewrite E3. auto.
Qed.

(** ** The invariants after a clean-up *)
Lemma unset_name : forall atts s, slot_name (unset_slot atts s) = slot_name s.
Proof.
  intros atts s. unfold unset_slot. destruct (ostr s "attachment") as [a | ]; auto. destruct (smem _ atts); auto.
  unfold slot_name, ostr. rewrite SkinFacts.oget_oset. auto.
Qed.
Lemma cleaned_att : forall rem atts names bs ss is d d', cleaned rem atts names bs ss is d d' -> forall sl k o,
  skin_attachment d' sl k o <-> skin_attachment d sl k o /\ ~ In sl rem /\ ~ In k atts.
Proof.
  intros rem atts names bs ss is d d' C sl k o. unfold skin_attachment. rewrite (cl_skins _ _ _ _ _ _ _ _ C). split.
  - intros (s' & m' & Hs & Hm & Ho). apply in_map_iff in Hs as (s & <- & Hs). unfold clean_skin, sk_atts in Hm. cbn [sk_attachments] in Hm.
    unfold dmap in Hm. apply in_map_iff in Hm as ([sl2 m] & E & Hm). injection E as -> <-. apply in_drop_keys in Hm as [Hm Nr].
    apply in_drop_keys in Ho as [Ho Na]. split; [ | auto]. exists s, m. auto.
  - intros ((s & m & Hs & Hm & Ho) & Nr & Na). exists (clean_skin rem atts s), (drop_keys atts m). split; [apply in_map; auto | ]. split.
    + unfold clean_skin, sk_atts. cbn [sk_attachments]. unfold dmap. apply in_map_iff. exists (sl, m). split; auto. apply in_drop_keys. auto.
    + apply in_drop_keys. auto.
Qed.
Lemma cleaned_dinv : forall ver rem atts names bs ss is d d' r, dinv ver d -> Forall (loaded_obj ver CBone) bs -> Forall (loaded_obj ver CSlot) ss ->
  Forall (loaded_obj ver CIk) is -> clean_data rem atts names bs ss is d = (d', r) -> dinv ver d'.
Proof.
  intros ver rem atts names bs ss is d d' r D Hb Hs Hi E. unfold clean_data in E.
  assert (D0 : dinv ver (set_ik (set_slots (set_bones d bs) ss) is)).
  { destruct D. constructor; auto. }
  apply (dinv_slots_in_skins ver rem) in D0. apply (dinv_slots_in_anims ver rem) in D0.
  destruct (clean_draw_order_refs rem names _) as [d2 [v | x]] eqn:Ed; injection E as <- _.
  - apply dinv_atts_in_slots, dinv_atts_in_skins. eapply dinv_draw; eauto.
  - eapply dinv_draw; eauto.
Qed.

Section After.
  Variables (ver : version) (g : sgraph) (d : anim_data) (bs ss is : list obj).
  Hypothesis S : sync ver g d bs ss is.
  Variables inv atts leafs orphans imgs rem : list string.
  Hypothesis Ninv : NoDup inv.
  Hypothesis Natts : NoDup atts.
  Hypothesis Hinv : forall s, In s inv -> has g T_SLOT s.
  Hypothesis Hatts : forall k, In k atts -> has g T_ATTACHMENT k.
  Hypothesis Nleafs : NoDup leafs.
  Hypothesis Hleafs : forall s, In s leafs <-> is_leaf g inv atts s.
  Hypothesis Norphans : NoDup orphans.
  Hypothesis Horphans : forall k, In k orphans <-> is_orphan g inv atts k.
  Hypothesis Nimgs : NoDup imgs.
  Hypothesis Himgs : forall i, In i imgs <-> is_unused g (atts ++ orphans)%list i.
  Hypothesis Hrem : forall s, In s inv -> In s rem.
  Let gone := gone4 inv atts leafs orphans imgs.
  Let ss' := filter (keep (inv ++ leafs)%list) ss.

  Lemma tn_gone : forall t, ~ In t [T_SLOT; T_ATTACHMENT; T_IMAGE] -> In t five -> tn (minus g gone) t = tn g t.
  Proof. intros t Ht Hf. apply (tn_other _ _ _ _ _ _ S). intros s H. apply Ht. eapply gone4_kind; eauto. Qed.
  Lemma left_slots : listed_as ver (minus g gone) T_SLOT ss' /\ map fst (tn (minus g gone) T_SLOT) = map slot_id (map slot_name ss').
  Proof.
    destruct (sy_slots _ _ _ _ _ _ S) as [K1 K2]. pose proof (sy_ids _ _ _ _ _ _ S) as K3.
    rewrite map_map in K3. unfold listed_as. rewrite tn_minus.
    destruct (filter_both (tn g T_SLOT) ss (fun s => slot_id (slot_name s)) (obj_json ver) (fun i => negb (smem i gone)) K3 K2) as [F1 F2].
    assert (X : filter (fun s => negb (smem (slot_id (slot_name s)) gone)) ss = ss').
    { apply filter_ext. intros s. unfold keep. f_equal. apply smem_iff. unfold gone. rewrite in_gone4_slot, in_app_iff. tauto. }
    rewrite X in *. split; [split | ].
    - apply sorted_filter. auto.
    - auto.
    - rewrite F2, map_map. auto.
  Qed.
  Lemma left_atts : forall sl k o, skin_attachment d sl k o -> ~ In sl inv -> ~ In k atts ->
    edge (minus g gone) (slot_id sl) (att_id k) /\ edge (minus g gone) (att_id k) (img_id (att_image k o)).
  Proof.
    intros sl k o H Ns Nk. destruct (sy_atts _ _ _ _ _ _ S sl k o H) as [H1 H2].
    assert (A : ~ In (att_id k) gone).
    { unfold gone. rewrite in_gone4_att. intros [K | K]; auto. apply Horphans in K as (_ & _ & K). auto. }
    split; apply edge_minus; (split; [auto | ]); split; auto.
    - unfold gone. rewrite in_gone4_slot. intros [K | K]; auto. apply Hleafs in K as (_ & _ & K). auto.
    - unfold gone. rewrite in_gone4_img. intros K. apply Himgs in K as (_ & K). apply K, in_app_iff in H2. unfold gone in A. rewrite in_gone4_att in A. tauto.
  Qed.
  Lemma left_sync : forall names d', cleaned rem atts names (map (reload ver) bs) ss' (map (reload ver) is) d d' ->
    sync ver (minus g gone) d' bs ss' is.
  Proof.
    intros names d' C. destruct left_slots as [L1 L2]. constructor; auto.
    - apply gview4; auto. apply (sy_view _ _ _ _ _ _ S).
    - unfold listed_as. rewrite tn_gone; [apply (sy_bones _ _ _ _ _ _ S) | simpl; intuition discriminate | five].
    - unfold listed_as. rewrite tn_gone; [apply (sy_ik _ _ _ _ _ _ S) | simpl; intuition discriminate | five].
    - rewrite (cl_slots _ _ _ _ _ _ _ _ C), map_map. apply map_ext. intros s. apply unset_name.
    - apply (sy_bones_ok _ _ _ _ _ _ S).
    - pose proof (sy_slots_ok _ _ _ _ _ _ S) as L. rewrite Forall_forall in *. intros s H. apply filter_In in H as [H _]. auto.
    - apply (sy_ik_ok _ _ _ _ _ _ S).
    - intros sl k o H. apply (cleaned_att _ _ _ _ _ _ _ _ C) in H as (H & N1 & N2). apply left_atts; auto.
  Qed.
End After.

(** ** One clean-up, in full *)
Definition removed_slots (inv leafs : list string) : list string := set_union inv (map slot_base leafs).
Record clean_ok (enum : order) (e e' : editor) (bs ss is : list obj) (inv atts leafs orphans imgs rem : list string) : Prop := {
  co_unused : get_unused_slots_and_attachments (e_data e) = Ok (inv, atts);
  co_choice : choice e inv atts leafs orphans imgs;
  co_rem : rem = enum 2 (removed_slots inv leafs);
  co_rem_in : forall x, In x rem <-> In x inv \/ exists s, In s leafs /\ x = slot_base s;
  co_skeleton : doc_skeleton (e_doc e') = doc_skeleton (e_doc e);
  co_ver : e_ver e' = e_ver e;
  co_data : cleaned rem atts (map slot_name (d_slots (e_data e))) (map (reload (e_ver e)) bs) (filter (keep (inv ++ leafs)%list) ss) (map (reload (e_ver e)) is) (e_data e) (e_data e');
  co_images : e_images e' = drop_images (map img_base imgs) (e_images e);
  co_graph : e_graph e' = minus (e_graph e) (gone4 inv atts leafs orphans imgs);
  co_boned : Forall boned (filter (keep (inv ++ leafs)%list) ss);
  co_dinv : dinv (e_ver e) (e_data e');
  co_sync : sync (e_ver e) (e_graph e') (e_data e') bs (filter (keep (inv ++ leafs)%list) ss) is }.
Lemma in_order : forall enum i l x, order_ok enum -> (In x (enum i l) <-> In x l).
Proof. intros enum i l x O. pose proof (O i l) as P. split; apply Permutation_in; auto using Permutation_sym. Qed.
Theorem clean_success : forall enum e e' bs ss is rem atts, dinv (e_ver e) (e_data e) -> sync (e_ver e) (e_graph e) (e_data e) bs ss is -> order_ok enum ->
  clean_animation enum e = (e', Ok (rem, atts)) ->
  exists inv leafs orphans imgs, clean_ok enum e e' bs ss is inv atts leafs orphans imgs rem.
Proof.
  intros enum e e' bs ss is rem atts D S O E.
  destruct (get_unused_slots_and_attachments (e_data e)) as [[inv atts'] | x] eqn:A.
  2: { unfold clean_animation in E. unfold mbind at 1 in E. unfold mget at 1 in E. cbv beta iota in E. unfold mbind at 1, mlift at 1 in E. rewrite A in E. discriminate. }
  destruct (clean_run e bs ss is D S inv atts' A) as (leafs & orphans & imgs & Ch & R). rewrite (R enum O) in E. clear R. cbv zeta in E.
  assert (Ls : Forall (loaded_obj (e_ver e) CSlot) (filter (keep (inv ++ leafs)%list) ss)).
  { pose proof (sy_slots_ok _ _ _ _ _ _ S) as L. rewrite Forall_forall in *. intros s H. apply filter_In in H as [H _]. auto. }
  destruct (read_slots (e_ver e) _ Ls) as [[B R] | [_ [x R]]]; rewrite R in E; [ | discriminate].
  destruct (clean_data _ _ _ _ _ _ _) as [d' [u | x]] eqn:Ed; [ | discriminate]. injection E as <- <- <-.
  exists inv, leafs, orphans, imgs.
  pose proof (clean_data_ok _ _ _ _ _ _ _ _ _ _ D Ed) as C.
  assert (Rin : forall x, In x (enum 2 (set_union inv (map slot_base leafs))) <-> In x inv \/ exists s, In s leafs /\ x = slot_base s).
  { intros x. rewrite in_order by auto. rewrite in_set_union, in_map_iff. split; intros [H | (s & H)]; auto; right; exists s; intuition. }
  assert (Hb : Forall (loaded_obj (e_ver e) CBone) (map (reload (e_ver e)) bs)).
  { pose proof (sy_bones_ok _ _ _ _ _ _ S) as L. rewrite Forall_forall in *. intros b Hb. apply in_map_iff in Hb as (b0 & <- & Hb). destruct (L b0 Hb) as [W _]. apply reload_loaded; auto using bone_req. }
  assert (Hi : Forall (loaded_obj (e_ver e) CIk) (map (reload (e_ver e)) is)).
  { pose proof (sy_ik_ok _ _ _ _ _ _ S) as L. rewrite Forall_forall in *. intros b Hi. apply in_map_iff in Hi as (b0 & <- & Hi). destruct (L b0 Hi) as [W _]. apply reload_loaded; auto using ik_req. }
  constructor; auto.
  - exact (cleaned_dinv _ _ _ _ _ _ _ _ _ _ D Hb Ls Hi Ed).
  - destruct Ch as [[C1 C2] [C3 C4] [C5 C6]]. destruct (unused_nodup _ _ _ A) as [N1 N2].
    apply (left_sync (e_ver e) (e_graph e) (e_data e) bs ss is S inv atts' leafs orphans imgs (enum 2 (set_union inv (map slot_base leafs)))) with (names := map slot_name (d_slots (e_data e))); auto.
    + exact (unused_inv e bs ss is D S inv atts' A).
    + exact (unused_atts e bs ss is D S inv atts' A).
    + intros s Hs. apply Rin. auto.
Qed.
Lemma clean_fails : forall enum e x, get_unused_slots_and_attachments (e_data e) = Err x -> clean_animation enum e = (e, Err x).
Proof.
  intros enum e x A. unfold clean_animation. unfold mbind at 1. unfold mget at 1. cbv beta iota. unfold mbind at 1, mlift at 1. rewrite A. reflexivity.
Qed.
