(** A clean-up, run to its end. *)
From Verif Require Import PyBase PyFacts Json Version Graph SpecGraph GraphFacts GraphApi GraphRemove IdFacts Classes ClassFacts DocFacts ReloadFacts SpineGraph SpecSpine
  SpineFacts BuildFacts BuildTotal SpineRemove DrawOrder AnimData AnimFacts Editor SpecAnim SkinFacts SpecEditor EditorGraph EditorData EditorBuild.
From Coq Require Import Sorting.Sorted Permutation.
Open Scope string_scope.

(** ** What the invariants say about names *)
Section Sync.
  Variables (ver : version) (g : sgraph) (d : anim_data) (bs ss is : list obj).
  Hypothesis S : sync ver g d bs ss is.
  Let V : gview g := sy_view _ _ _ _ _ _ S.
  Let G : good g := gv_good g V.

  Lemma sync_has : forall s, has g T_SLOT s <-> In s (map slot_name ss).
  Proof.
    intros s. rewrite (has_tn g T_SLOT s G) by five. rewrite (sy_ids _ _ _ _ _ _ S). apply (in_slots s).
  Qed.
  Lemma sync_distinct : NoDup (map slot_name ss).
  Proof.
    pose proof (tn_NoDup g T_SLOT G) as N. rewrite (sy_ids _ _ _ _ _ _ S) in N. eapply NoDup_map_inv; eauto.
  Qed.
  Lemma sync_distinct_slots : distinct_slots d.
  Proof. unfold distinct_slots. rewrite (sy_names _ _ _ _ _ _ S). apply sync_distinct. Qed.
  Lemma sync_att : forall sl k o, skin_attachment d sl k o -> has g T_ATTACHMENT k /\ has g T_IMAGE (att_image k o) /\ has g T_SLOT sl.
  Proof.
    intros sl k o H. destruct (sy_atts _ _ _ _ _ _ S sl k o H) as [H1 H2]. apply edge_has in H1; auto. apply edge_has in H2; auto.
    split; [apply H1 | split; [apply H2 | apply H1]].
  Qed.
  Lemma sync_skins : skins_ok d.
  Proof.
    intros sl k o H. apply sync_att in H as (_ & _ & H). apply sync_has in H. rewrite (sy_names _ _ _ _ _ _ S). auto.
  Qed.
End Sync.
Lemma dinv_timelines : forall ver d, dinv ver d -> distinct_timelines d.
Proof. intros ver d D a [i H]. eapply no_slots. eapply dall_in; [exact (di_anims _ _ D) | exact H]. Qed.
Lemma dinv_deforms : forall ver d i a, dinv ver d -> In (i, a) (d_animations d) -> NoDup (dkeys (an_deform a)).
Proof. intros ver d i a D H. eapply no_deform. eapply dall_in; [exact (di_anims _ _ D) | exact H]. Qed.

Lemma smem_iff : forall x l y l', (In x l <-> In y l') -> smem x l = smem y l'.
Proof.
  intros x l y l' H. destruct (smem y l') eqn:E.
  - apply smem_in in E. apply smem_in. tauto.
  - apply smem_nin in E. apply smem_nin. tauto.
Qed.

(** ** The elements read back from the graph *)
Lemma sorted_filter : forall (f : string * ndata -> bool) l, StronglySorted idx_le (map snd l) -> StronglySorted idx_le (map snd (filter f l)).
Proof.
  intros f l. induction l as [ | x l IH]; simpl; intros H; [constructor | ]. inversion H as [ | y m H1 H2]; subst.
  destruct (f x); [ | auto]. simpl. constructor; auto. rewrite Forall_forall in *. intros y Hy. apply in_map_iff in Hy as (z & <- & Hz).
  apply filter_In in Hz as [Hz _]. apply H2. apply in_map. auto.
Qed.
Lemma filter_both : forall (l : list (string * ndata)) (ss : list obj) (name : obj -> string) (h : obj -> val) (f : string -> bool),
  map fst l = map name ss -> map nd_data (map snd l) = map h ss ->
  map nd_data (map snd (filter (fun x => f (fst x)) l)) = map h (filter (fun s => f (name s)) ss) /\
  map fst (filter (fun x => f (fst x)) l) = map name (filter (fun s => f (name s)) ss).
Proof.
  induction l as [ | [i x] l IH]; intros [ | s ss] name h f E1 E2; try discriminate; auto. simpl in E1, E2.
  injection E1 as -> E1. injection E2 as E2' E2. destruct (IH ss name h f E1 E2) as [I1 I2]. simpl. destruct (f (name s)); simpl; auto.
  rewrite E2', I1, I2. auto.
Qed.
Definition keep (gone : list string) (s : obj) : bool := negb (smem (slot_name s) gone).
Lemma slot_raw : forall ver s, wf_obj CSlot s -> raw ver s = s.
Proof.
  intros ver s W. unfold raw. destruct W as (Ec & Ek & G). destruct s as [c at_]. simpl in *. subst c. f_equal.
  transitivity (map (fun k => (k, get_or_none k at_)) (attrs_of CSlot)); [ | symmetry; apply attrs_as_map; auto using attrs_of_NoDup]. apply map_ext_in. intros k Hk. f_equal. unfold get_or_none. rewrite dget_export.
  2: { rewrite Ek. apply (attrs_of_NoDup CSlot). }
  destruct (dget k at_) as [v | ] eqn:Ed; auto. unfold exported, get_or_none. rewrite slot_no_default. destruct v; auto.
Qed.
Lemma read_back : forall ver c l, Forall (wf_obj c) l -> (forall o, wf_obj c o -> req_ok o) ->
  mapM (mk_obj c) (map (obj_json ver) l) = Ok (map (raw ver) l).
Proof.
  intros ver c l W R. induction W as [ | o l Wo W IH]; auto. simpl. rewrite mk_obj_json; auto. simpl. rewrite IH. auto.
Qed.
Lemma loaded_wf_list : forall ver c l, Forall (loaded_obj ver c) l -> Forall (wf_obj c) l.
Proof. intros ver c l H. eapply Forall_impl; [ | exact H]. intros o [W _]. auto. Qed.
Definition boned (s : obj) : Prop := oget s "bone" <> VNone.
Lemma read_slots : forall ver l, Forall (loaded_obj ver CSlot) l ->
  ((Forall boned l /\ mapM (mk_obj CSlot) (map (obj_json ver) l) = Ok l) \/
   (~ Forall boned l /\ exists x, mapM (mk_obj CSlot) (map (obj_json ver) l) = Err x)).
Proof.
  intros ver l H. induction H as [ | s l [W _] H IH]; [left; split; auto | ]. simpl.
  assert (D : boned s \/ ~ boned s). { unfold boned. destruct (oget s "bone"); [right; congruence | left; congruence ..]. }
  destruct D as [D | D].
  - assert (R : req_ok s) by (apply slot_req; auto). rewrite mk_obj_json by auto. rewrite slot_raw by auto. simpl.
    destruct IH as [[I1 I2] | [I1 [x I2]]]; rewrite I2; simpl.
    + left. auto.
    + right. split; [ | eauto]. intros K. inversion K. auto.
  - right. split; [intros K; inversion K; auto | ]. destruct (mk_obj CSlot (obj_json ver s)) as [o | x] eqn:E; [ | simpl; eauto].
    apply mk_obj_json_req in E; auto. destruct (D (proj1 (slot_req s W) E)).
Qed.
Lemma reload_loaded : forall ver c o, wf_obj c o -> req_ok o -> loaded_obj ver c (reload ver o).
Proof.
  intros ver c o W R. split; [apply reload_wf; auto | ]. unfold reload. eapply filled_defaults. apply wf_raw; eauto.
Qed.
Lemma ik_req : forall o, wf_obj CIk o -> req_ok o.
Proof. intros o W. eapply other_req; eauto. Qed.

Section Out.
  Variables (ver : version) (g : sgraph) (d : anim_data) (bs ss is : list obj).
  Hypothesis S : sync ver g d bs ss is.
  Variables inv atts leafs : list string.
  Hypothesis Ninv : NoDup inv.
  Hypothesis Natts : NoDup atts.
  Hypothesis Hinv : forall s, In s inv -> has g T_SLOT s.
  Hypothesis Hatts : forall k, In k atts -> has g T_ATTACHMENT k.
  Hypothesis Nleafs : NoDup leafs.
  Hypothesis Hleafs : forall s, In s leafs <-> is_leaf g inv atts s.
  Let gone := gone2 inv atts leafs.

  Lemma tn_other : forall t (R : list string), (forall s, ~ In (graph_id t s) R) -> tn (minus g R) t = tn g t.
  Proof.
    intros t R H. rewrite tn_minus. apply filter_all. intros [i x] Hi. simpl. apply negb_true_iff, smem_nin.
    pose proof (gv_good g (sy_view _ _ _ _ _ _ S)) as G. apply (tn_in g t i x G) in Hi as (n & Hn & Ht & _). 
    destruct G as [_ G]. destruct (G i n Hn) as (t' & s & y & Ht' & -> & Et & _). rewrite Et in Ht. injection Ht as ->. apply H.
  Qed.
  Lemma out_slots : listed_as ver (minus g gone) T_SLOT (filter (keep (inv ++ leafs)%list) ss) /\
    map fst (tn (minus g gone) T_SLOT) = map slot_id (map slot_name (filter (keep (inv ++ leafs)%list) ss)).
  Proof.
    destruct (sy_slots _ _ _ _ _ _ S) as [K1 K2]. pose proof (sy_ids _ _ _ _ _ _ S) as K3.
    rewrite map_map in K3. unfold listed_as. rewrite tn_minus.
    destruct (filter_both (tn g T_SLOT) ss (fun s => slot_id (slot_name s)) (obj_json ver) (fun i => negb (smem i gone)) K3 K2) as [F1 F2].
    assert (X : filter (fun s => negb (smem (slot_id (slot_name s)) gone)) ss = filter (keep (inv ++ leafs)%list) ss).
    { apply filter_ext. intros s. unfold keep. f_equal. apply smem_iff. unfold gone. rewrite in_gone2_slot, in_app_iff. tauto. }
    rewrite X in *. split; [split | ].
    - apply sorted_filter. auto.
    - auto.
    - rewrite F2, map_map. auto.
  Qed.
  Lemma graph_out : graph_to_json (minus g gone) =
    Ok (mkGraphJson (map (obj_json ver) (filter (keep (inv ++ leafs)%list) ss)) (map (obj_json ver) bs) (map (obj_json ver) is)).
  Proof.
    unfold graph_to_json. rewrite good_known.
    2: { apply (good2 g inv atts (sy_view _ _ _ _ _ _ S) Ninv Natts Hinv Hatts leafs); auto. }
    rewrite !nodes_of_type_tn. destruct out_slots as [[O1 O2] _].
    assert (B : tn (minus g gone) T_BONE = tn g T_BONE).
    { apply tn_other. intros s H. unfold gone, gone2, gone1 in H. rewrite !in_app_iff, !in_map_iff in H.
      destruct H as [[(x & E & _) | (x & E & _)] | (x & E & _)];
        [apply (id_inj T_SLOT T_BONE) in E as [E _] | apply (id_inj T_ATTACHMENT T_BONE) in E as [E _] | apply (id_inj T_SLOT T_BONE) in E as [E _]]; five; discriminate. }
    assert (I : tn (minus g gone) T_IK = tn g T_IK).
    { apply tn_other. intros s H. unfold gone, gone2, gone1 in H. rewrite !in_app_iff, !in_map_iff in H.
      destruct H as [[(x & E & _) | (x & E & _)] | (x & E & _)];
        [apply (id_inj T_SLOT T_IK) in E as [E _] | apply (id_inj T_ATTACHMENT T_IK) in E as [E _] | apply (id_inj T_SLOT T_IK) in E as [E _]]; five; discriminate. }
    rewrite B, I. destruct (sy_bones _ _ _ _ _ _ S) as [B1 B2]. destruct (sy_ik _ _ _ _ _ _ S) as [I1 I2].
    rewrite !sorted_data_id; auto. rewrite O2, B2, I2. reflexivity.
  Qed.
End Out.

(** ** The data after a clean-up *)
Definition clean_data (rem atts names : list string) (bs ss is : list obj) (d : anim_data) : anim_data * res unit :=
  let d1 := clean_slots_in_animations rem (clean_slots_in_skins rem (set_ik (set_slots (set_bones d bs) ss) is)) in
  match clean_draw_order_refs rem names d1 with
  | (d2, Ok _) => (clean_attachments_in_slots atts (clean_attachments_in_skins atts d2), Ok tt)
  | (d2, Err x) => (d2, Err x)
  end.
Lemma defaults_done : forall ver d bs ss is, dinv ver d -> Forall (loaded_obj ver CSlot) ss ->
  data_defaults ver (set_ik (set_slots (set_bones d (map (raw ver) bs)) ss) (map (raw ver) is)) =
  set_ik (set_slots (set_bones d (map (reload ver) bs)) ss) (map (reload ver) is).
Proof.
  intros ver d bs ss is D L. pose proof (dinv_settled ver d D) as E. unfold data_defaults in *. destruct d. simpl in *.
  injection E as E1 E2 E3 E4 E5 E6 E7 E8. unfold set_ik, set_slots, set_bones. simpl. rewrite !map_map. unfold reload.
  rewrite (map_settled ver CSlot ss L). congruence.
Qed.

Definition with_data (e : editor) (d : anim_data) : document := mkDoc (doc_skeleton (e_doc e)) (e_ver e) d.
Definition slot_base (s : string) : string := to_base_id T_SLOT (slot_id s).
Definition img_base (s : string) : string := to_base_id T_IMAGE (img_id s).
Definition drop_images (l : list string) (images : dict imgref) : dict imgref :=
  filter (fun kv => negb (omem (Some (fst kv)) (map Some l))) images.

Lemma unused_nodup : forall d inv atts, get_unused_slots_and_attachments d = Ok (inv, atts) -> NoDup inv /\ NoDup atts.
Proof.
  intros d inv atts H. unfold get_unused_slots_and_attachments in H. inv_bind H. inv_bind H. destruct x0 as [visible used]. injection H as <- <-. split.
  - unfold set_diff. apply NoDup_filter. apply NoDup_nodup.
  - apply NoDup_nodup.
Qed.

Section Run.
  Variables (e : editor) (bs ss is : list obj).
  Let ver := e_ver e.
  Let d := e_data e.
  Let g := e_graph e.
  Hypothesis D : dinv ver d.
  Hypothesis S : sync ver g d bs ss is.
  Variables inv atts : list string.
  Hypothesis A : get_unused_slots_and_attachments d = Ok (inv, atts).

  Lemma unused_inv : forall s, In s inv -> has g T_SLOT s.
  Proof.
    intros s H. apply (sync_has ver g d bs ss is S). rewrite <- (sy_names _ _ _ _ _ _ S).
    apply (unused_spec d inv atts (sync_distinct_slots _ _ _ _ _ _ S) (dinv_timelines _ _ D) A) in H as (o & Ho & <- & _). apply in_map. auto.
  Qed.
  Lemma unused_atts : forall k, In k atts -> has g T_ATTACHMENT k.
  Proof.
    intros k H. apply (unused_spec d inv atts (sync_distinct_slots _ _ _ _ _ _ S) (dinv_timelines _ _ D) A) in H as (_ & sl & o & H & _).
    apply (sync_att _ _ _ _ _ _ S) in H. apply H.
  Qed.

  Record choice (leafs orphans imgs : list string) : Prop := {
    ch_leafs : NoDup leafs /\ forall s, In s leafs <-> is_leaf g inv atts s;
    ch_orphans : NoDup orphans /\ forall k, In k orphans <-> is_orphan g inv atts k;
    ch_imgs : NoDup imgs /\ forall i, In i imgs <-> is_unused g (atts ++ orphans)%list i }.

  Theorem clean_run : exists leafs orphans imgs, choice leafs orphans imgs /\
    forall enum, order_ok enum ->
      let ss' := filter (keep (inv ++ leafs)%list) ss in
      let rem := enum 2 (set_union inv (map slot_base leafs)) in
      clean_animation enum e =
      match mapM (mk_obj CSlot) (map (obj_json ver) ss') with
      | Err x => (mkEditor (with_data e (set_bones d (map (raw ver) bs))) (e_images e) (minus g (gone2 inv atts leafs)), Err x)
      | Ok _ =>
          match clean_data rem atts (map slot_name (d_slots d)) (map (reload ver) bs) ss' (map (reload ver) is) d with
          | (d', Err x) => (mkEditor (with_data e d') (e_images e) (minus g (gone2 inv atts leafs)), Err x)
          | (d', Ok _) => (mkEditor (with_data e d') (drop_images (map img_base imgs) (e_images e)) (minus g (gone4 inv atts leafs orphans imgs)), Ok (rem, atts))
          end
      end.
  Proof.
    destruct (unused_nodup _ _ _ A) as [Ninv Natts]. pose proof unused_inv as Hinv. pose proof unused_atts as Hatts.
    pose proof (sy_view _ _ _ _ _ _ S) as V. pose proof (gv_good g V) as G.
    destruct (remove_leafs g inv atts V Ninv Natts Hinv Hatts) as (leafs & E3 & Nl & Hl).
    destruct (remove_orphans g inv atts V Ninv Natts Hinv Hatts leafs Nl Hl) as (orphans & E4 & No & Ho).
    pose proof (remove_bare g inv atts V Ninv Natts Hinv Hatts leafs Nl Hl orphans No Ho) as E5.
    destruct (remove_images g inv atts V Ninv Natts Hinv Hatts leafs Nl Hl orphans No Ho) as (imgs & E6 & Ni & Hi).
    exists leafs, orphans, imgs. split; [constructor; auto | ]. intros enum O ss' rem.
    assert (P0 := O 0 inv). assert (P1 := O 1 atts).
    assert (Q0 : forall x, In x (enum 0 inv) <-> In x inv) by (intros x; split; apply Permutation_in; auto using Permutation_sym).
    assert (Q1 : forall x, In x (enum 1 atts) <-> In x atts) by (intros x; split; apply Permutation_in; auto using Permutation_sym).
    destruct (remove_first g (enum 0 inv) (enum 1 atts) V) as [[r1 E1] [r2 E2]].
    { apply (Permutation_NoDup (Permutation_sym P0)). auto. }
    { apply (Permutation_NoDup (Permutation_sym P1)). auto. }
    { intros s H. apply Hinv, Q0. auto. }
    { intros k H. apply Hatts, Q1. auto. }
    assert (M : minus g (gone1 (enum 0 inv) (enum 1 atts)) = minus g (gone1 inv atts)).
    { apply minus_ext; [ | apply good_wf; auto]. intros x _. unfold gone1. rewrite !in_app_iff, !in_map_iff.
      split; intros [(s & Es & Hs) | (s & Es & Hs)]; [left | right | left | right]; exists s; split; auto; first [apply Q0 | apply Q1]; auto. }
    rewrite M in E2.
    unfold clean_animation. unfold mbind at 1. unfold mget at 1. cbv beta iota. fold d.
    unfold mbind at 1. unfold mlift at 1. rewrite A. cbv beta iota.
    unfold mbind at 1. unfold on_graph at 1. fold g. rewrite E1. cbv beta iota.
    unfold mbind at 1. unfold on_graph at 1. cbn [e_graph]. rewrite E2. cbv beta iota.
    unfold mbind at 1. unfold on_graph at 1. cbn [e_graph]. rewrite E3. cbv beta iota.
    unfold mbind at 1. unfold mget at 1. cbv beta iota.
    unfold mbind at 1. unfold mlift at 1. cbn [e_graph].
    change (gone1 inv atts ++ map slot_id leafs)%list with (gone2 inv atts leafs).
    rewrite (graph_out ver g d bs ss is S inv atts leafs Ninv Natts Hinv Hatts Nl Hl). cbv beta iota. cbn [gj_slots gj_bones gj_ik].
    fold ss'.
    unfold mbind at 1. unfold mlift at 1. rewrite (read_back ver CBone bs (loaded_wf_list _ _ _ (sy_bones_ok _ _ _ _ _ _ S)) bone_req). cbv beta iota.
    unfold mbind at 1. unfold modify_data at 1, on_data at 1. cbv beta iota.
    unfold mbind at 1. unfold mlift at 1.
    assert (Ls : Forall (loaded_obj ver CSlot) ss').
    { pose proof (sy_slots_ok _ _ _ _ _ _ S) as L. rewrite Forall_forall in *. intros s H. apply filter_In in H as [H _]. auto. }
    destruct (read_slots ver ss' Ls) as [[_ R] | [_ [x R]]]; rewrite R; cbv beta iota; [ | reflexivity].
    unfold mbind at 1. unfold modify_data at 1, on_data at 1. cbv beta iota.
    unfold mbind at 1. unfold mlift at 1. rewrite (read_back ver CIk is (loaded_wf_list _ _ _ (sy_ik_ok _ _ _ _ _ _ S)) ik_req). cbv beta iota.
    unfold mbind at 1. unfold modify_data at 1, on_data at 1. cbv beta iota.
    unfold mbind at 1. unfold modify_data at 1, on_data at 1. cbv beta iota.
    unfold e_data at 1. cbn [e_doc doc_data doc_skeleton doc_version e_images e_graph].
    unfold e_data at 1. cbn [e_doc doc_data doc_skeleton doc_version e_images e_graph].
    unfold e_data at 1. cbn [e_doc doc_data doc_skeleton doc_version e_images e_graph].
    unfold e_data at 1. cbn [e_doc doc_data doc_skeleton doc_version e_images e_graph].
    unfold e_ver at 1. cbn [e_doc doc_data doc_skeleton doc_version e_images e_graph].
    change (e_data {| e_doc := e_doc e; e_images := e_images e; e_graph := minus g (gone2 inv atts leafs) |}) with d.
    change (doc_version (e_doc e)) with ver. rewrite (defaults_done ver d bs ss' is D Ls).
    change (enum 2 (set_union inv (map (fun s : string => to_base_id T_SLOT (slot_id s)) leafs))) with rem.
    unfold clean_data. set (d0 := set_ik (set_slots (set_bones d (map (reload ver) bs)) ss') (map (reload ver) is)).
    unfold mbind at 1. unfold ed_remove_slots. unfold mbind at 1. unfold modify_data at 1, on_data at 1. cbv beta iota.
    unfold mbind at 1. unfold modify_data at 1, on_data at 1. cbv beta iota.
    unfold on_data at 1. cbn [e_data e_doc doc_data doc_skeleton doc_version e_images e_graph].
    destruct (clean_draw_order_refs rem (map slot_name (d_slots d)) (clean_slots_in_animations rem (clean_slots_in_skins rem d0))) as [d2 [u | x]].
    2: { reflexivity. }
    unfold mbind at 1. unfold ed_remove_attachments. unfold mbind at 1. unfold modify_data at 1, on_data at 1. cbv beta iota.
    unfold modify_data at 1, on_data at 1. cbv beta iota.
    cbn [e_data e_doc doc_data doc_skeleton doc_version e_images e_graph].
    unfold mbind at 1. unfold on_graph at 1. cbn [e_graph]. rewrite E4. cbv beta iota.
    change (gone2 inv atts leafs ++ map att_id orphans)%list with (gone3 inv atts leafs orphans).
    unfold mbind at 1. unfold on_graph at 1. cbn [e_graph]. rewrite E5. cbv beta iota.
    unfold mbind at 1. unfold on_graph at 1. cbn [e_graph]. rewrite E6. cbv beta iota.
    reflexivity.
  Qed.
End Run.
