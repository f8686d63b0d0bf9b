(** The public calls taken apart, and what every history of them keeps. *)
From Verif Require Import PyBase PyFacts Json Version Graph SpecGraph GraphFacts GraphApi GraphRemove IdFacts Classes ClassFacts DocFacts ReloadFacts SpineGraph SpecSpine
  SpineFacts BuildFacts BuildTotal SpineRemove DrawOrder SpecDraw DrawFacts AnimData AnimFacts Editor SpecAnim SkinFacts SpecEditor EditorGraph EditorData EditorBuild EditorClean EditorOut.
From Coq Require Import Sorting.Sorted Permutation.
Open Scope string_scope.

(** ** The calls *)
Inductive removal : list string -> anim_data -> anim_data -> list (list (option string) * dict (dict string)) -> Prop :=
| removal_nil : forall d, removal [] d d []
| removal_cons : forall n l d d1 d2 r rs, remove_skin n d = (d1, Ok r) -> removal l d1 d2 rs -> removal (n :: l) d d2 (r :: rs).
Definition erased_images (removed : list (list (option string) * dict (dict string))) : list (option string) :=
  (flat_map fst removed ++
   flat_map (fun r => flat_map (fun kv => map (fun p => Some (snd p)) (snd kv)) (snd r)) removed)%list.
Definition images_to_drop (g : sgraph) (l : list (option string)) : list (option string) :=
  filter (fun img => negb (dmem (graph_id T_IMAGE (match img with Some s => s | None => "None" end)) (g_nodes g))) l.
Definition without_images (l : aset) (e : editor) : editor :=
  mkEditor (e_doc e) (filter (fun kv => negb (omem (Some (fst kv)) l)) (e_images e)) (e_graph e).

Lemma with_data_same : forall e, with_data e (e_data e) = e_doc e.
Proof. intros [[sk v d] i g]. reflexivity. Qed.
Lemma foreach_removal : forall l e e' r, mforeach (fun n => on_data (remove_skin n)) l e = (e', Ok r) ->
  exists d, removal l (e_data e) d r /\ e' = mkEditor (with_data e d) (e_images e) (e_graph e).
Proof.
  induction l as [ | n l IH]; intros e e' r H; cbn [mforeach] in H.
  - apply mret_ok in H as [-> ->]. exists (e_data e). split; [constructor | ]. rewrite with_data_same. destruct e; auto.
  - apply mbind_ok in H as (e1 & a & H1 & H). apply mbind_ok in H as (e2 & b & H2 & H). apply mret_ok in H as [-> ->].
    unfold on_data in H1. destruct (remove_skin n (e_data e)) as [d1 r1] eqn:E. injection H1 as <- ->.
    apply IH in H2 as (d & H2 & ->). exists d. split; [econstructor; eauto | reflexivity].
Qed.
Lemma erase_skins_inv : forall enum l safe e e' rem atts imgs, erase_skins enum l safe e = (e', Ok ((rem, atts), imgs)) ->
  exists d1 removed g e3, removal l (e_data e) d1 removed /\ create_from_json_data (document_json (with_data e d1)) = Ok g /\
    imgs = images_to_drop g (erased_images removed) /\ e' = without_images imgs e3 /\
    ((safe = true /\ e3 = mkEditor (with_data e d1) (e_images e) g /\ rem = [] /\ atts = []) \/
     (safe = false /\ clean_animation enum (mkEditor (with_data e d1) (e_images e) g) = (e3, Ok (rem, atts)))).
Proof.
  intros enum l safe e e' rem atts imgs H. unfold erase_skins in H.
  apply mbind_ok in H as (e1 & removed & H1 & H). apply foreach_removal in H1 as (d1 & R & ->).
  apply mbind_ok in H as (e2 & x & H2 & H). unfold mget in H2. injection H2 as <- <-. cbn [e_doc] in H.
  apply mbind_ok in H as (e2 & g & H2 & H). apply mlift_ok in H2 as [-> H2].
  apply mbind_ok in H as (e2 & u & H3 & H). unfold on_graph, mput in H3. cbn [e_graph e_doc e_images] in H3. injection H3 as <- _.
  apply mbind_ok in H as (e3 & p & H4 & H). apply mbind_ok in H as (e4 & v & H5 & H). apply mret_ok in H as [-> E].
  unfold clean_images_references in H5. injection H5 as <- _. injection E as E1 E2. exists d1, removed, g, e3. rewrite <- E1 in H4.
  split; [auto | ]. split; [auto | ]. split; [exact E2 | ]. split; [rewrite E2; reflexivity | ]. destruct safe.
  - apply mret_ok in H4 as [-> E]. injection E as -> ->. left. auto.
  - right. auto.
Qed.
Lemma erase_animations_inv : forall enum l strict safe e e' j rem atts, erase_animations enum l strict safe e = (e', Ok (j, (rem, atts))) ->
  exists d1, erase_raw_animations_data l strict (e_data e) = (d1, Ok tt) /\ j = editor_json e' /\
    ((safe = true /\ e' = mkEditor (with_data e d1) (e_images e) (e_graph e) /\ rem = [] /\ atts = []) \/
     (safe = false /\ clean_animation enum (mkEditor (with_data e d1) (e_images e) (e_graph e)) = (e', Ok (rem, atts)))).
Proof.
  intros enum l strict safe e e' j rem atts H. unfold erase_animations in H.
  apply mbind_ok in H as (e1 & u & H1 & H). unfold on_data in H1. destruct (erase_raw_animations_data l strict (e_data e)) as [d1 r] eqn:E.
  injection H1 as <- ->. destruct u. exists d1. split; [auto | ]. 
  apply mbind_ok in H as (e2 & p & H2 & H). apply mbind_ok in H as (e3 & x & H3 & H). unfold mget in H3. injection H3 as <- <-. apply mret_ok in H as [-> E2].
  injection E2 as -> <-. split; [reflexivity | ]. destruct safe.
  - apply mret_ok in H2 as [-> E2]. injection E2 as -> ->. left. auto.
  - right. auto.
Qed.
Lemma scale_inv : forall sx sy e e', scale_animation sx sy e = (e', Ok tt) ->
  exists l, scale_bones sx sy (d_bones (e_data e)) = (l, Ok tt) /\ e' = mkEditor (with_data e (set_bones (e_data e) l)) (e_images e) (e_graph e).
Proof.
  intros sx sy e e' H. unfold scale_animation, on_data in H. destruct (scale_bones sx sy (d_bones (e_data e))) as [l r] eqn:E.
  injection H as <- ->. exists l. auto.
Qed.

(** ** Removing skins *)
(** Every attachment of [d] was in [d0], under the same slot and name, with the same path
    and name; only linked meshes changed, and no class is new. *)
Definition desc (d0 d : anim_data) : Prop := forall sl k o, skin_attachment d sl k o ->
  exists o0, skin_attachment d0 sl k o0 /\ oget o "path" = oget o0 "path" /\ oget o "name" = oget o0 "name" /\
    (o = o0 \/ o_cls o0 = CSkinLinkedMesh) /\ exists sl1 k1 o1, skin_attachment d0 sl1 k1 o1 /\ o_cls o1 = o_cls o.
Lemma desc_refl : forall d, desc d d.
Proof. intros d sl k o H. exists o. repeat split; auto. exists sl, k, o. auto. Qed.
Lemma desc_trans : forall d0 d1 d2, desc d0 d1 -> desc d1 d2 -> desc d0 d2.
Proof.
  intros d0 d1 d2 H H' sl k o Ho. destruct (H' sl k o Ho) as (o1 & A1 & P1 & N1 & C1 & sl1 & k1 & p1 & B1 & B2).
  destruct (H sl k o1 A1) as (o0 & A0 & P0 & N0 & C0 & _). destruct (H sl1 k1 p1 B1) as (_ & _ & _ & _ & _ & sl2 & k2 & p2 & B3 & B4).
  exists o0. split; [auto | ]. split; [congruence | ]. split; [congruence | ]. split.
  - destruct C0 as [-> | C0]; auto.
  - exists sl2, k2, p2. split; congruence.
Qed.
Lemma desc_sub : forall d0 d, (forall sl k o, skin_attachment d sl k o -> skin_attachment d0 sl k o) -> desc d0 d.
Proof. intros d0 d H sl k o Ho. exists o. repeat split; auto. exists sl, k, o. auto. Qed.
Lemma att_image_same : forall k o o', oget o "path" = oget o' "path" -> oget o "name" = oget o' "name" -> att_image k o = att_image k o'.
Proof. intros k o o' H1 H2. unfold att_image, ostr. rewrite H1, H2. auto. Qed.

(** The rest of the data *)
Definition same_rest (d d' : anim_data) : Prop :=
  d_bones d' = d_bones d /\ d_slots d' = d_slots d /\ d_events d' = d_events d /\ d_ik d' = d_ik d /\
  d_transform d' = d_transform d /\ d_path d' = d_path d.
Lemma remove_skin_rest : forall n d d' r, remove_skin n d = (d', Ok r) -> exists source, first_skin d n source /\
  r = (skin_removed_images source, skin_removed_attachments source) /\ same_rest d d' /\
  Forall2 (skin_unlinked n source) (others n (d_skins d)) (d_skins d') /\
  Forall2 (fun x y => fst y = fst x /\ without_deform n (snd x) (snd y)) (d_animations d) (d_animations d').
Proof.
  intros n d d' r E. destruct (remove_skin_inv _ _ _ _ E) as (source & F & H). exists source.
  destruct (remove_skin_known d n source F) as [K _]. destruct (K H) as (d2 & E2 & R). rewrite E in E2. injection E2 as -> ->.
  destruct R as (R1 & R2 & R3 & R4 & R5 & R6 & R7 & R8). unfold same_rest. auto 12.
Qed.
Lemma others_in : forall n l s, In s (others n l) <-> In s l /\ sk_name s <> Some n.
Proof. intros n l s. unfold others. rewrite filter_In, negb_true_iff, opt_eqb_false. tauto. Qed.
Lemma unlinked_back : forall n source d d', first_skin d n source -> Forall2 (skin_unlinked n source) (others n (d_skins d)) (d_skins d') ->
  forall sl k o', skin_attachment d' sl k o' -> exists s m o, In s (others n (d_skins d)) /\ In (sl, m) (sk_atts s) /\ In (k, o) m /\ unlinked n source sl k o o'.
Proof.
  intros n source d d' F H sl k o' (s' & m' & Hs & Hm & Ho). destruct (Forall2_in_r _ _ _ _ _ H s' Hs) as (s & Hs2 & _ & K).
  destruct (Forall2_in_r _ _ _ _ _ K (sl, m') Hm) as ([sl2 m] & Hm2 & E1 & K2). cbn [fst snd] in E1, K2. subst sl2.
  destruct (Forall2_in_r _ _ _ _ _ K2 (k, o') Ho) as ([k2 o] & Ho2 & E2 & K3). cbn [fst snd] in E2, K3. subst k2. exists s, m, o. auto.
Qed.
Lemma Forall2_fwd : forall A B (R : A -> B -> Prop) l l', Forall2 R l l' -> forall x, In x l -> exists y, In y l' /\ R x y.
Proof. intros A B R l l' H. induction H as [ | x y l l' HR H IH]; intros z Hz; [destruct Hz | ]. destruct Hz as [<- | Hz]; [exists y; simpl; auto | ]. destruct (IH z Hz) as (w & Hw & Rw). exists w. simpl. auto. Qed.
Lemma unlinked_forth : forall n source d d', Forall2 (skin_unlinked n source) (others n (d_skins d)) (d_skins d') ->
  forall s sl m k o, In s (others n (d_skins d)) -> In (sl, m) (sk_atts s) -> In (k, o) m ->
    exists o', skin_attachment d' sl k o' /\ unlinked n source sl k o o'.
Proof.
  intros n source d d' H s sl m k o Hs Hm Ho. destruct (Forall2_fwd _ _ _ _ _ H s Hs) as (s' & Hs2 & _ & K).
  destruct (Forall2_fwd _ _ _ _ _ K (sl, m) Hm) as ([sl2 m'] & Hm2 & E1 & K2). cbn [fst snd] in E1, K2. subst sl2.
  destruct (Forall2_fwd _ _ _ _ _ K2 (k, o) Ho) as ([k2 o'] & Ho2 & E2 & K3). cbn [fst snd] in E2, K3. subst k2. exists o'. split; auto.
  exists s', m'. auto.
Qed.
Lemma unlinked_image : forall n source sl k o o', unlinked n source sl k o o' -> oget o' "path" = oget o "path" /\ oget o' "name" = oget o "name".
Proof.
  intros n source sl k o o' [[_ ->] | (_ & m & src & _ & _ & _ & H & _)]; auto. split; apply H; simpl; auto.
Qed.
Lemma remove_skin_desc : forall n d d' r, remove_skin n d = (d', Ok r) -> desc d d'.
Proof.
  intros n d d' r E sl k o' H. destruct (remove_skin_rest _ _ _ _ E) as (source & F & _ & _ & U & _).
  destruct (unlinked_back _ _ _ _ F U sl k o' H) as (s & m & o & Hs & Hm & Ho & L). apply others_in in Hs as [Hs _].
  assert (A : skin_attachment d sl k o) by (exists s, m; auto). destruct (unlinked_image _ _ _ _ _ _ L) as [E1 E2].
  exists o. split; [auto | ]. split; [auto | ]. split; [auto | ]. destruct L as [[L ->] | (L & m2 & src & G1 & G2 & Ec & _)].
  - split; auto. exists sl, k, o. auto.
  - split; [right; apply L | ]. exists sl, k, src. split; [ | auto]. apply first_skin_in in F as [F _]. exists source, m2.
    split; auto. split; eapply dget_some_in; eauto.
Qed.
Lemma same_rest_trans : forall a b c, same_rest a b -> same_rest b c -> same_rest a c.
Proof. unfold same_rest. intros a b c H K. decompose [and] H. decompose [and] K. repeat split; congruence. Qed.
Lemma removal_facts : forall ver l d d' rs, removal l d d' rs -> dinv ver d -> dinv ver d' /\ desc d d' /\ same_rest d d' /\ dkeys (d_animations d') = dkeys (d_animations d).
Proof.
  intros ver l d d' rs H. induction H as [d | n l d d1 d2 r rs E H IH]; intros D.
  - split; [auto | ]. split; [apply desc_refl | ]. unfold same_rest. auto 12.
  - pose proof (dinv_remove_skin _ _ _ _ _ D E) as D1. destruct (IH D1) as (D2 & A & R & K).
    destruct (remove_skin_rest _ _ _ _ E) as (source & _ & _ & R1 & _ & An). split; [auto | ]. split; [eapply desc_trans; eauto using remove_skin_desc | ].
    split; [eapply same_rest_trans; eauto | ]. rewrite K. exact (Forall2_keys _ _ _ _ _ An).
Qed.
Lemma desc_skins_ok : forall d d', skins_ok d -> desc d d' -> same_rest d d' -> skins_ok d'.
Proof.
  intros d d' K H (_ & Es & _) sl k o Ho. destruct (H sl k o Ho) as (o0 & A & _). rewrite Es. eauto.
Qed.

(** ** Erasing animations *)
Lemma erase_raw_fold : forall l a nf, let f := fun acc n => let '(a, nf) := acc in if dmem n a then (ddel n a, nf) else (a, (nf ++ [n])%list) in
  forall (an : dict animation) nf', fold_left f l (a, nf) = (an, nf') -> an = filter (fun kv => negb (smem (fst kv) l)) a.
Proof.
  intros l. induction l as [ | n l IH]; intros a nf f an nf' E; simpl in E.
  - injection E as <- _. rewrite filter_all; auto.
  - destruct (dmem n a) eqn:M; apply IH in E; subst an.
    + unfold ddel. rewrite filter_filter. apply filter_ext. intros [k v]. cbn [fst smem existsb]. unfold smem. cbn [existsb].
      rewrite (String.eqb_sym k n). destruct (String.eqb n k), (existsb (String.eqb k) l); reflexivity.
    + apply filter_ext_in. intros [k v] Hi. unfold smem. cbn [fst existsb]. eqb_cases k n; auto. subst. exfalso.
      unfold dmem in M. destruct (dget n a) eqn:G; [discriminate | ]. apply dget_none in G. apply G. apply (in_map fst) in Hi. auto.
Qed.
Lemma erase_raw_data : forall l strict d d' r, erase_raw_animations_data l strict d = (d', r) ->
  d' = set_animations d (filter (fun kv => negb (smem (fst kv) l)) (d_animations d)).
Proof.
  intros l strict d d' r E. unfold erase_raw_animations_data in E. destruct (fold_left _ l (d_animations d, [])) as [an nf] eqn:Ef.
  injection E as <- _. apply erase_raw_fold in Ef. subst. auto.
Qed.

(** ** The parts of a call *)
Definition st (e : editor) (bs ss is : list obj) : Prop :=
  dinv (e_ver e) (e_data e) /\ sync (e_ver e) (e_graph e) (e_data e) bs ss is.
Definition put_data (e : editor) (d : anim_data) : editor := mkEditor (with_data e d) (e_images e) (e_graph e).
Definition not_erased (l : list string) (d : anim_data) : anim_data :=
  set_animations d (filter (fun kv => negb (smem (fst kv) l)) (d_animations d)).

(** First something is changed, ... *)
Inductive pre (e : editor) (bs ss is : list obj) : option (list (option string)) -> editor -> list obj -> list obj -> list obj -> Prop :=
| pre_same : pre e bs ss is None e bs ss is
| pre_anims : forall l, pre e bs ss is None (put_data e (not_erased l (e_data e))) bs ss is
| pre_scale : forall sx sy l, scale_bones sx sy (d_bones (e_data e)) = (l, Ok tt) -> pre e bs ss is None (put_data e (set_bones (e_data e) l)) bs ss is
| pre_rebuild : forall l d1 removed g, removal l (e_data e) d1 removed -> create_from_json_data (document_json (with_data e d1)) = Ok g ->
    pre e bs ss is (Some (images_to_drop g (erased_images removed))) (mkEditor (with_data e d1) (e_images e) g) (d_bones (e_data e)) (d_slots (e_data e)) (d_ik (e_data e)).
(** ... then perhaps comes a clean-up, ... *)
Inductive mid (e : editor) (bs ss is : list obj) : editor -> list obj -> Prop :=
| mid_none : mid e bs ss is e ss
| mid_clean : forall enum e' inv atts leafs orphans imgs rem, order_ok enum -> clean_ok enum e e' bs ss is inv atts leafs orphans imgs rem ->
    mid e bs ss is e' (filter (keep (inv ++ leafs)%list) ss).
(** ... and the images of the erased skins go. *)
Definition post (o : option (list (option string))) (e : editor) : editor :=
  match o with Some l => without_images l e | None => e end.
Definition op_builds (op : eop) : bool := match op with EoEraseSkins _ _ _ => true | _ => false end.

Lemma st_anims : forall e bs ss is l, st e bs ss is -> st (put_data e (not_erased l (e_data e))) bs ss is.
Proof.
  intros e bs ss is l [D S]. split.
  - destruct D. constructor; auto; cbn.
    + apply dall_filter. auto.
    + apply NoDup_dkeys_filter. auto.
  - destruct S. constructor; auto.
Qed.
Lemma st_scale : forall e bs ss is l, st e bs ss is -> Forall (loaded_obj (e_ver e) CBone) l -> st (put_data e (set_bones (e_data e) l)) bs ss is.
Proof. intros e bs ss is l [D S] F. split; [destruct D; constructor; auto | destruct S; constructor; auto]. Qed.
Lemma st_rebuild : forall e bs ss is l d1 removed g, st e bs ss is -> removal l (e_data e) d1 removed ->
  create_from_json_data (document_json (with_data e d1)) = Ok g ->
  st (mkEditor (with_data e d1) (e_images e) g) (d_bones (e_data e)) (d_slots (e_data e)) (d_ik (e_data e)).
Proof.
  intros e bs ss is l d1 removed g [D S] R B. destruct (removal_facts _ _ _ _ _ R D) as (D1 & A & E & _). split; [auto | ].
  assert (K : skins_ok d1) by (eapply desc_skins_ok; eauto using sync_skins).
  pose proof (build_sync (with_data e d1) g D1 K B) as B'. cbn [doc_data doc_version with_data] in B'. destruct E as (E1 & E2 & E3 & E4 & _).
  rewrite E1, E2, E4 in B'. exact B'.
Qed.
Lemma st_post : forall o e bs ss is, st e bs ss is -> st (post o e) bs ss is.
Proof. intros [l | ] e bs ss is H; auto. Qed.
Lemma st_mid : forall e bs ss is e' ss', st e bs ss is -> mid e bs ss is e' ss' -> st e' bs ss' is.
Proof.
  intros e bs ss is e' ss' H M. destruct M as [ | enum e' inv atts leafs orphans imgs rem O C]; auto. split; rewrite (co_ver _ _ _ _ _ _ _ _ _ _ _ _ C).
  - apply (co_dinv _ _ _ _ _ _ _ _ _ _ _ _ C).
  - apply (co_sync _ _ _ _ _ _ _ _ _ _ _ _ C).
Qed.
Lemma pre_st : forall e bs ss is o e1 bs1 ss1 is1, st e bs ss is -> pre e bs ss is o e1 bs1 ss1 is1 -> st e1 bs1 ss1 is1.
Proof.
  intros e bs ss is o e1 bs1 ss1 is1 H P. destruct P as [ | l | sx sy l E | l d1 removed g R B]; auto using st_anims.
  - apply st_scale; auto. eapply scale_bones_ok; [ | exact E]. apply (di_bones _ _ (proj1 H)).
  - eapply st_rebuild; eauto.
Qed.
Theorem step_run : forall e op e' bs ss is, st e bs ss is -> eop_ok op -> estep e op = (e', Ok tt) ->
  exists o e1 ss1 e2 ss2,
    let bs' := if op_builds op then d_bones (e_data e) else bs in
    let is' := if op_builds op then d_ik (e_data e) else is in
    pre e bs ss is o e1 bs' ss1 is' /\ st e1 bs' ss1 is' /\ mid e1 bs' ss1 is' e2 ss2 /\ e' = post o e2 /\ st e' bs' ss2 is'.
Proof.
  intros e op e' bs ss is H O E.
  assert (W : forall o e1 ss1 e2 ss2 bs' is', pre e bs ss is o e1 bs' ss1 is' -> mid e1 bs' ss1 is' e2 ss2 -> e' = post o e2 ->
    pre e bs ss is o e1 bs' ss1 is' /\ st e1 bs' ss1 is' /\ mid e1 bs' ss1 is' e2 ss2 /\ e' = post o e2 /\ st e' bs' ss2 is').
  { intros o e1 ss1 e2 ss2 bs' is' P M ->. pose proof (pre_st _ _ _ _ _ _ _ _ _ H P) as H1. pose proof (st_mid _ _ _ _ _ _ H1 M) as H2.
    split; [auto | ]. split; [auto | ]. split; [auto | ]. split; [auto | ]. apply st_post. auto. }
  destruct op as [enum l safe | enum l strict safe | enum | sx sy]; cbn [estep op_builds eop_ok] in *; cbv zeta.
  - destruct (erase_skins enum l safe e) as [e'' r] eqn:Er. injection E as <- E. destruct r as [[[rem atts] imgs] | x]; [ | discriminate].
    apply erase_skins_inv in Er as (d1 & removed & g & e3 & R & B & -> & -> & C).
    assert (P := pre_rebuild e bs ss is l d1 removed g R B).
    destruct C as [(_ & -> & _) | (_ & C)].
    + do 5 eexists. apply W; [exact P | constructor | reflexivity].
    + pose proof (pre_st _ _ _ _ _ _ _ _ _ H P) as [D1 S1]. destruct (clean_success _ _ _ _ _ _ _ _ D1 S1 O C) as (inv & leafs & orphans & im & K).
      do 5 eexists. apply W; [exact P | econstructor; eauto | reflexivity].
  - destruct (erase_animations enum l strict safe e) as [e'' r] eqn:Er. injection E as <- E. destruct r as [[j [rem atts]] | x]; [ | discriminate].
    apply erase_animations_inv in Er as (d1 & R & _ & C). apply erase_raw_data in R. subst d1. fold (not_erased l (e_data e)) in C.
    assert (P := pre_anims e bs ss is l).
    destruct C as [(_ & -> & _) | (_ & C)].
    + do 5 eexists. apply W; [exact P | constructor | reflexivity].
    + pose proof (pre_st _ _ _ _ _ _ _ _ _ H P) as [D1 S1]. destruct (clean_success _ _ _ _ _ _ _ _ D1 S1 O C) as (inv & leafs & orphans & im & K).
      do 5 eexists. apply W; [exact P | econstructor; eauto | reflexivity].
  - destruct (clean_animation enum e) as [e'' r] eqn:C. injection E as <- E. destruct r as [[rem atts] | x]; [ | discriminate].
    destruct H as [D1 S1]. destruct (clean_success _ _ _ _ _ _ _ _ D1 S1 O C) as (inv & leafs & orphans & im & K).
    do 5 eexists. apply W; [constructor | econstructor; eauto | reflexivity].
  - apply scale_inv in E as (l & E & ->). do 5 eexists. apply W; [econstructor; eauto | constructor | reflexivity].
Qed.

(** ** Every history *)
Lemma last_built_ex : forall e0 ops e, history e0 ops e -> exists eb, last_built e0 ops e eb.
Proof.
  intros e0 ops e H. induction H as [H | ops e op e' H [eb IH] O E]; [exists e0; constructor; auto | ]. eexists. econstructor; eauto.
Qed.
Lemma last_built_history : forall e0 ops e eb, last_built e0 ops e eb -> history e0 ops e.
Proof. intros e0 ops e eb H. induction H; econstructor; eauto. Qed.
Theorem history_state : forall e0 ops e eb, last_built e0 ops e eb -> exists ss, st e (d_bones (e_data eb)) ss (d_ik (e_data eb)).
Proof.
  intros e0 ops e eb H. induction H as [H | ops e eb op e' H [ss IH] O E].
  - destruct (loaded_sync e0 H) as (D & _ & S). exists (d_slots (e_data e0)). split; auto.
  - destruct (step_run _ _ _ _ _ _ IH O E) as (o & e1 & ss1 & e2 & ss2 & R). destruct R as (_ & _ & _ & _ & R). exists ss2. destruct op; exact R.
Qed.

(** Where the slots, attachments and images come from. *)
Definition slot_from (d0 : anim_data) (s : obj) : Prop :=
  exists s0, In s0 (d_slots d0) /\ (s = s0 \/ (s = oset s0 "attachment" VNone /\ exists a, ostr s0 "attachment" = Some a)).
Record since (e0 e : editor) (ss : list obj) : Prop := {
  si_ver : e_ver e = e_ver e0;
  si_skeleton : doc_skeleton (e_doc e) = doc_skeleton (e_doc e0);
  si_desc : desc (e_data e0) (e_data e);
  si_ss : Forall (slot_from (e_data e0)) ss;
  si_slots : Forall (slot_from (e_data e0)) (d_slots (e_data e));
  si_imgs : forall i, has (e_graph e) T_IMAGE i -> exists sl k o, skin_attachment (e_data e0) sl k o /\ i = att_image k o }.
Lemma unset_from : forall d0 atts s, slot_from d0 s -> slot_from d0 (unset_slot atts s).
Proof.
  intros d0 atts s H. unfold unset_slot. destruct (ostr s "attachment") as [a | ] eqn:E; auto. destruct (smem _ atts); auto.
  destruct H as (s0 & H0 & [-> | [-> _]]); [exists s0; eauto | ]. unfold ostr in E. rewrite SkinFacts.oget_oset in E. discriminate.
Qed.
Lemma since_clean : forall enum e0 e e' bs ss is inv atts leafs orphans imgs rem, since e0 e ss ->
  clean_ok enum e e' bs ss is inv atts leafs orphans imgs rem -> since e0 e' (filter (keep (inv ++ leafs)%list) ss).
Proof.
  intros enum e0 e e' bs ss is inv atts leafs orphans imgs rem [H1 H2 H3 H4 H5 H6] C.
  assert (F : Forall (slot_from (e_data e0)) (filter (keep (inv ++ leafs)%list) ss)).
  { rewrite Forall_forall in *. intros s Hs. apply filter_In in Hs as [Hs _]. auto. }
  constructor; auto.
  - rewrite (co_ver _ _ _ _ _ _ _ _ _ _ _ _ C). auto.
  - rewrite (co_skeleton _ _ _ _ _ _ _ _ _ _ _ _ C). auto.
  - eapply desc_trans; [exact H3 | ]. apply desc_sub. intros sl k o K. apply (cleaned_att _ _ _ _ _ _ _ _ (co_data _ _ _ _ _ _ _ _ _ _ _ _ C)) in K. apply K.
  - rewrite (cl_slots _ _ _ _ _ _ _ _ (co_data _ _ _ _ _ _ _ _ _ _ _ _ C)). rewrite Forall_forall in *. intros s Hs.
    apply in_map_iff in Hs as (s1 & <- & Hs). apply unset_from. auto.
  - intros i Hi. rewrite (co_graph _ _ _ _ _ _ _ _ _ _ _ _ C) in Hi. apply has_minus in Hi as [Hi _]. auto.
Qed.
Lemma built_imgs : forall x g i, dinv (doc_version x) (doc_data x) -> create_from_json_data (document_json x) = Ok g -> has g T_IMAGE i ->
  exists sl k o, skin_attachment (doc_data x) sl k o /\ i = att_image k o.
Proof.
  intros x g i D B H. rewrite document_json_dict in B. apply build_ok in B. apply (bu_imgs _ _ B) in H as (s & k & a & H1 & H2 & H3).
  apply listed_att in H2 as (o & Ho & ->); auto. exists s, k, o. split; auto. rewrite image_att in H3.
  - unfold text in H3. cbn in H3. subst. auto.
  - destruct Ho as (sk & m & K1 & K2 & K3). pose proof (di_skins _ _ D) as F. rewrite Forall_forall in F. eapply so_atts; eauto.
Qed.
Lemma since_pre : forall e0 e bs ss is o e1 bs1 ss1 is1, st e bs ss is -> since e0 e ss -> pre e bs ss is o e1 bs1 ss1 is1 -> since e0 e1 ss1.
Proof.
  intros e0 e bs ss is o e1 bs1 ss1 is1 [D S] H P. pose proof H as H0. destruct H as [H1 H2 H3 H4 H5 H6].
  destruct P as [ | l | sx sy l E | l d1 removed g R B]; auto.
  - constructor; auto.
  - constructor; auto.
  - destruct (removal_facts _ _ _ _ _ R D) as (D1 & A & E & _). constructor; auto.
    + cbn [e_data e_doc doc_data with_data]. eapply desc_trans; eauto.
    + destruct E as (_ & E & _). cbn. rewrite E. auto.
    + intros i Hi. destruct (built_imgs (with_data e d1) g i D1 B Hi) as (sl & k & o & Ho & ->). cbn [doc_data with_data] in Ho.
      destruct (A sl k o Ho) as (o1 & A1 & P1 & N1 & _). destruct (H3 sl k o1 A1) as (o2 & A2 & P2 & N2 & _). exists sl, k, o2. split; auto.
      apply att_image_same; congruence.
Qed.
Lemma since_post : forall e0 o e ss, since e0 e ss -> since e0 (post o e) ss.
Proof. intros e0 [l | ] e ss H; auto. destruct H. constructor; auto. Qed.
Theorem history_since : forall e0 ops e eb, last_built e0 ops e eb -> exists ss, st e (d_bones (e_data eb)) ss (d_ik (e_data eb)) /\ since e0 e ss.
Proof.
  intros e0 ops e eb H. induction H as [H | ops e eb op e' H [ss [IH I2]] O E].
  - pose proof H as (j & _ & Hj). apply mk_editor_inv in Hj as (_ & _ & B). destruct (loaded_sync e0 H) as (D & _ & S). exists (d_slots (e_data e0)). split; [split; auto | ].
    assert (F : Forall (slot_from (e_data e0)) (d_slots (e_data e0))) by (apply Forall_forall; intros s Hs; exists s; auto).
    constructor; auto using desc_refl. intros i Hi. eapply (built_imgs (e_doc e0)); eauto.
  - destruct (step_run _ _ _ _ _ _ IH O E) as (o & e1 & ss1 & e2 & ss2 & R). destruct R as (P & St1 & M & Ee & R). exists ss2.
    split; [destruct op; exact R | ]. pose proof (since_pre _ _ _ _ _ _ _ _ _ _ IH I2 P) as I3. rewrite Ee. apply since_post.
    destruct M as [ | enum e2 inv atts leafs orphans imgs rem Oo C]; auto. eapply since_clean; eauto.
Qed.
