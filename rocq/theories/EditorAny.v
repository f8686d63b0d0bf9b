(** Proofs: calls after calls that failed. *)
From Verif Require Import PyBase PyFacts Json Version Graph SpecGraph GraphFacts GraphRemove IdFacts Classes ClassFacts DocFacts ReloadFacts SpineGraph SpecSpine
  SpineFacts BuildFacts BuildTotal SpineRemove DrawOrder SpecDraw DrawFacts DrawAny AnimData AnimFacts AnimErr Editor SpecAnim SkinFacts SpecEditor SpecFail SpecAny EditorGraph EditorData EditorBuild EditorClean EditorOut EditorHist EditorFacts
  EditorRemoved EditorOrder EditorScale EditorErase EditorEntries EditorFail SpecProduct ProductFacts EditorKinds EditorAgain ContainerFacts.
From Coq Require Import Sorting.Sorted Permutation.
Open Scope string_scope.
Open Scope list_scope.

Definition bhead (b : obj) : val * val := (oget b "name", oget b "parent").

(** ** Skins only lose attachments *)
Lemma relink_sub : forall n source s s' r sl m' k o', relink_skin n source s = (s', r) -> In (sl, m') (sk_atts s') -> In (k, o') m' ->
  exists m o, In (sl, m) (sk_atts s) /\ In (k, o) m.
Proof.
  intros n source s s' r sl m' k o' E Hm Ho. destruct (relink_skin_keys _ _ _ _ _ E) as (_ & _ & K).
  destruct (Forall2_in_r _ _ _ _ _ K (sl, m') Hm) as ([sl2 m] & Hm2 & Es & F). cbn [fst snd] in Es, F. subst sl2.
  destruct (Forall2_in_r _ _ _ _ _ F (k, o') Ho) as ([k2 o] & Ho2 & Ek & _). cbn [fst snd] in Ek. subst k2. eauto.
Qed.
Lemma inplace_in : forall A (f : A -> A * res unit) l l' r y, mapM_inplace f l = (l', r) -> In y l' -> In y l \/ exists x v, In x l /\ f x = (y, v).
Proof.
  intros A f. induction l as [ | x l IH]; intros l' r y E H; cbn [mapM_inplace] in E; [injection E as <- _; auto | ].
  destruct (f x) as [x' [u | e]] eqn:Ef.
  - destruct (mapM_inplace f l) as [l2 r2] eqn:El. injection E as <- _. destruct H as [<- | H]; [right; exists x, (Ok u); split; [left | ]; auto | ].
    destruct (IH _ _ _ eq_refl H) as [K | (z & v & K & Ez)]; [left; right; auto | right; exists z, v; split; [right | ]; auto].
  - injection E as <- _. destruct H as [<- | H]; [right; exists x, (Err e); split; [left | ]; auto | left; right; auto].
Qed.
Lemma remove_skin_sub : forall n d d' r sl k o', remove_skin n d = (d', r) -> skin_attachment d' sl k o' -> exists o, skin_attachment d sl k o.
Proof.
  intros n d d' r sl k o' E (s' & m' & Hs & Hm & Ho). unfold remove_skin in E. destruct (get_skin d n) as [source | ]; [ | injection E as <- _; exists o', s', m'; auto].
  destruct (mapM_inplace _ (d_skins d)) as [skins u] eqn:El.
  assert (K : In s' skins). { destruct u; injection E as <- _; cbn [d_skins set_skins set_animations] in Hs; auto. apply filter_In in Hs. apply Hs. }
  destruct (inplace_in _ _ _ _ _ _ El K) as [H | (s & v & H & Er)]; [exists o', s', m'; auto | ].
  destruct (relink_sub _ _ _ _ _ _ _ _ _ Er Hm Ho) as (m & o & Hm2 & Ho2). exists o, s, m. auto.
Qed.
Lemma remove_skin_kept : forall n d d' r, remove_skin n d = (d', r) -> d_bones d' = d_bones d /\ d_slots d' = d_slots d /\ d_ik d' = d_ik d.
Proof.
  intros n d d' r E. unfold remove_skin in E. destruct (get_skin d n) as [source | ]; [ | injection E as <- _; auto].
  destruct (mapM_inplace _ (d_skins d)) as [skins u]. destruct u; injection E as <- _; auto.
Qed.

(** ** Bones keep their names and parents *)
Lemma bone_scale_head : forall sx sy b b' r, bone_scale sx sy b = (b', r) -> bhead b' = bhead b.
Proof.
  intros sx sy b b' r E. unfold bone_scale in E. destruct (py_mul (oget b "scaleX") sx) as [x | x]; [ | injection E as <- _; auto].
  destruct (py_mul _ sy) as [y | y]; injection E as <- _; unfold bhead; rewrite !oget_oset; reflexivity.
Qed.
Lemma scale_root_heads : forall sx sy l l' r, scale_root sx sy l = (l', r) -> map bhead l' = map bhead l.
Proof.
  intros sx sy. induction l as [ | b l IH]; intros l' r E; cbn [scale_root] in E; [injection E as <- _; auto | ].
  destruct (String.eqb (bone_name b) "root").
  - destruct (bone_scale sx sy b) as [b' u] eqn:Eb. injection E as <- _. cbn [map]. rewrite (bone_scale_head _ _ _ _ _ Eb). auto.
  - destruct (scale_root sx sy l) as [l2 u] eqn:El. injection E as <- _. cbn [map]. rewrite (IH _ _ eq_refl). auto.
Qed.
Lemma scale_heads : forall sx sy l l' r, scale_bones sx sy l = (l', r) -> map bhead l' = map bhead l.
Proof.
  intros sx sy l l' r E. unfold scale_bones in E. destruct (mapM_inplace _ l) as [m u] eqn:Em.
  assert (H : map bhead m = map bhead l).
  { clear E. revert m u Em. induction l as [ | b l IH]; intros m u Em; cbn [mapM_inplace] in Em; [injection Em as <- _; auto | ].
    destruct (if scale_independent b then bone_scale sx sy b else (b, Ok tt)) as [b' v] eqn:Ef.
    assert (Hb : bhead b' = bhead b). { destruct (scale_independent b); [eapply bone_scale_head; eauto | injection Ef as <- _; auto]. }
    destruct v as [v | v].
    - destruct (mapM_inplace _ l) as [m2 u2] eqn:E2. injection Em as <- _. cbn [map]. rewrite Hb, (IH _ _ eq_refl). auto.
    - injection Em as <- _. cbn [map]. rewrite Hb. auto. }
  destruct u as [u | u]; [rewrite <- H; eapply scale_root_heads; eauto | injection E as <- _; auto].
Qed.

Section Any.
  Variable e0 : editor.
  Hypothesis L0 : loaded e0.
  Let d0 := e_data e0.
  Let ver := e_ver e0.

  Definition worn (sl : string) : Prop := exists k o, skin_attachment d0 sl k o.
  Record wdata (d : anim_data) : Prop := {
    wd_inv : dinv ver d;
    wd_heads : map bhead (d_bones d) = map bhead (d_bones d0);
    wd_ik : map (obj_json ver) (d_ik d) = map (obj_json ver) (d_ik d0);
    wd_slots : Forall (slot_from d0) (d_slots d);
    wd_names : NoDup (map slot_name (d_slots d));
    wd_skins : forall sl k o, skin_attachment d sl k o -> worn sl }.
  Record wgraph (g : sgraph) (bs ss is : list obj) : Prop := {
    wg_good : good g;
    wg_bones : listed_as ver g T_BONE bs;
    wg_slots : listed_as ver g T_SLOT ss;
    wg_ik : listed_as ver g T_IK is;
    wg_ids : map fst (tn g T_SLOT) = map slot_id (map slot_name ss);
    wg_bones_ok : Forall (loaded_obj ver CBone) bs;
    wg_slots_ok : Forall (loaded_obj ver CSlot) ss;
    wg_ik_ok : Forall (loaded_obj ver CIk) is;
    wg_heads : map bhead bs = map bhead (d_bones d0);
    wg_iks : map (obj_json ver) is = map (obj_json ver) (d_ik d0);
    wg_from : Forall (slot_from d0) ss;
    wg_down : forall s c, edge g (slot_id s) c -> exists k, c = att_id k;
    wg_worn : forall s k, edge g (slot_id s) (att_id k) -> worn s }.
  Definition sound (e : editor) : Prop := e_ver e = ver /\ wdata (e_data e) /\ exists bs ss is, wgraph (e_graph e) bs ss is.

  (** ** Removing slots, attachments and images from the graph *)
  Definition below_bones (R : list string) : Prop := forall i, In i R -> exists t s, In t [T_SLOT; T_ATTACHMENT; T_IMAGE] /\ i = graph_id t s.
  Lemma tn_kept : forall g t R, good g -> In t [T_BONE; T_IK] -> below_bones R -> tn (minus g R) t = tn g t.
  Proof.
    intros g t R G Ht B. rewrite tn_minus. apply filter_all. intros [i x] Hi. cbn [fst]. apply negb_true_iff, smem_nin. intros K.
    apply (tn_in g t i x G) in Hi as (n & Hn & Et & _). destruct (proj2 G i n Hn) as (t' & s & y & Ht' & -> & Et' & _). rewrite Et' in Et. injection Et as ->.
    destruct (B _ K) as (t' & s' & Hk & E).
    apply id_inj in E as [-> _]; [ | auto | ].
    - destruct Ht as [<- | [<- | []]]; destruct Hk as [E | [E | [E | []]]]; discriminate.
    - destruct Hk as [<- | [<- | [<- | []]]]; five.
  Qed.
  Lemma wgraph_minus : forall g bs ss is R, wgraph g bs ss is -> NoDup R -> incl R (ids g) -> below_bones R ->
    wgraph (minus g R) bs (filter (fun s => negb (smem (slot_id (slot_name s)) R)) ss) is.
  Proof.
    intros g bs ss is R [G B S I Ids Bo So Io H Is F Dn Wn] N Inc Bb.
    assert (Hb : tn (minus g R) T_BONE = tn g T_BONE) by (apply tn_kept; auto; left; auto).
    assert (Hi : tn (minus g R) T_IK = tn g T_IK) by (apply tn_kept; auto; right; left; auto).
    assert (Ids' := Ids). rewrite map_map in Ids'. destruct S as [S1 S2].
    destruct (filter_both (tn g T_SLOT) ss (fun s => slot_id (slot_name s)) (obj_json ver) (fun i => negb (smem i R)) Ids' S2) as [F1 F2].
    constructor; auto.
    - apply good_minus; auto.
    - unfold listed_as. rewrite Hb. auto.
    - unfold listed_as. rewrite tn_minus. split; [apply sorted_filter; auto | exact F1].
    - unfold listed_as. rewrite Hi. auto.
    - rewrite tn_minus, F2, map_map. auto.
    - rewrite Forall_forall in *. intros s Hs. apply filter_In in Hs as [Hs _]. auto.
    - rewrite Forall_forall in *. intros s Hs. apply filter_In in Hs as [Hs _]. auto.
    - intros s c Hc. apply edge_minus in Hc as [Hc _]. eauto.
    - intros s k Hc. apply edge_minus in Hc as [Hc _]. eauto.
  Qed.
  Lemma below_map : forall t l, In t [T_SLOT; T_ATTACHMENT; T_IMAGE] -> below_bones (map (graph_id t) l).
  Proof. intros t l Ht i Hi. apply in_map_iff in Hi as (s & <- & _). exists t, s. auto. Qed.
  Lemma in_five : forall t, In t [T_SLOT; T_ATTACHMENT; T_IMAGE] -> In t five.
  Proof. intros t [<- | [<- | [<- | []]]]; five. Qed.
  Lemma wg_has : forall g bs ss is s, wgraph g bs ss is -> (has g T_SLOT s <-> In s (map slot_name ss)).
  Proof.
    intros g bs ss is s W. rewrite has_tn; [ | apply (wg_good _ _ _ _ W) | five]. rewrite (wg_ids _ _ _ _ W). split; [ | apply in_map].
    intros H. apply in_map_iff in H as (n & E & H). apply slot_inj in E. subst. exact H.
  Qed.
  Lemma has_rest : forall g t l s, In t [T_SLOT; T_ATTACHMENT; T_IMAGE] -> has g T_SLOT s -> has (minus g (map (graph_id t) l)) T_SLOT s \/ (t = T_SLOT /\ In s l).
  Proof.
    intros g t l s Ht H. destruct (in_dec string_dec (graph_id T_SLOT s) (map (graph_id t) l)) as [K | K]; [right | left; apply has_minus; auto].
    apply in_map_iff in K as (n & E & K). apply id_inj in E as [-> ->]; auto using in_five. five.
  Qed.
  Lemma removes_any : forall t l g bs ss is, In t [T_SLOT; T_ATTACHMENT; T_IMAGE] -> wgraph g bs ss is ->
    exists g' ss' r, mforeach (fun s => g_remove (graph_id t s)) l g = (g', r) /\ wgraph g' bs ss' is /\ (forall x, r = Err x -> exists w, x = EValue w) /\
      (forall s, has g T_SLOT s -> has g' T_SLOT s \/ (t = T_SLOT /\ In s l)) /\ (forall u, r = Ok u -> forall s, In s l -> has g t s).
  Proof.
    intros t l g bs ss is Ht W. pose proof (wg_good _ _ _ _ W) as G.
    assert (J : forall a b, graph_id t a = graph_id t b -> a = b). { intros a b E. apply id_inj in E as [_ E]; auto using in_five. }
    assert (X := remove_each (graph_id t) J l [] g (good_wf g G) (NoDup_nil _) (fun i (H : In i []) => match H with end)).
    rewrite minus_nil in X. cbn [app] in X.
    destruct X as [(r & E & T & _) | (l1 & s & l2 & w & El & T & _ & E)]; apply (there_incl (graph_id t)) in T as [N I]; eexists _, _, _; (split; [exact E | ]).
    - split; [apply wgraph_minus; [exact W | apply (map_nodup _ J); auto | auto | apply below_map; auto] | ]. split; [discriminate | ].
      split; [intros s; apply has_rest; auto | ]. intros u _ s Hs. apply I, in_map. exact Hs.
    - split; [apply wgraph_minus; [exact W | apply (map_nodup _ J); auto | auto | apply below_map; auto] | ]. split; [intros x Ex; injection Ex as <-; eauto | ].
      split; [ | discriminate]. intros s0 Hs. destruct (has_rest g t l1 s0 Ht Hs) as [K | [-> K]]; [left; exact K | right; split; [reflexivity | rewrite El; apply in_app_iff; auto]].
  Qed.
  Lemma leafs_any : forall t g bs ss is, In t [T_SLOT; T_ATTACHMENT; T_IMAGE] -> wgraph g bs ss is ->
    exists g' ss' l, remove_leafs_of_type t g = (g', Ok l) /\ wgraph g' bs ss' is /\ (t = T_SLOT -> forall s, In s ss' -> worn (slot_name s)) /\
      (forall s, has g T_SLOT s -> has g' T_SLOT s \/ (t = T_SLOT /\ In (to_base_id T_SLOT (slot_id s)) l)).
  Proof.
    intros t g bs ss is Ht W. destruct (leafs_run t g (wg_good _ _ _ _ W) (in_five t Ht)) as (l & E & N & Hl & Inc).
    eexists _, _, _. split; [exact E | ]. split.
    - apply wgraph_minus; [exact W | | exact Inc | apply below_map; auto].
      apply FinFun.Injective_map_NoDup; auto. intros a b Eq. apply id_inj in Eq as [_ Eq]; auto using in_five.
    - split; [ | intros s Hs; destruct (has_rest g t l s Ht Hs) as [K | [-> K]]; [left; exact K | right; split; [reflexivity | ]];
                 exact (in_map (fun s => to_base_id T_SLOT (graph_id T_SLOT s)) _ _ K)].
      intros -> s Hs. apply filter_In in Hs as [Hs Hn]. apply negb_true_iff, smem_nin in Hn.
      assert (Nb : ~ only_below g T_SLOT (slot_id (slot_name s))). { intros K. apply Hn. apply in_map, Hl. exact K. }
      destruct (children_of g (slot_id (slot_name s))) as [ | c cs] eqn:Ec.
      + destruct Nb. constructor; [ | intros c Hc; apply edge_children in Hc; rewrite Ec in Hc; destruct Hc].
        apply typed_has; [apply (wg_good _ _ _ _ W) | five | ]. apply (has_tn g T_SLOT (slot_name s) (wg_good _ _ _ _ W)); [five | ].
        rewrite (wg_ids _ _ _ _ W). apply in_map, in_map. exact Hs.
      + assert (K : edge g (slot_id (slot_name s)) c) by (apply edge_children; rewrite Ec; left; auto).
        destruct (wg_down _ _ _ _ W _ _ K) as [k ->]. eapply wg_worn; eauto.
  Qed.
  Lemma heads_any : forall t g bs ss is, In t [T_SLOT; T_ATTACHMENT; T_IMAGE] -> wgraph g bs ss is ->
    exists g' ss' l, remove_heads_of_type t g = (g', Ok l) /\ wgraph g' bs ss' is /\ (t <> T_SLOT -> forall s, has g T_SLOT s -> has g' T_SLOT s).
  Proof.
    intros t g bs ss is Ht W. destruct (heads_run t g (wg_good _ _ _ _ W) (in_five t Ht)) as (l & E & N & Hl & Inc).
    eexists _, _, _. split; [exact E | ]. split.
    - apply wgraph_minus; [exact W | | exact Inc | apply below_map; auto].
      apply FinFun.Injective_map_NoDup; auto. intros a b Eq. apply id_inj in Eq as [_ Eq]; auto using in_five.
    - intros Nt s Hs. destruct (has_rest g t l s Ht Hs) as [K | [K _]]; [exact K | contradiction].
  Qed.
  Lemma out_any : forall g bs ss is, wgraph g bs ss is -> graph_to_json g = Ok (mkGraphJson (map (obj_json ver) ss) (map (obj_json ver) bs) (map (obj_json ver) is)).
  Proof.
    intros g bs ss is W. unfold graph_to_json. rewrite good_known by apply (wg_good _ _ _ _ W). rewrite !nodes_of_type_tn.
    destruct (wg_bones _ _ _ _ W) as [B1 B2]. destruct (wg_slots _ _ _ _ W) as [S1 S2]. destruct (wg_ik _ _ _ _ W) as [I1 I2].
    rewrite !sorted_data_id; auto. rewrite S2, B2, I2. reflexivity.
  Qed.

  (** ** The data *)
  Lemma from_name : forall s, slot_from d0 s -> exists s0, In s0 (d_slots d0) /\ slot_name s = slot_name s0 /\ oget s "bone" = oget s0 "bone".
  Proof.
    intros s (s0 & H & [-> | [-> _]]); exists s0; auto. split; auto. unfold slot_name, ostr. rewrite !oget_oset. cbn [String.eqb Ascii.eqb Bool.eqb]. auto.
  Qed.
  Lemma worn_boned : forall s, slot_from d0 s -> worn (slot_name s) -> boned s.
  Proof.
    intros s F (k & o & H). destruct (from_name s F) as (s0 & H0 & En & Eb). unfold boned. rewrite Eb. rewrite En in H. eapply att_boned; eauto.
  Qed.
  Lemma unset_from : forall atts s, slot_from d0 s ->
    slot_from d0 (match ostr s "attachment" with Some a => if smem (graph_id T_ATTACHMENT a) atts then oset s "attachment" VNone else s | None => s end).
  Proof.
    intros atts s F. destruct (ostr s "attachment") as [a | ] eqn:Ea; auto. destruct (smem _ atts); auto. destruct F as (s0 & H & [-> | [-> (b & Eb)]]).
    - exists s0. split; auto. right. split; eauto.
    - unfold ostr in Ea. rewrite oget_oset in Ea. cbn in Ea. discriminate.
  Qed.
  Lemma wgraph_names : forall g bs ss is, wgraph g bs ss is -> NoDup (map slot_name ss).
  Proof.
    intros g bs ss is W. pose proof (tn_NoDup g T_SLOT (wg_good _ _ _ _ W)) as N. rewrite (wg_ids _ _ _ _ W) in N. eapply NoDup_map_inv; eauto.
  Qed.
  Lemma wdata_clean : forall g bs ss is rem atts names d d' r, wdata d -> wgraph g bs ss is ->
    clean_data rem atts names (map (reload ver) bs) ss (map (reload ver) is) d = (d', r) -> wdata d'.
  Proof.
    intros g bs ss is rem atts names d d' r D W E.
    assert (Lb : Forall (loaded_obj ver CBone) (map (reload ver) bs)).
    { pose proof (wg_bones_ok _ _ _ _ W) as L. rewrite Forall_forall in *. intros b Hb. apply in_map_iff in Hb as (b0 & <- & Hb). destruct (L _ Hb) as [Wf _]. apply reload_loaded; auto using bone_req. }
    assert (Li : Forall (loaded_obj ver CIk) (map (reload ver) is)).
    { pose proof (wg_ik_ok _ _ _ _ W) as L. rewrite Forall_forall in *. intros b Hb. apply in_map_iff in Hb as (b0 & <- & Hb). destruct (L _ Hb) as [Wf _]. apply reload_loaded; auto using ik_req. }
    pose proof (cleaned_dinv _ _ _ _ _ _ _ _ _ _ (wd_inv _ D) Lb (wg_slots_ok _ _ _ _ W) Li E) as D'.
    assert (Hb : map bhead (map (reload ver) bs) = map bhead (d_bones d0)).
    { rewrite <- (wg_heads _ _ _ _ W). pose proof (wg_bones_ok _ _ _ _ W) as L.
      change bhead with (fun b => (oget b "name", oget b "parent")). rewrite <- !(heads_of ver) by assumption. f_equal. rewrite map_map.
      apply map_ext_in. intros b Hb. rewrite Forall_forall in L. destruct (L _ Hb) as [Wf _]. eapply reload_json; eauto. }
    assert (Hi : map (obj_json ver) (map (reload ver) is) = map (obj_json ver) (d_ik d0)).
    { rewrite <- (wg_iks _ _ _ _ W), map_map. apply map_ext_in. intros b Kb. pose proof (wg_ik_ok _ _ _ _ W) as L. rewrite Forall_forall in L. destruct (L _ Kb) as [Wf _]. eapply reload_json; eauto. }
    unfold clean_data in E.
    set (dd := clean_slots_in_animations rem (clean_slots_in_skins rem (set_ik (set_slots (set_bones d (map (reload ver) bs)) ss) (map (reload ver) is)))) in *.
    assert (Sk : forall sl k o, skin_attachment dd sl k o -> worn sl).
    { intros sl k o (s & m & Hs & Hm & Ho). unfold dd, clean_slots_in_animations, clean_slots_in_skins in Hs. cbn [d_skins set_animations set_skins set_ik set_slots set_bones] in Hs.
      apply in_map_iff in Hs as (s1 & <- & Hs). unfold sk_atts at 1 in Hm. cbn [sk_attachments] in Hm. apply filter_In in Hm as [Hm _].
      apply (wd_skins _ D sl k o). exists s1, m. auto. }
    destruct (clean_draw_order_refs rem names dd) as [d2 [u | x]] eqn:E2; unfold clean_draw_order_refs in E2;
      destruct (dmapM_inplace _ (d_animations dd)) as [l v]; injection E2 as <- ->; injection E as <- <-.
    - constructor; auto; cbn -[skin_attachment].
      + apply Forall_map. eapply Forall_impl; [ | exact (wg_from _ _ _ _ W)]. intros s. apply unset_from.
      + rewrite map_map.
        match goal with |- NoDup (map ?f ss) => replace (map f ss) with (map slot_name ss) end; [eapply wgraph_names; eauto | ].
        apply map_ext. intros s. destruct (ostr s "attachment"); auto. destruct (smem _ atts); auto. unfold slot_name, ostr. rewrite !oget_oset. reflexivity.
      + intros sl k o (s & m & Hs & Hm & Ho). unfold clean_attachments_in_slots, clean_attachments_in_skins in Hs. cbn [d_skins set_slots set_skins set_animations] in Hs.
        apply in_map_iff in Hs as (s1 & <- & Hs). unfold sk_atts at 1 in Hm. cbn [sk_attachments] in Hm. unfold dmap in Hm. apply in_map_iff in Hm as ([sl1 m1] & Em & Hm). cbn in Em. injection Em as -> <-.
        apply filter_In in Ho as [Ho _]. apply (Sk sl k o). exists s1, m1. auto.
    - constructor; auto; cbn -[skin_attachment].
      + exact (wg_from _ _ _ _ W).
      + eapply wgraph_names; eauto.
  Qed.
  Lemma analysis_any : forall d x, wdata d -> get_unused_slots_and_attachments d = Err x -> clean_raises x.
  Proof.
    intros d x D E. pose proof (wd_names _ D) as Ds. pose proof (dinv_timelines _ _ (wd_inv _ D)) as Dt. unfold clean_raises.
    destruct (all_cases d Ds Dt) as [A | [C | (C & [S | S])]].
    - apply (unused_total _ Ds Dt) in A as [r A]. congruence.
    - destruct (bad_color d C) as [w Wd]. left. exists w. congruence.
    - destruct (stray_key d Ds Dt C S) as [w Wd]. right. left. exists w. congruence.
    - destruct (nothing_type d Ds Dt C S) as [w Wd]. right. right. exists w. congruence.
  Qed.
  (** A clean-up that does not reach the document, and one that does *)
  Record clean_early (enum : order) (e e' : editor) (x : exn) : Prop := {
    ce_doc : e_doc e' = e_doc e;
    ce_images : e_images e' = e_images e;
    ce_raises : clean_raises x;
    ce_graph : exists bs ss is, wgraph (e_graph e') bs ss is;
    ce_slots : forall s, has (e_graph e) T_SLOT s -> has (e_graph e') T_SLOT s \/
      exists inv atts, get_unused_slots_and_attachments (e_data e) = Ok (inv, atts) /\ In s (enum 0 inv) }.
  Record clean_late (enum : order) (e e' : editor) (inv atts leafs : list string) (bs ss is : list obj) (r : res unit) : Prop := {
    ct_found : get_unused_slots_and_attachments (e_data e) = Ok (inv, atts);
    ct_there : forall s, In s (enum 0 inv) -> has (e_graph e) T_SLOT s;
    ct_read : exists g3, wgraph g3 bs ss is;
    ct_data : clean_data (enum 2 (set_union inv leafs)) atts (map slot_name (d_slots (e_data e))) (map (reload ver) bs) ss (map (reload ver) is) (e_data e) = (e_data e', r);
    ct_doc : doc_skeleton (e_doc e') = doc_skeleton (e_doc e) /\ e_ver e' = e_ver e;
    ct_graph : exists ss', wgraph (e_graph e') bs ss' is;
    ct_has : forall s, In s ss -> has (e_graph e') T_SLOT (slot_name s);
    ct_gone : forall s, has (e_graph e) T_SLOT s -> In s (map slot_name ss) \/ In s (enum 0 inv) \/ In (to_base_id T_SLOT (slot_id s)) leafs;
    ct_raises : forall x, r = Err x -> clean_raises x }.
  Lemma clean_ways : forall enum e e' r, sound e -> clean_animation enum e = (e', r) ->
    (exists x, r = Err x /\ clean_early enum e e' x) \/
    (exists inv atts leafs bs ss is u, clean_late enum e e' inv atts leafs bs ss is u /\ match u with Ok _ => exists v, r = Ok v | Err x => r = Err x end).
  Proof.
    intros enum e e' r (V & D & bs & ss & is & W) E.
    unfold clean_animation in E. unfold mbind at 1 in E. unfold mget at 1 in E. cbv beta iota in E.
    unfold mbind at 1 in E. unfold mlift at 1 in E.
    destruct (get_unused_slots_and_attachments (e_data e)) as [[inv atts] | x] eqn:U.
    2: { injection E as <- <-. left. exists x. split; [reflexivity | ]. constructor; eauto using analysis_any. }
    destruct (removes_any T_SLOT (enum 0 inv) _ _ _ _ (or_introl eq_refl) W) as (g1 & ss1 & r1 & E1 & W1 & K1 & H1 & I1).
    unfold mbind at 1 in E. unfold on_graph at 1 in E. change (remove_slots (enum 0 inv) (e_graph e)) with (mforeach (fun s => g_remove (graph_id T_SLOT s)) (enum 0 inv) (e_graph e)) in E. rewrite E1 in E.
    destruct r1 as [r1 | x1].
    2: { injection E as <- <-. left. exists x1. split; [reflexivity | ]. constructor; [reflexivity | reflexivity | left; eauto | eauto | ].
         intros s Hs. cbn [e_graph]. destruct (H1 s Hs) as [K | [_ K]]; eauto. }
    destruct (removes_any T_ATTACHMENT (enum 1 atts) _ _ _ _ (or_intror (or_introl eq_refl)) W1) as (g2 & ss2 & r2 & E2 & W2 & K2 & H2 & _).
    unfold mbind at 1 in E. unfold on_graph at 1 in E. cbn [e_graph e_doc e_images] in E. change (remove_attachments (enum 1 atts) g1) with (mforeach (fun s => g_remove (graph_id T_ATTACHMENT s)) (enum 1 atts) g1) in E. rewrite E2 in E.
    destruct r2 as [r2 | x2].
    2: { injection E as <- <-. left. exists x2. split; [reflexivity | ]. constructor; [reflexivity | reflexivity | left; eauto | eauto | ].
         intros s Hs. cbn [e_graph]. destruct (H1 s Hs) as [K | [_ K]]; [ | eauto]. destruct (H2 s K) as [Q | [Q _]]; [left; exact Q | discriminate]. }
    destruct (leafs_any T_SLOT _ _ _ _ (or_introl eq_refl) W2) as (g3 & ss3 & leafs & E3 & W3 & K3 & H3). specialize (K3 eq_refl).
    assert (Gone : forall s, has (e_graph e) T_SLOT s -> In s (map slot_name ss3) \/ In s (enum 0 inv) \/ In (to_base_id T_SLOT (slot_id s)) leafs).
    { intros s Hs. destruct (H1 s Hs) as [K | [_ K]]; [ | auto]. destruct (H2 s K) as [Q | [Q _]]; [ | discriminate]. destruct (H3 s Q) as [Z | [_ Z]]; [ | auto].
      left. apply (wg_has _ _ _ _ s W3). exact Z. }
    unfold mbind at 1 in E. unfold on_graph at 1 in E. cbn [e_graph e_doc e_images] in E. rewrite E3 in E. cbv beta iota in E.
    unfold mbind at 1 in E. unfold mget at 1 in E. cbv beta iota in E.
    unfold mbind at 1 in E. unfold mlift at 1 in E. cbn [e_graph] in E. rewrite (out_any _ _ _ _ W3) in E. cbv beta iota in E. cbn [gj_slots gj_bones gj_ik] in E.
    unfold mbind at 1 in E. unfold mlift at 1 in E. rewrite (read_back ver CBone bs (loaded_wf_list _ _ _ (wg_bones_ok _ _ _ _ W3)) bone_req) in E. cbv beta iota in E.
    unfold mbind at 1 in E. unfold modify_data at 1, on_data at 1 in E. cbv beta iota in E.
    unfold mbind at 1 in E. unfold mlift at 1 in E.
    assert (Bo : Forall boned ss3).
    { pose proof (wg_from _ _ _ _ W3) as F. rewrite Forall_forall in *. intros s Hs. apply worn_boned; auto. }
    destruct (read_slots ver ss3 (wg_slots_ok _ _ _ _ W3)) as [[_ R] | [R _]]; [ | contradiction]. rewrite R in E. cbv beta iota in E. clear R.
    unfold mbind at 1 in E. unfold modify_data at 1, on_data at 1 in E. cbv beta iota in E.
    unfold mbind at 1 in E. unfold mlift at 1 in E. rewrite (read_back ver CIk is (loaded_wf_list _ _ _ (wg_ik_ok _ _ _ _ W3)) ik_req) in E. cbv beta iota in E.
    unfold mbind at 1 in E. unfold modify_data at 1, on_data at 1 in E. cbv beta iota in E.
    unfold mbind at 1 in E. unfold modify_data at 1, on_data at 1 in E. cbv beta iota in E.
    do 4 (unfold e_data at 1 in E; cbn [e_doc doc_data doc_skeleton doc_version e_images e_graph] in E).
    set (rem := enum 2 (set_union inv leafs)) in *. set (names := map slot_name (d_slots (e_data e))) in *.
    change (doc_data (e_doc e)) with (e_data e) in E.
    change (map slot_name (d_slots (e_data e))) with names in E.
    replace (e_ver {| e_doc := e_doc e; e_images := e_images e; e_graph := g3 |}) with ver in E by (symmetry; exact V).
    change (e_data {| e_doc := e_doc e; e_images := e_images e; e_graph := g3 |}) with (e_data e) in E.
    rewrite (defaults_done ver (e_data e) bs ss3 is (wd_inv _ D) (wg_slots_ok _ _ _ _ W3)) in E.
    assert (Cd : forall d' r', clean_data rem atts names (map (reload ver) bs) ss3 (map (reload ver) is) (e_data e) = (d', r') ->
      clean_data (enum 2 (set_union inv leafs)) atts (map slot_name (d_slots (e_data e))) (map (reload ver) bs) ss3 (map (reload ver) is) (e_data e) = (d', r')) by (intros d' r' Q; exact Q).
    unfold clean_data at 1 in Cd.
    unfold mbind at 1 in E. unfold ed_remove_slots at 1 in E.
    unfold mbind at 1 in E. unfold modify_data at 1, on_data at 1 in E. cbv beta iota in E.
    unfold mbind at 1 in E. unfold modify_data at 1, on_data at 1 in E. cbv beta iota in E.
    unfold on_data at 1 in E.
    do 3 (unfold e_data at 1 in E; cbn [e_doc doc_data doc_skeleton doc_version e_images e_graph] in E).
    set (dd := clean_slots_in_animations rem _) in *.
    destruct (clean_draw_order_refs rem names dd) as [d2 [u | x]] eqn:E2'.
    - specialize (Cd _ _ eq_refl). unfold mbind at 1 in E. unfold ed_remove_attachments at 1 in E.
      unfold mbind at 1 in E. unfold modify_data at 1, on_data at 1 in E. cbv beta iota in E. unfold modify_data at 1, on_data at 1 in E. cbv beta iota in E.
      do 2 (unfold e_data at 1 in E; cbn [e_doc doc_data doc_skeleton doc_version e_images e_graph] in E).
      destruct (heads_any T_ATTACHMENT _ _ _ _ (or_intror (or_introl eq_refl)) W3) as (g4 & ss4 & l4 & E4 & W4 & H4).
      unfold mbind at 1 in E. unfold on_graph at 1 in E. cbn [e_graph e_doc e_images] in E. rewrite E4 in E. cbv beta iota in E.
      destruct (leafs_any T_ATTACHMENT _ _ _ _ (or_intror (or_introl eq_refl)) W4) as (g5 & ss5 & l5 & E5 & W5 & _ & H5).
      unfold mbind at 1 in E. unfold on_graph at 1 in E. cbn [e_graph e_doc e_images] in E. rewrite E5 in E. cbv beta iota in E.
      destruct (heads_any T_IMAGE _ _ _ _ (or_intror (or_intror (or_introl eq_refl))) W5) as (g6 & ss6 & l6 & E6 & W6 & H6).
      unfold mbind at 1 in E. unfold on_graph at 1 in E. cbn [e_graph e_doc e_images] in E. rewrite E6 in E. cbv beta iota in E.
      unfold mbind at 1 in E. unfold clean_images_references at 1 in E. cbn [e_graph e_doc e_images] in E. unfold mret in E. injection E as <- <-.
      right. exists inv, atts, leafs, bs, ss3, is, (Ok tt). split; [ | eauto]. constructor; auto.
      + intros s Hs. exact (I1 _ eq_refl s Hs).
      + eauto.
      + eauto.
      + intros s Hs. cbn [e_graph]. apply H6; [discriminate | ].
        assert (Q : has g4 T_SLOT (slot_name s)). { apply H4; [discriminate | ]. apply (wg_has _ _ _ _ _ W3). apply in_map. exact Hs. }
        destruct (H5 _ Q) as [Z | [Z _]]; [exact Z | discriminate].
      + discriminate.
    - specialize (Cd _ _ eq_refl). injection E as <- <-. right. exists inv, atts, leafs, bs, ss3, is, (Err x). split; [ | reflexivity]. constructor; auto.
      { intros s Hs. exact (I1 _ eq_refl s Hs). }
      { eauto. }
      { eauto. }
      { intros s Hs. cbn [e_graph]. apply (wg_has _ _ _ _ _ W3). apply in_map. exact Hs. }
      intros y Ey. injection Ey as <-. unfold clean_draw_order_refs in E2'.
      match type of E2' with context [dmapM_inplace _ ?l] =>
        destruct (visit_keys rem names l) as [(l' & Ev & _) | (b & k & a & b' & l' & er & _ & Ex & _ & _ & Ev)] end; rewrite Ev in E2'; [discriminate | ].
      injection E2' as _ <-. unfold clean_raises. destruct (draw_kind _ _ _ _ _ (wd_names _ D) Ex) as [K | K]; auto.
  Qed.
  Lemma clean_any : forall enum e e' r, sound e -> clean_animation enum e = (e', r) -> sound e' /\ (forall x, r = Err x -> clean_raises x).
  Proof.
    intros enum e e' r S E. destruct (clean_ways _ _ _ _ S E) as [(x & -> & [C1 C2 C3 C4 _]) | (inv & atts & leafs & bs & ss & is & u & [C1 C2 [g3 C3] C4 [C5 C6] [ss' C7] _ _ C8] & K)]; destruct S as (V & D & _).
    - split; [ | intros y Ey; injection Ey as <-; exact C3]. unfold sound, e_ver, e_data. rewrite C1. split; [exact V | ]. split; [exact D | exact C4].
    - split; [split; [congruence | ]; split; [eapply wdata_clean; [exact D | exact C3 | exact C4] | eauto] | ].
      intros x ->. destruct u as [u | y]; [destruct K as [v K]; discriminate | ]. injection K as ->. auto.
  Qed.

  (** ** Building the graph again *)
  Lemma built_any : forall x g, doc_version x = ver -> wdata (doc_data x) -> create_from_json_data (document_json x) = Ok g ->
    wgraph g (d_bones (doc_data x)) (d_slots (doc_data x)) (d_ik (doc_data x)).
  Proof.
    intros x g V D E. pose proof (wd_inv _ D) as Di. rewrite <- V in Di. pose proof E as E'. rewrite document_json_dict in E. apply build_ok in E as B.
    constructor; rewrite <- ?V.
    - apply (bu_good _ _ B).
    - pose proof (bu_bones _ _ B) as L. rewrite each_bones in L. apply lists_sorted in L. exact L.
    - pose proof (bu_slots _ _ B) as L. rewrite each_slots in L. apply lists_sorted in L. exact L.
    - pose proof (bu_iks _ _ B) as L. rewrite each_ik in L. apply lists_sorted in L. exact L.
    - pose proof (bu_slots _ _ B) as L. apply lists_names in L. rewrite L, each_slots. unfold enumerate. rewrite map_snd_enumerate.
      rewrite names_slots by apply (di_slots _ _ Di). reflexivity.
    - apply (di_bones _ _ Di).
    - apply (di_slots _ _ Di).
    - apply (di_ik _ _ Di).
    - apply (wd_heads _ D).
    - rewrite V. apply (wd_ik _ D).
    - apply (wd_slots _ D).
    - apply (gv_slot_down _ (built_view _ _ Di B)).
    - intros s k H. destruct (built_filed x g [] Di E' s k H) as [o Ho]. apply (wd_skins _ D s k o Ho).
  Qed.
  Lemma rebuild_any : forall x, doc_version x = ver -> wdata (doc_data x) -> exists g, create_from_json_data (document_json x) = Ok g.
  Proof.
    intros x V D. set (d := doc_data x) in *. pose proof (wd_inv _ D) as De.
    pose proof L0 as (j & _ & Hj). apply mk_editor_inv in Hj as (_ & _ & G0). destruct (loaded_sync e0 L0) as (D0 & _ & _).
    rewrite document_json_dict in *. set (x0 := e_doc e0) in *. pose proof (build_ok _ _ G0) as B0.
    assert (Eb : each (doc_dict x) "bones" = map (obj_json ver) (d_bones d)) by (rewrite each_bones, V; reflexivity).
    assert (Eb0 : each (doc_dict x0) "bones" = map (obj_json ver) (d_bones d0)) by (rewrite each_bones; reflexivity).
    assert (Ei : each (doc_dict x) "ik" = map (obj_json ver) (d_ik d0)) by (rewrite each_ik, V; exact (wd_ik _ D)).
    assert (Ei0 : each (doc_dict x0) "ik" = map (obj_json ver) (d_ik d0)) by (rewrite each_ik; reflexivity).
    assert (Es : each (doc_dict x) "slots" = map (obj_json ver) (d_slots d)) by (rewrite each_slots, V; reflexivity).
    assert (Hh : map head (map (obj_json ver) (d_bones d)) = map head (map (obj_json ver) (d_bones d0))).
    { rewrite !heads_of; [exact (wd_heads _ D) | exact (di_bones _ _ D0) | exact (di_bones _ _ De)]. }
    assert (Sh : doc_shape (doc_dict x)).
    { constructor.
      - assert (Nb : d_bones d <> []).
        { intros C. destruct (built_has_bones _ _ G0) as (v & Ev & _).
          assert (E0 : d_bones (e_data e0) = []).
          { pose proof (wd_heads _ D) as K. rewrite C in K. cbn in K. unfold d0 in K. destruct (d_bones (e_data e0)); [auto | discriminate]. }
          rewrite get_data_json in Ev by discriminate. unfold data_json in Ev. rewrite dget_export in Ev by apply data_attrs_NoDup.
          cbn [data_attrs dget] in Ev. change (doc_data x0) with (e_data e0) in Ev. rewrite E0 in Ev.
          unfold default_values in Ev. destruct (ver_ge _ _) in Ev; cbn in Ev; discriminate. }
        eexists. split; [apply (data_key x "bones"); [discriminate | reflexivity | apply exported_list; auto] | eexists; reflexivity].
      - intros v. apply (key_iter _ (obj_json (doc_version x)) x "slots" (d_slots (doc_data x))); [discriminate | reflexivity].
      - intros v. apply (key_iter _ (obj_json (doc_version x)) x "ik" (d_ik (doc_data x))); [discriminate | reflexivity].
      - intros _. eexists. split; [apply (data_key x "skins"); [discriminate | reflexivity | apply exported_skins] | eexists; reflexivity].
      - intros v Hv. rewrite Eb in Hv. apply in_map_iff in Hv as (b & <- & Hb). apply bone_shaped. pose proof (di_bones _ _ De) as F. rewrite Forall_forall in F. auto.
      - intros v Hv. rewrite Es in Hv. apply in_map_iff in Hv as (b & <- & Hb). apply slot_shaped. pose proof (di_slots _ _ De) as F. rewrite Forall_forall in F. auto.
      - intros v Hv. rewrite Ei, <- Ei0 in Hv. eapply built_ik; eauto.
      - intros v Hv. rewrite each_skins in Hv. apply in_map_iff in Hv as (s & <- & Hs). apply skin_shaped; [ | pose proof (di_skins _ _ De) as F; rewrite Forall_forall in F; rewrite V; apply F; exact Hs].
        intros w Hw. rewrite Es in Hw. apply in_map_iff in Hw as (b & <- & Hb). pose proof (di_slots _ _ De) as F. rewrite Forall_forall in F. destruct (F b Hb) as [Wf _].
        rewrite slot_name_field by exact Wf. exact I. }
    apply (proj1 (build_iff _ Sh)). split.
    - destruct (built_names _ _ B0) as (Ub & _ & U). split; [ | split].
      + rewrite Eb. rewrite Eb0 in Ub. rewrite names_json by apply (di_bones _ _ De). rewrite names_json in Ub by apply (di_bones _ _ D0).
        assert (K : map bone_name (d_bones d) = map bone_name (d_bones d0)); [ | rewrite K; exact Ub].
        pose proof (f_equal (map (fun p : val * val => match fst p with VStr s => s | _ => "" end)) (wd_heads _ D)) as K. rewrite !map_map in K.
        assert (Q : forall l, map bone_name l = map (fun b => match fst (bhead b) with VStr s => s | _ => "" end) l).
        { intros l. apply map_ext. intros b. unfold bone_name, ostr, bhead. cbn [fst]. destruct (oget b "name"); reflexivity. }
        rewrite !Q. exact K.
      + rewrite Es. rewrite names_slots by apply (di_slots _ _ De). apply (wd_names _ D).
      + rewrite Ei, <- Ei0. exact U.
    - intros v s Hv Hn Hp. rewrite Eb in Hv. assert (Hi : In (head v) (map head (map (obj_json ver) (d_bones d)))) by (apply in_map; auto).
      rewrite Hh in Hi. apply in_map_iff in Hi as (v0 & E0 & Hv0). assert (E1 := f_equal fst E0). assert (E2 := f_equal snd E0). cbn [head fst snd] in E1, E2.
      apply (bu_self _ _ B0 v0 s); [rewrite Eb0; auto | unfold SpecSpine.named; rewrite E1; exact Hn | rewrite E2; exact Hp].
  Qed.

  (** ** The calls *)
  Lemma wdata_skin : forall n d d' r, wdata d -> remove_skin n d = (d', r) -> wdata d'.
  Proof.
    intros n d d' r D E. destruct (remove_skin_kept _ _ _ _ E) as (Kb & Ks & Ki). destruct D as [D1 D2 D3 D4 D5 D6].
    constructor; rewrite ?Kb, ?Ks, ?Ki; auto; [eapply dinv_remove_skin; eauto | ].
    intros sl k o H. destruct (remove_skin_sub _ _ _ _ _ _ _ E H) as [o' H']. eauto.
  Qed.
  Lemma sound_skins : forall l e e' r, sound e -> mforeach (fun n => on_data (remove_skin n)) l e = (e', r) -> sound e'.
  Proof.
    induction l as [ | n l IH]; intros e e' r S E; cbn [mforeach] in E; [injection E as <- _; auto | ].
    unfold mbind at 1 in E. unfold on_data at 1 in E. destruct (remove_skin n (e_data e)) as [d1 [r1 | x]] eqn:E1.
    - assert (S1 : sound (mkEditor (mkDoc (doc_skeleton (e_doc e)) (doc_version (e_doc e)) d1) (e_images e) (e_graph e))).
      { destruct S as (V & D & G). split; [exact V | ]. split; [eapply wdata_skin; eauto | exact G]. }
      unfold mbind at 1 in E. destruct (mforeach (fun n => on_data (remove_skin n)) l _) as [e2 [r2 | x2]] eqn:E2; injection E as <- _; eapply IH; eauto.
    - injection E as <- _. destruct S as (V & D & G). split; [exact V | ]. split; [eapply wdata_skin; eauto | exact G].
  Qed.
  Lemma erase_any : forall enum l safe e e' r, sound e -> erase_skins enum l safe e = (e', r) ->
    sound e' /\ forall x, r = Err x -> (exists w, x = EEditor w) \/ (exists k, x = EKey k) \/ (safe = false /\ clean_raises x).
  Proof.
    intros enum l safe e e' r S E. unfold erase_skins in E. unfold mbind at 1 in E.
    destruct (mforeach (fun n => on_data (remove_skin n)) l e) as [e1 [rs | x]] eqn:E1; pose proof (sound_skins _ _ _ _ S E1) as S1.
    2: { injection E as <- <-. split; [exact S1 | ]. intros y Ey. injection Ey as <-.
         destruct (foreach_outcome l e) as [(d' & rs & ss & _ & _ & _ & F) | (l1 & n & l2 & d1 & ss & _ & _ & [(_ & w & F) | (s & d2 & k & _ & _ & _ & F)])];
           rewrite F in E1; injection E1 as _ Ex; [discriminate | left | right; left]; rewrite <- Ex; eauto. }
    unfold mbind at 1 in E. unfold mget at 1 in E. cbv beta iota in E. destruct S1 as (V1 & D1 & G1).
    destruct (rebuild_any (e_doc e1) V1 D1) as [g Eg]. unfold mbind at 1 in E. unfold mlift at 1 in E. rewrite Eg in E. cbv beta iota in E.
    unfold mbind at 1 in E. unfold on_graph at 1, mput at 1 in E. cbv beta iota in E.
    pose proof (built_any (e_doc e1) g V1 D1 Eg) as W.
    assert (S2 : sound (mkEditor (e_doc e1) (e_images e1) g)) by (split; [exact V1 | split; [exact D1 | eauto]]).
    unfold mbind at 1 in E. destruct safe.
    - unfold mret at 1 in E. cbv beta iota in E. unfold mbind at 1, clean_images_references at 1 in E. unfold mret in E. injection E as <- <-.
      split; [ | discriminate]. exact S2.
    - destruct (clean_animation enum _) as [e2 [rep | x]] eqn:Ec; destruct (clean_any _ _ _ _ S2 Ec) as [S3 K].
      + unfold mbind at 1, clean_images_references at 1 in E. unfold mret in E. injection E as <- <-. split; [ | discriminate]. exact S3.
      + injection E as <- <-. split; [exact S3 | ]. intros y Ey. injection Ey as <-. right. right. split; [reflexivity | ]. exact (K _ eq_refl).
  Qed.
  Lemma anims_any : forall enum l strict safe e e' r, sound e -> erase_animations enum l strict safe e = (e', r) ->
    sound e' /\ forall x, r = Err x -> (strict = true /\ exists w, x = EValue w) \/ (safe = false /\ clean_raises x).
  Proof.
    intros enum l strict safe e e' r (V & D & G) E. unfold erase_animations in E. unfold mbind at 1 in E. unfold on_data at 1 in E.
    destruct (erase_raw_animations_data l strict (e_data e)) as [d1 u] eqn:E1.
    assert (D1 : wdata d1).
    { pose proof (erase_raw_anims _ _ _ _ _ _ (wd_inv _ D) E1) as Di. apply erase_raw_data in E1 as ->. destruct D. constructor; auto. }
    assert (S1 : sound (mkEditor (mkDoc (doc_skeleton (e_doc e)) (doc_version (e_doc e)) d1) (e_images e) (e_graph e))) by (split; [exact V | split; [exact D1 | exact G]]).
    destruct u as [u | x].
    2: { injection E as <- <-. split; [exact S1 | ]. intros y Ey. injection Ey as <-. left. eapply raw_kind; eauto. }
    unfold mbind at 1 in E. destruct safe.
    - unfold mret at 1 in E. cbv beta iota in E. unfold mbind, mget, mret in E. injection E as <- <-. split; [exact S1 | discriminate].
    - destruct (clean_animation enum _) as [e2 [rep | x]] eqn:Ec; destruct (clean_any _ _ _ _ S1 Ec) as [S3 K].
      + unfold mbind, mget, mret in E. injection E as <- <-. split; [exact S3 | discriminate].
      + injection E as <- <-. split; [exact S3 | ]. intros y Ey. injection Ey as <-. right. split; [reflexivity | ]. exact (K _ eq_refl).
  Qed.
  Lemma scale_kind : forall sx sy l l' x, Forall has_scales l -> scale_bones sx sy l = (l', Err x) -> (exists w, x = EType w) \/ x = EOverflow \/ (exists w, x = EAttr w).
  Proof.
    intros sx sy l l' x F E. unfold scale_bones in E. destruct (mapM_inplace _ l) as [m u] eqn:Em. pose proof (first_pass _ _ _ _ _ F Em) as P. destruct u as [u | y].
    - destruct (root_fails _ _ _ _ _ E) as [(m1 & r1 & m2 & r' & -> & _ & _ & _ & H3) | (_ & _ & w & ->)]; [ | eauto].
      assert (Sr : has_scales r1).
      { destruct (Forall2_in_r _ _ _ _ _ P r1 (in_elt r1 m1 m2)) as (r0 & Hr & O). eapply once_scales; [exact O | ]. rewrite Forall_forall in F. auto. }
      destruct (fails_kind _ _ _ _ _ (bone_scale_fails _ _ _ _ _ Sr H3)); auto.
    - injection E as _ <-. destruct P as (l1 & b & l2 & l1' & b' & _ & _ & _ & _ & Fb). destruct (fails_kind _ _ _ _ _ Fb); auto.
  Qed.
  Lemma scale_any : forall sx sy e e' r, sound e -> scale_animation sx sy e = (e', r) ->
    sound e' /\ forall x, r = Err x -> (exists w, x = EType w) \/ x = EOverflow \/ (exists w, x = EAttr w).
  Proof.
    intros sx sy e e' r (V & D & G) E. unfold scale_animation, on_data in E. destruct (scale_bones sx sy (d_bones (e_data e))) as [l u] eqn:El. injection E as <- <-.
    pose proof (di_bones _ _ (wd_inv _ D)) as Fb. split.
    - split; [exact V | ]. split; [ | exact G]. pose proof (scale_bones_ok _ _ _ _ _ _ Fb El) as Lb. pose proof (scale_heads _ _ _ _ _ El) as Lh.
      destruct D as [[] D2 D3 D4 D5 D6]. constructor; auto; [constructor; auto | ]. cbn. rewrite Lh. auto.
    - intros x ->. eapply scale_kind; [ | exact El]. eapply Forall_impl; [ | exact Fb]. intros b. apply loaded_scales.
  Qed.
  Lemma step_any : forall op e e' r, sound e -> estep e op = (e', r) -> sound e' /\ forall x, r = Err x -> may_raise op x.
  Proof.
    intros [enum l safe | enum l strict safe | enum | sx sy] e e' r S E; cbn [estep may_raise] in *.
    - destruct (erase_skins enum l safe e) as [e1 u] eqn:Es. destruct (erase_any _ _ _ _ _ _ S Es) as [S1 K]. injection E as <- <-. split; [exact S1 | ]. destruct u; [discriminate | ]. intros y Ey. injection Ey as <-. exact (K _ eq_refl).
    - destruct (erase_animations enum l strict safe e) as [e1 u] eqn:Es. destruct (anims_any _ _ _ _ _ _ _ S Es) as [S1 K]. injection E as <- <-. split; [exact S1 | ]. destruct u; [discriminate | ]. intros y Ey. injection Ey as <-. exact (K _ eq_refl).
    - destruct (clean_animation enum e) as [e1 u] eqn:Es. destruct (clean_any _ _ _ _ S Es) as [S1 K]. injection E as <- <-. split; [exact S1 | ]. destruct u; [discriminate | ]. intros y Ey. injection Ey as <-. exact (K _ eq_refl).
    - eapply scale_any; eauto.
  Qed.
  Lemma loaded_sound : sound e0.
  Proof.
    destruct (loaded_sync e0 L0) as (D0 & K0 & S0).
    assert (D : wdata (e_data e0)).
    { constructor; auto.
      - rewrite Forall_forall. intros s Hs. exists s. auto.
      - apply (sync_distinct_slots _ _ _ _ _ _ S0).
      - intros sl k o H. exists k, o. exact H. }
    split; [reflexivity | ]. split; [exact D | ]. pose proof L0 as (j & _ & Hj). apply mk_editor_inv in Hj as (_ & _ & G0).
    exists (d_bones d0), (d_slots d0), (d_ik d0). apply (built_any (e_doc e0)); auto.
  Qed.
End Any.

Lemma calls_sound : forall e0 ops e, any_calls e0 ops e -> loaded e0 /\ sound e0 e.
Proof.
  intros e0 ops e H. induction H as [L | ops e op e' r H [L S] O E]; [auto using loaded_sound | ]. split; [exact L | ]. eapply step_any; eauto.
Qed.
Theorem any_raises : forall e0 ops e op e' x, any_calls e0 ops e -> estep e op = (e', Err x) -> may_raise op x.
Proof. intros e0 ops e op e' x H E. destruct (calls_sound _ _ _ H) as [L S]. destruct (step_any e0 L op e e' _ S E) as [_ K]. auto. Qed.
Theorem any_kept : forall e0 ops e, any_calls e0 ops e -> as_loaded e0 e.
Proof.
  intros e0 ops e H. destruct (calls_sound _ _ _ H) as [L (V & D & _)]. constructor.
  - exact V.
  - pose proof (wd_heads _ _ D) as K. exact K.
  - rewrite V. exact (wd_ik _ _ D).
  - exact (wd_names _ _ D).
  - intros s Hs. pose proof (wd_slots _ _ D) as F. rewrite Forall_forall in F. destruct (F s Hs) as (s0 & H0 & [-> | [-> _]]); exists s0; (split; [exact H0 | ]); (split; [reflexivity | ]).
    + auto.
    + split; [unfold slot_name, ostr; rewrite !oget_oset; reflexivity | ]. rewrite !oget_oset. cbn. split; [ | right; reflexivity]. intros k Hk. rewrite oget_oset. apply String.eqb_neq in Hk. rewrite Hk. reflexivity.
Qed.
Theorem any_rebuilt : forall e0 ops e enum, any_calls e0 ops e -> exists g,
  create_from_json_data (editor_json e) = Ok g /\ estep e (EoEraseSkins enum [] true) = (mkEditor (e_doc e) (e_images e) g, Ok tt).
Proof.
  intros e0 ops e enum H. destruct (calls_sound _ _ _ H) as [L (V & D & _)]. destruct (rebuild_any e0 L (e_doc e) V D) as [g E]. exists g. split; [exact E | ].
  cbn [estep]. unfold erase_skins. cbn [mforeach]. unfold mbind, mret, mget, mlift, on_graph, mput, clean_images_references. cbn [e_doc e_graph e_images]. rewrite E. cbn.
  do 2 f_equal. apply filter_all. intros x _. reflexivity.
Qed.
