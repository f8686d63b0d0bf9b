(** Proofs about erase_skins: the graph can always be built again, and what is left. *)
From Verif Require Import PyBase PyFacts Json Version Graph SpecGraph Classes ClassFacts DocFacts SpineGraph SpecSpine SpineFacts BuildFacts BuildTotal
  DrawOrder AnimData Editor SpecAnim SkinFacts SpecEditor EditorGraph EditorData EditorBuild EditorClean EditorOut EditorHist EditorFacts EditorKeep EditorScale SpecErase.
Open Scope string_scope.

(** ** Documents whose graph was built *)
Lemma mforeach_each : forall S A B (f : A -> M S B) l s s' r, mforeach f l s = (s', Ok r) ->
  forall x, In x l -> exists s1 s2 b, f x s1 = (s2, Ok b).
Proof.
  intros S A B f l. induction l as [ | y l IH]; intros s s' r E x H; [destruct H | ]. cbn [mforeach] in E.
  apply mbind_ok in E as (s1 & b & E1 & E2). apply mbind_ok in E2 as (s2 & bs & E2 & _).
  destruct H as [<- | H]; eauto.
Qed.
Lemma item_ok : forall v k x, py_item v k = Ok x -> has_key k v /\ x = field v k.
Proof.
  intros v k x H. destruct v as [ | | | | | | d]; try discriminate. cbn in H. unfold dget_err in H.
  destruct (dget k d) as [y | ] eqn:E; inversion H; subst. split; [exists d; split; auto; unfold dmem; rewrite E; auto | ]. cbn. rewrite E. auto.
Qed.
Lemma ik_added : forall v i g g' u, add_ik_to_graph v i g = (g', Ok u) -> ik_shape v.
Proof.
  intros v i g g' u H. unfold add_ik_to_graph in H.
  apply mbind_ok in H as (s1 & name & H1 & H). apply mlift_ok in H1 as [-> H1]. apply item_ok in H1 as [K1 ->].
  apply mbind_ok in H as (s2 & id & H1 & H). apply mlift_ok in H1 as [-> H1].
  apply mbind_ok in H as (s3 & [] & _ & H).
  apply mbind_ok in H as (s4 & bones & H2 & H). apply mlift_ok in H2 as [-> H2]. apply item_ok in H2 as [K2 ->].
  apply mbind_ok in H as (s5 & bs & H2 & H). apply mlift_ok in H2 as [-> H2].
  split; [auto | ]. split; [auto | ]. exists bs. apply iter_contents. auto.
Qed.
Lemma enumerate_snd : forall A (l : list A) x, In x l -> exists i, In (i, x) (enumerate l).
Proof.
  intros A l x. unfold enumerate. generalize 0%Z. induction l as [ | y l IH]; intros z H; [destruct H | ]. cbn.
  destruct H as [-> | H]; [exists z; auto | ]. destruct (IH (z + 1)%Z H) as [i Hi]. exists i. auto.
Qed.
Lemma built_ik : forall d g, create_from_json_data (VDict d) = Ok g -> forall v, In v (each d "ik") -> ik_shape v.
Proof.
  intros d g H v Hv. unfold create_from_json_data in H. destruct (build_graph_m d new_graph) as [g' r] eqn:E. destruct r as [u | ]; [ | discriminate].
  unfold build_graph_m in E. apply mbind_ok in E as (s1 & b & _ & E). apply mbind_ok in E as (s2 & b2 & _ & E).
  apply mbind_ok in E as (s3 & b3 & _ & E). apply mbind_ok in E as (s4 & b4 & _ & E).
  apply mbind_ok in E as (s5 & iks & Ei & E). apply mlift_ok in Ei as [-> Ei]. apply mbind_ok in E as (s6 & b6 & E & _).
  assert (El : each d "ik" = iks).
  { unfold each. destruct (dget "ik" d); [apply iter_elems; auto | injection Ei as <-; auto]. }
  rewrite El in Hv. destruct (enumerate_snd _ _ _ Hv) as [i Hi].
  destruct (mforeach_each _ _ _ _ _ _ _ _ E _ Hi) as (t1 & t2 & t3 & K). eapply ik_added; exact K.
Qed.
Lemma built_has_bones : forall d g, create_from_json_data (VDict d) = Ok g -> exists v, dget "bones" d = Some v /\ iterable v.
Proof.
  intros d g H. unfold create_from_json_data in H. destruct (build_graph_m d new_graph) as [g' r] eqn:E. destruct r as [u | ]; [ | discriminate].
  unfold build_graph_m in E. apply mbind_ok in E as (s1 & b & E1 & E). apply mlift_ok in E1 as [-> E1]. unfold dget_err in E1.
  destruct (dget "bones" d) as [v | ]; [ | discriminate]. exists v. split; auto. exists b. apply iter_contents. exact E1.
Qed.

(** ** The name and the parent of a bone *)
Definition head (v : val) : val * val := (field v "name", field v "parent").
Lemma head_json : forall ver b, wf_obj CBone b -> head (obj_json ver b) = (oget b "name", oget b "parent").
Proof.
  intros ver b H. unfold head.
  rewrite !(field_json ver b) by (first [eapply wf_keys; eauto | destruct H as [-> _]; apply bone_no_default; cbn; auto]). auto.
Qed.
Lemma scaled_head : forall sx sy b b', scaled sx sy b b' -> oget b' "name" = oget b "name" /\ oget b' "parent" = oget b "parent".
Proof. intros sx sy b b' (_ & _ & _ & _ & K). split; apply K; discriminate. Qed.
Lemma heads_of : forall ver l, Forall (loaded_obj ver CBone) l -> map head (map (obj_json ver) l) = map (fun b => (oget b "name", oget b "parent")) l.
Proof.
  intros ver l H. rewrite map_map. apply map_ext_in. intros b Hb. apply head_json. rewrite Forall_forall in H. apply (H b Hb).
Qed.
Lemma rescaled_heads : forall sx sy l l', Forall has_scales l -> scale_bones sx sy l = (l', Ok tt) ->
  map (fun b => (oget b "name", oget b "parent")) l' = map (fun b => (oget b "name", oget b "parent")) l.
Proof.
  intros sx sy l l' F E. apply scale_bones_split in E as (l1 & r & l2 & l1' & r1 & r' & l2' & -> & _ & _ & -> & O1 & O2 & Or & Sr); auto.
  assert (O : forall b b', once sx sy b b' -> oget b' "name" = oget b "name" /\ oget b' "parent" = oget b "parent").
  { intros b b' [H1 H2]. destruct (scale_independent b) eqn:I.
    - apply independent_iff in I. eapply scaled_head; eauto.
    - apply independent_not in I. rewrite (H2 I). auto. }
  assert (K : forall k k', Forall2 (once sx sy) k k' -> map (fun b => (oget b "name", oget b "parent")) k' = map (fun b => (oget b "name", oget b "parent")) k).
  { intros k k' Ok. induction Ok as [ | b b' k k' Hb Ok IH]; auto. cbn [map]. destruct (O _ _ Hb) as [-> ->]. rewrite IH. auto. }
  rewrite !map_app. cbn [map]. rewrite (K _ _ O1), (K _ _ O2). destruct (scaled_head _ _ _ _ Sr) as [-> ->]. destruct (O _ _ Or) as [-> ->]. auto.
Qed.
Lemma bone_heads : forall e0 ops e eb, last_built e0 ops e eb -> map head (bones_json e) = map head (bones_json e0).
Proof.
  intros e0 ops e eb H.
  enough (A : map head (bones_json e) = map head (bones_json e0) /\ map head (bones_json eb) = map head (bones_json e0)) by apply A.
  induction H as [H | ops e eb op e' H [IH1 IH2] O E]; auto.
  assert (H' : last_built e0 (op :: ops) e' (match op with EoEraseSkins _ _ _ => e | _ => eb end)) by (econstructor; eauto).
  destruct (history_state _ _ _ _ H) as [ss [D _]]. destruct (history_state _ _ _ _ H') as [ss' [D' _]].
  pose proof (bones_after _ _ _ _ _ _ H O E) as B.
  destruct op as [en l safe | en l strict [ | ] | en | sx sy]; (split; [ | auto]); try congruence.
  unfold bones_json. rewrite (heads_of _ _ (di_bones _ _ D')). rewrite (rescaled_heads sx sy (d_bones (e_data e))); [ | | exact B].
  - rewrite <- (heads_of _ _ (di_bones _ _ D)). exact IH1.
  - eapply Forall_impl; [ | exact (di_bones _ _ D)]. intros b. apply loaded_scales.
Qed.

(** ** Building the graph of the edited document *)
Lemma guard_str : forall c o k, wf_obj c o -> In k (name_attrs c) -> is_str_or_null (oget o k) = true.
Proof.
  intros c o k (Hc & _ & G) Hk. unfold type_guard in G. apply andb_prop in G as [G _]. rewrite forallb_forall in G. rewrite Hc in G. auto.
Qed.
Lemma field_key : forall d k s, field (VDict d) k = VStr s -> has_key k (VDict d).
Proof. intros d k s H. cbn in H. exists d. split; auto. unfold dmem. destruct (dget k d); [auto | discriminate]. Qed.
Lemma obj_json_dict : forall ver o, exists d, obj_json ver o = VDict d.
Proof. intros. eexists. reflexivity. Qed.
Lemma bone_shaped : forall ver b, loaded_obj ver CBone b -> has_key "name" (obj_json ver b).
Proof.
  intros ver b [H _]. destruct (name_str CBone b H) as [n E]; auto. pose proof (head_json ver b H) as Hh. 
  assert (H1 : field (obj_json ver b) "name" = oget b "name") by exact (f_equal fst Hh).
  rewrite E in H1. destruct (obj_json_dict ver b) as [d Ed]. rewrite Ed in *. eapply field_key; eauto.
Qed.
Lemma slot_shaped : forall ver s, loaded_obj ver CSlot s -> has_key "name" (obj_json ver s).
Proof.
  intros ver s [H _]. destruct (name_str CSlot s H) as [n E]; auto.
  assert (H1 := slot_field ver s "name" H). rewrite E in H1. destruct (obj_json_dict ver s) as [d Ed]. rewrite Ed in *. eapply field_key; eauto.
Qed.
Lemma skin_shaped : forall ver l s, (forall v, In v l -> hashable (field v "name")) -> skin_ok ver s -> skin_shape l (skin_json ver s).
Proof.
  intros ver l s Hl H. split; [eexists; reflexivity | ]. intros T. split; [exact Hl | ]. rewrite (skin_field ver s H) in *.
  destruct (sk_atts s) as [ | x r] eqn:E; [discriminate | ]. rewrite <- E in *. eexists. split; [reflexivity | ].
  intros v n y _ _ Hy. right. rewrite dget_dmap in Hy. destruct (dget n (sk_atts s)) as [m | ] eqn:Em; [ | discriminate].
  cbn in Hy. injection Hy as <-. eexists. split; [reflexivity | ]. intros k a Ha.
  unfold dmap in Ha. apply in_map_iff in Ha as ([k' o] & Ea & Ho). cbn in Ea. injection Ea as -> <-.
  pose proof (so_atts ver s H n m k o (dget_some_in _ _ _ Em) Ho) as Ao. eexists; reflexivity.
Qed.
Lemma data_key : forall x k v, k <> "skeleton" -> dget k (data_attrs (doc_version x) (doc_data x)) = Some v ->
  exported (default_values CAnimData (doc_version x)) k v = true -> dget k (doc_dict x) = Some v.
Proof.
  intros x k v Hk Hv He. rewrite get_data_json by auto. unfold data_json. rewrite dget_export by apply data_attrs_NoDup. rewrite Hv, He. auto.
Qed.
Lemma key_iter : forall A (f : A -> val) x k (l : list A) v, k <> "skeleton" ->
  dget k (data_attrs (doc_version x) (doc_data x)) = Some (jlist f l) -> dget k (doc_dict x) = Some v -> iterable v.
Proof.
  intros A f x k l v Hk Hv E. rewrite get_data_json in E by auto. unfold data_json in E. rewrite dget_export in E by apply data_attrs_NoDup. rewrite Hv in E.
  destruct (exported _ _ _); [injection E as <- | discriminate]. eexists. reflexivity.
Qed.
Lemma exported_list : forall x (f : obj -> val) l, l <> [] -> exported (default_values CAnimData (doc_version x)) "bones" (jlist f l) = true.
Proof.
  intros x f l H. unfold exported. cbn [is_none jlist].
  assert (E : get_or_none "bones" (default_values CAnimData (doc_version x)) = vlist) by (unfold default_values; destruct (ver_ge _ _); reflexivity).
  rewrite E. destruct l; [tauto | reflexivity].
Qed.
Lemma exported_skins : forall x (f : skin -> val) l, exported (default_values CAnimData (doc_version x)) "skins" (jlist f l) = true.
Proof.
  intros x f l. unfold exported. cbn [is_none jlist].
  assert (E : get_or_none "skins" (default_values CAnimData (doc_version x)) = VNone) by (unfold default_values; destruct (ver_ge _ _); reflexivity).
  rewrite E. reflexivity.
Qed.

Lemma rebuild_ok : forall e0 ops e d, history e0 ops e -> dinv (e_ver e) d -> same_rest (e_data e) d ->
  exists g, create_from_json_data (document_json (with_data e d)) = Ok g.
Proof.
  intros e0 ops e d H D (Rb & Rs & Re & Ri & Rt & Rp). destruct (last_built_ex _ _ _ H) as [eb B].
  destruct (history_state _ _ _ _ B) as [ss [De S]]. pose proof (bone_heads _ _ _ _ B) as Hh. destruct (history_constant _ _ _ H) as (Ki & _ & _ & _ & V & _ & _).
  assert (L : loaded e0) by (clear - H; induction H; auto). pose proof L as (j & _ & Hj). apply mk_editor_inv in Hj as (_ & _ & G0).
  rewrite document_json_dict in *. set (x := with_data e d). set (x0 := e_doc e0) in *.
  assert (Vx : doc_version x = e_ver e) by reflexivity. assert (Dx : doc_data x = d) by reflexivity.
  pose proof (build_ok _ _ G0) as B0.
  assert (Eb : each (doc_dict x) "bones" = bones_json e) by (rewrite each_bones, Vx, Dx, Rb; reflexivity).
  assert (Eb0 : each (doc_dict x0) "bones" = bones_json e0) by (rewrite each_bones; reflexivity).
  assert (Ei : each (doc_dict x) "ik" = ik_json e0) by (rewrite each_ik, Vx, Dx, Ri; exact Ki).
  assert (Ei0 : each (doc_dict x0) "ik" = ik_json e0) by (rewrite each_ik; reflexivity).
  assert (Es : each (doc_dict x) "slots" = map (obj_json (e_ver e)) (d_slots (e_data e))) by (rewrite each_slots, Vx, Dx, Rs; reflexivity).
  assert (Sh : doc_shape (doc_dict x)).
  { constructor.
    - assert (Nb : d_bones d <> []).
      { rewrite Rb. intros C. destruct (built_has_bones _ _ G0) as (v & Ev & _).
        assert (E0 : d_bones (e_data e0) = []).
        { unfold bones_json in Hh. rewrite C in Hh. cbn in Hh. destruct (d_bones (e_data e0)); [auto | discriminate]. }
        rewrite get_data_json in Ev by discriminate. unfold data_json in Ev. rewrite dget_export in Ev by apply data_attrs_NoDup.
        cbn [data_attrs dget] in Ev. change (doc_data x0) with (e_data e0) in Ev. rewrite E0 in Ev.
        unfold default_values in Ev. destruct (ver_ge _ _) in Ev; cbn in Ev; discriminate. }
      eexists. split; [apply (data_key x "bones"); [discriminate | reflexivity | rewrite Dx; apply exported_list; auto] | eexists; reflexivity].
    - intros v. apply (key_iter _ (obj_json (doc_version x)) x "slots" (d_slots (doc_data x))); [discriminate | reflexivity].
    - intros v. apply (key_iter _ (obj_json (doc_version x)) x "ik" (d_ik (doc_data x))); [discriminate | reflexivity].
    - intros _. eexists. split; [apply (data_key x "skins"); [discriminate | reflexivity | apply exported_skins] | eexists; reflexivity].
    - intros v Hv. rewrite Eb in Hv. apply in_map_iff in Hv as (b & <- & Hb). apply bone_shaped. pose proof (di_bones _ _ De) as F. rewrite Forall_forall in F. auto.
    - intros v Hv. rewrite Es in Hv. apply in_map_iff in Hv as (b & <- & Hb). apply slot_shaped. pose proof (di_slots _ _ De) as F. rewrite Forall_forall in F. auto.
    - intros v Hv. rewrite Ei, <- Ei0 in Hv. eapply built_ik; eauto.
    - intros v Hv. rewrite each_skins in Hv. apply in_map_iff in Hv as (s & <- & Hs). apply skin_shaped; [ | pose proof (di_skins _ _ D) as F; rewrite Forall_forall in F; apply F; exact Hs].
      intros w Hw. rewrite Es in Hw. apply in_map_iff in Hw as (b & <- & Hb). pose proof (di_slots _ _ De) as F. rewrite Forall_forall in F. destruct (F b Hb) as [W _].
      rewrite slot_name_field by exact W. exact I. }
  apply (proj1 (build_iff _ Sh)). split.
  - destruct (built_names _ _ B0) as (_ & _ & U). split; [ | split].
    + rewrite Eb. unfold bones_json. rewrite names_json by apply (di_bones _ _ De). apply (bone_names _ _ _ _ B).
    + rewrite Es. rewrite names_slots by apply (di_slots _ _ De). rewrite (sy_names _ _ _ _ _ _ S).
      assert (N : NoDup (map fst (tn (e_graph e) T_SLOT))).
      { apply tn_NoDup. apply (gv_good _ (sy_view _ _ _ _ _ _ S)). }
      rewrite (sy_ids _ _ _ _ _ _ S) in N. eapply NoDup_map_inv'; eauto.
    + rewrite Ei, <- Ei0. exact U.
  - intros v s Hv Hn Hp. rewrite Eb in Hv. assert (Hi : In (head v) (map head (bones_json e))) by (apply in_map; auto).
    rewrite Hh in Hi. apply in_map_iff in Hi as (v0 & E0 & Hv0). assert (E1 := f_equal fst E0). assert (E2 := f_equal snd E0). cbn [head fst snd] in E1, E2.
    apply (bu_self _ _ B0 v0 s); [rewrite Eb0; auto | unfold named; rewrite E1; exact Hn | rewrite E2; exact Hp].
Qed.

(** ** One skin after the other *)
Lemma skin_erased_run : forall n d d' r, remove_skin n d = (d', Ok r) -> exists s, skin_erased n d d' s /\ r = (skin_removed_images s, skin_removed_attachments s).
Proof.
  intros n d d' r H. destruct (remove_skin_rest _ _ _ _ H) as (s & F & Er & (R1 & R2 & R3 & R4 & R5 & R6) & K1 & K2).
  exists s. split; auto. constructor; auto. destruct (has_source_dec d n s F) as [S | S]; auto. exfalso.
  destruct (proj2 (remove_skin_known d n s F) S) as (d2 & k & E & _). rewrite E in H. discriminate.
Qed.
Lemma removal_erased : forall l d d' rs, removal l d d' rs ->
  exists ss, erased l d d' ss /\ rs = map (fun s => (skin_removed_images s, skin_removed_attachments s)) ss.
Proof.
  intros l d d' rs H. induction H as [d | n l d d1 d2 r rs H R (ss & IH & ->)]; [exists []; split; [constructor | auto] | ].
  apply skin_erased_run in H as (s & K & ->). exists (s :: ss). split; [econstructor; eauto | auto].
Qed.
Lemma foreach_outcome : forall l e,
  (exists d' rs ss, removal l (e_data e) d' rs /\ erased l (e_data e) d' ss /\ rs = map (fun s => (skin_removed_images s, skin_removed_attachments s)) ss /\
     mforeach (fun n => on_data (remove_skin n)) l e = (put_data e d', Ok rs)) \/
  (exists l1 n l2 d1 ss, l = (l1 ++ n :: l2)%list /\ erased l1 (e_data e) d1 ss /\
     (((forall s, In s (d_skins d1) -> sk_name s <> Some n) /\ exists w, mforeach (fun n => on_data (remove_skin n)) l e = (put_data e d1, Err (EEditor w))) \/
      (exists s d2 k, first_skin d1 n s /\ ~ has_source d1 n s /\ remove_skin n d1 = (d2, Err (EKey k)) /\
         mforeach (fun n => on_data (remove_skin n)) l e = (put_data e d2, Err (EKey k))))).
Proof.
  set (F := fun n => on_data (remove_skin n)).
  assert (EF : forall n e d r, remove_skin n (e_data e) = (d, r) -> F n e = (put_data e d, r)).
  { intros n e d r H. unfold F, on_data. rewrite H. reflexivity. }
  clearbody F.
  intros l. induction l as [ | n l IH]; intros e.
  - left. exists (e_data e), [], []. split; [constructor | ]. split; [constructor | ]. split; auto. unfold put_data. rewrite with_data_same. destruct e; reflexivity.
  - cbn [mforeach]. unfold mbind.
    destruct (get_skin (e_data e) n) as [s | ] eqn:Es.
    + apply get_skin_spec in Es. destruct (has_source_dec (e_data e) n s Es) as [S | S].
      * destruct (proj1 (remove_skin_known _ n s Es) S) as (d1 & E1 & K). rewrite (EF _ _ _ _ E1).
        assert (E1' := E1). apply skin_erased_run in E1' as (s' & Ks & Er).
        specialize (IH (put_data e d1)). destruct IH as [(d' & rs & ss & R & Hd & Hr & E) | (l1 & m & l2 & d2 & ss & -> & Hd & C)].
        -- left. exists d', ((skin_removed_images s, skin_removed_attachments s) :: rs), (s' :: ss). split; [econstructor; eauto | ]. split; [econstructor; eauto | ].
           split; [cbn; f_equal; auto | ]. rewrite E. reflexivity.
        -- right. exists (n :: l1), m, l2, d2, (s' :: ss). split; [auto | ]. split; [econstructor; eauto | ].
           destruct C as [(C & w & E) | (s2 & d3 & k & C1 & C2 & C3 & E)]; [left | right].
           ++ split; auto. exists w. rewrite E. reflexivity.
           ++ exists s2, d3, k. split; [auto | ]. split; [auto | ]. split; [auto | ]. rewrite E. reflexivity.
      * destruct (proj2 (remove_skin_known _ n s Es) S) as (d2 & k & E1 & _). rewrite (EF _ _ _ _ E1).
        right. exists [], n, l, (e_data e), []. split; [auto | ]. split; [constructor | ]. right. exists s, d2, k. auto.
    + assert (N : forall s, In s (d_skins (e_data e)) -> sk_name s <> Some n).
      { intros s Hs C. unfold get_skin in Es. apply find_none with (x := s) in Es; auto. rewrite C in Es. unfold opt_eqb in Es. rewrite seqb_refl in Es. discriminate. }
      destruct (remove_skin_unknown (e_data e) n N) as [w E1]. rewrite (EF _ _ _ _ E1).
      right. exists [], n, l, (e_data e), []. split; [auto | ]. split; [constructor | ]. left. split; auto. exists w. reflexivity.
Qed.

(** ** The clean-up reads nothing from images_references, it only drops entries. *)
Definition with_images (i : dict imgref) (e : editor) : editor := mkEditor (e_doc e) i (e_graph e).
Definition dropped (l : aset) (i : dict imgref) : dict imgref := filter (fun kv => negb (omem (Some (fst kv)) l)) i.
Definition blind {A} (m : M editor A) : Prop := forall e, exists l, e_images (fst (m e)) = dropped l (e_images e) /\
  forall i, m (with_images i e) = (with_images (dropped l i) (fst (m e)), snd (m e)).
Lemma dropped_nil : forall i, dropped [] i = i.
Proof. intros i. unfold dropped. induction i as [ | x i IH]; auto. cbn [filter]. change (omem (Some (fst x)) []) with false. cbn [negb]. rewrite IH. auto. Qed.
Lemma omem_app : forall x l1 l2, omem x (l1 ++ l2)%list = (omem x l1 || omem x l2)%bool.
Proof. intros x l1 l2. unfold omem. apply existsb_app. Qed.
Lemma filter_filter : forall A (f g : A -> bool) l, filter f (filter g l) = filter (fun x => g x && f x)%bool l.
Proof. intros A f g l. induction l as [ | x l IH]; auto. cbn. destruct (g x); cbn; [destruct (f x); rewrite IH; auto | auto]. Qed.
Lemma dropped_app : forall l1 l2 i, dropped l2 (dropped l1 i) = dropped (l1 ++ l2)%list i.
Proof. intros l1 l2 i. unfold dropped. rewrite filter_filter. apply filter_ext. intros x. rewrite omem_app, negb_orb. auto. Qed.
Lemma blind_bind : forall A B (m : M editor A) (f : A -> M editor B), blind m -> (forall a, blind (f a)) -> blind (mbind m f).
Proof.
  intros A B m f Hm Hf e. unfold mbind. destruct (Hm e) as (l1 & E1 & E2). destruct (m e) as [e1 [a | x]]; cbn [fst snd] in *.
  - destruct (Hf a e1) as (l2 & F1 & F2). exists (l1 ++ l2)%list. rewrite F1, E1, dropped_app. split; auto. intros i. rewrite E2, F2, dropped_app. auto.
  - exists l1. split; auto. intros i. rewrite E2. auto.
Qed.
Lemma blind_get : forall B (f : editor -> M editor B), (forall e i, f (with_images i e) = f e) -> (forall e, blind (f e)) -> blind (mbind mget f).
Proof. intros B f Hf H e. unfold mbind, mget. destruct (H e e) as (l & E1 & E2). exists l. split; auto. intros i. rewrite Hf, E2. auto. Qed.
Lemma blind_keep : forall A (m : M editor A), (forall e, e_images (fst (m e)) = e_images e /\ forall i, m (with_images i e) = (with_images i (fst (m e)), snd (m e))) -> blind m.
Proof. intros A m H e. exists []. destruct (H e) as [H1 H2]. rewrite dropped_nil. split; auto. intros i. rewrite dropped_nil. auto. Qed.
Lemma blind_lift : forall A (r : res A), blind (mlift r).
Proof. intros A r. apply blind_keep. auto. Qed.
Lemma blind_ret : forall A (a : A), blind (mret a).
Proof. intros A r. apply blind_keep. auto. Qed.
Lemma blind_graph : forall A (m : M sgraph A), blind (on_graph m).
Proof. intros A m. apply blind_keep. intros e. unfold on_graph. cbn. destruct (m (e_graph e)). auto. Qed.
Lemma blind_data : forall A (m : M anim_data A), blind (on_data m).
Proof.
  intros A m. apply blind_keep. intros e. unfold on_data. split; [destruct (m (e_data e)); auto | ]. intros i.
  change (e_data (with_images i e)) with (e_data e). destruct (m (e_data e)). auto.
Qed.
Lemma blind_images : forall l, blind (clean_images_references l).
Proof. intros l e. exists l. auto. Qed.
Lemma clean_blind : forall enum, blind (clean_animation enum).
Proof.
  intros enum. unfold clean_animation. apply blind_get; [reflexivity | ]. intros e. apply blind_bind; [apply blind_lift | ]. intros [inv atts].
  apply blind_bind; [apply blind_graph | ]. intros _. apply blind_bind; [apply blind_graph | ]. intros _.
  apply blind_bind; [apply blind_graph | ]. intros leafs. apply blind_get; [reflexivity | ]. intros e1.
  assert (R : forall a b, blind (ed_remove_slots a b)).
  { intros a b. apply blind_bind; [apply blind_data | ]. intros _. apply blind_bind; [apply blind_data | ]. intros _. apply blind_data. }
  assert (R' : forall a, blind (ed_remove_attachments a)).
  { intros a. apply blind_bind; [apply blind_data | ]. intros _. apply blind_data. }
  repeat (apply blind_bind; [first [apply blind_lift | apply blind_data | apply blind_graph | apply blind_images | apply R | apply R'] | intros ?]).
  apply blind_ret.
Qed.

(** ** Outcomes *)
Lemma erase_safe_run : forall e0 ops e enum l d rs, history e0 ops e -> removal l (e_data e) d rs ->
  mforeach (fun n => on_data (remove_skin n)) l e = (put_data e d, Ok rs) ->
  exists g imgs, create_from_json_data (document_json (with_data e d)) = Ok g /\ imgs = images_to_drop g (erased_images rs) /\
    erase_skins enum l true e = (mkEditor (with_data e d) (dropped imgs (e_images e)) g, Ok (([], []), imgs)) /\
    erase_skins enum l false e = (let '(e2, r) := clean_animation enum (mkEditor (with_data e d) (e_images e) g) in
       match r with Ok rep => (with_images (dropped imgs (e_images e2)) e2, Ok (rep, imgs)) | Err x => (e2, Err x) end).
Proof.
  intros e0 ops e enum l d rs H R E. destruct (last_built_ex _ _ _ H) as [eb B]. destruct (history_state _ _ _ _ B) as [ss0 [D S]].
  destruct (removal_facts _ _ _ _ _ R D) as (D1 & _ & Sr & _). destruct (rebuild_ok _ _ _ _ H D1 Sr) as [g Eg]. exists g, (images_to_drop g (erased_images rs)).
  assert (Run : forall safe, erase_skins enum l safe e =
    mbind (if safe then mret ([], []) else clean_animation enum) (fun removed_data => do! _ := clean_images_references (images_to_drop g (erased_images rs)) in
      mret (removed_data, images_to_drop g (erased_images rs))) (mkEditor (with_data e d) (e_images e) g)).
  { intros safe. unfold erase_skins. unfold mbind at 1. rewrite E. unfold mbind at 1, mget. unfold mbind at 1, mlift at 1.
    change (e_doc (put_data e d)) with (with_data e d). rewrite Eg. unfold mbind at 1, on_graph, mput. reflexivity. }
  split; [auto | ]. split; [auto | ]. split; [rewrite Run; reflexivity | ]. rewrite Run. unfold mbind at 1.
  destruct (clean_animation enum _) as [e2 [rep | x]]; reflexivity.
Qed.

Lemma erase_images_spec : forall ss x, Forall distinct_keys ss ->
  (In x (erased_images (map (fun s => (skin_removed_images s, skin_removed_attachments s)) ss)) <-> exists s, In s ss /\ image_of_skin s x).
Proof.
  intros ss x F. unfold erased_images. rewrite in_app_iff. rewrite !in_flat_map. unfold image_of_skin. rewrite Forall_forall in F. split.
  - intros [(r & Hr & Hx) | (r & Hr & Hx)]; apply in_map_iff in Hr as (s & <- & Hs); exists s; (split; [auto | ]); cbn [fst snd] in Hx.
    + apply removed_images_spec in Hx as (sl & k & o & Hi & C). exists sl, k, o. split; auto. tauto.
    + apply in_flat_map in Hx as ([sl m] & Hm & Hx). cbn [snd] in Hx. apply in_map_iff in Hx as ([k p] & <- & Hk). cbn [snd].
      specialize (F s Hs). unfold skin_removed_attachments in Hm. apply filter_In in Hm as [Hm _]. unfold dmap in Hm. apply in_map_iff in Hm as ([sl' m0] & Em & Hm).
      cbn in Em. injection Em as <- <-. unfold removed_attachments_of in Hk. apply in_flat_map in Hk as ([k' o] & Ho & Hk). cbn [fst snd] in Hk.
      exists sl', k', o. split; [exists m0; auto | ]. right. left. destruct (o_cls o); try contradiction Hk. destruct (image_name o) as [q | ] eqn:Eq; [ | contradiction Hk].
      destruct Hk as [Hk | []]. injection Hk as <- <-. split; [auto | ]. split; [apply image_name_spec; auto | discriminate].
  - intros (s & Hs & sl & k & o & Hi & [C | [(C1 & C2 & C3) | C]]).
    + left. eexists. split; [apply in_map; eauto | ]. cbn [fst]. apply removed_images_spec. exists sl, k, o. auto.
    + right. eexists. split; [apply in_map; eauto | ]. cbn [snd]. destruct x as [p | ]; [ | congruence].
      destruct (proj2 (removed_attachments_spec s (F s Hs) sl k p)) as (m & Hm & Hk); [exists o; auto | ].
      apply in_flat_map. exists (sl, m). split; [apply dget_some_in; auto | ]. cbn [snd]. apply in_map_iff. exists (k, p). split; auto. apply dget_some_in. auto.
    + left. eexists. split; [apply in_map; eauto | ]. cbn [fst]. apply removed_images_spec. exists sl, k, o. auto.
Qed.
Lemma removal_skins : forall ver l d d' rs, removal l d d' rs -> dinv ver d ->
  exists ss, erased l d d' ss /\ rs = map (fun s => (skin_removed_images s, skin_removed_attachments s)) ss /\ Forall distinct_keys ss.
Proof.
  intros ver l d d' rs H. induction H as [d | n l d d1 d2 r rs E H IH]; intros D; [exists []; split; [constructor | auto] | ].
  destruct (IH (dinv_remove_skin _ _ _ _ _ D E)) as (ss & I1 & -> & I3). apply skin_erased_run in E as (s & K & ->).
  exists (s :: ss). split; [econstructor; eauto | ]. split; [auto | ]. constructor; auto.
  destruct (ke_skin _ _ _ _ K) as (l1 & l2 & El & _). pose proof (di_skins _ _ D) as F. rewrite Forall_forall in F. apply (so_keys ver). apply F. rewrite El. apply in_app_iff. right. left. auto.
Qed.
Lemma images_spec : forall e g bs ss is x, st e bs ss is -> e_graph e = g ->
  (forall i, has g T_IMAGE i -> image_left (e_data e) i) ->
  (negb (dmem (graph_id T_IMAGE (shown_image x)) (g_nodes g)) = true <-> ~ image_left (e_data e) (shown_image x)).
Proof.
  intros e g bs ss is x [D S] <- H. rewrite negb_true_iff. unfold has, ids in H.
  assert (K : dmem (graph_id T_IMAGE (shown_image x)) (g_nodes (e_graph e)) = true <-> image_left (e_data e) (shown_image x)).
  { rewrite dmem_in. split; [apply H | ]. intros (sl & k & o & Ho & <-). destruct (sy_atts _ _ _ _ _ _ S sl k o Ho) as [_ E]. apply edge_has in E; [apply E | ].
    apply (gv_good _ (sy_view _ _ _ _ _ _ S)). }
  rewrite <- K. destruct (dmem _ _); split; congruence.
Qed.

Theorem erase_safe : forall e0 ops e enum l, history e0 ops e ->
  (exists d' ss g imgs, erased l (e_data e) d' ss /\
     erase_skins enum l true e = (mkEditor (with_data e d') (dropped imgs (e_images e)) g, Ok (([], []), imgs)) /\
     forall x, In x imgs <-> (exists s, In s ss /\ image_of_skin s x) /\ ~ image_left d' (shown_image x)) \/
  (exists l1 n l2 d1 ss, l = (l1 ++ n :: l2)%list /\ erased l1 (e_data e) d1 ss /\
     (((forall s, In s (d_skins d1) -> sk_name s <> Some n) /\ exists w, erase_skins enum l true e = (put_data e d1, Err (EEditor w))) \/
      (exists s d2 k, first_skin d1 n s /\ ~ has_source d1 n s /\ erase_skins enum l true e = (put_data e d2, Err (EKey k))))).
Proof.
  intros e0 ops e enum l H. destruct (foreach_outcome l e) as [(d' & rs & _ & R & _ & _ & E) | (l1 & n & l2 & d1 & ss & El & K & C)]; [left | right].
  - destruct (last_built_ex _ _ _ H) as [eb B]. destruct (history_state _ _ _ _ B) as [ss0 Hst]. destruct (removal_skins _ _ _ _ _ R (proj1 Hst)) as (ss & K & Er & F).
    destruct (erase_safe_run _ _ _ enum _ _ _ H R E) as (g & imgs & Eg & Ei & Run & _). exists d', ss, g, imgs. split; [auto | ]. split; [auto | ].
    intros x. subst imgs. unfold images_to_drop. rewrite filter_In. rewrite Er, erase_images_spec by auto.
    pose proof (st_rebuild _ _ _ _ _ _ _ _ Hst R Eg) as S1. change (match x with Some s => s | None => "None" end) with (shown_image x).
    rewrite (images_spec _ g _ _ _ x S1); [reflexivity | reflexivity | ]. intros i Hi. apply (built_imgs _ _ i (proj1 S1) Eg) in Hi as (sl & k & o & Ho & ->). exists sl, k, o. auto.
  - exists l1, n, l2, d1, ss. split; [auto | ]. split; [auto | ]. unfold erase_skins, mbind at 1.
    destruct C as [(C & w & E) | (s & d2 & k & C1 & C2 & _ & E)]; [left | right].
    + split; auto. exists w. unfold mbind. rewrite E. auto.
    + exists s, d2, k. split; [auto | ]. split; [auto | ]. unfold mbind. rewrite E. auto.
Qed.

(** An erase that cleans up is a safe erase and then a clean-up. *)
Lemma put_images : forall e i, e_images e = i -> with_images i e = e.
Proof. intros [d i g] j <-. reflexivity. Qed.
Theorem erase_then_clean : forall e0 ops e enum l, history e0 ops e ->
  match erase_skins enum l true e with
  | (e1, Ok (_, imgs)) =>
      match clean_animation enum e1 with
      | (e2, Ok rep) => erase_skins enum l false e = (e2, Ok (rep, imgs))
      | (e2, Err x) => exists e2', erase_skins enum l false e = (e2', Err x) /\ e_doc e2' = e_doc e2
      end
  | (e1, Err x) => erase_skins enum l false e = (e1, Err x)
  end.
Proof.
  intros e0 ops e enum l H. destruct (foreach_outcome l e) as [(d' & rs & ss & R & K & Er & E) | (l1 & n & l2 & d1 & ss & El & K & C)].
  - destruct (erase_safe_run _ _ _ enum _ _ _ H R E) as (g & imgs & Eg & Ei & Run & Run'). rewrite Run. set (e1 := mkEditor (with_data e d') (e_images e) g) in *.
    change (mkEditor (with_data e d') (dropped imgs (e_images e)) g) with (with_images (dropped imgs (e_images e1)) e1).
    destruct (clean_blind enum e1) as (li & B1 & B2). rewrite B2. destruct (clean_animation enum e1) as [e2 [rep | x]]; cbn [fst snd] in *.
    + rewrite Run', B1, !dropped_app. f_equal. f_equal.
      unfold dropped. apply filter_ext. intros y. rewrite !omem_app. rewrite orb_comm. reflexivity.
    + exists e2. rewrite Run'. auto.
  - assert (X : exists e1 x, mforeach (fun n => on_data (remove_skin n)) l e = (e1, Err x)).
    { destruct C as [(C & w & E) | (s & d2 & k & C1 & C2 & _ & E)]; eauto. }
    destruct X as (e1 & x & E). unfold erase_skins, mbind. rewrite E. auto.
Qed.
Theorem animations_then_clean : forall e enum l strict,
  match erase_animations enum l strict true e with
  | (e1, Ok _) =>
      match clean_animation enum e1 with
      | (e2, Ok rep) => erase_animations enum l strict false e = (e2, Ok (editor_json e2, rep))
      | (e2, Err x) => erase_animations enum l strict false e = (e2, Err x)
      end
  | (e1, Err x) => erase_animations enum l strict false e = (e1, Err x)
  end.
Proof.
  intros e enum l strict. unfold erase_animations, mbind, mret, mget. destruct (on_data _ e) as [e1 [u | x]]; [ | auto].
  destruct (clean_animation enum e1) as [e2 [rep | x]]; auto.
Qed.

(** ** The skins left *)
Lemma named_in_cons : forall n l s, named_in (n :: l) s = (opt_eqb (sk_name s) (Some n) || named_in l s)%bool.
Proof. intros n l s. unfold named_in. destruct (sk_name s) as [m | ]; auto. Qed.
Lemma unlinked_names : forall n s l l', Forall2 (skin_unlinked n s) l l' -> map sk_name l' = map sk_name l.
Proof. intros n s l l' H. induction H as [ | x y l l' [K _] F IH]; auto. cbn. congruence. Qed.
Lemma filter_names : forall (f : option string -> bool) l l', map sk_name l' = map sk_name l ->
  map sk_name (filter (fun s => f (sk_name s)) l') = map sk_name (filter (fun s => f (sk_name s)) l).
Proof.
  intros f l l'. revert l. induction l' as [ | x l' IH]; intros [ | y l] E; try discriminate; auto. injection E as E1 E2. cbn. rewrite E1. destruct (f (sk_name y)); cbn; rewrite (IH l E2); congruence.
Qed.
Lemma erased_names : forall l d d' ss, erased l d d' ss ->
  map sk_name (d_skins d') = map sk_name (filter (fun s => negb (named_in l s)) (d_skins d)).
Proof.
  intros l d d' ss H. induction H as [d | n l d d1 d2 s ss K H IH].
  - f_equal. symmetry. assert (E : forall x, In x (d_skins d) -> negb (named_in [] x) = true) by (intros x _; unfold named_in; destruct (sk_name x); auto).
    induction (d_skins d) as [ | x r IH]; auto. cbn [filter]. rewrite (E x) by (left; auto). f_equal. apply IH. intros. apply E. right. auto.
  - rewrite IH. pose proof (unlinked_names _ _ _ _ (ke_skins _ _ _ _ K)) as U.
    etransitivity; [exact (filter_names (fun o => negb match o with Some m => smem m l | None => false end) _ _ U) | ].
    unfold others. rewrite filter_filter. f_equal. apply filter_ext. intros x. rewrite named_in_cons, negb_orb. reflexivity.
Qed.
Lemma keywise_same : forall A (R : string -> A -> A -> Prop) m m', (forall k x y, In (k, x) m -> R k x y -> y = x) -> keywise R m m' -> m' = m.
Proof.
  intros A R m m' E H. induction H as [ | [k x] [k' y] m m' [K1 K2] F IH]; auto. cbn in K1, K2. subst k'. f_equal.
  - f_equal. eapply E; [left; reflexivity | auto].
  - apply IH. intros; eapply E; eauto. right; eauto.
Qed.
Lemma unlinked_same : forall n s x y, skin_unlinked n s x y -> (forall sl k o, in_skin x sl k o -> ~ linked_to n o) -> sk_atts y = sk_atts x.
Proof.
  intros n s x y [_ K] N. eapply keywise_same; [ | exact K]. intros sl m m' Hm Km. eapply keywise_same; [ | exact Km]. intros k o o' Ho [[_ U] | [U _]]; auto.
  exfalso. eapply (N sl k o); eauto. exists m. auto.
Qed.
Lemma no_links_step : forall l n d d1 s, skin_erased n d d1 s -> no_links (n :: l) d ->
  Forall2 (fun x y => sk_name y = sk_name x /\ sk_atts y = sk_atts x) (others n (d_skins d)) (d_skins d1) /\ no_links l d1.
Proof.
  intros l n d d1 s K N.
  assert (A : Forall2 (fun x y => sk_name y = sk_name x /\ sk_atts y = sk_atts x) (others n (d_skins d)) (d_skins d1)).
  { pose proof (ke_skins _ _ _ _ K) as F. assert (I : forall x, In x (others n (d_skins d)) -> In x (d_skins d)) by (intros x Hx; apply others_in in Hx; tauto).
    induction F as [ | x y r r' U F IH]; constructor.
    - split; [apply U | ]. eapply unlinked_same; eauto. intros sl k o (m & Hm & Ho). apply (N n sl k o); [left; auto | ]. exists x, m. split; [apply I; left; auto | auto].
    - apply IH. intros; apply I. right. auto. }
  split; auto. intros m sl k o Hm (y & mm & Hy & Hmm & Ho) L.
  assert (X : exists x, In x (others n (d_skins d)) /\ sk_atts y = sk_atts x).
  { clear - A Hy. induction A as [ | x z r r' [_ E] F IH]; [destruct Hy | ]. destruct Hy as [<- | Hy]; [exists x; split; [left; auto | auto] | ].
    destruct (IH Hy) as (x' & Hx & Ex). exists x'. split; [right; auto | auto]. }
  destruct X as (x & Hx & Ex). rewrite Ex in Hmm. apply others_in in Hx as [Hx _]. apply (N m sl k o); auto; [right; auto | ]. exists x, mm. auto.
Qed.
Lemma erased_unlinked : forall ver l d d' rs, removal l d d' rs -> dinv ver d -> no_links l d ->
  d_skins d' = filter (fun s => negb (named_in l s)) (d_skins d) /\
  Forall2 (fun x y => fst y = fst x /\
     an_ik (snd y) = an_ik (snd x) /\ an_drawOrder (snd y) = an_drawOrder (snd x) /\ an_bones (snd y) = an_bones (snd x) /\
     an_slots (snd y) = an_slots (snd x) /\ an_events (snd y) = an_events (snd x) /\ an_transform (snd y) = an_transform (snd x) /\
     an_path (snd y) = an_path (snd x) /\ an_deform (snd y) = filter (fun kv => negb (smem (fst kv) l)) (an_deform (snd x)))
    (d_animations d) (d_animations d').
Proof.
  intros ver l d d' rs H. induction H as [d | n l d d1 d2 r rs E H IH]; intros D N.
  - split.
    + symmetry. assert (E : forall x, negb (named_in [] x) = true) by (intros x; unfold named_in; destruct (sk_name x); auto).
      induction (d_skins d) as [ | x r IH]; auto. cbn [filter]. rewrite E. f_equal. auto.
    + induction (d_animations d) as [ | x r IH]; constructor; auto. repeat (split; [reflexivity | ]). symmetry.
      induction (an_deform (snd x)) as [ | y q IHq]; auto. cbn. f_equal. auto.
  - pose proof (dinv_remove_skin _ _ _ _ _ D E) as D1. apply skin_erased_run in E as (s & K & _). destruct (no_links_step _ _ _ _ _ K N) as [A N1].
    destruct (IH D1 N1) as [B1 B2]. split.
    + rewrite B1. assert (Es : d_skins d1 = others n (d_skins d)).
      { pose proof (di_skins _ _ D) as F0. pose proof (di_skins _ _ D1) as F1.
        assert (Fo : Forall (skin_ok ver) (others n (d_skins d))) by (rewrite Forall_forall in *; intros x Hx; apply others_in in Hx; apply F0; tauto).
        clear - A Fo F1. induction A as [ | x y r r' [E1 E2] F IH]; auto. inversion Fo; inversion F1; subst. f_equal; auto.
        pose proof (sk_atts_some ver x H1) as X. pose proof (sk_atts_some ver y H5) as Y. destruct x, y. cbn in *. congruence. }
      rewrite Es. unfold others. rewrite filter_filter. apply filter_ext. intros x. rewrite named_in_cons, negb_orb. reflexivity.
    + pose proof (ke_anims _ _ _ _ K) as An. clear - An B2. revert B2. generalize (d_animations d2). induction An as [ | x y q q' [E1 (W1 & W2 & W3 & W4 & W5 & W6 & W7 & W8)] F IH]; intros q2 B2; inversion B2; subst; constructor; auto.
      destruct H1 as (Z & Z1 & Z2 & Z3 & Z4 & Z5 & Z6 & Z7 & Z8). repeat (split; [congruence | ]). rewrite Z8, W8, filter_filter. apply filter_ext. intros kv.
      cbn [smem existsb]. rewrite negb_orb. rewrite (String.eqb_sym n). reflexivity.
Qed.
Lemma removal_none_twice : forall l d d' ss, erased l d d' ss -> NoDup l /\ forall n, In n l -> In (Some n) (map sk_name (d_skins d)).
Proof.
  intros l d d' ss H. induction H as [d | n l d d1 d2 s ss K H [IH1 IH2]]; [split; [constructor | intros n []] | ].
  pose proof (unlinked_names _ _ _ _ (ke_skins _ _ _ _ K)) as U. split.
  - constructor; auto. intros C. apply IH2 in C. rewrite U in C. apply in_map_iff in C as (x & Ex & Hx). apply others_in in Hx. tauto.
  - intros m [<- | Hm].
    + destruct (ke_skin _ _ _ _ K) as (l1 & l2 & -> & E & _). rewrite map_app, in_app_iff. right. left. auto.
    + apply IH2 in Hm. rewrite U in Hm. apply in_map_iff in Hm as (x & Ex & Hx). apply others_in in Hx as [Hx _]. apply in_map_iff. eauto.
Qed.
Lemma unlinked_progress : forall l1 n l2 d d1 ss, erased l1 d d1 ss -> no_links (l1 ++ n :: l2) d ->
  NoDup (l1 ++ n :: l2) -> (forall m, In m (l1 ++ n :: l2)%list -> In (Some m) (map sk_name (d_skins d))) ->
  (exists s, In s (d_skins d1) /\ sk_name s = Some n) /\ no_links (n :: l2) d1.
Proof.
  intros l1. induction l1 as [ | m l1 IH]; intros n l2 d d1 ss H N U Kn; inversion H; subst.
  - split; auto. specialize (Kn n (or_introl eq_refl)). apply in_map_iff in Kn as (s & E & Hs). eauto.
  - cbn [app] in *. inversion U; subst. match goal with K : skin_erased _ _ _ _ |- _ => destruct (no_links_step _ _ _ _ _ K N) as [_ N1]; pose proof (unlinked_names _ _ _ _ (ke_skins _ _ _ _ K)) as Un end.
    eapply IH; eauto. intros x Hx. rewrite Un. specialize (Kn x (or_intror Hx)). apply in_map_iff in Kn as (s' & Es & Hs). apply in_map_iff. exists s'. split; auto. apply others_in. split; auto.
    rewrite Es. intros C. injection C as ->. auto.
Qed.
Theorem erase_unlinked : forall e0 ops e enum l, history e0 ops e -> no_links l (e_data e) ->
  (NoDup l /\ (forall n, In n l -> In (Some n) (map sk_name (d_skins (e_data e)))) ->
   exists d' imgs g, erase_skins enum l true e = (mkEditor (with_data e d') (dropped imgs (e_images e)) g, Ok (([], []), imgs)) /\
     same_rest (e_data e) d' /\
     d_skins d' = filter (fun s => negb (named_in l s)) (d_skins (e_data e)) /\
     Forall2 (fun x y => fst y = fst x /\
       an_ik (snd y) = an_ik (snd x) /\ an_drawOrder (snd y) = an_drawOrder (snd x) /\ an_bones (snd y) = an_bones (snd x) /\
       an_slots (snd y) = an_slots (snd x) /\ an_events (snd y) = an_events (snd x) /\ an_transform (snd y) = an_transform (snd x) /\
       an_path (snd y) = an_path (snd x) /\ an_deform (snd y) = filter (fun kv => negb (smem (fst kv) l)) (an_deform (snd x)))
     (d_animations (e_data e)) (d_animations d')) /\
  (~ (NoDup l /\ (forall n, In n l -> In (Some n) (map sk_name (d_skins (e_data e))))) ->
   exists e' w, erase_skins enum l true e = (e', Err (EEditor w))).
Proof.
  intros e0 ops e enum l H N. destruct (last_built_ex _ _ _ H) as [eb B]. destruct (history_state _ _ _ _ B) as [ss0 [D S]].
  destruct (foreach_outcome l e) as [(d' & rs & ss & R & K & Er & E) | (l1 & n & l2 & d1 & ss & El & K & C)].
  - destruct (erase_safe_run _ _ _ enum _ _ _ H R E) as (g & imgs & Eg & Ei & Run & _). split.
    + intros _. exists d', imgs, g. split; [auto | ]. split; [apply (removal_facts _ _ _ _ _ R D) | ]. eapply erased_unlinked; eauto.
    + intros C. exfalso. apply C. eapply removal_none_twice; eauto.
  - subst l. split.
    + intros [U Kn]. exfalso. destruct (unlinked_progress _ _ _ _ _ _ K N U Kn) as [(s & Hs & En) N1]. destruct C as [(C & _) | (s' & d2 & k & _ & C & _)].
      * apply (C s Hs En).
      * apply C. intros x sl m k' o Hx _ Hm Ho L. exfalso. apply (N1 n sl k' o); [left; auto | exists x, m; auto | auto].
    + intros _. unfold erase_skins, mbind at 1. destruct C as [(C & w & E) | (s & d2 & k & C1 & C & _ & E)].
      * exists (put_data e d1), w. rewrite E. auto.
      * exfalso. apply C. intros x sl m k' o Hx _ Hm Ho L.
        assert (N1 : no_links (n :: l2) d1).
        { clear - K N. revert K N. generalize (e_data e). intros d K N. revert ss K. revert d N. induction l1 as [ | y l1 IH]; intros d N ss K; inversion K; subst; auto.
          cbn [app] in N. match goal with X : skin_erased _ _ _ _ |- _ => destruct (no_links_step _ _ _ _ _ X N) as [_ N1] end. eapply IH; eauto. }
        exfalso. apply (N1 n sl k' o); [left; auto | exists x, m; auto | auto].
Qed.
(** Whatever the mode, the skins left are those not named. *)
Theorem erase_skin_names : forall e0 ops e enum l safe e' r, history e0 ops e -> order_ok enum -> erase_skins enum l safe e = (e', Ok r) ->
  map sk_name (d_skins (e_data e')) = map sk_name (filter (fun s => negb (named_in l s)) (d_skins (e_data e))).
Proof.
  intros e0 ops e enum l safe e' [[rem atts] imgs] H O E. destruct (last_built_ex _ _ _ H) as [eb B]. destruct (history_state _ _ _ _ B) as [ss0 Hst].
  apply erase_skins_inv in E as (d1 & rs & g & e3 & R & Bg & _ & -> & C). destruct (removal_erased _ _ _ _ R) as (ss & K & _). apply erased_names in K. rewrite <- K.
  destruct C as [(_ & -> & _) | (_ & C)]; [reflexivity | ].
  destruct (st_rebuild _ _ _ _ _ _ _ _ Hst R Bg) as [D1 S1]. destruct (clean_success _ _ _ _ _ _ _ _ D1 S1 O C) as (inv & leafs & orphans & imgs1 & Co).
  change (e_data (without_images imgs e3)) with (e_data e3). rewrite (cl_skins _ _ _ _ _ _ _ _ (co_data _ _ _ _ _ _ _ _ _ _ _ _ Co)), map_map. reflexivity.
Qed.
