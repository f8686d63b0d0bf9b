(** When building the graph of a document succeeds. *)
From Verif Require Import PyBase PyFacts Json Graph SpecGraph GraphFacts GraphApi GraphRemove IdFacts SpineGraph SpecSpine SpineFacts BuildFacts.
Open Scope string_scope.

Definition is_value (e : exn) : Prop := exists w, e = EValue w.

Lemma item_key : forall k v, has_key k v -> py_item v k = Ok (field v k).
Proof. intros k v (d & -> & H). unfold py_item, dget_err, field. unfold dmem in H. destruct (dget k d); [auto | discriminate]. Qed.
Lemma as_dict_key : forall k v, has_key k v -> exists d, as_dict v = Ok d /\ forall j, get_item j d = field v j.
Proof. intros k v (d & -> & _). exists d. split; auto. Qed.
Lemma graph_id_text : forall t v s, text v s -> to_graph_id t v = Ok (graph_id t s).
Proof. intros t v s H. unfold to_graph_id. rewrite H. auto. Qed.

Lemma edge_if_run : forall g tp tc p c w, good g -> In tp five -> In tc five -> may tp tc = true ->
  (w = graph_id tp p /\ has g tc c \/ w = graph_id tc c /\ has g tp p) ->
  (graph_id tp p = graph_id tc c /\ exists e, edge_if_present (graph_id tp p) (graph_id tc c) w g = (g, Err (EValue e))) \/
  (graph_id tp p <> graph_id tc c /\ exists g', edge_if_present (graph_id tp p) (graph_id tc c) w g = (g', Ok tt)).
Proof.
  intros g tp tc p c w G Hp Hc M Hw. unfold edge_if_present, mbind, g_has.
  destruct (dmem w (g_nodes g)) eqn:E.
  - apply dmem_in in E. assert (K : has g tp p /\ has g tc c) by (destruct Hw as [[-> H] | [-> H]]; split; auto).
    destruct (g_edge_cases g tp tc p c G Hp Hc (proj1 K) (proj2 K) M) as [(Hs & e & X) | (Hs & g' & X & _)]; eauto.
  - destruct (string_dec (graph_id tp p) (graph_id tc c)) as [Es | Es]; [ | right; split; [auto | exists g; auto]].
    exfalso. apply dmem_nin in E. apply E. destruct Hw as [[-> H] | [-> H]]; [rewrite Es; apply H | rewrite <- Es; apply H].
Qed.

Lemma bone_run : forall g v idx s q, good g -> has_key "name" v -> named v s -> text (field v "parent") q ->
  (exists g', add_bone_to_graph v idx g = (g', Ok tt)) \/
  (exists g' e, add_bone_to_graph v idx g = (g', Err e) /\ is_value e /\ (has g T_BONE s \/ s = q)).
Proof.
  intros g v idx s q G K Hs Hq. unfold add_bone_to_graph, mbind, mlift. destruct in_five as (F1 & _).
  rewrite (item_key _ _ K), (graph_id_text T_BONE _ s Hs).
  destruct (g_add T_BONE (graph_id T_BONE s) (mkNData idx v) g) as [g1 r] eqn:E.
  destruct (g_add_cases g T_BONE s _ g1 r G F1 E) as [(-> & _ & G1 & Ei & _) | (w & -> & H)].
  2: { right. exists g1, (EValue w). split; [auto | ]. split; [exists w; auto | auto]. }
  destruct (as_dict_key _ _ K) as (d & -> & Hd). rewrite Hd, (graph_id_text T_BONE _ q Hq).
  assert (H1 : has g1 T_BONE s) by (unfold has; rewrite Ei; apply in_app_iff; right; left; auto).
  destruct (edge_if_run g1 T_BONE T_BONE q s (graph_id T_BONE q) G1 F1 F1 eq_refl) as [(Es & e & X) | (_ & g' & X)]; auto.
  - right. exists g1, (EValue e). split; [auto | ]. split; [exists e; auto | ]. right.
    apply graph_id_inj in Es as [_ Es]; auto using five_kinds.
  - left. eauto.
Qed.

Lemma slot_run : forall g v idx s, good g -> has_key "name" v -> named v s ->
  (exists g', add_slot_to_graph v idx g = (g', Ok (slot_id s))) \/
  (exists g' e, add_slot_to_graph v idx g = (g', Err e) /\ is_value e /\ has g T_SLOT s).
Proof.
  intros g v idx s G K Hs. remember (py_str (field v "bone")) as b eqn:Hb. symmetry in Hb. change (text (field v "bone") b) in Hb. unfold add_slot_to_graph, mbind, mlift. destruct in_five as (F1 & F2 & _).
  rewrite (item_key _ _ K), (graph_id_text T_SLOT _ s Hs).
  destruct (g_add T_SLOT (graph_id T_SLOT s) (mkNData idx v) g) as [g1 r] eqn:E.
  destruct (g_add_cases g T_SLOT s _ g1 r G F2 E) as [(-> & _ & G1 & Ei & _) | (w & -> & H)].
  2: { right. exists g1, (EValue w). split; [auto | ]. split; [exists w; auto | auto]. }
  destruct (as_dict_key _ _ K) as (d & -> & Hd). rewrite Hd, (graph_id_text T_BONE _ b Hb).
  assert (H1 : has g1 T_SLOT s) by (unfold has; rewrite Ei; apply in_app_iff; right; left; auto).
  destruct (edge_if_run g1 T_BONE T_SLOT b s (graph_id T_BONE b) G1 F1 F2 eq_refl) as [(Es & e & X) | (_ & g' & X)]; auto.
  - apply graph_id_inj in Es as [Es _]; auto using five_kinds. discriminate Es.
  - left. exists g'. rewrite X. auto.
Qed.

Lemma add_if_absent_run : forall g t s x, good g -> In t five -> exists g', add_if_absent t (graph_id t s) x g = (g', Ok tt).
Proof.
  intros g t s x G Ht. unfold add_if_absent, mbind, g_has. destruct (dmem (graph_id t s) (g_nodes g)) eqn:E; [eexists; reflexivity | ].
  apply dmem_nin in E. destruct (g_add t (graph_id t s) x g) as [g1 r] eqn:E1.
  destruct (g_add_cases g t s x g1 r G Ht E1) as [(-> & _) | (w & _ & H)]; [eauto | contradiction].
Qed.

Lemma add_attachment_run : forall g s k a, good g -> has g T_SLOT s -> is_object a ->
  exists g', add_attachment_to_slot (slot_id s) (k, a) g = (g', Ok tt).
Proof.
  intros g s k a G Hs (d & ->). remember (py_str (image (VDict d) k)) as i eqn:Hi. symmetry in Hi. change (text (image (VDict d) k) i) in Hi. unfold add_attachment_to_slot. destruct in_five as (F1 & F2 & F3 & F4 & F5).
  destruct (add_if_absent_run g T_ATTACHMENT k (mkNData (-1) (VDict d)) G F4) as (g1 & E1).
  unfold mbind at 1. rewrite E1. apply add_if_absent_ok in E1 as (G1 & T1 & A1 & _); auto.
  unfold mbind at 1. unfold mlift at 1. cbn [as_dict]. rewrite image_of_image. unfold mbind at 1. unfold mlift. rewrite (graph_id_text T_IMAGE _ i Hi).
  destruct (add_if_absent_run g1 T_IMAGE i (mkNData (-1) (VDict [])) G1 F5) as (g2 & E2).
  unfold mbind at 1. rewrite E2. apply add_if_absent_ok in E2 as (G2 & T2 & A2 & _); auto.
  assert (Ka : has g2 T_ATTACHMENT k).
  { apply (has_tn_same g1 g2); auto; [apply T2; discriminate | ]. apply A1. auto. }
  assert (Ki : has g2 T_IMAGE i) by (apply A2; auto).
  destruct (g_edge_cases g2 T_ATTACHMENT T_IMAGE k i G2 F4 F5 Ka Ki eq_refl) as [(Es & _) | (_ & g3 & E3 & G3 & _ & T3 & _)].
  { apply graph_id_inj in Es as [Es _]; auto using five_kinds. discriminate Es. }
  unfold mbind at 1. rewrite E3.
  assert (Ks : has g3 T_SLOT s).
  { apply (has_tn_same g2 g3); auto. apply (has_tn_same g1 g2); auto; [apply T2; discriminate | ].
    apply (has_tn_same g g1); auto. apply T1. discriminate. }
  assert (Ka3 : has g3 T_ATTACHMENT k) by (apply (has_tn_same g2 g3); auto).
  destruct (g_edge_cases g3 T_SLOT T_ATTACHMENT s k G3 F2 F4 Ks Ka3 eq_refl) as [(Es & _) | (_ & g4 & E4 & _)]; [ | eauto].
  apply graph_id_inj in Es as [Es _]; auto using five_kinds. discriminate Es.
Qed.

(** A loop whose steps succeed. *)
Lemma mforeach_run : forall S A B (f : A -> M S B) (P : S -> Prop) l s,
  (forall x s1, In x l -> P s1 -> exists s2 b, f x s1 = (s2, Ok b) /\ P s2) -> P s -> exists s' r, mforeach f l s = (s', Ok r) /\ P s'.
Proof.
  intros S A B f P l. induction l as [ | x l IH]; intros s H Hs; cbn [mforeach].
  - exists s, []. auto.
  - destruct (H x s (or_introl eq_refl) Hs) as (s2 & b & E & H2). destruct (IH s2) as (s3 & r & E3 & H3); auto.
    { intros y s1 Hy. apply H. right. auto. }
    exists s3, (b :: r). unfold mbind. rewrite E, E3. auto.
Qed.

Definition hosts (s : string) (g : sgraph) : Prop := good g /\ has g T_SLOT s.
Lemma ext_hosts : forall s X g g', hosts s g -> ext s X g g' -> hosts s g'.
Proof. intros s X g g' [G H] E. split; [apply E | ]. eapply ext_has_slot; eauto. Qed.

Lemma add_skin_run : forall g s v skins skin, hosts s g -> In v skins -> skin_shape skins skin ->
  exists g', add_skin_to_slot (slot_id s) (field v "name") skin g = (g', Ok tt) /\ hosts s g'.
Proof.
  intros g s v skins skin Hg Hv ((d & ->) & H).
  assert (X : exists g', add_skin_to_slot (slot_id s) (field v "name") (VDict d) g = (g', Ok tt)).
  { unfold add_skin_to_slot, mbind, mlift. cbn [as_dict]. change (field (VDict d) "attachments") with (get_item "attachments" d) in H.
    rewrite truthy_blank. destruct (blank (get_item "attachments" d)); cbn [negb]; [exists g; auto | ]. destruct (H eq_refl) as (Hp & atts & -> & Ha). cbn [as_dict].
    specialize (Hp v Hv). destruct (field v "name") as [ | | | | n | | ] eqn:En; try destruct Hp; try (exists g; reflexivity).
    destruct (dget n atts) as [x | ] eqn:Ex; [ | exists g; reflexivity].
    destruct (Ha v n x Hv En Ex) as [-> | (sl & -> & Hsl)]; [exists g; reflexivity | ]. cbn [add_skin_attachments_to_slot].
    destruct (mforeach_run _ _ _ (add_attachment_to_slot (slot_id s)) (hosts s) sl g) as (g' & r & E & _); auto.
    - intros [k a] g1 Hk [G1 H1]. destruct (add_attachment_run g1 s k a G1 H1 (Hsl k a Hk)) as (g2 & E2). exists g2, tt. split; [auto | ].
      eapply ext_hosts; [split; eauto | ]. eapply add_attachment_ok; eauto.
    - exists g'. unfold mbind. rewrite E. auto. }
  destruct X as (g' & E). exists g'. split; auto. destruct Hg as [G Hs]. eapply ext_hosts; [split; eauto | ]. eapply add_skin_ok; eauto.
Qed.

Lemma slot_all_run : forall d g kv s, good g -> doc_shape d -> In (snd kv) (each d "slots") -> named (snd kv) s ->
  (exists g' u, add_slot_and_attachments d kv g = (g', Ok u)) \/
  (exists g' e, add_slot_and_attachments d kv g = (g', Err e) /\ is_value e /\ has g T_SLOT s).
Proof.
  intros d g [idx v] s G D Hv Hs. cbn [snd] in *. pose proof (sh_slot d D v Hv) as Sh.
  unfold add_slot_and_attachments, mbind at 1.
  destruct (slot_run g v idx s G Sh Hs) as [(g1 & E1) | (g1 & e & E1 & K)]; [left; rewrite E1 | right; exists g1, e; unfold mbind at 1; rewrite E1; auto].
  destruct (sh_skins d D) as (sk & Esk & (skins & Eit)). { intros X. rewrite X in Hv. destruct Hv. }
  apply iter_contents in Eit. unfold mbind, mlift, dget_err. rewrite Esk, Eit. rewrite (item_key "name" v) by apply Sh.
  apply slot_step in E1 as (s' & b & Es & Hs' & _ & _ & G1 & Ei & _); auto. rewrite <- (text_fun _ _ _ Hs Hs') in *.
  destruct (mforeach_run _ _ _ (add_skin_to_slot (slot_id s) (field v "name")) (hosts s) skins g1) as (g2 & r & E2 & _).
  - intros skin h Hk Hh. destruct (add_skin_run h s v (each d "slots") skin) as (h2 & E2 & K); auto; [ | eauto].
    apply (sh_skin d D). unfold each. rewrite Esk, (iter_elems _ _ Eit). auto.
  - split; auto. unfold has. rewrite Ei. apply in_app_iff. right. left. auto.
  - rewrite E2. eexists. eexists. reflexivity.
Qed.

Lemma ik_run : forall g v idx s, good g -> ik_shape v -> named v s ->
  (exists g' u, add_ik_to_graph v idx g = (g', Ok u)) \/
  (exists g' e, add_ik_to_graph v idx g = (g', Err e) /\ is_value e /\ has g T_IK s).
Proof.
  intros g v idx s G (K & Kb & (bs & Eb)) Hs. apply iter_contents in Eb. unfold add_ik_to_graph, mbind at 1, mlift at 1. destruct in_five as (F1 & F2 & F3 & _).
  rewrite (item_key _ _ K). unfold mbind at 1, mlift at 1. rewrite (graph_id_text T_IK _ s Hs). unfold mbind at 1.
  destruct (g_add T_IK (graph_id T_IK s) (mkNData idx v) g) as [g1 r] eqn:E.
  destruct (g_add_cases g T_IK s _ g1 r G F3 E) as [(-> & _ & G1 & Ei & _) | (w & -> & H)].
  2: { right. exists g1, (EValue w). split; [ | split; [exists w; auto | auto]]. unfold mbind, mlift.
       rewrite (graph_id_text T_IK _ s Hs), E. auto. }
  left. unfold mbind at 1, mlift at 1. rewrite (item_key _ _ Kb). unfold mbind at 1, mlift at 1. rewrite Eb.
  assert (H1 : good g1 /\ has g1 T_IK s) by (split; auto; unfold has; rewrite Ei; apply in_app_iff; right; left; auto).
  destruct (mforeach_run _ _ _ (fun b => do! child_id := mlift (to_graph_id T_BONE b) in
                     edge_if_present (graph_id T_IK s) child_id child_id) (fun h => good h /\ has h T_IK s) bs g1) as (g2 & r & E2 & G2 & H2); auto.
  { intros x h Hin [Gh Hh]. pose (b := py_str x). assert (Tb : text x b) by reflexivity.
    unfold mbind, mlift. rewrite (graph_id_text T_BONE _ b Tb).
    destruct (edge_if_run h T_IK T_BONE s b (graph_id T_BONE b) Gh F3 F1 eq_refl) as [(Es & _) | (_ & h2 & X)]; auto.
    { apply graph_id_inj in Es as [Es _]; auto using five_kinds. discriminate Es. }
    exists h2, tt. split; [auto | ]. apply edge_if_ok' in X as (Gh2 & _ & Th2 & _); auto. split; auto. apply (has_tn_same h h2); auto. }
  unfold mbind at 1. rewrite E2. destruct (as_dict_key _ _ K) as (d & Ed & Hd). unfold mbind at 1, mlift at 1. rewrite Ed, Hd.
  rewrite truthy_blank. destruct (blank (field v "target")); [eexists; eexists; reflexivity | ]. cbn [negb]. pose (b := py_str (field v "target")). assert (Tb : text (field v "target") b) by reflexivity.
  unfold mbind at 1, mlift at 1. rewrite (graph_id_text T_BONE _ b Tb).
  destruct (edge_if_run g2 T_BONE T_IK b s (graph_id T_BONE b) G2 F1 F3 eq_refl) as [(Es & _) | (_ & h2 & X)]; auto; [ | eauto].
  apply graph_id_inj in Es as [Es _]; auto using five_kinds. discriminate Es.
Qed.

Lemma names_app : forall l1 l2, names (l1 ++ l2) = (names l1 ++ names l2)%list.
Proof. intros. apply map_app. Qed.
Lemma in_names : forall l s, In s (names l) <-> is_named l s.
Proof.
  intros l s. unfold names, is_named, named, text. rewrite in_map_iff. split; intros (v & H & K); exists v; auto.
Qed.
Lemma names_dup : forall l1 v l2 s, named v s -> is_named l1 s -> ~ NoDup (names (l1 ++ v :: l2)).
Proof.
  intros l1 v l2 s Hs H N. rewrite names_app in N. apply in_names in H. apply NoDup_app_inv in N as (_ & _ & N). apply (N s H).
  apply in_names. exists v. split; [left | ]; auto.
Qed.

Definition blame (d : dict val) (e : exn) : Prop := is_value e /\ ~ (unique_names d /\ no_self_parent d).

Lemma enumerate_in : forall A (l : list A) i pre kv post, enumerate_from i l = (pre ++ kv :: post)%list ->
  l = (map snd pre ++ snd kv :: map snd post)%list.
Proof. intros A l i pre kv post H. rewrite <- (map_snd_enumerate A l i), H, map_app. auto. Qed.

Lemma build_run : forall d, doc_shape d ->
  (exists g, create_from_json_data (VDict d) = Ok g) \/ (exists e, create_from_json_data (VDict d) = Err e /\ blame d e).
Proof.
  intros d D. unfold create_from_json_data.
  enough (X : (exists g u, build_graph_m d new_graph = (g, Ok u)) \/ (exists g e, build_graph_m d new_graph = (g, Err e) /\ blame d e)).
  { destruct X as [(g & u & ->) | (g & e & -> & K)]; eauto. }
  destruct in_five as (F1 & F2 & F3 & F4 & F5).
  destruct (build_graph_m d new_graph) as [gR rR] eqn:HR.
  unfold build_graph_m in HR. unfold mbind at 1, mlift at 1 in HR. destruct (sh_bones d D) as (bv & Eb & (bl & Eit)). apply iter_contents in Eit. unfold dget_err in HR. rewrite Eb in HR. cbn [bind] in HR. rewrite Eit in HR.
  assert (Ebl : each d "bones" = bl) by (unfold each; rewrite Eb; apply iter_elems; auto). rewrite <- Ebl in HR. clear bv bl Eb Eit Ebl.
  destruct (mforeach_progress _ _ _ (fun x => add_bone_to_graph (snd x) (fst x)) bones_done (blame d) (enumerate (each d "bones")) new_graph)
    as [(gb & r & Eb & Bd) | (gb & e & Eb & K)].
  - intros pre kv post g1 El K. assert (El' := El). apply enumerate_in in El'.
    assert (Hin : In (snd kv) (each d "bones")) by (rewrite El'; apply in_app_iff; right; left; auto).
    pose proof (sh_bone d D _ Hin) as Sh. assert (Hs : named (snd kv) (py_str (field (snd kv) "name"))) by reflexivity. assert (Hq : text (field (snd kv) "parent") (py_str (field (snd kv) "parent"))) by reflexivity.
    revert Hs Hq. generalize (py_str (field (snd kv) "name")) (py_str (field (snd kv) "parent")). intros s q Hs Hq.
    destruct (bone_run g1 (snd kv) (fst kv) s q) as [(g2 & E2) | (g2 & e & E2 & V & C)]; auto; [apply K | left | right].
    + exists g2, tt. split; auto.
      eapply bone_done_step; eauto.
    + exists g2, e. split; [auto | ]. split; [auto | ]. intros [(N & _) NS]. destruct K as (G & L & _). destruct C as [C | ->].
      * apply (lists_has g1 T_BONE pre) in C; auto. rewrite El' in N. revert N. eapply names_dup; eauto.
      * apply (NS _ _ Hin Hs Hq).
  - apply bones_done_nil.
  - unfold mbind at 1 in HR. rewrite Eb in HR. assert (Gb : good gb) by apply Bd.
    unfold mbind at 1, mlift at 1 in HR.
    assert (Es : match dget "slots" d with Some v => py_iter v | None => Ok [] end = Ok (each d "slots")).
    { unfold each. destruct (dget "slots" d) as [v | ] eqn:E; auto. destruct (sh_slots d D v E) as (l & El). unfold elems. rewrite El. apply iter_contents. auto. }
    rewrite Es in HR. clear Es.
    destruct (mforeach_progress _ _ _ (add_slot_and_attachments d) (slots_done (each d "skins") gb) (blame d) (enumerate (each d "slots")) gb)
      as [(gs & rs & Es & Sd) | (gs & e & Es & K)].
    + intros pre kv post g1 El K. assert (El' := El). apply enumerate_in in El'.
      assert (Hin : In (snd kv) (each d "slots")) by (rewrite El'; apply in_app_iff; right; left; auto).
      assert (Hs : named (snd kv) (py_str (field (snd kv) "name"))) by reflexivity. revert Hs. generalize (py_str (field (snd kv) "name")). intros s Hs.
      destruct (slot_all_run d g1 kv s) as [(g2 & u & E2) | (g2 & e & E2 & V & C)]; auto; [apply K | left | right].
      * exists g2, u. split; auto. eapply slot_all_step; eauto.
      * exists g2, e. split; [auto | ]. split; [auto | ]. intros [(_ & N & _) NS]. destruct K as (G & _ & _ & L & _).
        apply (lists_has g1 T_SLOT pre) in C; auto. rewrite El' in N. revert N. eapply names_dup; eauto.
    + apply slots_done_nil; auto. apply Bd.
    + unfold mbind at 1 in HR. rewrite Es in HR. assert (Gs : good gs) by apply Sd. unfold mbind at 1, mlift at 1 in HR.
      assert (Ei : match dget "ik" d with Some v => py_iter v | None => Ok [] end = Ok (each d "ik")).
      { unfold each. destruct (dget "ik" d) as [v | ] eqn:E; auto. destruct (sh_ik d D v E) as (l & El). unfold elems. rewrite El. apply iter_contents. auto. }
      rewrite Ei in HR. clear Ei.
      destruct (mforeach_progress _ _ _ (fun x => add_ik_to_graph (snd x) (fst x)) (iks_done gs) (blame d) (enumerate (each d "ik")) gs)
        as [(gi & ri & Ei & Sd') | (gi & e & Ei & K)].
      * intros pre kv post g1 El K. assert (El' := El). apply enumerate_in in El'.
        assert (Hin : In (snd kv) (each d "ik")) by (rewrite El'; apply in_app_iff; right; left; auto).
        pose proof (sh_iks d D _ Hin) as Sh. assert (Hs : named (snd kv) (py_str (field (snd kv) "name"))) by reflexivity. revert Hs. generalize (py_str (field (snd kv) "name")). intros s Hs.
        destruct (ik_run g1 (snd kv) (fst kv) s) as [(g2 & u & E2) | (g2 & e & E2 & V & C)]; auto; [apply K | left | right].
        -- exists g2, u. split; auto. eapply ik_step; eauto.
        -- exists g2, e. split; [auto | ]. split; [auto | ]. intros [(_ & _ & N) NS]. destruct K as (G & _ & L & _).
           apply (lists_has g1 T_IK pre) in C; auto. rewrite El' in N. revert N. eapply names_dup; eauto.
      * apply iks_done_nil; auto. destruct Sd as (_ & _ & T & _). rewrite T. apply Bd. discriminate.
      * left. unfold mbind in HR. rewrite Ei in HR. injection HR as <- <-. eexists. eexists. reflexivity.
      * right. unfold mbind in HR. rewrite Ei in HR. injection HR as <- <-. eauto.
    + right. unfold mbind at 1 in HR. rewrite Es in HR. injection HR as <- <-. eauto.
  - right. unfold mbind at 1 in HR. rewrite Eb in HR. injection HR as <- <-. eauto.
Qed.

Lemma lists_names : forall t l ns, lists t l ns -> map fst ns = map (graph_id t) (names (map snd l)).
Proof.
  intros t l ns L. induction L as [ | n kv ns l (s & Hs & ->) L IH]; simpl; auto. unfold named, text in Hs. rewrite Hs. f_equal. auto.
Qed.
Lemma NoDup_map_inv' : forall A B (f : A -> B) l, NoDup (map f l) -> NoDup l.
Proof. intros A B f l. apply NoDup_map_inv. Qed.
Lemma built_names : forall d g, built d g -> unique_names d.
Proof.
  intros d g B. destruct B as [G Lb Ls Li _ _ _ _].
  pose proof (tn_NoDup g T_BONE G) as Nb. pose proof (tn_NoDup g T_SLOT G) as Ns. pose proof (tn_NoDup g T_IK G) as Ni.
  rewrite (lists_names _ _ _ Lb) in Nb. rewrite (lists_names _ _ _ Ls) in Ns. rewrite (lists_names _ _ _ Li) in Ni.
  unfold enumerate in *. rewrite map_snd_enumerate in Nb, Ns, Ni.
  split; [ | split]; eapply NoDup_map_inv; eauto.
Qed.
Lemma build_iff : forall d, doc_shape d ->
  ((exists g, create_from_json_data (VDict d) = Ok g) <-> unique_names d /\ no_self_parent d) /\
  (~ (unique_names d /\ no_self_parent d) -> exists w, create_from_json_data (VDict d) = Err (EValue w)).
Proof.
  intros d D. assert (X : (exists g, create_from_json_data (VDict d) = Ok g) -> unique_names d /\ no_self_parent d).
  { intros [g E]. apply build_ok in E. split; [eapply built_names; eauto | apply E]. }
  destruct (build_run d D) as [(g & E) | (e & E & (w & ->) & K)].
  - split; [split; eauto | ]. intros H. destruct H. apply X. eauto.
  - split; [split; auto; tauto | eauto].
Qed.

(** ** Back to JSON *)
From Coq Require Import Sorted.
Definition idx_le (a b : ndata) : Prop := (nd_idx a <= nd_idx b)%Z.
Lemma sort_sorted : forall l, StronglySorted idx_le l -> sort_by nd_idx l = l.
Proof.
  intros l H. induction H as [ | a l H IH F]; simpl; auto. rewrite IH. destruct l as [ | b l]; simpl; auto.
  inversion F; subst. rewrite (proj2 (Z.leb_le _ _)) by auto. auto.
Qed.
Lemma enumerate_sorted : forall (l : list val) i,
  StronglySorted idx_le (map (fun kv => mkNData (fst kv) (snd kv)) (enumerate_from i l)) /\
  Forall (fun x => (i <= nd_idx x)%Z) (map (fun kv => mkNData (fst kv) (snd kv)) (enumerate_from i l)).
Proof.
  intros l. induction l as [ | x l IH]; intros i; simpl; [split; constructor | ]. destruct (IH (i + 1)%Z) as [S F]. split.
  - constructor; auto. eapply Forall_impl; [ | apply F]. intros a Ha. unfold idx_le. simpl. simpl in Ha. lia.
  - constructor; [simpl; lia | ]. eapply Forall_impl; [ | apply F]. intros a Ha. simpl in Ha. lia.
Qed.
Lemma sorted_data_id : forall l, StronglySorted idx_le l -> sorted_data l = map nd_data l.
Proof. intros l H. unfold sorted_data. rewrite sort_sorted; auto. Qed.
Lemma good_known : forall g, good g -> forallb (fun n => known_type (n_type n)) (dvals (g_nodes g)) = true.
Proof.
  intros g G. apply forallb_forall. intros n Hn. unfold dvals in Hn. apply in_map_iff in Hn as ([k n'] & E & H). simpl in E. subst.
  apply in_dget in H; [ | apply (good_wf g G)]. destruct (proj2 G _ _ H) as (t & s & x & Ht & _ & Ty & _). rewrite Ty.
  repeat (destruct Ht as [<- | Ht]; [reflexivity | ]). destruct Ht.
Qed.
Lemma lists_sorted : forall t l ns, lists t (enumerate l) ns -> StronglySorted idx_le (map snd ns) /\ map nd_data (map snd ns) = l.
Proof.
  intros t l ns L. rewrite (lists_data _ _ _ L). split; [apply enumerate_sorted | ]. rewrite map_map. simpl. apply map_snd_enumerate.
Qed.
Lemma built_json : forall d g, built d g -> graph_to_json g = Ok (mkGraphJson (each d "slots") (each d "bones") (each d "ik")).
Proof.
  intros d g B. destruct B as [G Lb Ls Li _ _ _ _]. unfold graph_to_json. rewrite good_known by auto.
  rewrite !nodes_of_type_tn. destruct (lists_sorted _ _ _ Lb) as [Sb Eb]. destruct (lists_sorted _ _ _ Ls) as [Ss Es].
  destruct (lists_sorted _ _ _ Li) as [Si Ei]. rewrite !sorted_data_id by auto. congruence.
Qed.

(** ** The nodes *)
Lemma typed_tn : forall g t i, good g -> (typed g t i <-> In i (map fst (tn g t))).
Proof.
  intros g t i G. unfold typed. split.
  - intros (n & Hn & Ht). apply has_node_dget in Hn. destruct (proj2 G _ _ Hn) as (t' & s & x & _ & _ & Ty & Dn & _).
    apply in_map_iff. exists (i, x). split; auto. apply tn_in; auto. exists n. auto.
  - intros H. apply in_map_iff in H as ([i' x] & E & H). simpl in E. subst. apply tn_in in H as (n & Hn & Ht & _); auto.
    exists n. split; auto. apply has_node_dget. auto.
Qed.
Lemma typed_has : forall g t s, good g -> In t five -> (typed g t (graph_id t s) <-> has g t s).
Proof. intros g t s G Ht. rewrite typed_tn, has_tn by auto. tauto. Qed.
Lemma typed_form : forall g t i, good g -> typed g t i -> In t five /\ exists s, i = graph_id t s.
Proof.
  intros g t i G (n & Hn & Ht). apply has_node_dget in Hn. destruct (proj2 G _ _ Hn) as (t' & s & x & F & E & Ty & _).
  assert (t' = t) by congruence. subst. split; eauto.
Qed.
Lemma built_nodes : forall d g t i, built d g -> (typed g t i <-> element d t i).
Proof.
  intros d g t i B. pose proof (bu_good d g B) as G. destruct in_five as (F1 & F2 & F3 & F4 & F5).
  assert (Hb : forall s, has g T_BONE s <-> is_named (each d "bones") s).
  { intros s. rewrite (lists_has g T_BONE _ s G F1 (bu_bones d g B)). unfold enumerate. rewrite map_snd_enumerate. tauto. }
  assert (Hs : forall s, has g T_SLOT s <-> is_named (each d "slots") s).
  { intros s. rewrite (lists_has g T_SLOT _ s G F2 (bu_slots d g B)). unfold enumerate. rewrite map_snd_enumerate. tauto. }
  assert (Hi : forall s, has g T_IK s <-> is_named (each d "ik") s).
  { intros s. rewrite (lists_has g T_IK _ s G F3 (bu_iks d g B)). unfold enumerate. rewrite map_snd_enumerate. tauto. }
  split.
  - intros H. destruct (typed_form g t i G H) as (Ht & s & ->). apply typed_has in H; auto.
    destruct Ht as [<- | [<- | [<- | [<- | [<- | []]]]]].
    + apply el_bone. apply Hb. auto.
    + apply el_slot. apply Hs. auto.
    + apply el_ik. apply Hi. auto.
    + apply (bu_atts d g B) in H as (n & a & K1 & K2). apply (el_attachment d n s a); auto.
    + apply (bu_imgs d g B) in H as (n & k & a & K1 & K2 & K3). apply (el_image d n k a s); auto.
  - intros H. destruct H as [s K | s K | s K | n k a K1 K2 | n k a s K1 K2 K3].
    + apply (typed_has g T_BONE s G F1). apply Hb. auto.
    + apply (typed_has g T_SLOT s G F2). apply Hs. auto.
    + apply (typed_has g T_IK s G F3). apply Hi. auto.
    + apply (typed_has g T_ATTACHMENT k G F4). apply (bu_atts d g B). eauto.
    + apply (typed_has g T_IMAGE s G F5). apply (bu_imgs d g B). eauto 6.
Qed.
