(** Properties C31, C40-C52 and the exact statements C69-C81 (the editor). *)
From Verif Require Import PyBase PyNum Json Version Classes Graph SpineGraph DrawOrder AnimData Editor SpecAnim SpecEditor
  EditorHist EditorFacts EditorKeep EditorImages EditorOrder EditorScale EditorVersion EditorRemoved EditorRun SpecProduct ProductFacts.
From Verif Require NumFacts.
Open Scope string_scope.

(** A document with slots of all kinds, two skins, an ik constraint, a draw order, deform
    timelines, and two animations. *)
Definition jm : val := json "3.8.99"
  [bone "root" []; bone "arm" [("parent", VStr "root"); ("transform", VStr "noScale"); ("scaleX", VInt 3)];
   bone "leg" [("parent", VStr "root")]]
  [slot "body" (shows "body1"); slot "hat" []; slot "ghost" (("color", VStr "ffffff00") :: shows "g");
   slot "eye" (shows "eye1"); slot "foot" (shows "f1")]
  [VDict [("name", VStr "reach"); ("bones", VList [VStr "arm"]); ("target", VStr "leg")]]
  [skin_doc "default"
     [("body", VDict [("body1", region "b1"); ("body2", region "b2")]);
      ("hat", VDict [("hat1", region "h1"); ("hat2", mesh_of "h2")]); ("ghost", VDict [("g", region "gh")]);
      ("eye", VDict [("eye1", region "e1")]); ("foot", VDict [("f1", region "ft")])];
   skin_doc "winter" [("body", VDict [("body1", region "b1"); ("coat", region "ct")]); ("hat", VDict [("hat1", region "h1")])]]
  [("walk", VDict [("slots", VDict [("hat", frame (VStr "hat1")); ("eye", frame VNone); ("body", frame (VStr "coat"))]);
      ("drawOrder", VList [VDict [("time", VInt 0); ("offsets",
         VList [VDict [("slot", VStr "body"); ("offset", VInt 2)]; VDict [("slot", VStr "hat"); ("offset", VInt 3)]])]]);
      ("deform", VDict [("default", VDict [("hat", VDict [("hat2", VList [])]); ("ghost", VDict [("g", VList [])])])])]);
   ("idle", timelines [("foot", frame VNone)])].
(** Scale, erase an animation safely, clean up, and erase a skin with a clean-up *)
Definition hm : list eop :=
  [EoScale (VInt 2) (VInt 2); EoEraseAnimations in_order ["idle"] true true; EoClean in_order;
   EoEraseSkins in_order ["winter"] false].
Lemma hm_ok : Forall eop_ok hm.
Proof. repeat constructor; exact in_order_ok. Qed.
Lemma hm_runs : history (ed jm) (rev hm) (after jm hm).
Proof. apply runs_ok; [exact hm_ok | vm_compute; reflexivity]. Qed.
Lemma jm_loaded : history (ed jm) [] (ed jm).
Proof. constructor. apply loads_ok. vm_compute. reflexivity. Qed.
Lemma jm_plain : plain_slots (e_data (ed jm)) /\ plain_images (e_data (ed jm)) /\ plain_setup (e_data (ed jm)).
Proof.
  split; [ | split]; [apply plain_slotsb_ok | apply plain_imagesb_ok | apply plain_setupb_ok]; vm_compute; reflexivity.
Qed.
Example jm_report : cleans (ed jm) = Some (["ghost"], ["body2"; "g"]).
Proof. vm_compute. reflexivity. Qed.
(** After erasing the skin, attachments that only the skin has and that the animation shows
    are gone, and so are the unshown ones. *)
Example hm_left : map sk_name (d_skins (e_data (after jm hm))) = [Some "default"] /\
  map slot_name (d_slots (e_data (after jm hm))) = ["body"; "hat"; "eye"; "foot"] /\
  dkeys (e_images (after jm hm)) = ["b1"; "h1"; "h2"; "e1"; "ft"] /\ dkeys (d_animations (e_data (after jm hm))) = ["walk"].
Proof. repeat split; vm_compute; reflexivity. Qed.

(** ** C31: false as stated.  A mesh of a visible slot goes if it is not shown and another
    attachment with its name, elsewhere, is not a mesh. *)
Definition j31 : val := json "3.8.99" [bone "root" []] [slot "s" (shows "m"); slot "t" (shows "n")] []
  [skin_doc "default" [("s", VDict [("m", region "p2"); ("k", mesh_of "p1")]); ("t", VDict [("k", region "p1"); ("n", region "p3")])]]
  [("idle", timelines [])].
Theorem C31_refuted : exists e e' rem atts s k o, loaded e /\ clean_animation in_order e = (e', Ok (rem, atts)) /\
  In s (d_slots (e_data e)) /\ used_slot (e_data e) s /\ In s (d_slots (e_data e')) /\
  skin_attachment (e_data e) (slot_name s) k o /\ o_cls o = CSkinMesh /\ ~ skin_attachment (e_data e') (slot_name s) k o.
Proof.
  exists (ed j31). destruct (cleans_ok (ed j31) ([], ["k"])) as [e' E]; [vm_compute; reflexivity | ].
  assert (Ee : e' = cleaned_up (ed j31)) by (unfold cleaned_up; rewrite E; reflexivity).
  eexists e', [], ["k"], _, "k", _. split; [apply loads_ok; vm_compute; reflexivity | ]. split; [exact E | ].
  split; [find_in; left; reflexivity | ]. split.
  { eexists. split; [eexists; find_in; left; reflexivity | ]. right. split; [intros [t []] | ]. split.
    - intros (c & n & Hc & _). discriminate.
    - intros (Hc & _). discriminate. }
  split; [rewrite Ee; find_in; left; reflexivity | ]. split.
  { apply all_attachments_in. find_in. right. left. reflexivity. }
  split; [reflexivity | ]. intros H. apply all_attachments_in in H. rewrite Ee in H. list_in H.
  repeat destruct H as [H | H]; [discriminate | discriminate | exact H].
Qed.
Print Assumptions C31_refuted.
(** Exactly the attachments that go: see C80. *)
Theorem C31_meshes_partial : forall e0 ops e enum e' rem atts, history e0 ops e -> order_ok enum ->
  clean_animation enum e = (e', Ok (rem, atts)) ->
  forall s k o, In s (d_slots (e_data e)) -> skin_attachment (e_data e) (slot_name s) k o -> ~ In (slot_name s) rem ->
  (forall sl' o', skin_attachment (e_data e) sl' k o' -> o_cls o' = CSkinMesh /\
     exists s', In s' (d_slots (e_data e)) /\ slot_name s' = sl' /\ used_slot (e_data e) s') ->
  skin_attachment (e_data e') (slot_name s) k o.
Proof. exact mesh_kept. Qed.
Print Assumptions C31_meshes_partial.

(** ** C80: exactly what a clean-up removes *)
Theorem C80_slots : forall e0 ops e enum e' rem atts, plain_slots (e_data e0) -> history e0 ops e -> order_ok enum ->
  clean_animation enum e = (e', Ok (rem, atts)) ->
  (forall s, In s (d_slots (e_data e)) ->
     (In (slot_name s) rem <-> ~ used_slot (e_data e) s \/ forall k o, skin_attachment (e_data e) (slot_name s) k o -> In k atts)) /\
  (forall n, In n rem -> In n (map slot_name (d_slots (e_data e)))).
Proof. exact clean_removed. Qed.
Print Assumptions C80_slots.
Theorem C80_attachments : forall e0 ops e enum e' rem atts, history e0 ops e -> order_ok enum ->
  clean_animation enum e = (e', Ok (rem, atts)) ->
  (forall k, In k atts <-> ~ used_attachment (e_data e) k /\ exists sl o, skin_attachment (e_data e) sl k o /\
     (o_cls o = CSkinMesh -> exists s, In s (d_slots (e_data e)) /\ slot_name s = sl /\ ~ used_slot (e_data e) s)) /\
  (forall sl k o, skin_attachment (e_data e') sl k o <-> skin_attachment (e_data e) sl k o /\ ~ In sl rem /\ ~ In k atts).
Proof. exact clean_removed_attachments. Qed.
Print Assumptions C80_attachments.
(** A slot that is visible but has no attachment at all is removed, too. *)
Definition j80 : val := json "3.8.99" [bone "root" []] [slot "s" (shows "m"); slot "t" (shows "m")] []
  [skin_doc "default" [("s", VDict [("m", region "p2")])]] [("idle", timelines [])].
Example C80_ex : loads j80 = true /\ cleans (ed j80) = Some (["t"], []).
Proof. split; vm_compute; reflexivity. Qed.

(** ** C40 *)
Theorem C40_erased : forall e0 ops e enum names strict safe e' j rep, history e0 ops e -> order_ok enum ->
  erase_animations enum names strict safe e = (e', Ok (j, rep)) ->
  dkeys (d_animations (e_data e')) = without names (dkeys (d_animations (e_data e))) /\ j = editor_json e' /\
  (safe = true -> rep = ([], []) /\
     e' = put_data e (set_animations (e_data e) (filter (fun kv => negb (smem (fst kv) names)) (d_animations (e_data e))))).
Proof. exact erase_animations_left. Qed.
Print Assumptions C40_erased.
Example C40_ex : exists e' j, erase_animations in_order ["idle"] true true (ed jm) = (e', Ok (j, ([], []))) /\
  dkeys (d_animations (e_data e')) = ["walk"].
Proof. eexists _, _. split; [vm_compute; reflexivity | vm_compute; reflexivity]. Qed.

(** ** C41: false as stated.  The known names are erased before the unknown one is noticed. *)
Theorem C41_refuted : exists e e' names safe x, loaded e /\
  erase_animations in_order names true safe e = (e', Err x) /\ d_animations (e_data e') <> d_animations (e_data e).
Proof.
  exists (ed jm). eexists _, ["walk"; "nope"], true, _. split; [apply loads_ok; vm_compute; reflexivity | ]. split; [vm_compute; reflexivity | ].
  intros E. apply (f_equal dkeys) in E. vm_compute in E. discriminate.
Qed.
Print Assumptions C41_refuted.
(** ** C69: exactly what a strict erase does *)
Theorem C69_strict : forall e0 ops e enum names safe, history e0 ops e ->
  (all_found names (dkeys (d_animations (e_data e))) ->
     erase_animations enum names true safe e = erase_animations enum names false safe e) /\
  (~ all_found names (dkeys (d_animations (e_data e))) ->
     erase_animations enum names true safe e =
       (put_data e (set_animations (e_data e) (filter (fun kv => negb (smem (fst kv) names)) (d_animations (e_data e)))),
        Err (EValue "Animations could not be found inside the spine file"))).
Proof. exact erase_animations_refused. Qed.
Print Assumptions C69_strict.

(** ** C42: false as stated.  The clean-up removes the slot "a_SLOT", which has no attachment,
    but reports "a", which stays. *)
Definition j42 : val := json "3.8.99" [bone "root" []] [slot "a" (shows "x"); slot "a_SLOT" (shows "y")] []
  [skin_doc "default" [("a", VDict [("x", region "x")])]] [("idle", timelines [])].
Theorem C42_refuted : exists e e' rem atts n, loaded e /\ clean_animation in_order e = (e', Ok (rem, atts)) /\
  In n rem /\ In n (map slot_name (d_slots (e_data e'))).
Proof.
  exists (ed j42). destruct (cleans_ok (ed j42) (["a"], [])) as [e' E]; [vm_compute; reflexivity | ].
  exists e', ["a"], [], "a". split; [apply loads_ok; vm_compute; reflexivity | ]. split; [exact E | ]. split; [left; reflexivity | ].
  assert (Ee : e' = cleaned_up (ed j42)) by (unfold cleaned_up; rewrite E; reflexivity). rewrite Ee. vm_compute. left. reflexivity.
Qed.
Print Assumptions C42_refuted.
(** ** C70: what holds of C42 *)
Theorem C70_no_reference : forall e0 ops e enum e' rem atts, history e0 ops e -> order_ok enum ->
  clean_animation enum e = (e', Ok (rem, atts)) -> forall n, In n rem -> ~ mentions_slot (e_data e') n.
Proof. exact clean_no_slot_left. Qed.
Print Assumptions C70_no_reference.
Theorem C70_slot_list : forall e0 ops e enum e' rem atts, plain_slots (e_data e0) -> history e0 ops e -> order_ok enum ->
  clean_animation enum e = (e', Ok (rem, atts)) ->
  map slot_name (d_slots (e_data e')) = without rem (map slot_name (d_slots (e_data e))).
Proof. exact clean_slot_list. Qed.
Print Assumptions C70_slot_list.
Theorem C70_any_names : forall e0 ops e enum e' rem atts n, history e0 ops e -> order_ok enum ->
  clean_animation enum e = (e', Ok (rem, atts)) -> In n (map slot_name (d_slots (e_data e))) ->
  let left := map slot_name (d_slots (e_data e')) in
  (~ In n left -> In n rem \/ has_text n "_SLOT") /\
  (In n rem -> ~ In n left \/
     exists s, In s (map slot_name (d_slots (e_data e))) /\ ~ In s left /\ s <> n /\ has_text s "_SLOT").
Proof. exact clean_slot_list_any. Qed.
Print Assumptions C70_any_names.
Example C70_ex : cleans (ed jm) = Some (["ghost"], ["body2"; "g"]) /\ slot_in_skins (e_data (ed jm)) "ghost" /\ slot_in_deforms (e_data (ed jm)) "ghost".
Proof.
  split; [vm_compute; reflexivity | ]. split.
  - eexists. split; [find_in; left; reflexivity | ]. vm_compute. tauto.
  - eexists _, "default", _. split; [exists "walk"; find_in; left; reflexivity | ]. split; [find_in; left; reflexivity | ]. vm_compute. tauto.
Qed.

(** ** C43: false as stated.  A keyframe in a timeline that keeps its slot invisible. *)
Definition j43 : val := json "3.8.99" [bone "root" []] [slot "s" (("color", VStr "ffffff00") :: shows "m")] []
  [skin_doc "default" [("s", VDict [("m", region "m"); ("k", region "k")])]]
  [("hide", timelines [("s", frame (VStr "k"))]);
   ("show", timelines [("s", VDict [("color", VList [VDict [("time", VInt 0); ("color", VStr "ffffffff")]])])])].
Theorem C43_refuted : exists e e' rem atts k, loaded e /\ clean_animation in_order e = (e', Ok (rem, atts)) /\
  In k atts /\ attachment_in_keyframes (e_data e') k.
Proof.
  exists (ed j43). destruct (cleans_ok (ed j43) ([], ["k"])) as [e' E]; [vm_compute; reflexivity | ].
  exists e', [], ["k"], "k". split; [apply loads_ok; vm_compute; reflexivity | ]. split; [exact E | ]. split; [left; reflexivity | ].
  assert (Ee : e' = cleaned_up (ed j43)) by (unfold cleaned_up; rewrite E; reflexivity). rewrite Ee.
  eexists "s", _, _, _. split; [exists "hide"; find_in; left; reflexivity | ]. split; [find_in; left; reflexivity | ].
  split; [left; reflexivity | reflexivity].
Qed.
Print Assumptions C43_refuted.
(** ** C71: what holds of C43 *)
Theorem C71_no_reference : forall e0 ops e enum e' rem atts, history e0 ops e -> order_ok enum ->
  clean_animation enum e = (e', Ok (rem, atts)) -> forall k, In k atts ->
  ~ attachment_in_skins (e_data e') k /\ ~ attachment_in_deforms (e_data e') k /\
  (plain_setup (e_data e0) -> ~ attachment_in_setup (e_data e') k) /\
  (forall sl t, keyframe_names (e_data e') sl t k -> k = "None" \/
     exists s, In s (d_slots (e_data e)) /\ slot_name s = sl /\ timeline_hides s t).
Proof. exact clean_no_attachment_left. Qed.
Print Assumptions C71_no_reference.
Example C71_ex : exists e', clean_animation in_order (ed jm) = (e', Ok (["ghost"], ["body2"; "g"])).
Proof. apply cleans_ok. vm_compute. reflexivity. Qed.

(** ** C44: false as stated.  A clean-up undoes the scaling of bones. *)
Theorem C44_refuted : exists e0 ops e e' r, history e0 ops e /\ clean_animation in_order e = (e', Ok r) /\
  bones_json e' <> bones_json e.
Proof.
  exists (ed jm), [EoScale (VInt 2) (VInt 2)], (after jm [EoScale (VInt 2) (VInt 2)]).
  destruct (cleans_ok (after jm [EoScale (VInt 2) (VInt 2)]) (["ghost"], ["body2"; "g"])) as [e' E]; [vm_compute; reflexivity | ].
  exists e', (["ghost"], ["body2"; "g"]). split; [apply (runs_ok jm [EoScale (VInt 2) (VInt 2)]); [repeat constructor | vm_compute; reflexivity] | ].
  split; [exact E | ]. assert (Ee : e' = cleaned_up (after jm [EoScale (VInt 2) (VInt 2)])) by (unfold cleaned_up; rewrite E; reflexivity).
  rewrite Ee. vm_compute. discriminate.
Qed.
Print Assumptions C44_refuted.
(** ** C72: what holds of C44: the bones are again as they were when last read into the graph
    (on loading, or by erase_skins), all else is kept. *)
Theorem C72_kept : forall e0 ops e eb enum e' rem atts, plain_slots (e_data e0) -> plain_setup (e_data e0) ->
  last_built e0 ops e eb -> order_ok enum -> clean_animation enum e = (e', Ok (rem, atts)) ->
  all_else_kept rem atts e e' /\ bones_json e' = bones_json eb.
Proof. exact clean_keeps. Qed.
Print Assumptions C72_kept.
Theorem C72_no_scaling : forall e0 ops e eb, last_built e0 ops e eb -> Forall not_scale ops ->
  bones_json e = bones_json e0 /\ bones_json eb = bones_json e0.
Proof. exact bones_unscaled. Qed.
Print Assumptions C72_no_scaling.
Example C72_ex : exists eb, last_built (ed jm) (rev hm) (after jm hm) eb.
Proof. apply last_built_ex. exact hm_runs. Qed.

(** ** C81: no call changes the constraints, the events, the header or the names of bones *)
Theorem C81_fixed : forall e0 ops e, history e0 ops e ->
  ik_json e = ik_json e0 /\ d_transform (e_data e) = d_transform (e_data e0) /\ d_path (e_data e) = d_path (e_data e0) /\
  d_events (e_data e) = d_events (e_data e0) /\ e_ver e = e_ver e0 /\ doc_skeleton (e_doc e) = doc_skeleton (e_doc e0) /\
  map bone_name (d_bones (e_data e)) = map bone_name (d_bones (e_data e0)).
Proof. exact history_constant. Qed.
Print Assumptions C81_fixed.
Example C81_ex : history (ed jm) (rev hm) (after jm hm) /\ length (ik_json (after jm hm)) = 1.
Proof. split; [exact hm_runs | vm_compute; reflexivity]. Qed.

(** ** C45: false as stated.  The clean-up drops the unused image "x_IMAGE" from its graph,
    and with it the entry of "x". *)
Definition j45 : val := json "3.8.99" [bone "root" []] [slot "s" (shows "m")] []
  [skin_doc "default" [("s", VDict [("m", region "x"); ("k", region "x_IMAGE")])]] [("idle", timelines [])].
Theorem C45_refuted : exists e0 ops e i, history e0 ops e /\ image_in_use (e_data e) i /\ ~ In i (dkeys (e_images e)).
Proof.
  exists (ed j45), [EoClean in_order], (after j45 [EoClean in_order]), "x".
  split; [apply (runs_ok j45 [EoClean in_order]); [repeat constructor; exact in_order_ok | vm_compute; reflexivity] | ]. split.
  - eexists "s", "m", _. split; [apply all_attachments_in; find_in; left; reflexivity | ]. split; [discriminate | reflexivity].
  - vm_compute. intros [H | []]. discriminate.
Qed.
Print Assumptions C45_refuted.
(** ** C73: what holds of C45 *)
Theorem C73_covered : forall e0 ops e, plain_images (e_data e0) -> history e0 ops e ->
  forall i, image_in_use (e_data e) i -> In i (dkeys (e_images e)).
Proof. exact images_covered. Qed.
Print Assumptions C73_covered.
Theorem C73_loaded : forall x l, get_images_references x = Ok l -> forall i, In i (dkeys l) <-> image_in_use (doc_data x) i.
Proof. exact images_loaded. Qed.
Print Assumptions C73_loaded.
Example C73_ex : plain_images (e_data (ed jm)) /\ history (ed jm) (rev hm) (after jm hm) /\ image_in_use (e_data (after jm hm)) "h2".
Proof.
  split; [apply jm_plain | ]. split; [exact hm_runs | ]. eexists "hat", "hat2", _.
  split; [apply all_attachments_in; find_in; right; right; left; reflexivity | ]. split; [discriminate | reflexivity].
Qed.

(** ** C46: false as stated.  Two attachments with the same name but different images: the
    image of the one that goes is kept. *)
Definition j46 : val := json "3.8.99" [bone "root" []] [slot "s" (shows "k"); slot "t" []] []
  [skin_doc "default" [("s", VDict [("k", region "p1")]); ("t", VDict [("k", region "p2")])]] [("idle", timelines [])].
Theorem C46_refuted : exists e0 ops e i, history e0 ops e /\ In i (dkeys (e_images e)) /\ ~ image_in_use (e_data e) i.
Proof.
  exists (ed j46), [EoClean in_order], (after j46 [EoClean in_order]), "p2".
  split; [apply (runs_ok j46 [EoClean in_order]); [repeat constructor; exact in_order_ok | vm_compute; reflexivity] | ]. split.
  - find_in. right. left. reflexivity.
  - intros (sl & k & o & H & _ & E). apply all_attachments_in in H. list_in H. destruct H as [H | []]. injection H as <- <- <-. discriminate.
Qed.
Print Assumptions C46_refuted.
(** ** C74: what holds of C45 and C46 *)
Theorem C74_exact : forall e0 ops e, tidy (e_data e0) -> history e0 ops e ->
  forall i, In i (dkeys (e_images e)) <-> image_in_use (e_data e) i.
Proof. exact images_exact. Qed.
Print Assumptions C74_exact.
Example C74_ex : tidy (e_data (ed jm)) /\ history (ed jm) (rev hm) (after jm hm).
Proof.
  split; [ | exact hm_runs]. constructor; [exact (proj1 jm_plain) | exact (proj1 (proj2 jm_plain)) | | | | ].
  - intros sl k o sl' o' H H'. apply all_attachments_in in H, H'. list_in H. list_in H'.
    repeat destruct H as [H | H]; try contradiction H; injection H as <- <- <-;
    repeat destruct H' as [H' | H']; try contradiction H'; try discriminate H'; injection H' as <- <-; reflexivity.
  - intros sl k o H. apply all_attachments_in in H. list_in H.
    repeat destruct H as [H | H]; try contradiction H; injection H as <- <- <-; (eexists; split; [left; eexists; split; [reflexivity | split; [discriminate | reflexivity]] | discriminate]).
  - intros sl k o H. apply all_attachments_in in H. list_in H.
    repeat destruct H as [H | H]; try contradiction H; injection H as <- <- <-; discriminate.
  - vm_compute. repeat constructor; cbn; intuition discriminate.
Qed.

(** ** C47 *)
Theorem C47_works : forall e0 ops e enum, history e0 ops e -> order_ok enum ->
  draw_orders_ok (e_data e) -> analysable (e_data e) -> exists e' r, clean_animation enum e = (e', Ok r).
Proof. exact clean_works. Qed.
Print Assumptions C47_works.
(** ** C75: exactly when a clean-up works *)
Theorem C75_iff : forall e0 ops e enum, plain_slots (e_data e0) -> ready (e_data e0) ->
  history e0 ops e -> order_ok enum ->
  (something_to_show (e_data e) -> exists e' r, clean_animation enum e = (e', Ok r)) /\
  (~ something_to_show (e_data e) -> exists x, clean_animation enum e = (e, Err x)).
Proof. exact clean_works_iff. Qed.
Print Assumptions C75_iff.
Theorem C75_ready : forall e0 ops e, plain_slots (e_data e0) -> ready (e_data e0) -> history e0 ops e -> ready (e_data e).
Proof. exact history_ready. Qed.
Print Assumptions C75_ready.
Theorem C75_refused : forall e0 ops e enum, history e0 ops e -> ~ analysable (e_data e) -> exists x, clean_animation enum e = (e, Err x).
Proof. exact clean_refuses. Qed.
Print Assumptions C75_refused.
Example C75_ex : plain_slots (e_data (ed jm)) /\ ready (e_data (ed jm)) /\ something_to_show (e_data (ed jm)).
Proof.
  split; [apply jm_plain | ]. split; [split; [ | split] | ].
  - intros s H c E. list_in H. repeat destruct H as [<- | H]; try contradiction H; try discriminate E. injection E as <-. eexists. apply NumFacts.color_iff. vm_compute. reflexivity.
  - intros a n t (i & H) Hn. list_in H. repeat destruct H as [H | H]; try contradiction H; injection H as <- <-;
      repeat destruct Hn as [Hn | Hn]; try contradiction Hn; injection Hn as <- <-; (split; [discriminate | vm_compute; tauto]).
  - intros a k o (i & H) Hk Ho. list_in H. repeat destruct H as [H | H]; try contradiction H; injection H as <- <-;
      repeat destruct Hk as [<- | Hk]; try contradiction Hk; repeat destruct Ho as [<- | Ho]; try contradiction Ho;
      (eexists _, _; split; [split; [reflexivity | left; reflexivity] | vm_compute; tauto]).
  - intros a (i & H). list_in H. right. repeat destruct H as [H | H]; try contradiction H; injection H as <- <-; discriminate.
Qed.

(** ** C48: false as stated.  A root bone with transform noScale is scaled twice; *)
Definition j48 : val := json "3.8.99" [bone "root" [("transform", VStr "noScale"); ("scaleX", VInt 5)]; bone "arm" []] [] [] [] [].
Theorem C48_refuted : exists e e' sx sy b b', loaded e /\ scale_animation sx sy e = (e', Ok tt) /\
  nth_error (d_bones (e_data e)) 0 = Some b /\ nth_error (d_bones (e_data e')) 0 = Some b' /\ bone_name b = "root" /\
  ~ product (oget b "scaleX") sx (oget b' "scaleX").
Proof.
  exists (ed j48). eexists _, (VInt 2), (VInt 3), _, _. split; [apply loads_ok; vm_compute; reflexivity | ].
  split; [vm_compute; reflexivity | ]. split; [vm_compute; reflexivity | ]. split; [vm_compute; reflexivity | ]. split; [reflexivity | ].
  intros P. apply mul_exact in P; [ | intros f E; vm_compute in E; discriminate | intros f E; discriminate]. vm_compute in P. discriminate.
Qed.
Print Assumptions C48_refuted.
(** and without root bone the others are scaled, and then it fails. *)
Definition j48' : val := json "3.8.99" [bone "arm" [("transform", VStr "noScale"); ("scaleX", VInt 5)]] [] [] [] [].
Theorem C48_refuted_no_root : exists e e' sx sy w, loaded e /\ scale_animation sx sy e = (e', Err (EAttr w)) /\
  bones_json e' <> bones_json e.
Proof.
  exists (ed j48'). eexists _, (VInt 2), (VInt 3), _. split; [apply loads_ok; vm_compute; reflexivity | ].
  split; [vm_compute; reflexivity | ]. vm_compute. discriminate.
Qed.
Print Assumptions C48_refuted_no_root.
(** ** C76: exactly what scaling does *)
Theorem C76_scaled : forall e0 ops e sx sy e', history e0 ops e -> scale_animation sx sy e = (e', Ok tt) ->
  has_root (e_data e) /\ exists l, e' = put_data e (set_bones (e_data e) l) /\ Forall2 (rescaled sx sy) (d_bones (e_data e)) l.
Proof. exact scale_exact. Qed.
Print Assumptions C76_scaled.
Theorem C76_works : forall e0 ops e sx sy, history e0 ops e ->
  ((exists e', scale_animation sx sy e = (e', Ok tt)) <->
     has_root (e_data e) /\ forall b, In b (d_bones (e_data e)) -> exists b', rescaled sx sy b b') /\
  (~ has_root (e_data e) -> (forall b, In b (d_bones (e_data e)) -> exists b', rescaled sx sy b b') ->
   exists l w, scale_animation sx sy e = (put_data e (set_bones (e_data e) l), Err (EAttr w)) /\
     Forall2 (rescaled sx sy) (d_bones (e_data e)) l).
Proof. exact scale_works. Qed.
Print Assumptions C76_works.
Example C76_ex : map (fun b => oget b "scaleX") (d_bones (e_data (after jm [EoScale (VInt 2) (VInt 2)]))) =
  [VFloat (SpecFloat.S754_finite false 4503599627370496 (-51)); VInt 6; VFloat (SpecFloat.S754_finite false 4503599627370496 (-52))].
Proof. vm_compute. reflexivity. Qed.

(** ** C49: false as stated.  The clean-up of a later erase_animations undoes the scaling. *)
Theorem C49_refuted : exists e0 e e' names, history e0 [EoScale (VInt 2) (VInt 2)] e /\
  estep e (EoEraseAnimations in_order names true false) = (e', Ok tt) /\
  bones_json e' = bones_json e0 /\ bones_json e <> bones_json e0.
Proof.
  set (h := [EoScale (VInt 2) (VInt 2)]). set (h' := [EoScale (VInt 2) (VInt 2); EoEraseAnimations in_order ["idle"] true false]).
  exists (ed jm), (after jm h), (after jm h'), ["idle"].
  split; [apply (runs_ok jm h); [repeat constructor | vm_compute; reflexivity] | ].
  split; [vm_compute; reflexivity | ]. split; [vm_compute; reflexivity | vm_compute; discriminate].
Qed.
Print Assumptions C49_refuted.
(** ** C77: exactly which bones are exported after a call *)
Theorem C77_bones : forall e0 ops e eb op e', last_built e0 ops e eb -> eop_ok op -> estep e op = (e', Ok tt) ->
  match op with
  | EoEraseSkins _ _ _ => bones_json e' = bones_json e
  | EoEraseAnimations _ _ _ true => bones_json e' = bones_json e
  | EoEraseAnimations _ _ _ false | EoClean _ => bones_json e' = bones_json eb
  | EoScale sx sy => scale_bones sx sy (d_bones (e_data e)) = (d_bones (e_data e'), Ok tt)
  end.
Proof. exact bones_after. Qed.
Print Assumptions C77_bones.

(** ** C50: false as stated.  The first clean-up removes the slot "a", which has no attachment
    in any skin; after that nothing shows "k". *)
Definition j50 : val := json "3.8.99" [bone "root" []] [slot "a" (shows "k"); slot "c" (shows "m")] []
  [skin_doc "default" [("c", VDict [("k", region "p1"); ("m", region "p2")])]] [("idle", timelines [])].
Theorem C50_refuted : exists e e1 r e2 r2, loaded e /\ clean_animation in_order e = (e1, Ok r) /\
  clean_animation in_order e1 = (e2, Ok r2) /\ r2 <> ([], []).
Proof.
  exists (ed j50). destruct (cleans_ok (ed j50) (["a"], [])) as [e1 E1]; [vm_compute; reflexivity | ].
  assert (Ee : e1 = cleaned_up (ed j50)) by (unfold cleaned_up; rewrite E1; reflexivity).
  destruct (cleans_ok e1 ([], ["k"])) as [e2 E2]; [rewrite Ee; vm_compute; reflexivity | ].
  exists e1, (["a"], []), e2, ([], ["k"]). split; [apply loads_ok; vm_compute; reflexivity | ]. split; [exact E1 | ]. split; [exact E2 | discriminate].
Qed.
Print Assumptions C50_refuted.
(** ** C78: what holds of C50: if the first clean-up removes unused slots only, the second
    changes nothing at all; it may still refuse to run (C75). *)
Theorem C78_again : forall e0 ops e enum enum' e' rem atts, plain_slots (e_data e0) -> plain_setup (e_data e0) ->
  history e0 ops e -> order_ok enum -> order_ok enum' -> clean_animation enum e = (e', Ok (rem, atts)) ->
  (forall s, In s (d_slots (e_data e)) -> In (slot_name s) rem -> ~ used_slot (e_data e) s) ->
  (analysable (e_data e') -> clean_animation enum' e' = (e', Ok ([], []))) /\
  (~ analysable (e_data e') -> exists x, clean_animation enum' e' = (e', Err x)).
Proof. exact clean_again. Qed.
Print Assumptions C78_again.
Example C78_ex : cleans (ed jm) = Some (["ghost"], ["body2"; "g"]) /\ cleans (cleaned_up (ed jm)) = Some ([], []) /\
  forall s, In s (d_slots (e_data (ed jm))) -> In (slot_name s) ["ghost"] -> ~ used_slot (e_data (ed jm)) s.
Proof.
  split; [vm_compute; reflexivity | ]. split; [vm_compute; reflexivity | ].
  intros s Hs Hn (a & (i & Ha) & Hv). list_in Hs. list_in Ha.
  repeat destruct Hs as [<- | Hs]; try contradiction Hs; try (vm_compute in Hn; destruct Hn as [Hn | []]; discriminate Hn).
  destruct Hv as [(t & Ht & _) | (_ & Hv & _)].
  - repeat destruct Ha as [Ha | Ha]; try contradiction Ha; injection Ha as <- <-; unfold timeline in Ht;
      repeat destruct Ht as [Ht | Ht]; try contradiction Ht; discriminate Ht.
  - apply Hv. eexists _, _. split; [vm_compute; reflexivity | ]. split; [apply NumFacts.color_iff; vm_compute; reflexivity | vm_compute; reflexivity].
Qed.

(** ** C51 *)
Theorem C51_history : forall e0 ops e, history e0 ops e -> forall ops', Forall eop_ok ops' -> Forall2 same_call ops ops' -> history e0 ops' e.
Proof. exact history_order. Qed.
Print Assumptions C51_history.
Theorem C51_reports : forall e0 ops e en1 en2, history e0 ops e -> order_ok en1 -> order_ok en2 ->
  (fst (clean_animation en1 e) = fst (clean_animation en2 e) /\
   same_result same_report (snd (clean_animation en1 e)) (snd (clean_animation en2 e))) /\
  (forall l safe, fst (erase_skins en1 l safe e) = fst (erase_skins en2 l safe e) /\
     same_result (fun r r' => same_report (fst r) (fst r') /\ snd r = snd r')
       (snd (erase_skins en1 l safe e)) (snd (erase_skins en2 l safe e))) /\
  (forall l strict safe, fst (erase_animations en1 l strict safe e) = fst (erase_animations en2 l strict safe e) /\
     same_result (fun r r' => fst r = fst r' /\ same_report (snd r) (snd r'))
       (snd (erase_animations en1 l strict safe e)) (snd (erase_animations en2 l strict safe e))).
Proof. exact reports_order. Qed.
Print Assumptions C51_reports.
Example C51_ex : order_ok in_order /\ order_ok (fun _ l => rev l) /\ history (ed jm) (rev hm) (after jm hm).
Proof. split; [exact in_order_ok | split; [exact rev_order_ok | exact hm_runs]]. Qed.

(** ** C52: false as stated *)
Theorem C52_refuted : exists j e w, mk_editor j = Ok e /\ mk_version "4.0.0" = Ok (mkVersion 4 0 0) /\
  mk_editor (with_spine "3.8" j) = Ok (mkEditor (mkDoc (dset "spine" (VStr "3.8") (doc_skeleton (e_doc e))) SPINE_3_8 (e_data e)) (e_images e) (e_graph e)) /\
  mk_editor (with_spine "4.0.0" j) = Err (EType w).
Proof. exists jm. eexists _, _. split; [vm_compute; reflexivity | ]. split; [reflexivity | ]. split; vm_compute; reflexivity. Qed.
Print Assumptions C52_refuted.
(** ** C79: exactly the versions a document loads with *)
Theorem C79_iff : forall j e s v, mk_editor j = Ok e -> ver_ge (e_ver e) SPINE_3_8 = true -> mk_version s = Ok v ->
  ((exists e', mk_editor (with_spine s j) = Ok e') <-> ver_ge v SPINE_3_8 = true \/ d_skins (e_data e) = []).
Proof. exact version_iff. Qed.
Print Assumptions C79_iff.
Theorem C79_same : forall j e s v, mk_editor j = Ok e -> ver_ge (e_ver e) SPINE_3_8 = true -> mk_version s = Ok v -> ver_ge v SPINE_3_8 = true ->
  mk_editor (with_spine s j) =
    Ok (mkEditor (mkDoc (dset "spine" (VStr s) (doc_skeleton (e_doc e))) v (e_data e)) (e_images e) (e_graph e)).
Proof. exact version_kept. Qed.
Print Assumptions C79_same.
Theorem C79_lost : forall j e s v, mk_editor j = Ok e -> mk_version s = Ok v -> ver_ge v SPINE_3_8 = false ->
  (d_skins (e_data e) <> [] -> exists w, mk_editor (with_spine s j) = Err (EType w)) /\
  (d_skins (e_data e) = [] -> exists e', mk_editor (with_spine s j) = Ok e' /\ e_graph e' = e_graph e /\ e_images e' = []).
Proof. exact version_lost. Qed.
Print Assumptions C79_lost.
Example C79_ex : exists e, mk_editor jm = Ok e /\ ver_ge (e_ver e) SPINE_3_8 = true /\ mk_version "3.9.1" = Ok (mkVersion 3 9 1) /\
  ver_ge (mkVersion 3 9 1) SPINE_3_8 = true.
Proof. eexists. split; [vm_compute; reflexivity | ]. split; [reflexivity | split; reflexivity]. Qed.
