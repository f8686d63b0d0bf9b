(** Properties C137 and C138 (repairing, saving and loading an editor whose calls failed). *)
From Verif Require Import PyBase PyNum Json Version Classes Graph SpineGraph DrawOrder SpecDraw SpecDoc AnimData Editor SpecAnim SpecEditor SpecFail SpecAny SpecReload
  EditorHist EditorFail EditorAny EditorRepair EditorRun.
From Verif Require Import Files SpecFiles SaveFacts.
From Verif Require PropFail PropAgain PropAny.
Open Scope string_scope.

(** ** C137: building the graph again puts an editor back in order, whatever calls failed before. *)
(** [erase_skins([], is_safe_mode=True)] succeeds by C136. *)
Theorem C137_kept : forall e0 ops e e1 enum1, any_calls e0 ops e -> estep e (EoEraseSkins enum1 [] true) = (e1, Ok tt) ->
  e_doc e1 = e_doc e /\ e_images e1 = e_images e.
Proof. exact repair_kept. Qed.
Print Assumptions C137_kept.
(** The next clean-up works if the analysis of the document works and the draw orders are sound ... *)
Theorem C137_works : forall e0 ops e e1 enum enum1, any_calls e0 ops e -> plain_slots (e_data e0) -> order_ok enum -> estep e (EoEraseSkins enum1 [] true) = (e1, Ok tt) ->
  analysable (e_data e1) -> (forall k, In k (draw_keys (e_data e1)) -> sound_key (map slot_name (d_slots (e_data e1))) k) ->
  exists e' r, clean_animation enum e1 = (e', Ok r).
Proof. exact repair_works. Qed.
Print Assumptions C137_works.
(** ... and only then. *)
Theorem C137_refuses : forall e0 ops e e1 enum enum1, any_calls e0 ops e -> plain_slots (e_data e0) -> estep e (EoEraseSkins enum1 [] true) = (e1, Ok tt) ->
  ~ analysable (e_data e1) -> exists x, clean_animation enum e1 = (e1, Err x).
Proof. exact repair_refuses. Qed.
Print Assumptions C137_refuses.
Theorem C137_fails : forall e0 ops e e1 enum enum1, any_calls e0 ops e -> plain_slots (e_data e0) -> order_ok enum -> estep e (EoEraseSkins enum1 [] true) = (e1, Ok tt) ->
  analysable (e_data e1) -> forall before k after, first_unsound (e_data e1) before k after ->
  exists e' x gone, clean_animation enum e1 = (e', Err x) /\ half_cleaned (fun gone names k k' => remove_offsets_with_ids gone names k = (k', Ok tt)) e1 e' before (k :: after) gone /\
    (not_by_int (map slot_name (d_slots (e_data e1))) (do_offsets k) -> exists w, x = EType w) /\
    (~ not_by_int (map slot_name (d_slots (e_data e1))) (do_offsets k) -> exists w, x = EValue w).
Proof. exact repair_fails. Qed.
Print Assumptions C137_fails.
Theorem C137_cases : forall e0 ops e e1 enum1, any_calls e0 ops e -> plain_slots (e_data e0) -> estep e (EoEraseSkins enum1 [] true) = (e1, Ok tt) ->
  (forall k, In k (draw_keys (e_data e1)) -> sound_key (map slot_name (d_slots (e_data e1))) k) \/
  exists before k after, first_unsound (e_data e1) before k after.
Proof. exact repair_cases. Qed.
Print Assumptions C137_cases.
(** It removes what nothing shows and reports it. *)
Theorem C137_removes : forall e0 ops e e1 enum enum1, any_calls e0 ops e -> plain_slots (e_data e0) -> order_ok enum -> estep e (EoEraseSkins enum1 [] true) = (e1, Ok tt) ->
  forall e' rem atts, clean_animation enum e1 = (e', Ok (rem, atts)) ->
  (forall n, In n rem <-> exists s, In s (d_slots (e_data e1)) /\ slot_name s = n /\ slot_goes (e_data e1) s) /\
  (forall k, In k atts <-> goes (e_data e1) k) /\
  map slot_name (d_slots (e_data e')) = without rem (map slot_name (d_slots (e_data e1))) /\
  (forall sl k o, skin_attachment (e_data e') sl k o <-> skin_attachment (e_data e1) sl k o /\ ~ In sl rem /\ ~ In k atts).
Proof. exact repair_removes. Qed.
Print Assumptions C137_removes.
(** The calls of C136, of which three fail: the graph has lost the attachment "m2", so a clean-up fails;
    after building the graph again it works and removes "m2". *)
Definition e137 : editor := PropAny.run_calls (ed PropAgain.j134) PropAny.calls136.
Definition e137' : editor := fst (estep e137 (EoEraseSkins in_order [] true)).
Lemma calls137 : any_calls (ed PropAgain.j134) PropAny.calls136 e137.
Proof. exact (proj1 PropAny.C136_ex). Qed.
Example C137_ex : any_calls (ed PropAgain.j134) PropAny.calls136 e137 /\ plain_slots (e_data (ed PropAgain.j134)) /\
  estep e137 (EoEraseSkins in_order [] true) = (e137', Ok tt) /\ analysable (e_data e137') /\
  (forall k, In k (draw_keys (e_data e137')) -> sound_key (map slot_name (d_slots (e_data e137'))) k) /\ length (draw_keys (e_data e137')) = 1 /\
  (exists e x, clean_animation in_order e137 = (e, Err x)) /\ exists e, clean_animation in_order e137' = (e, Ok ([], ["m2"])).
Proof.
  split; [exact calls137 | ]. split; [apply plain_slotsb_ok; vm_compute; reflexivity | ]. split; [vm_compute; reflexivity | ]. split.
  { split.
    - intros s H c E. list_in H. repeat destruct H as [<- | H]; try contradiction H; try discriminate E; injection E as <-; eexists; apply NumFacts.color_iff; vm_compute; reflexivity.
    - intros a (i & H). list_in H. repeat destruct H as [H | H]; try contradiction H. injection H as <- <-. split; [intros n t [] | ]. left.
      match eval vm_compute in (d_slots (e_data e137')) with ?s :: _ => exists s end. split; [vm_compute; left; reflexivity | ].
      split; [intros (c & n & Ec & Z & M); discriminate Ec | intros (Z & _); discriminate Z]. }
  split.
  { intros k H. list_in H. repeat destruct H as [<- | H]; try contradiction H. split.
    - intros (n & o & Hn & (a & b & E & _) & K). destruct a as [ | x a]; cbn in E; [discriminate E | ]. destruct a; discriminate E.
    - intros (o & Ho & K). list_in Ho. repeat destruct Ho as [<- | Ho]; try contradiction Ho. }
  split; [vm_compute; reflexivity | ]. split; [eexists _, _; vm_compute; reflexivity | ]. eexists. vm_compute. reflexivity.
Qed.
(** Slot names without "_SLOT" are needed: here a clean-up that fails drops the slot "a_SLOT" but files its
    attachment under it still, and no clean-up works again. *)
Definition j137 : val := json "3.8.99" [bone "root" []] [slot "a" (shows "x"); slot "a_SLOT" (shows "q")] []
  [skin_doc "default" [("a", VDict [("x", region "x")]); ("a_SLOT", VDict [("y", region "y")])]]
  [("walk", timelines []); ("bad", VDict [("drawOrder", VList [PropFail.order_of [("z", 1%Z)]])])].
Definition calls_SLOT : list eop := [EoClean in_order; EoEraseSkins in_order [] true; PropAgain.erase_bad; EoClean in_order].
Example C137_names : loads j137 = true /\
  map (fun r => match r with Ok _ => None | Err x => Some x end) (PropAny.outcomes (ed j137) calls_SLOT) =
    [Some (EValue "Node was not found in the graph"); None; None; Some (EValue "x not in list")] /\
  let e := PropAny.run_calls (ed j137) (tl calls_SLOT) in draw_keys (e_data e) = [] /\ get_unused_slots_and_attachments (e_data e) = Ok ([], ["y"]).
Proof. vm_compute. repeat split. Qed.

(** ** C138: what is saved after any calls, failed or not, can be loaded again *)
Theorem C138_exact : forall e0 ops e, any_calls e0 ops e -> ((exists e', mk_editor (editor_json e) = Ok e') <-> can_reload (e_data e)).
Proof. exact any_reload. Qed.
Print Assumptions C138_exact.
Theorem C138_same : forall e0 ops e, any_calls e0 ops e -> forall e', mk_editor (editor_json e) = Ok e' ->
  no_null_time (e_data e) \/ ver_ge (e_ver e) SPINE_3_8 = true ->
  doc_skeleton (e_doc e') = doc_skeleton (e_doc e) /\ e_ver e' = e_ver e /\ same_data (e_data e) (e_data e') /\ editor_json e' = editor_json e.
Proof. exact any_reloaded. Qed.
Print Assumptions C138_same.
Theorem C138_plain : forall e0 ops e, plain_slots (e_data e0) -> (forall sl k o, skin_attachment (e_data e0) sl k o -> o_cls o <> CSkinPath) ->
  (exists e1, mk_editor (editor_json e0) = Ok e1) -> any_calls e0 ops e ->
  ((exists e', mk_editor (editor_json e) = Ok e') <-> d_slots (e_data e) <> []).
Proof. exact any_reload_plain. Qed.
Print Assumptions C138_plain.
(** Through a file *)
Theorem C138_file : forall cwd p e0 ops e f g, any_calls e0 ops e -> used e -> fs_ok f -> f cwd = Some Dir ->
  to_json cwd p e f = (g, Ok tt) -> ((exists e', from_json_file cwd p g = Ok e') <-> can_reload (e_data e)).
Proof. intros cwd p e0 ops e f g H U K D T. destruct (to_json_read cwd p e f g U K D T) as [_ ->]. exact (any_reload _ _ _ H). Qed.
Print Assumptions C138_file.
Example C138_ex : any_calls (ed PropAgain.j134) PropAny.calls136 e137 /\ can_reload (e_data e137) /\ ver_ge (e_ver e137) SPINE_3_8 = true /\
  (forall sl k o, skin_attachment (e_data (ed PropAgain.j134)) sl k o -> o_cls o <> CSkinPath) /\ (exists e1, mk_editor (editor_json (ed PropAgain.j134)) = Ok e1) /\ d_slots (e_data e137) <> [].
Proof.
  split; [exact calls137 | ]. split; [apply (proj1 (C138_exact _ _ _ calls137)); eexists; vm_compute; reflexivity | ]. split; [vm_compute; reflexivity | ].
  split; [ | split; [eexists; vm_compute; reflexivity | vm_compute; discriminate]].
  intros sl k o A. apply all_attachments_in in A. assert (F : forallb (fun x => match o_cls (snd x) with CSkinPath => false | _ => true end) (all_attachments (e_data (ed PropAgain.j134))) = true) by (vm_compute; reflexivity).
  rewrite forallb_forall in F. specialize (F _ A). cbn [snd] in F. intros C. rewrite C in F. discriminate.
Qed.
