(** Properties C109-C116 (calls in another order, in parts, or with nothing to do). *)
From Verif Require Import PyBase PyNum Json Version Classes Graph SpineGraph SpecDoc DrawOrder AnimData Editor SpecAnim SpecEditor EditorRun RelFacts PropEditor.
Open Scope string_scope.

(** ** C109: erasing animations never brings an unused slot or attachment into use *)
Theorem C109_analysis : forall e0 ops e enum l strict e' r slots atts, history e0 ops e -> erase_animations enum l strict true e = (e', r) ->
  get_unused_slots_and_attachments (e_data e) = Ok (slots, atts) ->
  exists slots' atts', get_unused_slots_and_attachments (e_data e') = Ok (slots', atts') /\ incl slots slots' /\ incl atts atts'.
Proof. exact erase_grows. Qed.
Print Assumptions C109_analysis.
Theorem C109_reports : forall e0 ops e enum enum' l strict e1 rem atts e2 j rem' atts', plain_slots (e_data e0) -> history e0 ops e -> order_ok enum -> order_ok enum' ->
  clean_animation enum e = (e1, Ok (rem, atts)) -> erase_animations enum' l strict false e = (e2, Ok (j, (rem', atts'))) ->
  incl rem rem' /\ incl atts atts'.
Proof. exact clean_grows. Qed.
Print Assumptions C109_reports.
(** Without walk neither the hat nor the eye, nor the coat, has a timeline. *)
Example C109_ex : cleans (ed jm) = Some (["ghost"], ["body2"; "g"]) /\
  exists e2 j, erase_animations in_order ["walk"] true false (ed jm) = (e2, Ok (j, (["hat"; "ghost"], ["body2"; "hat2"; "g"; "coat"; "hat1"]))).
Proof. split; [vm_compute; reflexivity | ]. eexists _, _. vm_compute. reflexivity. Qed.

(** ** C110: a clean-up of a document without animations empties it, and it cannot be loaded again *)
Theorem C110_clean : forall e0 ops e enum e' rem atts, plain_slots (e_data e0) -> history e0 ops e -> order_ok enum ->
  d_animations (e_data e) = [] -> clean_animation enum e = (e', Ok (rem, atts)) ->
  d_slots (e_data e') = [] /\ (forall sl k o, ~ skin_attachment (e_data e') sl k o) /\ exists x, mk_editor (editor_json e') = Err x.
Proof. exact no_animations. Qed.
Print Assumptions C110_clean.
Theorem C110_erase : forall e0 ops e enum l strict e' r, plain_slots (e_data e0) -> history e0 ops e -> order_ok enum ->
  (forall n, In n (dkeys (d_animations (e_data e))) -> In n l) -> erase_animations enum l strict false e = (e', Ok r) ->
  d_slots (e_data e') = [] /\ (forall sl k o, ~ skin_attachment (e_data e') sl k o) /\ exists x, mk_editor (editor_json e') = Err x.
Proof. exact all_erased. Qed.
Print Assumptions C110_erase.
Example C110_ex : exists e' j, erase_animations in_order ["walk"; "idle"] true false (ed jm) =
    (e', Ok (j, (["body"; "hat"; "ghost"; "eye"; "foot"], ["body2"; "hat2"; "g"; "eye1"; "f1"; "body1"; "coat"; "hat1"]))) /\
  mk_editor (editor_json e') = Err (EKey "slots").
Proof. eexists _, _. split; [vm_compute; reflexivity | vm_compute; reflexivity]. Qed.

(** ** C111: safe erasing of animations and of skins, in either order *)
Theorem C111_order : forall enum enum' l a strict e e1 r1 e2 r2,
  erase_animations enum a strict true e = (e1, r1) -> erase_skins enum' l true e = (e2, r2) ->
  exists e3 r3, erase_skins enum' l true e1 = (e3, r2) /\ erase_animations enum a strict true e2 = (e3, r3) /\
    (forall j, r1 = Ok (j, ([], [])) -> r3 = Ok (editor_json e3, ([], []))) /\ (forall x, r1 = Err x <-> r3 = Err x).
Proof. exact erase_commute. Qed.
Print Assumptions C111_order.
Example C111_ex : exists e1 j e2 im, erase_animations in_order ["walk"] true true (ed jm) = (e1, Ok (j, ([], []))) /\
  erase_skins in_order ["winter"] true (ed jm) = (e2, Ok (([], []), im)) /\ e_doc e1 <> e_doc (ed jm) /\ e_doc e2 <> e_doc (ed jm).
Proof. eexists _, _, _, _. split; [vm_compute; reflexivity | ]. split; [vm_compute; reflexivity | ]. split; vm_compute; discriminate. Qed.

(** ** C112: erasing skins in one call or in two leaves the same images.  False: the image
    "x" of the first skin is still the key of a mesh without a name in the second. *)
Definition j112 : val := json "3.8.99" [bone "root" []] [slot "s" (shows "k")] []
  [skin_doc "default" [("s", VDict [("k", region "p")])]; skin_doc "a" [("s", VDict [("l", region "x")])];
   skin_doc "b" [("s", VDict [("x", VDict [("type", VStr "mesh")])])]] [("idle", timelines [])].
Theorem C112_refuted : exists e e' r e1 r1 e2 r2, loaded e /\ erase_skins in_order ["a"; "b"] true e = (e', Ok r) /\
  erase_skins in_order ["a"] true e = (e1, Ok r1) /\ erase_skins in_order ["b"] true e1 = (e2, Ok r2) /\
  dkeys (e_images e') = ["p"] /\ dkeys (e_images e2) = ["p"; "x"].
Proof.
  exists (ed j112). eexists _, _, _, _, _, _. split; [apply loads_ok; vm_compute; reflexivity | ].
  split; [vm_compute; reflexivity | ]. split; [vm_compute; reflexivity | ]. split; [vm_compute; reflexivity | ]. split; vm_compute; reflexivity.
Qed.
Print Assumptions C112_refuted.

(** ** C113: in one call or in two: the same document and graph; perhaps more images *)
Theorem C113_skins : forall e0 ops e enum enum1 enum2 l1 l2, history e0 ops e -> order_ok enum1 ->
  (forall e' r, erase_skins enum (l1 ++ l2) true e = (e', Ok r) ->
     exists e1 r1 e2 r2, erase_skins enum1 l1 true e = (e1, Ok r1) /\ erase_skins enum2 l2 true e1 = (e2, Ok r2) /\
       e_doc e2 = e_doc e' /\ e_graph e2 = e_graph e' /\ exists imgs, e_images e' = filter (fun kv => negb (smem (fst kv) imgs)) (e_images e2)) /\
  (forall e1 r1 e2 r2, erase_skins enum1 l1 true e = (e1, Ok r1) -> erase_skins enum2 l2 true e1 = (e2, Ok r2) ->
     exists e' r, erase_skins enum (l1 ++ l2) true e = (e', Ok r)).
Proof. exact skins_in_parts. Qed.
Print Assumptions C113_skins.
Theorem C113_tidy : forall e0 ops e enum enum1 enum2 l1 l2 e' r e1 r1 e2 r2, tidy (e_data e0) -> history e0 ops e -> order_ok enum -> order_ok enum1 -> order_ok enum2 ->
  erase_skins enum (l1 ++ l2) true e = (e', Ok r) -> erase_skins enum1 l1 true e = (e1, Ok r1) -> erase_skins enum2 l2 true e1 = (e2, Ok r2) -> e2 = e'.
Proof. exact skins_in_parts_tidy. Qed.
Print Assumptions C113_tidy.
Theorem C113_animations : forall enum enum1 enum2 l1 l2 strict e e' r, erase_animations enum (l1 ++ l2) strict true e = (e', Ok r) <->
  exists e1 r1, erase_animations enum1 l1 strict true e = (e1, Ok r1) /\ erase_animations enum2 l2 strict true e1 = (e', Ok r).
Proof. exact animations_in_parts. Qed.
Print Assumptions C113_animations.
Example C113_ex : (exists e' r, erase_skins in_order (["winter"] ++ ["default"]) true (ed jm) = (e', Ok r)) /\
  tidy (e_data (ed jm)) /\ exists e' r, erase_animations in_order (["idle"] ++ ["walk"]) true true (ed jm) = (e', Ok r).
Proof. split; [eexists _, _; vm_compute; reflexivity | ]. split; [apply C74_ex | eexists _, _; vm_compute; reflexivity]. Qed.

(** ** C114: erasing nothing *)
Theorem C114_animations : forall enum strict e, erase_animations enum [] strict true e = (e, Ok (editor_json e, ([], []))).
Proof. exact no_names. Qed.
Print Assumptions C114_animations.
Theorem C114_skins : forall e0 ops e enum, history e0 ops e -> exists g, create_from_json_data (editor_json e) = Ok g /\
  erase_skins enum [] true e = (mkEditor (e_doc e) (e_images e) g, Ok (([], []), [])) /\
  forall e', mk_editor (editor_json e) = Ok e' -> no_null_time (e_data e) \/ ver_ge (e_ver e) SPINE_3_8 = true -> e_graph e' = g.
Proof. exact no_skin_names. Qed.
Print Assumptions C114_skins.
(** The graph does change: it takes up the bones as scaled. *)
Example C114_ex : history (ed jm) (rev hm) (after jm hm) /\ ver_ge (e_ver (after jm hm)) SPINE_3_8 = true /\
  (exists e', mk_editor (editor_json (after jm hm)) = Ok e') /\
  exists e', erase_skins in_order [] true (after jm [EoScale (VInt 2) (VInt 2)]) = (e', Ok (([], []), [])) /\
    e_graph e' <> e_graph (after jm [EoScale (VInt 2) (VInt 2)]).
Proof.
  split; [exact hm_runs | ]. split; [vm_compute; reflexivity | ]. split; [eexists; vm_compute; reflexivity | ]. eexists. split; [vm_compute; reflexivity | vm_compute; discriminate].
Qed.

(** ** C115: scaling before or after erasing skins makes no difference to what is exported
    after further calls.  False: a later clean-up restores the bones as they were when
    the skins were erased. *)
Definition s115 : eop := EoScale (VInt 2) (VInt 2).
Definition k115 : eop := EoEraseSkins in_order ["winter"] true.
Theorem C115_refuted : exists e0 e1 e2, history e0 [EoClean in_order; k115; s115] e1 /\ history e0 [EoClean in_order; s115; k115] e2 /\
  editor_json e1 <> editor_json e2.
Proof.
  exists (ed jm), (after jm [s115; k115; EoClean in_order]), (after jm [k115; s115; EoClean in_order]).
  split; [apply (runs_ok jm [s115; k115; EoClean in_order]); [repeat constructor; exact in_order_ok | vm_compute; reflexivity] | ].
  split; [apply (runs_ok jm [k115; s115; EoClean in_order]); [repeat constructor; exact in_order_ok | vm_compute; reflexivity] | ].
  vm_compute. discriminate.
Qed.
Print Assumptions C115_refuted.

(** ** C116: scaling before or after safe erasing gives the same document and images *)
Theorem C116_skins : forall e0 ops e enum l sx sy e1 e2 r2, history e0 ops e -> order_ok enum ->
  scale_animation sx sy e = (e1, Ok tt) -> erase_skins enum l true e = (e2, Ok r2) ->
  exists f1 s1 f2, erase_skins enum l true e1 = (f1, Ok s1) /\ scale_animation sx sy e2 = (f2, Ok tt) /\
    e_doc f1 = e_doc f2 /\ e_images f1 = e_images f2 /\ forall x, In x (snd r2) <-> In x (snd s1).
Proof. exact scale_erase_skins. Qed.
Print Assumptions C116_skins.
Theorem C116_animations : forall enum l strict sx sy e e1 r1 e2 r2,
  scale_animation sx sy e = (e1, r1) -> erase_animations enum l strict true e = (e2, r2) ->
  exists e3 r3, scale_animation sx sy e2 = (e3, r1) /\ erase_animations enum l strict true e1 = (e3, r3) /\
    (forall j, r2 = Ok (j, ([], [])) -> r3 = Ok (editor_json e3, ([], []))) /\ (forall x, r2 = Err x <-> r3 = Err x).
Proof. exact scale_erase_animations. Qed.
Print Assumptions C116_animations.
Example C116_ex : exists e1 e2 r2, scale_animation (VInt 2) (VInt 2) (ed jm) = (e1, Ok tt) /\ erase_skins in_order ["winter"] true (ed jm) = (e2, Ok r2) /\
  e_doc e1 <> e_doc (ed jm) /\ snd r2 = [Some "ct"].
Proof. eexists _, _, _. split; [vm_compute; reflexivity | ]. split; [vm_compute; reflexivity | ]. split; vm_compute; [discriminate | reflexivity]. Qed.
