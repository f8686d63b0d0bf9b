(** Properties C139 and C140 (images_references and calls that fail). *)
From Verif Require Import PyBase PyNum Json Version Classes Graph SpineGraph DrawOrder AnimData Editor SpecAnim SpecEditor SpecFail SpecAny EditorRun ImagesAny.
From Verif Require PropFail PropEditor.
Open Scope string_scope.

(** ** C139: "images_references covers every image in use, also after calls that failed" is false *)
(** Attachment "k" is a region on the unused slot "ghost" and a mesh on "s".  The clean-up takes it from the
    graph, and slot "ghost" from the document, before it fails in the draw order of "bad".  Once "bad" is erased
    nothing removes the mesh "k" any more, but its image, which nothing in the graph refers to. *)
Definition j139 : val := json "3.8.99" [bone "root" []] [slot "ghost" (("color", VStr "ffffff00") :: shows "k"); slot "s" (shows "m")] []
  [skin_doc "default" [("ghost", VDict [("k", region "p1")]); ("s", VDict [("m", region "p2"); ("k", mesh_of "p3")])]]
  [("walk", timelines [("s", frame (VStr "m"))]); ("bad", VDict [("drawOrder", VList [PropFail.order_of [("x", 1%Z)]])])].
Theorem C139_refuted : exists j e1 e2 x i,
  loads j = true /\ plain_images (e_data (ed j)) /\ plain_slots (e_data (ed j)) /\ estep (ed j) (EoClean in_order) = (e1, Err x) /\
  estep e1 (EoEraseAnimations in_order ["bad"] true false) = (e2, Ok tt) /\ image_in_use (e_data e2) i /\ ~ In i (dkeys (e_images e2)).
Proof.
  exists j139. eexists _, _, _, "p3". split; [vm_compute; reflexivity | ]. split; [apply plain_imagesb_ok; vm_compute; reflexivity | ]. split; [apply plain_slotsb_ok; vm_compute; reflexivity | ].
  split; [vm_compute; reflexivity | ]. split; [vm_compute; reflexivity | ]. split; [ | vm_compute; intros H; repeat (destruct H as [H | H]; [discriminate H | ]); exact H].
  eexists "s", "k", _. split.
  - eexists _, _. split; [vm_compute; left; reflexivity | ]. split; [vm_compute; left; reflexivity | ]. vm_compute. right. left. reflexivity.
  - split; [discriminate | vm_compute; reflexivity].
Qed.
Print Assumptions C139_refuted.

(** ** C140: what holds of images_references when calls fail *)
Theorem C140_failed : forall e op e' x, estep e op = (e', Err x) -> e_images e' = e_images e.
Proof. exact failed_images. Qed.
Print Assumptions C140_failed.
Theorem C140_fewer : forall e0 ops e, any_calls e0 ops e -> exists keep, e_images e = filter (fun kv => keep (fst kv)) (e_images e0).
Proof. exact calls_images. Qed.
Print Assumptions C140_fewer.
Example C140_ex : exists e1 x e2, estep (ed j139) (EoClean in_order) = (e1, Err x) /\ dkeys (e_images e1) = ["p1"; "p2"; "p3"] /\
  any_calls (ed j139) [EoEraseAnimations in_order ["bad"] true false; EoClean in_order] e2 /\ dkeys (e_images e2) = ["p2"].
Proof.
  eexists _, _, _. split; [vm_compute; reflexivity | ]. split; [vm_compute; reflexivity | ]. split.
  - eapply calls_more; [eapply calls_more; [apply calls_none; apply loads_ok; vm_compute; reflexivity | exact in_order_ok | vm_compute; reflexivity] | exact in_order_ok | vm_compute; reflexivity].
  - vm_compute. reflexivity.
Qed.
