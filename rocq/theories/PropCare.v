(** Properties C141 and C142 (callers that build the graph again, and documents with sound draw orders). *)
From Verif Require Import PyBase PyNum Json Version Classes Graph SpineGraph DrawOrder SpecDraw AnimData Editor SpecAnim SpecEditor SpecFail SpecAny SpecCare EditorRun ImagesCare EditorReady.
From Verif Require PropFail PropEditor PropImages.
Open Scope string_scope.

(** ** C141: no clean-up between a call that failed and erase_skins *)
Theorem C141_covered : forall e0 steady e, plain_images (e_data e0) -> plain_slots (e_data e0) -> careful_calls e0 steady e ->
  forall i, image_in_use (e_data e) i -> In i (dkeys (e_images e)).
Proof. exact careful_covered. Qed.
Print Assumptions C141_covered.
Lemma careful_run : forall j enum names e1 x e2 e3, loads j = true -> order_ok enum -> estep (ed j) (EoClean enum) = (e1, Err x) ->
  estep e1 (EoEraseSkins enum [] true) = (e2, Ok tt) -> estep e2 (EoEraseAnimations enum names true false) = (e3, Ok tt) -> careful_calls (ed j) true e3.
Proof.
  intros j enum names e1 x e2 e3 L O E1 E2 E3.
  refine (careful_works _ true _ (EoEraseAnimations enum names true false) _ _ O E3 (or_introl eq_refl)).
  refine (careful_works _ false _ (EoEraseSkins enum [] true) _ _ O E2 (or_intror (or_introl eq_refl))).
  exact (careful_fails _ true _ (EoClean enum) _ _ (careful_none _ (loads_ok _ L)) O E1).
Qed.
(** The calls of C139, with the graph built again in between: mesh "k" is in use, and its image is there. *)
Example C141_ex : plain_images (e_data (ed PropImages.j139)) /\ plain_slots (e_data (ed PropImages.j139)) /\
  exists e1 x e2 e3, estep (ed PropImages.j139) (EoClean in_order) = (e1, Err x) /\ estep e1 (EoEraseSkins in_order [] true) = (e2, Ok tt) /\
    estep e2 (EoEraseAnimations in_order ["bad"] true false) = (e3, Ok tt) /\ careful_calls (ed PropImages.j139) true e3 /\
    image_in_use (e_data e3) "p3" /\ dkeys (e_images e3) = ["p1"; "p2"; "p3"].
Proof.
  split; [apply plain_imagesb_ok; vm_compute; reflexivity | ]. split; [apply plain_slotsb_ok; vm_compute; reflexivity | ].
  eexists _, _, _, _. split; [vm_compute; reflexivity | ]. split; [vm_compute; reflexivity | ]. split; [vm_compute; reflexivity | ]. split; [ | split].
  - eapply (careful_run _ in_order ["bad"]); [vm_compute; reflexivity | exact in_order_ok | vm_compute; reflexivity | vm_compute; reflexivity | vm_compute; reflexivity].
  - eexists "s", "k", _. split.
    + eexists _, _. split; [vm_compute; left; reflexivity | ]. split; [vm_compute; left; reflexivity | ]. vm_compute. right. left. reflexivity.
    + split; [discriminate | vm_compute; reflexivity].
  - vm_compute. reflexivity.
Qed.

(** ** C142: documents with sound draw orders *)
Theorem C142_orders : forall e0 ops e, plain_slots (e_data e0) -> draw_orders_ok (e_data e0) -> any_calls e0 ops e -> draw_orders_ok (e_data e).
Proof. exact orders_kept. Qed.
Print Assumptions C142_orders.
Theorem C142_clean : forall e0 ops e enum, plain_slots (e_data e0) -> draw_orders_ok (e_data e0) -> any_calls e0 ops e -> order_ok enum ->
  (analysable (e_data e) -> exists e' r, clean_animation enum e = (e', Ok r)) /\ (~ analysable (e_data e) -> exists x, clean_animation enum e = (e, Err x)).
Proof. exact orders_clean. Qed.
Print Assumptions C142_clean.
Theorem C142_images : forall e0 ops e, plain_slots (e_data e0) -> plain_images (e_data e0) -> draw_orders_ok (e_data e0) -> any_calls e0 ops e ->
  forall i, image_in_use (e_data e) i -> In i (dkeys (e_images e)).
Proof. exact orders_images. Qed.
Print Assumptions C142_images.
(** A draw order of an existing slot, a skin, and a linked mesh that cannot be resolved: erasing both skins fails
    half way, after skin "a" is gone; a scaling fails too; the clean-up then works, and keeps image "p2". *)
Definition j142 : val := json "3.8.99" [bone "root" []] [slot "ghost" (("color", VStr "ffffff00") :: shows "g"); slot "s" (shows "m")] []
  [skin_doc "default" [("ghost", VDict [("g", region "p1")]); ("s", VDict [("m", region "p2")])]; skin_doc "a" [("s", VDict [("n", region "p3")])]]
  [("walk", VDict [("slots", VDict [("s", VDict [("attachment", VList [VDict [("name", VStr "m")]])])]); ("drawOrder", VList [PropFail.order_of [("ghost", 1%Z)]])])].
Example C142_ex : loaded (ed j142) /\ plain_slots (e_data (ed j142)) /\ plain_images (e_data (ed j142)) /\ draw_orders_ok (e_data (ed j142)) /\
  exists e1 x e2 y e3, estep (ed j142) (EoEraseSkins in_order ["a"; "b"] false) = (e1, Err x) /\ estep e1 (EoScale (VStr "x") VNone) = (e2, Err y) /\
    estep e2 (EoClean in_order) = (e3, Ok tt) /\ length (d_skins (e_data e1)) = 1 /\ map slot_name (d_slots (e_data e3)) = ["s"] /\ In "p2" (dkeys (e_images e3)) /\ ~ In "p1" (dkeys (e_images e3)).
Proof.
  split; [apply loads_ok; vm_compute; reflexivity | ]. split; [apply plain_slotsb_ok; vm_compute; reflexivity | ]. split; [apply plain_imagesb_ok; vm_compute; reflexivity | ]. split.
  - intros a k o [i Ha] Hk Ho. vm_compute in Ha. destruct Ha as [Ha | []]. injection Ha as _ <-. destruct Hk as [<- | []]. destruct Ho as [<- | []].
    exists "ghost", 1%Z. split; [split; vm_compute; auto | vm_compute; auto].
  - eexists _, _, _, _, _. do 4 (split; [vm_compute; reflexivity | ]). split; [vm_compute; reflexivity | ]. split; [vm_compute; auto | vm_compute; intuition discriminate].
Qed.
