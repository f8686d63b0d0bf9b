(** Properties C134, C135 (clean-ups after a clean-up that failed). *)
From Verif Require Import PyBase PyNum Json Version Classes Graph SpineGraph DrawOrder SpecDraw AnimData Editor SpecAnim SpecEditor SpecFail SpecAgain
  EditorHist EditorFail EditorAgain EditorRun.
From Verif Require NumFacts PropFail.
Open Scope string_scope.

(** ** C134: "A clean-up that failed can be tried again once the animation at fault is erased" is false *)
(** The animation "bad" has a draw order of a slot there is not, and nothing uses attachment "m2".  After
    the failed clean-up and the erasure of "bad", cleaning up fails on "m2".  It works when "bad" is erased first,
    and when the graph is built again in between. *)
Definition j134 : val := json "3.8.99" [bone "root" []] [slot "s" (shows "m")] []
  [skin_doc "default" [("s", VDict [("m", region "p"); ("m2", region "p2")])]]
  [("walk", VDict [("drawOrder", VList [PropFail.order_of [("s", 0%Z)]])]); ("bad", VDict [("drawOrder", VList [PropFail.order_of [("x", 1%Z)]])])].
Definition erase_bad : eop := EoEraseAnimations in_order ["bad"] true true.
Theorem C134_refuted : exists j e1 e2 e3 x y,
  loads j = true /\ estep (ed j) (EoClean in_order) = (e1, Err x) /\ estep e1 erase_bad = (e2, Ok tt) /\ estep e2 (EoClean in_order) = (e3, Err y) /\
  (exists f1 f2, estep (ed j) erase_bad = (f1, Ok tt) /\ estep f1 (EoClean in_order) = (f2, Ok tt)) /\
  (exists g1 g2, estep e2 (EoEraseSkins in_order [] true) = (g1, Ok tt) /\ estep g1 (EoClean in_order) = (g2, Ok tt)).
Proof.
  exists j134. eexists _, _, _, _, _. split; [vm_compute; reflexivity | ]. do 3 (split; [vm_compute; reflexivity | ]).
  split; eexists _, _; (split; [vm_compute; reflexivity | vm_compute; reflexivity]).
Qed.
Print Assumptions C134_refuted.
(** ** C135: trying again at once always fails. *)
Theorem C135_again : forall e0 ops e enum e' x enum2, history e0 ops e -> order_ok enum -> order_ok enum2 -> plain_slots (e_data e0) ->
  clean_animation enum e = (e', Err x) -> exists e'' y, clean_animation enum2 e' = (e'', Err y).
Proof. exact fails_again. Qed.
Print Assumptions C135_again.
(** Later it fails as well, when an attachment goes that would have gone before. *)
Theorem C135_lost : forall e0 ops e enum, history e0 ops e -> order_ok enum -> plain_slots (e_data e0) -> analysable (e_data e) ->
  forall e' x e'' enum2 k, order_ok enum2 -> clean_animation enum e = (e', Err x) -> light_calls e' e'' ->
  analysable (e_data e'') -> goes (e_data e) k -> goes (e_data e'') k ->
  exists e3 w, clean_animation enum2 e'' = (e3, Err (EValue w)).
Proof. exact attachment_lost. Qed.
Print Assumptions C135_lost.
(** The hypotheses of C135_lost hold for "m2" of j134. *)
Ltac fine j := split;
  [ intros s H c E; list_in H; repeat destruct H as [<- | H]; try contradiction H; try discriminate E; injection E as <-; eexists; apply NumFacts.color_iff; vm_compute; reflexivity
  | intros a (i & H); list_in H; repeat destruct H as [H | H]; try contradiction H; injection H as <- <-; (split; [intros n t [] | ]); left;
    match eval vm_compute in (d_slots (e_data (ed j))) with ?s :: _ => exists s end; (split; [vm_compute; left; reflexivity | ]);
    (split; [intros (c & n & Ec & Z & M); discriminate Ec | intros (Z & _); discriminate Z]) ].
Ltac m2_goes := split;
  [ intros (a & s & (i & Ha) & Hs & _ & K); list_in Ha; list_in Hs; repeat destruct Hs as [<- | Hs]; try contradiction Hs;
    repeat destruct Ha as [Ha | Ha]; try contradiction Ha; injection Ha as <- <-; (destruct K as [K | (t & [] & _)]; discriminate K)
  | exists "s"; eexists; split; [eexists _, _; split; [vm_compute; left; reflexivity | ]; split; [vm_compute; left; reflexivity | ]; vm_compute; right; left; reflexivity | intros Z; discriminate Z] ].
Example C135_ex : history (ed j134) [] (ed j134) /\ plain_slots (e_data (ed j134)) /\ analysable (e_data (ed j134)) /\
  let e' := fst (clean_animation in_order (ed j134)) in
  snd (clean_animation in_order (ed j134)) = Err (EValue "x not in list") /\ light_calls e' (fst (estep e' erase_bad)) /\
  analysable (e_data (fst (estep e' erase_bad))) /\ goes (e_data (ed j134)) "m2" /\ goes (e_data (fst (estep e' erase_bad))) "m2".
Proof.
  split; [apply PropFail.history_of; vm_compute; reflexivity | ]. split; [apply plain_slotsb_ok; vm_compute; reflexivity | ].
  split; [fine j134 | ]. cbv zeta. split; [vm_compute; reflexivity | ]. split.
  - eapply one_more; [apply no_calls | | apply surjective_pairing]. reflexivity.
  - split; [fine j134 | ]. split; m2_goes.
Qed.
