(** Property C136 (calls after calls that failed). *)
From Verif Require Import PyBase PyNum Json Version Classes Graph SpineGraph DrawOrder SpecDraw AnimData Editor SpecAnim SpecEditor SpecFail SpecAny
  EditorHist EditorFail EditorAny EditorRun.
From Verif Require PropFail PropAgain.
Open Scope string_scope.

(** ** C136: a caller that goes on after exceptions meets no others, keeps the skeleton, and can build the graph again. *)
Theorem C136_raises : forall e0 ops e op e' x, any_calls e0 ops e -> estep e op = (e', Err x) -> may_raise op x.
Proof. exact any_raises. Qed.
Print Assumptions C136_raises.
Theorem C136_kept : forall e0 ops e, any_calls e0 ops e -> as_loaded e0 e.
Proof. exact any_kept. Qed.
Print Assumptions C136_kept.
Theorem C136_rebuilt : forall e0 ops e enum, any_calls e0 ops e -> exists g,
  create_from_json_data (editor_json e) = Ok g /\ estep e (EoEraseSkins enum [] true) = (mkEditor (e_doc e) (e_images e) g, Ok tt).
Proof. exact any_rebuilt. Qed.
Print Assumptions C136_rebuilt.
(** Five calls, of which three fail: the second on a draw order, the fourth on an attachment that is gone from the graph, the last on an unknown skin. *)
Definition calls136 : list eop := [EoEraseSkins in_order ["none"] false; EoClean in_order; PropAgain.erase_bad; EoClean in_order; EoScale (VInt 2) (VInt 2)].
Definition run_calls (e : editor) (ops : list eop) : editor := fold_right (fun op e => fst (estep e op)) e ops.
Lemma run_any : forall e ops, loaded e -> Forall eop_ok ops -> any_calls e ops (run_calls e ops).
Proof. intros e ops L H. induction H as [ | op ops O H IH]; [constructor; auto | ]. econstructor; [exact IH | exact O | apply surjective_pairing]. Qed.
Definition outcomes (e : editor) (ops : list eop) : list (res unit) :=
  snd (fold_right (fun op s => let '(e', r) := estep (fst s) op in (e', r :: snd s)) (e, []) ops).
Lemma in_order_ok : order_ok in_order.
Proof. intros i l. apply Permutation.Permutation_refl. Qed.
Example C136_ex : let e := run_calls (ed PropAgain.j134) calls136 in any_calls (ed PropAgain.j134) calls136 e /\
  map (fun r => match r with Ok _ => None | Err x => Some x end) (outcomes (ed PropAgain.j134) calls136) =
    [Some (EEditor "Trying to remove skin but was not found"); Some (EValue "Node was not found in the graph"); None; Some (EValue "x not in list"); None] /\
  exists x e', estep e (EoClean in_order) = (e', Err x).
Proof.
  split; [apply run_any; [eapply EditorOrder.history_loaded; apply PropFail.history_of; vm_compute; reflexivity | repeat (apply Forall_cons || apply Forall_nil); first [exact in_order_ok | exact I]] | ].
  split; [vm_compute; reflexivity | ]. eexists _, _. vm_compute. reflexivity.
Qed.
