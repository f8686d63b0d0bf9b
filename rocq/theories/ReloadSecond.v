(** Saving and loading a second time. *)
From Verif Require Import PyBase Json JsonText Version Classes SpecDoc Graph AnimData Editor Files SpecText SpecFiles SpecAnim SpecEditor SpecFail SpecAny SpecReload
  JsonInv FileFacts SaveFacts EditorAny EditorRepair.
Open Scope string_scope.

Lemma second_load : forall e0 ops e e', any_calls e0 ops e -> mk_editor (editor_json e) = Ok e' ->
  no_null_time (e_data e) \/ ver_ge (e_ver e) SPINE_3_8 = true -> mk_editor (editor_json e') = Ok e'.
Proof. intros e0 ops e e' H L T. destruct (any_reloaded _ _ _ H _ L T) as (_ & _ & _ & ->). exact L. Qed.

Lemma cwd_kept : forall cwd t x f g, f cwd = Some Dir -> file_written t x f g -> g cwd = Some Dir.
Proof.
  intros cwd t x f g D (_ & N & A). destruct (A cwd) as [-> | [Q _]]; [intros ->; contradiction | exact D | rewrite D in Q; discriminate].
Qed.

Lemma second_files : forall cwd p q e0 ops e e' f g h, any_calls e0 ops e -> used e -> fs_ok f -> f cwd = Some Dir ->
  no_null_time (e_data e) \/ ver_ge (e_ver e) SPINE_3_8 = true ->
  to_json cwd p e f = (g, Ok tt) -> from_json_file cwd p g = Ok e' -> to_json cwd q e' g = (h, Ok tt) ->
  from_json_file cwd q h = Ok e' /\ exists x, read_file cwd p g = Ok x /\ read_file cwd q h = Ok x.
Proof.
  intros cwd p q e0 ops e e' f g h H U K D T S L S'. destruct (to_json_read _ _ _ _ _ U K D S) as [_ R]. rewrite R in L.
  assert (U' : used e') by (eapply used_load; [exact (used_json e U) | exact L]).
  rewrite to_json_save in S. destruct (save_safe _ _ _ _ _ _ K D S) as (K' & _ & (X & t & W)). assert (D' := cwd_kept _ _ _ _ _ D W).
  destruct (to_json_read _ _ _ _ _ U' K' D' S') as [_ R']. rewrite to_json_save in S'. destruct (save_safe _ _ _ _ _ _ K' D' S') as (_ & _ & (X' & _)).
  destruct (any_reloaded _ _ _ H _ L T) as (_ & _ & _ & E). rewrite E in X'. split; [rewrite R'; exact (second_load _ _ _ _ H L T) | eauto].
Qed.
