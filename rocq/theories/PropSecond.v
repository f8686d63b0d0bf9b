(** Property C156 (saving and loading a second time). *)
From Verif Require Import PyBase PyNum Json JsonText Version Classes Graph SpineGraph DrawOrder SpecDraw SpecDoc AnimData Editor Files SpecText SpecFiles SpecAnim SpecEditor SpecFail SpecAny
  SpecReload EditorRun ReloadAgain ReloadSecond.
From Verif Require PropEditor PropFiles.
Open Scope string_scope.

(** ** C156: the second time, saving and loading gives back the very same editor, and writes the same file *)
Theorem C156_editor : forall e0 ops e e', any_calls e0 ops e -> mk_editor (editor_json e) = Ok e' ->
  no_null_time (e_data e) \/ ver_ge (e_ver e) SPINE_3_8 = true -> mk_editor (editor_json e') = Ok e'.
Proof. exact second_load. Qed.
Print Assumptions C156_editor.
Theorem C156_files : forall cwd p q e0 ops e e' f g h, any_calls e0 ops e -> used e -> fs_ok f -> f cwd = Some Dir ->
  no_null_time (e_data e) \/ ver_ge (e_ver e) SPINE_3_8 = true ->
  to_json cwd p e f = (g, Ok tt) -> from_json_file cwd p g = Ok e' -> to_json cwd q e' g = (h, Ok tt) ->
  from_json_file cwd q h = Ok e' /\ exists x, read_file cwd p g = Ok x /\ read_file cwd q h = Ok x.
Proof. exact second_files. Qed.
Print Assumptions C156_files.

(** The document of C78, cleaned up, saved to one file, loaded and saved to another *)
Definition e156 : editor := after PropEditor.jm [EoClean in_order].
Definition l156 : editor := match mk_editor (editor_json e156) with Ok x => x | Err _ => e156 end.
Definition d156 : fs := fst (to_json [] "d/a.json" e156 PropFiles.disk).
Example C156_ex : any_calls (ed PropEditor.jm) [EoClean in_order] e156 /\ used e156 /\ ver_ge (e_ver e156) SPINE_3_8 = true /\ mk_editor (editor_json e156) = Ok l156 /\
  snd (to_json [] "d/a.json" e156 PropFiles.disk) = Ok tt /\ from_json_file [] "d/a.json" d156 = Ok l156 /\ snd (to_json [] "d/b.json" l156 d156) = Ok tt.
Proof.
  split; [apply history_calls; apply (runs_ok PropEditor.jm [EoClean in_order]); [repeat (apply Forall_cons || apply Forall_nil); first [exact in_order_ok | exact I] | vm_compute; reflexivity] | ].
  assert (Q : e156 = fst (estep (ed PropEditor.jm) (EoClean in_order))) by (vm_compute; reflexivity).
  assert (U : used e156) by (rewrite Q; apply used_call; [exact PropFiles.jm_used | exact I]).
  split; [exact U | ]. split; [vm_compute; reflexivity | ]. assert (L : mk_editor (editor_json e156) = Ok l156) by (vm_compute; reflexivity). split; [exact L | ].
  assert (S : snd (to_json [] "d/a.json" e156 PropFiles.disk) = Ok tt) by (vm_compute; reflexivity). split; [exact S | ].
  split; [ | vm_compute; reflexivity].
  assert (P : to_json [] "d/a.json" e156 PropFiles.disk = (d156, Ok tt)) by (rewrite <- S; apply surjective_pairing).
  destruct (PropFiles.C97_read_back [] "d/a.json" e156 PropFiles.disk d156 U PropFiles.disk_ok eq_refl P) as [_ ->]. exact L.
Qed.
