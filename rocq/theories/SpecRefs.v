(** What the editor's remove_slots and remove_attachments do to the references in a document. *)
From Verif Require Import PyBase Json Classes Graph SpineGraph DrawOrder SpecDraw AnimData Editor SpecSpine SpecEditor SpecFail.
Open Scope string_scope.

(** The graph, the images, the bones and all that names no slot and no attachment stay. *)
Record rest_kept (e e' : editor) : Prop := {
  rk_graph : e_graph e' = e_graph e;
  rk_images : e_images e' = e_images e;
  rk_skeleton : doc_skeleton (e_doc e') = doc_skeleton (e_doc e);
  rk_version : e_ver e' = e_ver e;
  rk_bones : d_bones (e_data e') = d_bones (e_data e);
  rk_ik : d_ik (e_data e') = d_ik (e_data e);
  rk_transform : d_transform (e_data e') = d_transform (e_data e);
  rk_path : d_path (e_data e') = d_path (e_data e);
  rk_events : d_events (e_data e') = d_events (e_data e) }.
Definition timelines_kept (a a' : animation) : Prop :=
  an_ik a' = an_ik a /\ an_bones a' = an_bones a /\ an_events a' = an_events a /\
  an_transform a' = an_transform a /\ an_path a' = an_path a.

(** The slots [ids] go from the skins, the timelines and the deforms; the slot list stays. *)
Definition skin_less (ids : list string) (s s' : skin) : Prop :=
  sk_name s' = sk_name s /\ sk_atts s' = kept ids (sk_atts s).
Definition animation_less (ids : list string) (a a' : animation) : Prop :=
  timelines_kept a a' /\ an_slots a' = kept ids (an_slots a) /\
  an_deform a' = map (fun kv => (fst kv, kept ids (snd kv))) (an_deform a) /\
  length (an_drawOrder a') = length (an_drawOrder a).
Record slots_unreferenced (ids : list string) (e e' : editor) : Prop := {
  su_rest : rest_kept e e';
  su_slots : d_slots (e_data e') = d_slots (e_data e);
  su_skins : Forall2 (skin_less ids) (d_skins (e_data e)) (d_skins (e_data e'));
  su_anims : Forall2 (fun x y => fst y = fst x /\ animation_less ids (snd x) (snd y))
               (d_animations (e_data e)) (d_animations (e_data e')) }.
(** A draw order key that the new list can be computed for *)
Definition computable (ids names : list string) (k : draw_order) : Prop :=
  ~ not_by_int names (do_offsets k) /\ ~ of_no_slot ids names (do_offsets k).

(** The attachments [ids] go from the skins and from the deforms of the skins; a slot whose
    setup attachment has a graph id in [ids] loses it. *)
Definition skin_emptied (ids : list string) (s s' : skin) : Prop :=
  sk_name s' = sk_name s /\ sk_atts s' = map (fun kv => (fst kv, kept ids (snd kv))) (sk_atts s).
Definition deform_emptied (d : anim_data) (ids : list string) (x y : string * dict (dict (list obj))) : Prop :=
  fst y = fst x /\
  (skin_named d (fst x) -> snd y = map (fun kv => (fst kv, kept ids (snd kv))) (snd x)) /\
  (~ skin_named d (fst x) -> snd y = snd x).
Definition slot_emptied (ids : list string) (s s' : obj) : Prop :=
  o_cls s' = o_cls s /\ (forall k, k <> "attachment" -> oget s' k = oget s k) /\
  ((exists a, ostr s "attachment" = Some a /\ In (att_id a) ids) -> oget s' "attachment" = VNone) /\
  ((forall a, ostr s "attachment" = Some a -> ~ In (att_id a) ids) -> s' = s).
Definition animation_emptied (d : anim_data) (ids : list string) (a a' : animation) : Prop :=
  timelines_kept a a' /\ an_slots a' = an_slots a /\ an_drawOrder a' = an_drawOrder a /\
  Forall2 (deform_emptied d ids) (an_deform a) (an_deform a').
Record attachments_unreferenced (ids : list string) (e e' : editor) : Prop := {
  au_rest : rest_kept e e';
  au_slots : Forall2 (slot_emptied ids) (d_slots (e_data e)) (d_slots (e_data e'));
  au_skins : Forall2 (skin_emptied ids) (d_skins (e_data e)) (d_skins (e_data e'));
  au_anims : Forall2 (fun x y => fst y = fst x /\ animation_emptied (e_data e) ids (snd x) (snd y))
               (d_animations (e_data e)) (d_animations (e_data e')) }.
