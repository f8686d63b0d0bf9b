(** Specification for C127: clean-ups that fail. *)
From Verif Require Import PyBase Json Version Classes SpineGraph DrawOrder SpecDraw AnimData Editor SpecAnim SpecEditor SpecProduct.
Open Scope string_scope.

(** ** Clean-ups that fail in the draw orders *)
(** All draw order keys, as they are visited. *)
Definition draw_keys (d : anim_data) : list draw_order := flat_map (fun kv => an_drawOrder (snd kv)) (d_animations d).
Definition sound_key (names : list string) (k : draw_order) : Prop :=
  ~ not_by_int names (do_offsets k) /\ ~ of_no_slot [] names (do_offsets k).
(** The first key that is not sound. *)
Definition first_unsound (d : anim_data) (before : list draw_order) (k : draw_order) (after : list draw_order) : Prop :=
  let names := map slot_name (d_slots d) in
  draw_keys d = (before ++ k :: after)%list /\ (forall k', In k' before -> sound_key names k') /\ ~ sound_key names k.
(** The attachments a clean-up removes *)
Definition goes (d : anim_data) (k : string) : Prop :=
  ~ used_attachment d k /\ exists sl o, skin_attachment d sl k o /\
    (o_cls o = CSkinMesh -> exists s, In s (d_slots d) /\ slot_name s = sl /\ ~ used_slot d s).
(** The slots a clean-up removes *)
Definition slot_goes (d : anim_data) (s : obj) : Prop :=
  ~ used_slot d s \/ forall k o, skin_attachment d (slot_name s) k o -> goes d k.
(** What is left: the slots are gone from the list and the skins, the attachments, images and later
    draw orders are not.  [rewritten removed names] is what happens to the others. *)
Record half_cleaned (rewritten : list string -> list string -> draw_order -> draw_order -> Prop) (e e' : editor) (before rest : list draw_order) (gone : list string) : Prop := {
  hc_gone : forall n, In n gone <-> exists s, In s (d_slots (e_data e)) /\ slot_name s = n /\ slot_goes (e_data e) s;
  hc_slots : map slot_name (d_slots (e_data e')) = without gone (map slot_name (d_slots (e_data e)));
  hc_skins : forall sl k o, skin_attachment (e_data e') sl k o <-> skin_attachment (e_data e) sl k o /\ ~ In sl gone;
  hc_drawn : exists before', draw_keys (e_data e') = (before' ++ rest)%list /\
    Forall2 (rewritten gone (map slot_name (d_slots (e_data e)))) before before';
  hc_images : e_images e' = e_images e;
  hc_skeleton : doc_skeleton (e_doc e') = doc_skeleton (e_doc e) }.

(** ** Scaling that fails *)
(** What [scaled] means in the first pass over the bones *)
Definition if_independent (sx sy : val) (b b' : obj) : Prop := (independent b -> scaled sx sy b b') /\ (~ independent b -> b' = b).
(** A bone cannot be multiplied: nothing has happened to it, or only scaleX is. *)
Inductive scaling_fails (sx sy : val) (b : obj) (x : exn) : obj -> Prop :=
| fails_at_x : no_product (oget b "scaleX") sx x -> scaling_fails sx sy b x b
| fails_at_y : forall b', o_cls b' = o_cls b -> dkeys (o_attrs b') = dkeys (o_attrs b) ->
    product (oget b "scaleX") sx (oget b' "scaleX") -> (forall k, k <> "scaleX" -> oget b' k = oget b k) ->
    no_product (oget b "scaleY") sy x -> scaling_fails sx sy b x b'.
Inductive scale_stops (sx sy : val) (x : exn) : list obj -> list obj -> Prop :=
| stops_first : forall l1 b l2 l1' b', Forall2 (if_independent sx sy) l1 l1' -> independent b -> scaling_fails sx sy b x b' ->
    scale_stops sx sy x (l1 ++ b :: l2) (l1' ++ b' :: l2)
| stops_root : forall l1 r l2 l1' r1 r' l2', Forall2 (if_independent sx sy) l1 l1' -> Forall2 (if_independent sx sy) l2 l2' -> if_independent sx sy r r1 ->
    (forall b, In b l1 -> bone_name b <> "root") -> bone_name r = "root" -> scaling_fails sx sy r1 x r' ->
    scale_stops sx sy x (l1 ++ r :: l2) (l1' ++ r' :: l2')
| stops_no_root : forall l l' w, Forall2 (if_independent sx sy) l l' -> (forall b, In b l -> bone_name b <> "root") -> x = EAttr w ->
    scale_stops sx sy x l l'.

(** ** The exceptions of the calls *)
Definition clean_raises (x : exn) : Prop := (exists w, x = EValue w) \/ (exists k, x = EKey k) \/ (exists w, x = EType w).
Definition may_raise (op : eop) (x : exn) : Prop :=
  match op with
  | EoClean _ => clean_raises x
  | EoEraseSkins _ _ safe => (exists w, x = EEditor w) \/ (exists k, x = EKey k) \/ (safe = false /\ clean_raises x)
  | EoEraseAnimations _ _ strict safe => (strict = true /\ exists w, x = EValue w) \/ (safe = false /\ clean_raises x)
  | EoScale _ _ => (exists w, x = EType w) \/ x = EOverflow \/ (exists w, x = EAttr w)
  end.
