(** Specification for the editor: histories of calls, the images attachments use, and the
    odd names that the conversion between names and graph ids does not survive. *)
From Verif Require Import PyBase Json Version Classes SpineGraph DrawOrder SpecDraw AnimData Editor SpecAnim SpecProduct.
Open Scope string_scope.

(** JSON in which every object has each key once, as a JSON parser builds it. *)
Inductive proper : val -> Prop :=
| proper_none : proper VNone
| proper_bool : forall b, proper (VBool b)
| proper_int : forall z, proper (VInt z)
| proper_float : forall f, proper (VFloat f)
| proper_str : forall s, proper (VStr s)
| proper_list : forall l, Forall proper l -> proper (VList l)
| proper_dict : forall d, NoDup (dkeys d) -> (forall k v, In (k, v) d -> proper v) -> proper (VDict d).

(** ** Histories of successful calls, latest call first *)
Definition loaded (e : editor) : Prop := exists j, proper j /\ mk_editor j = Ok e.
Inductive history (e0 : editor) : list eop -> editor -> Prop :=
| history_load : loaded e0 -> history e0 [] e0
| history_step : forall ops e op e', history e0 ops e -> eop_ok op -> estep e op = (e', Ok tt) ->
    history e0 (op :: ops) e'.

(** The bones and slots as of the last call that reads them into the graph: loading, or
    erase_skins. *)
Inductive last_built (e0 : editor) : list eop -> editor -> editor -> Prop :=
| built_load : loaded e0 -> last_built e0 [] e0 e0
| built_step : forall ops e eb op e', last_built e0 ops e eb -> eop_ok op -> estep e op = (e', Ok tt) ->
    last_built e0 (op :: ops) e' (match op with EoEraseSkins _ _ _ => e | _ => eb end).

(** ** Images *)
(** The image of attachment [o] filed under [k]: its path, else its name, else its key
    (null and the empty string count as missing). *)
Definition att_image (k : string) (o : obj) : string :=
  match ostr o "path" with
  | Some (String c p) => String c p
  | _ => match ostr o "name" with Some (String c n) => String c n | _ => k end
  end.

(** ** Names *)
Definition has_text (s x : string) : Prop := exists a b, s = a ++ x ++ b.
(** No slot name contains "_SLOT", no image name "_IMAGE", and no attachment is filed under
    the name of a setup attachment followed by "_ATTACHMENT". *)
Definition plain_slots (d : anim_data) : Prop :=
  forall s, In s (d_slots d) -> ~ has_text (slot_name s) "_SLOT".
Definition plain_images (d : anim_data) : Prop :=
  forall sl k o, skin_attachment d sl k o -> ~ has_text (att_image k o) "_IMAGE".
Definition plain_setup (d : anim_data) : Prop :=
  forall s a sl k o, In s (d_slots d) -> ostr s "attachment" = Some a -> skin_attachment d sl k o ->
    k <> a ++ "_ATTACHMENT".

(** ** References *)
Definition slot_in_skins (d : anim_data) (n : string) : Prop :=
  exists s, In s (d_skins d) /\ In n (dkeys (sk_atts s)).
Definition slot_in_timelines (d : anim_data) (n : string) : Prop :=
  exists a, in_animations d a /\ In n (dkeys (an_slots a)).
Definition slot_in_deforms (d : anim_data) (n : string) : Prop :=
  exists a i x, in_animations d a /\ In (i, x) (an_deform a) /\ In n (dkeys x).
Definition slot_in_draw_orders (d : anim_data) (n : string) : Prop :=
  exists a k o, in_animations d a /\ In k (an_drawOrder a) /\ In o (do_offsets k) /\ oget o "slot" = VStr n.
Definition mentions_slot (d : anim_data) (n : string) : Prop :=
  slot_in_skins d n \/ slot_in_timelines d n \/ slot_in_deforms d n \/ slot_in_draw_orders d n.

Definition attachment_in_skins (d : anim_data) (k : string) : Prop := exists sl o, skin_attachment d sl k o.
(** A deform timeline filed under the name of a skin *)
Definition attachment_in_deforms (d : anim_data) (k : string) : Prop :=
  exists a s i x sl y, in_animations d a /\ In s (d_skins d) /\ sk_name s = Some i /\
    In (i, x) (an_deform a) /\ In (sl, y) x /\ In k (dkeys y).
Definition attachment_in_setup (d : anim_data) (k : string) : Prop :=
  exists s, In s (d_slots d) /\ ostr s "attachment" = Some k.
(** Timeline [t] of slot [sl] has a keyframe that names [k]. *)
Definition keyframe_names (d : anim_data) (sl : string) (t : slot_timeline) (k : string) : Prop :=
  exists a kf, in_animations d a /\ In (sl, t) (an_slots a) /\ In kf (st_attachment t) /\ ostr kf "name" = Some k.
Definition attachment_in_keyframes (d : anim_data) (k : string) : Prop := exists sl t, keyframe_names d sl t k.

(** The names of [l] without those of [gone], in their order *)
Definition without (gone l : list string) : list string := filter (fun n => negb (smem n gone)) l.

(** ** What a clean-up keeps *)
Definition kept {A} (gone : list string) (d : dict A) : dict A := filter (fun kv => negb (smem (fst kv) gone)) d.
Definition bones_json (e : editor) : list val := map (obj_json (e_ver e)) (d_bones (e_data e)).
Definition ik_json (e : editor) : list val := map (obj_json (e_ver e)) (d_ik (e_data e)).
Definition skin_named (d : anim_data) (i : string) : Prop := exists s, In s (d_skins d) /\ sk_name s = Some i.

Definition skin_kept (slots atts : list string) (s s' : skin) : Prop :=
  sk_name s' = sk_name s /\
  sk_atts s' = map (fun kv => (fst kv, kept atts (snd kv))) (kept slots (sk_atts s)).
(** Deform timelines: by skin, slot and attachment *)
Definition deform_kept (d : anim_data) (slots atts : list string) (x y : string * dict (dict (list obj))) : Prop :=
  fst y = fst x /\
  (skin_named d (fst x) -> snd y = map (fun kv => (fst kv, kept atts (snd kv))) (kept slots (snd x))) /\
  (~ skin_named d (fst x) -> snd y = kept slots (snd x)).
(** Draw orders: valid, and the slots listed before, that stay and that move, each by the
    distance between its places in the two lists of surviving slots *)
Definition draw_order_kept (slots names : list string) (k k' : draw_order) : Prop :=
  do_time k' = do_time k /\
  exists ms', moves_of (do_offsets k') ms' /\ valid_moves (without slots names) ms' /\
    forall ms l, moves_of (do_offsets k) ms -> valid_moves names ms -> draw_order_of names ms l ->
    forall s z, In (s, z) ms' <-> In s (map fst ms) /\ ~ In s slots /\ z <> 0%Z /\
      exists i j, nth_error (without slots names) i = Some s /\ nth_error (without slots l) j = Some s /\
        z = (Z.of_nat j - Z.of_nat i)%Z.
Record animation_kept (d : anim_data) (slots atts : list string) (a a' : animation) : Prop := {
  ak_ik : an_ik a' = an_ik a;
  ak_bones : an_bones a' = an_bones a;
  ak_events : an_events a' = an_events a;
  ak_transform : an_transform a' = an_transform a;
  ak_path : an_path a' = an_path a;
  ak_slots : an_slots a' = kept slots (an_slots a);
  ak_deform : Forall2 (deform_kept d slots atts) (an_deform a) (an_deform a');
  ak_draw : Forall2 (draw_order_kept slots (map slot_name (d_slots d))) (an_drawOrder a) (an_drawOrder a') }.

(** The slots and attachments in the lists go, all else stays as it is, where it is. *)
Record all_else_kept (slots atts : list string) (e e' : editor) : Prop := {
  ek_skeleton : doc_skeleton (e_doc e') = doc_skeleton (e_doc e);
  ek_version : e_ver e' = e_ver e;
  ek_ik : ik_json e' = ik_json e;
  ek_transform : d_transform (e_data e') = d_transform (e_data e);
  ek_path : d_path (e_data e') = d_path (e_data e);
  ek_events : d_events (e_data e') = d_events (e_data e);
  ek_slots : d_slots (e_data e') = filter (fun s => negb (smem (slot_name s) slots)) (d_slots (e_data e));
  ek_skins : Forall2 (skin_kept slots atts) (d_skins (e_data e)) (d_skins (e_data e'));
  ek_anims : Forall2 (fun x y => fst y = fst x /\ animation_kept (e_data e) slots atts (snd x) (snd y))
               (d_animations (e_data e)) (d_animations (e_data e')) }.

(** ** Images in use *)
Definition image_in_use (d : anim_data) (i : string) : Prop :=
  exists sl k o, skin_attachment d sl k o /\ o_cls o <> CSkinPath /\ i = att_image k o.
(** Attachments filed under the same name share their image, every attachment names its
    image, no attachment is a path, and skin names are distinct. *)
Record tidy (d : anim_data) : Prop := {
  td_slots : plain_slots d;
  td_images : plain_images d;
  td_one : forall sl k o sl' o', skin_attachment d sl k o -> skin_attachment d sl' k o' -> att_image k o = att_image k o';
  td_named : forall sl k o, skin_attachment d sl k o -> exists i, names_image o (Some i) /\ i <> "";
  td_path : forall sl k o, skin_attachment d sl k o -> o_cls o <> CSkinPath;
  td_skins : NoDup (map sk_name (d_skins d)) }.

(** ** Iteration orders *)
(** The same call, perhaps with another iteration order *)
Definition same_call (op op' : eop) : Prop :=
  match op, op' with
  | EoEraseSkins _ l safe, EoEraseSkins _ l' safe' => l = l' /\ safe = safe'
  | EoEraseAnimations _ l strict safe, EoEraseAnimations _ l' strict' safe' => l = l' /\ strict = strict' /\ safe = safe'
  | EoClean _, EoClean _ => True
  | EoScale sx sy, EoScale sx' sy' => sx = sx' /\ sy = sy'
  | _, _ => False
  end.
(** Two reports with the same content: (slots, attachments) *)
Definition same_report (r r' : list string * list string) : Prop :=
  Permutation (fst r) (fst r') /\ Permutation (snd r) (snd r').
Definition same_result {A} (R : A -> A -> Prop) (r r' : res A) : Prop :=
  match r, r' with Ok x, Ok y => R x y | Err x, Err y => x = y | _, _ => False end.

(** ** What a clean-up needs *)
(** Every offset is a whole number of places for a slot of the document. *)
Definition draw_orders_ok (d : anim_data) : Prop :=
  forall a k o, in_animations d a -> In k (an_drawOrder a) -> In o (do_offsets k) ->
    exists s z, offset_of o (s, z) /\ In s (map slot_name (d_slots d)).
Definition colors_ok (d : anim_data) : Prop := forall s, In s (d_slots d) -> readable_color s.
Definition timelines_ok (d : anim_data) : Prop :=
  forall a n t, in_animations d a -> In (n, t) (an_slots a) -> n <> "" /\ In n (map slot_name (d_slots d)).
(** Some slot is visible in the setup pose, or every animation has a slot timeline. *)
Definition something_to_show (d : anim_data) : Prop :=
  forall a, in_animations d a -> (exists s, In s (d_slots d) /\ visible_in_setup s) \/ an_slots a <> [].
Definition ready (d : anim_data) : Prop := colors_ok d /\ timelines_ok d /\ draw_orders_ok d.

(** ** Scaling *)
(** The bones that do not inherit the scale of their parent *)
Definition independent (b : obj) : Prop :=
  exists t, ostr b "transform" = Some t /\ In t ["noScale"; "noScaleOrReflection"; "onlyTranslation"].
(** [b'] is [b] with scaleX and scaleY multiplied. *)
Definition scaled (sx sy : val) (b b' : obj) : Prop :=
  o_cls b' = o_cls b /\ dkeys (o_attrs b') = dkeys (o_attrs b) /\
  product (oget b "scaleX") sx (oget b' "scaleX") /\ product (oget b "scaleY") sy (oget b' "scaleY") /\
  forall k, k <> "scaleX" -> k <> "scaleY" -> oget b' k = oget b k.
(** Once if independent, and once more if it is called "root" *)
Definition rescaled (sx sy : val) (b b' : obj) : Prop :=
  exists b1, (independent b -> scaled sx sy b b1) /\ (~ independent b -> b1 = b) /\
             (bone_name b = "root" -> scaled sx sy b1 b') /\ (bone_name b <> "root" -> b' = b1).
Definition has_root (d : anim_data) : Prop := exists b, In b (d_bones d) /\ bone_name b = "root".

(** ** Versions *)
(** The document [j] with another version string *)
Definition with_spine (s : string) (j : val) : val :=
  match j with
  | VDict d => match dget "skeleton" d with
               | Some (VDict sk) => VDict (dset "skeleton" (VDict (dset "spine" (VStr s) sk)) d)
               | _ => j
               end
  | _ => j
  end.
