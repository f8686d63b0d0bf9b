(** Model of the methods of SpineAnimationData (/repo/spine_json_lib/data/spine_anim_data.py:88-320),
    SlotTimeline (data_types/slot.py:57-108) and Animation (data_types/animation.py:94-117).

    A skin without attachments dictionary cannot occur here: the only code that builds
    SpineAnimationData fills in the defaults first (spine_anim_data.py:37-40). *)
From Verif Require Import PyBase PyNum Unicode Json Version Tags Classes SpineGraph DrawOrder.
From Coq Require Import SpecFloat.
Open Scope string_scope.

Definition bone_name (o : obj) : string := match ostr o "name" with Some s => s | None => "" end.
Definition sk_atts (s : skin) : dict (dict obj) :=
  match sk_attachments s with Some a => a | None => [] end.

(** spine_anim_data.py:88-92 *)
Definition get_slot (d : anim_data) (slot_id : string) : option obj :=
  find (fun s => String.eqb (slot_name s) slot_id) (d_slots d).
(** spine_anim_data.py:120-124; a bone name is never None *)
Definition get_bone (d : anim_data) (bone_id : option string) : option obj :=
  match bone_id with
  | Some i => find (fun b => String.eqb (bone_name b) i) (d_bones d)
  | None => None
  end.
(** spine_anim_data.py:126-130 *)
Definition get_skin (d : anim_data) (skin_id : string) : option skin :=
  find (fun s => opt_eqb (sk_name s) (Some skin_id)) (d_skins d).

(** spine_anim_data.py:103-107: the while loop.  Running out of fuel means that the loop
    does not end: with as much fuel as bones, some bone has been reached twice. *)
Fixpoint bone_scale_loop (fuel : nat) (d : anim_data) (result_scale : float64) (iter_bone : option obj)
    : res float64 :=
  match iter_bone with
  | None => Err (EAttr "'NoneType' object has no attribute 'name'")
  | Some b =>
      if String.eqb (bone_name b) "root" then Ok result_scale
      else match fuel with
           | O => Err EDiverges
           | S fuel' =>
               let! b_scale := scale_in_name (bone_name b) in
               bone_scale_loop fuel' d (fmul result_scale b_scale) (get_bone d (ostr b "parent"))
           end
  end.
(** spine_anim_data.py:94-107 *)
Definition get_bone_custom_scale_recursive (d : anim_data) (bone : option obj) : res float64 :=
  bone_scale_loop (S (length (d_bones d))) d f_one bone.
(** spine_anim_data.py:109-118 *)
Definition get_slot_custom_scale (d : anim_data) (slot : option obj) : res float64 :=
  match slot with
  | None => Err (EAttr "'NoneType' object has no attribute 'bone'")
  | Some s =>
      let slot_bone := get_bone d (ostr s "bone") in
      let! slot_scale := scale_in_name (slot_name s) in
      let! bone_scale := get_bone_custom_scale_recursive d slot_bone in
      Ok (fmul slot_scale bone_scale)
  end.

(** ** remove_skin, spine_anim_data.py:132-191 *)

(** 158-162: deepcopy, then the four assignments *)
Definition copy_mesh (source linked : obj) : obj :=
  let c := oset source "name" (oget linked "name") in
  let c := oset c "path" (oget linked "path") in
  let c := oset c "width" (oget linked "width") in
  oset c "height" (oget linked "height").

Definition links_to (skin_name : string) (o : obj) : bool :=
  match o_cls o with
  | CSkinLinkedMesh => py_eq (oget o "skin") (VStr skin_name)
  | _ => false
  end.

(** 146-164: one attachment *)
Definition relink (skin_name : string) (source : dict (dict obj)) (attachment_id : string)
    (kv : string * obj) : (string * obj) * res unit :=
  let '(slot_id, o) := kv in
  if links_to skin_name o then
    match (let! a := dget_err attachment_id source in dget_err slot_id a) with
    | Ok m => ((slot_id, copy_mesh m o), Ok tt)
    | Err e => (kv, Err e)
    end
  else (kv, Ok tt).

(** 143-164: the skins that stay are updated in place; the removed ones (same name) are
    not touched *)
Definition relink_skin (skin_name : string) (source : dict (dict obj)) (s : skin) : skin * res unit :=
  if opt_eqb (sk_name s) (Some skin_name) then (s, Ok tt)
  else
    let '(a, r) := mapM_inplace (fun kv => let '(l, r) := mapM_inplace (relink skin_name source (fst kv)) (snd kv) in
                                           ((fst kv, l), r)) (sk_atts s) in
    (mkSkin (sk_name s) (Some a), r).

(** 166-180: what was removed *)
Definition image_name (o : obj) : option string := py_or (ostr o "path") (ostr o "name").
Definition removed_images_of (kv : string * obj) : list (option string) :=
  let o := snd kv in
  match o_cls o with
  | CSkinAttachment => []
  | CSkinMesh | CSkinLinkedMesh => [image_name o]
  | _ => match ostr o "path" with Some p => [Some p] | None => [] end
  end.
Definition removed_attachments_of (d : dict obj) : dict string :=
  flat_map (fun kv => match o_cls (snd kv), image_name (snd kv) with
                      | CSkinAttachment, Some p => [(fst kv, p)]
                      | _, _ => []
                      end) d.
Definition skin_removed_images (s : skin) : list (option string) :=
  flat_map (fun kv => flat_map removed_images_of (snd kv)) (sk_atts s).
Definition skin_removed_attachments (s : skin) : dict (dict string) :=
  filter (fun kv => negb (Nat.eqb (length (snd kv)) 0)) (dmap removed_attachments_of (sk_atts s)).

(** 185-187 *)
Definition drop_deform (skin_name : string) (a : animation) : animation :=
  mkAnimation (an_ik a) (an_drawOrder a) (an_bones a) (an_slots a) (an_events a) (an_transform a)
    (an_path a) (ddel skin_name (an_deform a)).

Definition set_skins (d : anim_data) (s : list skin) : anim_data :=
  mkData (d_bones d) (d_slots d) s (d_events d) (d_ik d) (d_transform d) (d_path d) (d_animations d).
Definition set_animations (d : anim_data) (a : dict animation) : anim_data :=
  mkData (d_bones d) (d_slots d) (d_skins d) (d_events d) (d_ik d) (d_transform d) (d_path d) a.
Definition set_bones (d : anim_data) (b : list obj) : anim_data :=
  mkData b (d_slots d) (d_skins d) (d_events d) (d_ik d) (d_transform d) (d_path d) (d_animations d).
Definition set_slots (d : anim_data) (s : list obj) : anim_data :=
  mkData (d_bones d) s (d_skins d) (d_events d) (d_ik d) (d_transform d) (d_path d) (d_animations d).
Definition set_ik (d : anim_data) (i : list obj) : anim_data :=
  mkData (d_bones d) (d_slots d) (d_skins d) (d_events d) i (d_transform d) (d_path d) (d_animations d).

Definition not_named (skin_name : string) (s : skin) : bool := negb (opt_eqb (sk_name s) (Some skin_name)).

Definition remove_skin (skin_name : string)
    : M anim_data (list (option string) * dict (dict string)) :=
  fun d =>
    match get_skin d skin_name with
    | None => (d, Err (EEditor "Trying to remove skin but was not found"))
    | Some skin_to_remove =>
        let '(skins, r) := mapM_inplace (relink_skin skin_name (sk_atts skin_to_remove)) (d_skins d) in
        match r with
        | Err e => (set_skins d skins, Err e)
        | Ok _ =>
            (set_skins (set_animations d (dmap (drop_deform skin_name) (d_animations d)))
               (filter (not_named skin_name) skins),
             Ok (skin_removed_images skin_to_remove, skin_removed_attachments skin_to_remove))
        end
    end.

(** ** Unused slots and attachments *)

(** spine_anim_data.py:193-203 *)
Definition slot_alpha_zero (s : obj) : res bool :=
  match ostr s "color" with
  | None => Ok false
  | Some c => match py_int_0x (folded c) with
              | Some z => Ok (N.eqb (N.land z 255) 0)
              | None => Err (EValue "invalid literal for int() with base 16")
              end
  end.
Fixpoint alpha_zero (l : list obj) : res (list string) :=
  match l with
  | [] => Ok []
  | s :: l' => let! b := slot_alpha_zero s in
               let! r := alpha_zero l' in
               Ok (if b then slot_name s :: r else r)
  end.
Definition get_slots_with_alpha_zero (d : anim_data) : res (list string) := alpha_zero (d_slots d).

(** spine_anim_data.py:205-219 *)
Definition not_visible_in_setup (s : obj) : bool :=
  (is_none (oget s "attachment") && is_none (oget s "dark") && is_none (oget s "blend") &&
   is_none (oget s "color"))%bool.
Definition get_slots_not_visible_in_setup_pose (d : anim_data) : list string :=
  map slot_name (filter not_visible_in_setup (d_slots d)).

(** slot.py:57-58 *)
Definition kf_is_empty (k : obj) : bool :=
  match ostr k "name" with Some n => String.eqb n "None" | None => true end.
(** slot.py:82-98 *)
Definition st_is_empty (t : slot_timeline) : bool :=
  (Nat.eqb (length (st_color t)) 0 && Nat.eqb (length (st_twoColor t)) 0 &&
   match st_attachment t with
   | [] => true
   | [k] => kf_is_empty k && py_eq (oget k "time") (VInt 0)
   | _ => false
   end)%bool.
(** slot.py:100-105 *)
Definition used_attachments (t : slot_timeline) : list string :=
  flat_map (fun k => if kf_is_empty k then []
                     else match ostr k "name" with Some n => [n] | None => [] end) (st_attachment t).
(** slot.py:107-108 *)
Definition has_color (t : slot_timeline) : bool :=
  negb (Nat.eqb (length (st_color t)) 0 && Nat.eqb (length (st_twoColor t)) 0)%bool.

(** A frozenset of attachment names (or None); the code only tests membership. *)
Definition aset := list (option string).

Record vis := mkVis { vi_slots : list string; vi_used : dict aset }.

(** spine_anim_data.py:236-261: the loop body; [slots_dict] is line 234 *)
Definition visit_timeline (slots_dict : dict obj) (alpha_zero_slots no_attachment_slots : list string)
    (st : vis) (kv : string * slot_timeline) : res vis :=
  let '(slot_id, slot_data) := kv in
  let! s := dget_err slot_id slots_dict in
  let used := (used_attachments slot_data ++
               match ostr s "attachment" with Some a => [a] | None => [] end)%list in
  if (st_is_empty slot_data ||
      (smem slot_id alpha_zero_slots && negb (has_color slot_data)) ||
      (smem slot_id no_attachment_slots && Nat.eqb (length used) 0))%bool
  then Ok (mkVis (filter (fun x => negb (String.eqb x slot_id)) (vi_slots st))
             (dset slot_id [] (vi_used st)))
  else Ok (mkVis (set_union (vi_slots st) [slot_id])
             (dset slot_id (map Some used) (vi_used st))).

Definition slots_dict_of (slots : list obj) : dict obj :=
  fold_left (fun acc s => if String.eqb (slot_name s) "" then acc else dset (slot_name s) s acc) slots [].

(** spine_anim_data.py:221-263 *)
Definition get_visible_slots_and_attachments (d : anim_data) (anim_slots : dict slot_timeline)
    (visible_slots alpha_zero_slots no_attachment_slots : list string) : res vis :=
  let used0 := fold_left (fun acc s => if smem (slot_name s) visible_slots
                                       then dset (slot_name s) [ostr s "attachment"] acc
                                       else acc) (d_slots d) [] in
  foldM (visit_timeline (slots_dict_of (d_slots d)) alpha_zero_slots no_attachment_slots)
    (mkVis visible_slots used0) anim_slots.

(** spine_anim_data.py:297-299: functools.reduce of an empty sequence raises TypeError *)
Definition reduce_union (l : list aset) : res aset :=
  match l with
  | [] => Err (EType "reduce() of empty sequence with no initial value")
  | _ => Ok (concat l)
  end.

Definition omem (x : option string) (l : aset) : bool := existsb (opt_eqb x) l.

(** spine_anim_data.py:285-299: visible slots and used attachments over the animations *)
Definition visit_animation (d : anim_data) (default_visible alpha noatt : list string)
    (acc : list string * aset) (kv : string * animation) : res (list string * aset) :=
  let! v := get_visible_slots_and_attachments d (an_slots (snd kv)) default_visible alpha noatt in
  let! used := reduce_union (dvals (vi_used v)) in
  Ok (set_union (fst acc) (vi_slots v), (snd acc ++ used)%list).

(** spine_anim_data.py:303-318 *)
Definition is_mesh (o : obj) : bool := match o_cls o with CSkinMesh => true | _ => false end.
Definition attachments_to_remove (skins : list skin) (used : aset) (invisible : list string)
    : list string :=
  set_of
    (flat_map (fun s =>
       flat_map (fun kv =>
         flat_map (fun ao =>
           if omem (Some (fst ao)) used then []
           else if (is_mesh (snd ao) && negb (smem (fst kv) invisible))%bool then []
           else [fst ao]) (snd kv)) (sk_atts s)) skins).

(** spine_anim_data.py:265-320 *)
Definition get_unused_slots_and_attachments (d : anim_data) : res (list string * list string) :=
  let slots_set := set_of (map slot_name (d_slots d)) in
  let! alpha := get_slots_with_alpha_zero d in
  let noatt := get_slots_not_visible_in_setup_pose d in
  let default_invisible := set_of (alpha ++ noatt) in
  let default_visible := set_diff slots_set default_invisible in
  let! (visible, used) :=
    foldM (visit_animation d default_visible alpha noatt) ([], []) (d_animations d) in
  let invisible := set_diff slots_set visible in
  Ok (invisible, attachments_to_remove (d_skins d) used invisible).

(** ** Removing references to slots and attachments *)

(** animation.py:94-96 *)
Definition remove_draw_order_with_ids (slots_ids original_names : list string) (a : animation)
    : animation * res unit :=
  let '(l, r) := mapM_inplace (remove_offsets_with_ids slots_ids original_names) (an_drawOrder a) in
  (mkAnimation (an_ik a) l (an_bones a) (an_slots a) (an_events a) (an_transform a) (an_path a)
     (an_deform a), r).

Definition drop_keys {A} (l : list string) (d : dict A) : dict A :=
  filter (fun kv => negb (smem (fst kv) l)) d.

(** animation.py:98-102 *)
Definition remove_deforms_using_slots (slots_ids : list string) (a : animation) : animation :=
  mkAnimation (an_ik a) (an_drawOrder a) (an_bones a) (an_slots a) (an_events a) (an_transform a)
    (an_path a) (dmap (drop_keys slots_ids) (an_deform a)).

(** animation.py:104-117 *)
Definition remove_deforms_with_attachments_on_skin (attachments_ids : list string)
    (skin_id : option string) (a : animation) : animation :=
  match skin_id with
  | None => a
  | Some i =>
      match dget i (an_deform a) with
      | None => a
      | Some skin_deform =>
          mkAnimation (an_ik a) (an_drawOrder a) (an_bones a) (an_slots a) (an_events a)
            (an_transform a) (an_path a)
            (dset i (dmap (drop_keys attachments_ids) skin_deform) (an_deform a))
      end
  end.
