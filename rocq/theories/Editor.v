(** Model of /repo/spine_json_lib/spine_animation_editor.py (SpineAnimationEditor).

    Reading and writing files (from_json_file, to_json, save_images_json) is in Files.v.
    Not modelled: the printed messages and the unused class AnimationEraserResult.

    Python fixes no iteration order for sets: where the code turns a frozenset into a list,
    the model takes the order from the parameter [enum] (one function per place, and one
    [enum] per call). *)
From Verif Require Import PyBase PyNum Json Version Tags Classes Graph SpineGraph DrawOrder AnimData.
From Coq Require Import SpecFloat Permutation.
Open Scope string_scope.

(** One entry of images_references: {"path": .., "scale": ..} (lines 250-252) *)
Record imgref := mkImg { im_path : string; im_scale : option float64 }.

Record editor := mkEditor {
  e_doc : document;
  e_images : dict imgref;
  e_graph : sgraph }.

Definition e_data (e : editor) : anim_data := doc_data (e_doc e).
Definition e_ver (e : editor) : version := doc_version (e_doc e).

(** posixpath.join(a, b) *)
Definition ends_with_slash (s : string) : bool :=
  match rev (chars s) with c :: _ => Ascii.eqb c "/" | [] => false end.
Definition starts_with_slash (s : string) : bool :=
  match chars s with c :: _ => Ascii.eqb c "/" | [] => false end.
Definition path_join (a b : string) : string :=
  if starts_with_slash b then b
  else if (seqb a "" || ends_with_slash a)%bool then a ++ b
  else a ++ "/" ++ b.

(** spine_animation_editor.py:240-252: one attachment *)
Definition has_attr (k : string) (o : obj) : bool := dmem k (o_attrs o).
Definition add_image (images_folder : val) (scale : float64) (paths : dict imgref) (kv : string * obj)
    : res (dict imgref) :=
  let '(sub_part_key, o) := kv in
  match o_cls o with
  | CSkinPath => Ok paths
  | _ =>
      if negb (has_attr "path" o && has_attr "name" o)%bool
      then Err (EAttr "object has no attribute 'path'")
      else
        let relative_path := match py_or (image_name o) (Some sub_part_key) with Some s => s | None => "" end in
        match images_folder with
        | VStr folder =>
            Ok (dset relative_path
                  (mkImg (path_join folder relative_path)
                     (if feqb scale f_one then None else Some scale)) paths)
        | _ => Err (EType "expected str, bytes or os.PathLike object")
        end
  end.

(** spine_animation_editor.py:237-252: one slot of a skin *)
Definition add_slot_images (d : anim_data) (images_folder : val) (paths : dict imgref)
    (kv : string * dict obj) : res (dict imgref) :=
  let! scale := get_slot_custom_scale d (get_slot d (fst kv)) in
  foldM (add_image images_folder scale) paths (snd kv).

(** spine_animation_editor.py:227-253.  Line 235 indexes a list with a skin object. *)
Definition get_images_references (x : document) : res (dict imgref) :=
  let images_folder := match dget "images" (doc_skeleton x) with
                       | Some v => v
                       | None => VStr "./images/"
                       end in
  foldM (fun paths s =>
           if ver_ge (doc_version x) SPINE_3_8
           then foldM (add_slot_images (doc_data x) images_folder) paths (sk_atts s)
           else Err (EType "list indices must be integers or slices, not Skin38"))
    [] (d_skins (doc_data x)).

(** spine_animation_editor.py:51-57 *)
Definition mk_editor (json_data : val) : res editor :=
  let! x := load_document json_data in
  let! imgs := get_images_references x in
  let! g := create_from_json_data (document_json x) in
  Ok (mkEditor x imgs g).

(** Access to the parts of the editor's state *)
Definition on_data {A} (m : M anim_data A) : M editor A :=
  fun e => let '(d, r) := m (e_data e) in
           (mkEditor (mkDoc (doc_skeleton (e_doc e)) (doc_version (e_doc e)) d) (e_images e) (e_graph e), r).
Definition on_graph {A} (m : M sgraph A) : M editor A :=
  fun e => let '(g, r) := m (e_graph e) in (mkEditor (e_doc e) (e_images e) g, r).
Definition modify_data (f : anim_data -> anim_data) : M editor unit :=
  on_data (fun d => (f d, Ok tt)).

(** spine_animation_editor.py:281-292 *)
Definition clean_images_references (images_ids : aset) : M editor unit :=
  fun e => (mkEditor (e_doc e)
              (filter (fun kv => negb (omem (Some (fst kv)) images_ids)) (e_images e)) (e_graph e),
            Ok tt).

(** spine_animation_editor.py:294-304 *)
Definition clean_slots_in_skins (slots_ids : list string) (d : anim_data) : anim_data :=
  set_skins d (map (fun s => mkSkin (sk_name s) (Some (drop_keys slots_ids (sk_atts s)))) (d_skins d)).

(** spine_animation_editor.py:338-345 *)
Definition clean_slots_in_animations (slots_ids : list string) (d : anim_data) : anim_data :=
  set_animations d
    (dmap (fun a => remove_deforms_using_slots slots_ids
                      (mkAnimation (an_ik a) (an_drawOrder a) (an_bones a)
                         (drop_keys slots_ids (an_slots a)) (an_events a) (an_transform a)
                         (an_path a) (an_deform a))) (d_animations d)).

(** spine_animation_editor.py:347-353 *)
Definition clean_draw_order_refs (slots_ids original_names : list string) : M anim_data unit :=
  fun d =>
    let '(l, r) := dmapM_inplace (remove_draw_order_with_ids slots_ids original_names) (d_animations d) in
    (set_animations d l, r).

(** spine_animation_editor.py:192-195 *)
Definition ed_remove_slots (slots_ids original_names : list string) : M editor unit :=
  do! _ := modify_data (clean_slots_in_skins slots_ids) in
  do! _ := modify_data (clean_slots_in_animations slots_ids) in
  on_data (clean_draw_order_refs slots_ids original_names).

(** spine_animation_editor.py:306-321 *)
Definition clean_attachments_in_skins (attachment_ids : list string) (d : anim_data) : anim_data :=
  let anims := fold_left (fun an s => dmap (remove_deforms_with_attachments_on_skin attachment_ids (sk_name s)) an)
                 (d_skins d) (d_animations d) in
  set_skins (set_animations d anims)
    (map (fun s => mkSkin (sk_name s) (Some (dmap (drop_keys attachment_ids) (sk_atts s)))) (d_skins d)).

(** spine_animation_editor.py:323-336 *)
Definition clean_attachments_in_slots (attachments_ids : list string) (d : anim_data) : anim_data :=
  set_slots d
    (map (fun s => match ostr s "attachment" with
                   | Some a => if smem (graph_id T_ATTACHMENT a) attachments_ids
                               then oset s "attachment" VNone else s
                   | None => s
                   end) (d_slots d)).

(** spine_animation_editor.py:197-199 *)
Definition ed_remove_attachments (attachments_ids : list string) : M editor unit :=
  do! _ := modify_data (clean_attachments_in_skins attachments_ids) in
  modify_data (clean_attachments_in_slots attachments_ids).

(** Iteration order of sets: [enum i] lists the elements of the i-th set a call iterates. *)
Definition order := nat -> list string -> list string.
Definition order_ok (enum : order) : Prop := forall i l, Permutation (enum i l) l.

(** spine_animation_editor.py:133-190 (clean_animation) *)
Definition clean_animation (enum : order) : M editor (list string * list string) :=
  do! e := mget in
  let slots_before_removing := map slot_name (d_slots (e_data e)) in
  do! (slots_to_remove, attachments_ids) := mlift (get_unused_slots_and_attachments (e_data e)) in
  do! _ := on_graph (remove_slots (enum 0 slots_to_remove)) in
  do! _ := on_graph (remove_attachments (enum 1 attachments_ids)) in
  do! leaf_slots := on_graph (remove_leafs_of_type T_SLOT) in
  let slots_to_remove := enum 2 (set_union slots_to_remove leaf_slots) in
  do! e := mget in
  do! out := mlift (graph_to_json (e_graph e)) in
  do! bones := mlift (mapM (mk_obj CBone) (gj_bones out)) in
  do! _ := modify_data (fun d => set_bones d bones) in
  do! slots := mlift (mapM (mk_obj CSlot) (gj_slots out)) in
  do! _ := modify_data (fun d => set_slots d slots) in
  do! ik := mlift (mapM (mk_obj CIk) (gj_ik out)) in
  do! _ := modify_data (fun d => set_ik d ik) in
  do! _ := modify_data (data_defaults (e_ver e)) in
  do! _ := ed_remove_slots slots_to_remove slots_before_removing in
  do! _ := ed_remove_attachments attachments_ids in
  do! _ := on_graph (remove_heads_of_type T_ATTACHMENT) in
  do! _ := on_graph (remove_leafs_of_type T_ATTACHMENT) in
  do! images_node := on_graph (remove_heads_of_type T_IMAGE) in
  do! _ := clean_images_references (map Some images_node) in
  mret (slots_to_remove, attachments_ids).

(** spine_animation_editor.py:66-102 *)
Definition erase_skins (enum : order) (skins_to_erase : list string) (is_safe_mode : bool)
    : M editor ((list string * list string) * aset) :=
  do! removed := mforeach (fun n => on_data (remove_skin n)) skins_to_erase in
  do! e := mget in
  do! g := mlift (create_from_json_data (document_json (e_doc e))) in
  do! _ := on_graph (mput g) in
  let images_skins_refs :=
    (flat_map fst removed ++
     flat_map (fun r => flat_map (fun kv => map (fun p => Some (snd p)) (snd kv)) (snd r)) removed)%list in
  let images_to_remove :=
    filter (fun img => negb (dmem (graph_id T_IMAGE (match img with Some s => s | None => "None" end))
                               (g_nodes g))) images_skins_refs in
  do! removed_data := (if is_safe_mode then mret ([], []) else clean_animation enum) in
  do! _ := clean_images_references images_to_remove in
  mret (removed_data, images_to_remove).

(** spine_animation_editor.py:263-279 *)
Definition erase_raw_animations_data (animations_to_erase : list string) (strict_mode : bool)
    : M anim_data unit :=
  fun d =>
    let '(anims, not_found) :=
      fold_left (fun acc n => let '(a, nf) := acc in
                              if dmem n a then (ddel n a, nf) else (a, (nf ++ [n])%list))
        animations_to_erase (d_animations d, []) in
    (set_animations d anims,
     match not_found with
     | _ :: _ => if strict_mode then Err (EValue "Animations could not be found inside the spine file")
                 else Ok tt
     | [] => Ok tt
     end).

(** spine_animation_editor.py:104-131.  [images_references] is never None, and the argument
    is a list of names. *)
Definition erase_animations (enum : order) (animations_to_erase : list string)
    (strict_mode is_safe_mode : bool) : M editor (val * (list string * list string)) :=
  do! _ := on_data (erase_raw_animations_data animations_to_erase strict_mode) in
  do! removed_data := (if is_safe_mode then mret ([], []) else clean_animation enum) in
  do! e := mget in
  mret (document_json (e_doc e), removed_data).

(** bone.py:45-47 *)
Definition bone_scale (sx sy : val) (b : obj) : obj * res unit :=
  match py_mul (oget b "scaleX") sx with
  | Err e => (b, Err e)
  | Ok x =>
      let b1 := oset b "scaleX" x in
      match py_mul (oget b1 "scaleY") sy with
      | Err e => (b1, Err e)
      | Ok y => (oset b1 "scaleY" y, Ok tt)
      end
  end.

(** spine_animation_editor.py:208 *)
Definition scale_independent (b : obj) : bool :=
  match ostr b "transform" with
  | Some t => smem t ["noScale"; "noScaleOrReflection"; "onlyTranslation"]
  | None => false
  end.

Fixpoint scale_root (sx sy : val) (l : list obj) : list obj * res unit :=
  match l with
  | [] => ([], Err (EAttr "'NoneType' object has no attribute 'scale'"))
  | b :: l' =>
      if String.eqb (bone_name b) "root"
      then let '(b', r) := bone_scale sx sy b in (b' :: l', r)
      else let '(l'', r) := scale_root sx sy l' in (b :: l'', r)
  end.

(** spine_animation_editor.py:201-210 *)
Definition scale_bones (sx sy : val) (l : list obj) : list obj * res unit :=
  let '(l1, r) := mapM_inplace (fun b => if scale_independent b then bone_scale sx sy b else (b, Ok tt)) l in
  match r with
  | Err e => (l1, Err e)
  | Ok _ => scale_root sx sy l1
  end.
Definition scale_animation (sx sy : val) : M editor unit :=
  on_data (fun d => let '(l, r) := scale_bones sx sy (d_bones d) in (set_bones d l, r)).

(** spine_animation_editor.py:216-217 *)
Definition editor_json (e : editor) : val := document_json (e_doc e).

(** ** Histories of public calls *)
Inductive eop :=
| EoEraseSkins (enum : order) (skins : list string) (safe : bool)
| EoEraseAnimations (enum : order) (anims : list string) (strict safe : bool)
| EoClean (enum : order)
| EoScale (sx sy : val).

Definition eop_ok (op : eop) : Prop :=
  match op with
  | EoEraseSkins enum _ _ | EoEraseAnimations enum _ _ _ | EoClean enum => order_ok enum
  | EoScale _ _ => True
  end.

Definition estep (e : editor) (op : eop) : editor * res unit :=
  match op with
  | EoEraseSkins enum l safe => let '(e', r) := erase_skins enum l safe e in (e', let! _ := r in Ok tt)
  | EoEraseAnimations enum l strict safe =>
      let '(e', r) := erase_animations enum l strict safe e in (e', let! _ := r in Ok tt)
  | EoClean enum => let '(e', r) := clean_animation enum e in (e', let! _ := r in Ok tt)
  | EoScale sx sy => scale_animation sx sy e
  end.
