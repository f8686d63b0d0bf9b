(** Classes derived from SpineData (/repo/spine_json_lib/data/data_types/base_type.py:12-72), also
    those the library does not define. *)
From Verif Require Import PyBase PyNum Json Version Classes Traverse.
Open Scope string_scope.

(** A class statement: what its body assigns to the class attributes of base_type.py:13-25 (None
    if it does not), the attributes its __init__ assigns with [values.get(k)] before it calls
    SpineData.__init__ (None if it has no __init__), and the names of its other functions. *)
Record body := mkBody {
  b_default : option (option (dict val));
  b_default38 : option (option (dict val));
  b_unsupported : option (option (list string));
  b_required : option (list string);
  b_init : option (list string);
  b_functions : list string }.
(** A class: its body and those of its bases, nearest first, without SpineData.
    Simplification: one base each; __init__ does not call that of a base other than SpineData. *)
Definition klass := list body.
Fixpoint inherited {A} (f : body -> option A) (k : klass) (base : A) : A :=
  match k with
  | [] => base
  | b :: k' => match f b with Some x => x | None => inherited f k' base end
  end.

(** base_type.py:27-39 (SpineData.__new__) *)
Definition new_instance (k : klass) : res unit :=
  match inherited b_default k None with
  | None => Err ENotImplemented
  | Some _ => match inherited b_default38 k None with
              | None => Err ENotImplemented
              | Some _ => Ok tt
              end
  end.

(** base_type.py:27-61: [C(values)] for a dictionary; the result is the [__dict__] *)
Definition construct (k : klass) (values : dict val) : res (dict val) :=
  let! _ := new_instance k in
  let known := inherited b_init k [] in
  let! _ := check_keys known (inherited b_required k []) values in
  Ok (map (fun a => (a, get_or_none a values)) known).

(** base_type.py:69-72 (default_values; after __new__ neither table is None) *)
Definition class_defaults (k : klass) (ver : option version) : option (dict val) :=
  match ver with
  | Some v => if ver_ge v SPINE_3_8 then inherited b_default38 k None else inherited b_default k None
  | None => inherited b_default k None
  end.

(** Functions of SpineData, base_type.py:63-162 *)
Definition base_functions : list string :=
  ["get"; "default_values"; "set_default_values"; "to_json"; "clean_unsupported_attributes";
   "set_default_values_from_version"; "to_spine_data_ignoring_default_values"; "remove_unsupported_attributes";
   "traverse_spine_data"].
Definition p_strings (l : list string) : pyobj := PList (map PStr l).
Definition p_table (t : option (dict val)) : pyobj := match t with Some d => of_val (VDict d) | None => PNone end.
(** What the class has under a name (functions are objects of another kind). *)
Definition class_attribute (k : klass) (name : string) : option pyobj :=
  if String.eqb name "DEFAULT_VALUES" then Some (p_table (inherited b_default k None))
  else if String.eqb name "SPINE_3_8_DEFAULT_VALUES" then Some (p_table (inherited b_default38 k None))
  else if String.eqb name "UNSUPPORTED_VALUES_OLD_VERSION" then
    Some (match inherited b_unsupported k None with Some l => p_strings l | None => PNone end)
  else if String.eqb name "REQUIRED" then Some (p_strings (inherited b_required k []))
  else if (existsb (fun b => smem name (b_functions b)) k || smem name base_functions)%bool then Some POther
  else None.

(** base_type.py:63-67 (get): hasattr and __getattribute__ look into [__dict__] and then into the
    class.  Simplification: names starting with two underscores, which every object has some of,
    are not modelled. *)
Definition element_get (k : klass) (attrs : dict val) (name : string) (default : pyobj) : res pyobj :=
  if String.prefix "__" name then Err (EUnmodelled "a special name")
  else
    match (match dget name attrs with Some v => Some (of_val v) | None => class_attribute k name end) with
    | None | Some PNone => Ok default
    | Some x => Ok x
    end.

(** The classes of the library: bone.py, deform.py, draworder.py, events.py, ik.py, path.py, skin.py,
    slot.py, transform.py, animation.py, spine_anim_data.py *)
Definition functions_of (c : cls) : list string :=
  match c with
  | CBone => ["scale"; "get_scale_in_name"] (* bone.py:45-52 *)
  | CSlot => ["get_scale_in_name"] (* slot.py:24-26 *)
  | CSlotKeyframe => ["is_empty"] (* slot.py:57-58 *)
  | CSlotTimeline => ["is_empty"; "get_used_attachments"; "has_color"] (* slot.py:82-108 *)
  | CDrawOrder => ["_reorder_slots_with_offset"; "_adjust_draw_oder_offset_with_erased_slots"; "remove_offsets_with_ids"] (* draworder.py:37-99 *)
  | CAnimation => ["parse_path"; "parse_deform"; "remove_draw_order_with_ids"; "remove_deforms_using_slots";
                   "remove_deforms_with_attachments_on_skin"] (* animation.py:67-110 *)
  | _ => [] (* the methods of SpineAnimationData are in AnimData.v *)
  end.
Definition klass_of (c : cls) : klass :=
  [mkBody (Some (Some (defaults_old c))) (Some (Some (defaults_38 c)))
     (match unsupported_old c with Some l => Some (Some l) | None => None end)
     (match required c with [] => None | l => Some l end) (Some (attrs_of c)) (functions_of c)].
