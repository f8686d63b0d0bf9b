(** Model of /repo/spine_json_lib/data/data_types/draworder.py:37-106: rewriting a
    draw-order keyframe when slots are removed. *)
From Verif Require Import PyBase Json Classes SpineGraph.
Open Scope string_scope.

(** [index + offset] and [list.insert(index, ..)] accept an int (or bool) only. *)
Definition as_int (v : val) : res Z :=
  match v with
  | VInt z => Ok z
  | VBool b => Ok (if b then 1 else 0)%Z
  | _ => Err (EType "not an integer")
  end.

(** [list.insert(i, x)] *)
Definition py_insert {A} (i : Z) (x : A) (l : list A) : list A :=
  let n := Z.of_nat (length l) in
  let j := if Z.ltb i 0 then Z.max 0 (i + n) else Z.min i n in
  (firstn (Z.to_nat j) l ++ x :: skipn (Z.to_nat j) l)%list.

(** [list.index(x)] *)
Fixpoint index_from (i : Z) (x : string) (l : list string) : option Z :=
  match l with
  | [] => None
  | y :: l' => if String.eqb x y then Some i else index_from (i + 1) x l'
  end.
Definition py_index (l : list string) (x : string) : res Z :=
  match index_from 0 x l with Some i => Ok i | None => Err (EValue "x not in list") end.

Definition slot_name (o : obj) : string :=
  match ostr o "name" with Some s => s | None => "" end.

(** draworder.py:96: [OrderedDict({offset.slot: offset for offset in self.offsets})].  The entry of
    offsets without slot name (possible only before the defaults are filled in), whose key is None,
    is left out: no slot has this name; see [remove_offsets_with_ids]. *)
Definition offsets_by_slot (l : list obj) : res (dict obj) :=
  foldM (fun d o => match ostr o "slot" with
                    | Some s => Ok (dset s o d)
                    | None => Ok d
                    end) [] l.
Definition has_slot (o : obj) : bool := match ostr o "slot" with Some _ => true | None => false end.

(** draworder.py:40-46: the slots that move, with their new index, in the original order;
    [names] are the names of the slots, which is all the code uses of them *)
Fixpoint operations (slot_offsets : dict obj) (i : Z) (names : list string) : res (list (string * Z)) :=
  match names with
  | [] => Ok []
  | n :: names' =>
      match dget n slot_offsets with
      | Some o =>
          let! off := as_int (oget o "offset") in
          let! ops := operations slot_offsets (i + 1) names' in
          Ok ((n, (i + off)%Z) :: ops)
      | None => operations slot_offsets (i + 1) names'
      end
  end.

(** draworder.py:37-55.  Lines 42-49 pop exactly the slots whose name has an offset. *)
Definition reorder_slots_with_offset (slot_offsets : dict obj) (names : list string)
    : res (list string) :=
  let! ops := operations slot_offsets 0 names in
  let rest := filter (fun n => negb (dmem n slot_offsets)) names in
  Ok (fold_left (fun l op => py_insert (snd op) (fst op) l) (sort_by snd ops) rest).

(** draworder.py:57-86 *)
Definition adjust_offsets (removed : list string) (final original : list string)
    (slot_offsets : dict obj) : res (list obj) :=
  let keep l := filter (fun n => negb (smem n removed)) l in
  let! adjusted :=
    mapM (fun kv =>
            let '(name, o) := kv in
            if smem name removed then Ok (name, o)
            else let! index_original := py_index (keep original) name in
                 let! index_final := py_index (keep final) name in
                 Ok (name, oset o "offset" (VInt (index_final - index_original))))
      slot_offsets in
  Ok (filter (fun o => negb (match ostr o "slot" with Some s => smem s removed | None => false end) &&
                       negb (py_eq (oget o "offset") (VInt 0)))%bool (map snd adjusted)).

(** draworder.py:88-106 (remove_offsets_with_ids); nothing is changed if it raises.  For the key None
    the loop of lines 75-80 raises ValueError, as for any other name that is not in the list. *)
Definition remove_offsets_with_ids (slots_ids original_names : list string) (d : draw_order)
    : draw_order * res unit :=
  let r := let! slot_offsets := offsets_by_slot (do_offsets d) in
           let! final := reorder_slots_with_offset slot_offsets original_names in
           if forallb has_slot (do_offsets d)
           then adjust_offsets slots_ids final original_names slot_offsets
           else Err (EValue "None is not in list") in
  match r with
  | Ok l => (mkDrawOrder (do_time d) l, Ok tt)
  | Err e => (d, Err e)
  end.
