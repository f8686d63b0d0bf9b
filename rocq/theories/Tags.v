(** Model of /repo/spine_json_lib/utils.py (the parts the library uses: tags in names). *)
From Verif Require Import PyBase PyNum Unicode.
From Coq Require Import SpecFloat.
Open Scope string_scope.

(** utils.py:15, the classes of the regular expression
    [\[\s*[\w0-9-]+\s*:\s*[\w0-9.\s]+\s*\]]. *)
Definition name_char (c : ascii) : bool := is_word c || Ascii.eqb c "-".
Definition value_char (c : ascii) : bool := is_word c || Ascii.eqb c "." || is_space c.

(** The longest prefix satisfying [f], and the rest. *)
Fixpoint span (f : ascii -> bool) (l : list ascii) : list ascii * list ascii :=
  match l with
  | [] => ([], [])
  | c :: l' => if f c then let '(a, b) := span f l' in (c :: a, b) else ([], l)
  end.

(** utils.py:15,50: one match of the expression at the start of [l]: the matched text
    between the brackets, split at the colon, and the rest of the input.  The classes
    around ':' and ']' are disjoint from these characters, so backtracking can only
    move blanks between the starred blanks and the value, which the code strips. *)
Definition match_tag (l : list ascii) : option ((list ascii * list ascii) * list ascii) :=
  match l with
  | "["%char :: l1 =>
      let '(b1, l2) := span is_space l1 in
      let '(nm, l3) := span name_char l2 in
      let '(b2, l4) := span is_space l3 in
      match nm, l4 with
      | _ :: _, ":"%char :: l5 =>
          let '(v, l6) := span value_char l5 in
          match v, l6 with
          | _ :: _, "]"%char :: rest => Some (((b1 ++ nm ++ b2)%list, v), rest)
          | _, _ => None
          end
      | _, _ => None
      end
  | _ => None
  end.

(** utils.py:50 [tag_detector.findall(name)]: left to right, non-overlapping. *)
Fixpoint find_tags_fuel (fuel : nat) (l : list ascii) : list (list ascii * list ascii) :=
  match fuel with
  | O => []
  | S fuel' =>
      match l with
      | [] => []
      | _ :: l' =>
          match match_tag l with
          | Some (t, rest) => t :: find_tags_fuel fuel' rest
          | None => find_tags_fuel fuel' l'
          end
      end
  end.
Definition find_tags (s : string) : list (list ascii * list ascii) :=
  find_tags_fuel (length (folded s)) (folded s).

(** utils.py:51-65: the loop body of get_tags_from_name.  The only supported tag is
    "scale", of type number (utils.py:11-13), so [cast_element] (18-45) is [float]. *)
Definition add_tag (tags : dict float64) (t : list ascii * list ascii) : res (dict float64) :=
  let tag_name := unchars (strip (fst t)) in
  let tag_value := strip (snd t) in
  if dmem tag_name tags then Err (EValue "TAG repeated in name")
  else if negb (smem tag_name ["scale"]) then Err (EValue "unsupported TAG")
  else match py_float tag_value with
       | Some f => Ok (dset tag_name f tags)
       | None => Err (EValue "could not convert string to float")
       end.

(** utils.py:48-67 *)
Definition get_tags_from_name (name : string) : res (dict float64) :=
  foldM add_tag [] (find_tags name).

(** data_types/bone.py:49-51 and data_types/slot.py:24-26 (get_scale_in_name) *)
Definition scale_in_name (name : string) : res float64 :=
  let! tags := get_tags_from_name name in
  Ok (match dget "scale" tags with Some f => f | None => f_one end).
