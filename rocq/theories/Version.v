(** Model of /repo/spine_json_lib/data/spine_version_type.py and data/constants.py. *)
From Verif Require Import PyBase PyNum Unicode.
Open Scope string_scope.

(** spine_version_type.py:11-12: the three numbers of a SpineVersion object.  The
    string itself (line 11) and [_int_version] (line 18), which only the unused
    [__cmp__] reads, are kept out of the record. *)
Record version := mkVersion { v_major : Z; v_minor : Z; v_patch : Z }.

(** spine_version_type.py:4,116: [re.match(r"^\d+.\d+", version)] -- some digits, any
    character but a newline, a digit (the rest of the string is not looked at). *)
Definition re_version_at (cs : list ascii) (i : nat) : bool :=
  forallb is_digit (firstn i cs) &&
  match skipn i cs with
  | c :: d :: _ => negb (Ascii.eqb c "010") && is_digit d
  | _ => false
  end.
Definition re_version (cs : list ascii) : bool :=
  existsb (re_version_at cs) (seq 1 (length cs)).

(** spine_version_type.py:107-124 (validate) *)
Definition validate_version (s : string) : res unit :=
  let n := length (split_on "." (folded s)) in
  let has_correct_size := (Nat.eqb n 2 || Nat.eqb n 3)%bool in
  if (negb (re_version (folded s)) || negb has_correct_size)%bool
  then Err (EValue "not a valid spine version")
  else Ok tt.

(** int(x) of one component, spine_version_type.py:141 *)
Definition component (w : list ascii) : res Z :=
  match py_int w with
  | Some z => Ok z
  | None => Err (EValue "invalid literal for int()")
  end.

(** spine_version_type.py:126-141 (split_version) *)
Definition split_version (s : string) : res (Z * Z * Z) :=
  let! _ := validate_version s in
  match split_on "." (folded s) with
  | [a; b] => let! x := component a in let! y := component b in Ok (x, y, 0%Z)
  | [a; b; c] =>
      let! x := component a in let! y := component b in let! z := component c in Ok (x, y, z)
  | _ => Err (EValue "unreachable: validated above")
  end.

(** spine_version_type.py:8-12 (__init__) *)
Definition mk_version (s : string) : res version :=
  let! _ := validate_version s in
  let! (x, y, z) := split_version s in
  Ok (mkVersion x y z).

(** Comparison operators, spine_version_type.py:30-85, between two SpineVersion objects.
    A string operand is first converted with [mk_version] (lines 21-28): see [cmp_str]. *)
Definition ver_eq (a b : version) : bool :=
  (Z.eqb (v_major a) (v_major b) && Z.eqb (v_minor a) (v_minor b) && Z.eqb (v_patch a) (v_patch b))%bool.
Definition ver_ne (a b : version) : bool := negb (ver_eq a b).
Definition ver_lt (a b : version) : bool :=
  (Z.ltb (v_major a) (v_major b) && Z.ltb (v_minor a) (v_minor b) && Z.ltb (v_patch a) (v_patch b))%bool.
Definition ver_gt (a b : version) : bool :=
  (Z.gtb (v_major a) (v_major b) && Z.gtb (v_minor a) (v_minor b) && Z.gtb (v_patch a) (v_patch b))%bool.
Definition ver_le (a b : version) : bool :=
  (Z.leb (v_major a) (v_major b) && Z.leb (v_minor a) (v_minor b) && Z.leb (v_patch a) (v_patch b))%bool.
Definition ver_ge (a b : version) : bool :=
  (Z.geb (v_major a) (v_major b) && Z.geb (v_minor a) (v_minor b) && Z.geb (v_patch a) (v_patch b))%bool.

(** spine_version_type.py:20-28: comparison with a string operand. *)
Definition cmp_str (op : version -> version -> bool) (a : version) (s : string) : res bool :=
  let! b := mk_version s in Ok (op a b).

(** data/constants.py:3-4 *)
Definition SPINE_3_7 : version := mkVersion 3 7 0.
Definition SPINE_3_8 : version := mkVersion 3 8 0.
