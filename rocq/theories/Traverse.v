(** The generic traversals of /repo/spine_json_lib/data/data_types/base_type.py:74-162, on
    Python objects of any shape.  Classes.v has them written out for the shape of a document;
    TraverseFacts.v proves that the two agree. *)
From Verif Require Import PyBase PyNum Json Version Classes.
Open Scope string_scope.

(** What the attributes of elements hold: JSON values, lists and dictionaries, elements (class
    and __dict__), and anything else. *)
Inductive pyobj : Type :=
| PNone
| PBool (b : bool)
| PInt (z : Z)
| PFloat (f : float64)
| PStr (s : string)
| PList (l : list pyobj)
| PDict (d : list (string * pyobj))
| PElem (c : cls) (attrs : list (string * pyobj))
| POther.

(** A JSON value as an object. *)
Fixpoint of_val (v : val) : pyobj :=
  match v with
  | VNone => PNone
  | VBool b => PBool b
  | VInt z => PInt z
  | VFloat f => PFloat f
  | VStr s => PStr s
  | VList l => PList (map of_val l)
  | VDict d => PDict (map (fun kv => match kv with (k, x) => (k, of_val x) end) d)
  end.

(** [v == w] for a default value [w].  Elements define no [__eq__], so an element, and a list
    or dictionary containing one, equals no JSON value. *)
Fixpoint peq (v : pyobj) (w : val) {struct v} : bool :=
  match v, w with
  | PNone, _ => py_eq VNone w
  | PBool b, _ => py_eq (VBool b) w
  | PInt z, _ => py_eq (VInt z) w
  | PFloat f, _ => py_eq (VFloat f) w
  | PStr s, _ => py_eq (VStr s) w
  | PList x, VList y =>
      (fix go (x : list pyobj) (y : list val) : bool :=
         match x, y with
         | [], [] => true
         | a' :: x', b' :: y' => peq a' b' && go x' y'
         | _, _ => false
         end) x y
  | PDict x, VDict y =>
      Nat.eqb (length x) (length y) &&
      (fix go (x : list (string * pyobj)) : bool :=
         match x with
         | [] => true
         | (k, a') :: x' =>
             match dget k y with
             | Some b' => peq a' b'
             | None => false
             end && go x'
         end) x
  | _, _ => false
  end.

Section Traversals.
  Variable ver : version.
  Definition not_supported {A} : res A := Err (EType "Internal error serializing spine data").

  (** base_type.py:74-78, 96-106, 138-162: set_default_values *)
  Fixpoint set_default_values (o : pyobj) : res pyobj :=
    match o with
    | PNone | PBool _ | PInt _ | PFloat _ | PStr _ => Ok o
    | PDict d =>
        let! d' := (fix go (d : list (string * pyobj)) :=
                      match d with
                      | [] => Ok []
                      | (k, x) :: d' => let! y := set_default_values x in let! ys := go d' in Ok ((k, y) :: ys)
                      end) d in
        Ok (PDict d')
    | PList l =>
        let! l' := (fix go (l : list pyobj) :=
                      match l with
                      | [] => Ok []
                      | x :: l' => let! y := set_default_values x in let! ys := go l' in Ok (y :: ys)
                      end) l in
        Ok (PList l')
    | PElem c attrs =>
        let! a := (fix go (d : list (string * pyobj)) :=
                     match d with
                     | [] => Ok []
                     | (k, x) :: d' =>
                         let! y := match x with
                                   | PNone => match dget k (default_values c ver) with
                                              | Some v => Ok (of_val v)
                                              | None => Ok PNone
                                              end
                                   | _ => set_default_values x
                                   end in
                         let! ys := go d' in Ok ((k, y) :: ys)
                     end) attrs in
        Ok (PElem c a)
    | POther => not_supported
    end.

  (** base_type.py:80-86, 108-121, 138-162: to_json *)
  Definition written (defs : dict val) (k : string) (x : pyobj) : bool :=
    match x with
    | PNone => match dget k defs with Some VNone => true | _ => false end
    | _ => negb (peq x (get_or_none k defs))
    end.
  Fixpoint to_json (o : pyobj) : res val :=
    match o with
    | PNone => Ok VNone
    | PBool b => Ok (VBool b)
    | PInt z => Ok (VInt z)
    | PFloat f => Ok (VFloat f)
    | PStr s => Ok (VStr s)
    | PDict d =>
        let! d' := (fix go (d : list (string * pyobj)) :=
                      match d with
                      | [] => Ok []
                      | (k, x) :: d' => let! y := to_json x in let! ys := go d' in Ok ((k, y) :: ys)
                      end) d in
        Ok (VDict d')
    | PList l =>
        let! l' := (fix go (l : list pyobj) :=
                      match l with
                      | [] => Ok []
                      | x :: l' => let! y := to_json x in let! ys := go l' in Ok (y :: ys)
                      end) l in
        Ok (VList l')
    | PElem c attrs =>
        let! a := (fix go (d : list (string * pyobj)) :=
                     match d with
                     | [] => Ok []
                     | (k, x) :: d' =>
                         if written (default_values c ver) k x
                         then let! y := to_json x in let! ys := go d' in Ok ((k, y) :: ys)
                         else go d'
                     end) attrs in
        Ok (VDict a)
    | POther => not_supported
    end.

  (** base_type.py:88-94, 123-136, 138-162: clean_unsupported_attributes *)
  Fixpoint clean_unsupported_attributes (o : pyobj) : res pyobj :=
    match o with
    | PNone | PBool _ | PInt _ | PFloat _ | PStr _ => Ok o
    | PDict d =>
        let! d' := (fix go (d : list (string * pyobj)) :=
                      match d with
                      | [] => Ok []
                      | (k, x) :: d' => let! y := clean_unsupported_attributes x in let! ys := go d' in Ok ((k, y) :: ys)
                      end) d in
        Ok (PDict d')
    | PList l =>
        let! l' := (fix go (l : list pyobj) :=
                      match l with
                      | [] => Ok []
                      | x :: l' => let! y := clean_unsupported_attributes x in let! ys := go l' in Ok (y :: ys)
                      end) l in
        Ok (PList l')
    | PElem c attrs =>
        let! a := (fix go (d : list (string * pyobj)) :=
                     match d with
                     | [] => Ok []
                     | (k, x) :: d' =>
                         let! y := if (ver_lt ver SPINE_3_8 &&
                                       match unsupported_old c with
                                       | Some l => smem k l
                                       | None => false
                                       end)%bool
                                   then Ok PNone
                                   else clean_unsupported_attributes x in
                         let! ys := go d' in Ok ((k, y) :: ys)
                     end) attrs in
        Ok (PElem c a)
    | POther => not_supported
    end.
End Traversals.
