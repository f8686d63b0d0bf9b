(** Python objects with identity: the parts of spine-json-lib that decide which objects are
    shared.  The other files of the model have value semantics. *)
From Verif Require Import PyBase PyNum Json.
Open Scope string_scope.

(** A value is immutable, or a reference to a mutable object.  A list, dict or instance is a
    cell; the items of a list have the key "", those of an instance are its __dict__. *)
Inductive hval := HNone | HBool (b : bool) | HInt (z : Z) | HFloat (f : float64) | HStr (s : string) | HRef (a : nat).
Inductive kind := KList | KDict | KObj (class : string).
Record cell := mkCell { c_kind : kind; c_items : list (string * hval) }.
Definition heap := list cell.
Definition hget (h : heap) (a : nat) : option cell := nth_error h a.
Fixpoint hset (h : heap) (a : nat) (c : cell) : heap :=
  match h, a with
  | [], _ => []
  | _ :: h', O => c :: h'
  | x :: h', S a' => x :: hset h' a' c
  end.

(** ** copy.deepcopy (standard library, copy.py:128-272): a memo from originals to copies; the
    copy of a list, dict or instance is made empty, entered in the memo, and then filled.
    Out of fuel is None; HeapFacts.v shows that it does not happen. *)
Definition memo := list (nat * nat).
Fixpoint mfind (m : memo) (a : nat) : option nat :=
  match m with
  | [] => None
  | (x, y) :: m' => if Nat.eqb a x then Some y else mfind m' a
  end.
Definition fill (b : nat) (k : string) (y : hval) (h : heap) : heap :=
  match hget h b with
  | Some c => hset h b (mkCell (c_kind c) (c_items c ++ [(k, y)]))
  | None => h
  end.
Fixpoint copy_items (copy : heap * memo -> hval -> option (heap * memo * hval)) (b : nat) (s : heap * memo)
    (l : list (string * hval)) : option (heap * memo) :=
  match l with
  | [] => Some s
  | (k, x) :: l' =>
      match copy s x with
      | Some (h1, m1, y) => copy_items copy b (fill b k y h1, m1) l'
      | None => None
      end
  end.
Fixpoint copy_value (fuel : nat) (s : heap * memo) (v : hval) : option (heap * memo * hval) :=
  match v with
  | HRef a =>
      match mfind (snd s) a with
      | Some b => Some (s, HRef b)
      | None =>
          match fuel, hget (fst s) a with
          | S n, Some c =>
              let b := length (fst s) in
              match copy_items (copy_value n) b ((fst s ++ [mkCell (c_kind c) []])%list, (a, b) :: snd s) (c_items c) with
              | Some s' => Some (s', HRef b)
              | None => None
              end
          | _, _ => None
          end
      end
  | _ => Some (s, v)
  end.
Definition deepcopy (h : heap) (v : hval) : option (heap * hval) :=
  match copy_value (length h) (h, []) v with
  | Some (h', _, v') => Some (h', v')
  | None => None
  end.

(** ** Loading: spine_anim_data.py:32-34, 60-62, called by spine_animation_editor.py:52.
    data["skeleton"] is copied; data is copied as a whole, and the key deleted from the copy.
    Nothing else is taken from [data].  The state is kept when an exception is raised. *)
Definition subscript (h : heap) (v : hval) (k : string) : res hval :=
  match v with
  | HRef a =>
      match hget h a with
      | Some (mkCell KDict items) => match dget k items with Some x => Ok x | None => Err (EKey k) end
      | _ => Err (EType "indices must be integers")
      end
  | _ => Err (EType "object is not subscriptable")
  end.
Definition delitem (h : heap) (v : hval) (k : string) : heap :=
  match v with
  | HRef a =>
      match hget h a with
      | Some c => hset h a (mkCell (c_kind c) (ddel k (c_items c)))
      | None => h
      end
  | _ => h
  end.
Definition load (h : heap) (data : hval) : heap * res (list hval) :=
  match subscript h data "skeleton" with
  | Err x => (h, Err x)
  | Ok sk =>
      match deepcopy h sk with
      | None => (h, Err EDiverges)
      | Some (h1, skeleton) =>
          match deepcopy h1 data with
          | None => (h1, Err EDiverges)
          | Some (h2, d) => (delitem h2 d "skeleton", Ok [skeleton; d])
          end
      end
  end.

(** ** Exporting: base_type.py:104-116 and 134-160.  New dicts and lists all the way down;
    [keep] stands for the comparison with the default values, which only reads.  Out of fuel
    is Python's RecursionError. *)
Fixpoint export_items (export : heap -> hval -> option (heap * hval)) (h : heap) (l : list (string * hval))
    : option (heap * list (string * hval)) :=
  match l with
  | [] => Some (h, [])
  | (k, x) :: l' =>
      match export h x with
      | Some (h1, y) =>
          match export_items export h1 l' with
          | Some (h2, l2) => Some (h2, (k, y) :: l2)
          | None => None
          end
      | None => None
      end
  end.
Fixpoint export (keep : heap -> nat -> string * hval -> bool) (fuel : nat) (h : heap) (v : hval) : option (heap * hval) :=
  match v with
  | HRef a =>
      match fuel, hget h a with
      | S n, Some c =>
          let items := match c_kind c with KObj _ => filter (keep h a) (c_items c) | _ => c_items c end in
          let k := match c_kind c with KList => KList | _ => KDict end in
          match export_items (export keep n) h items with
          | Some (h1, l) => Some ((h1 ++ [mkCell k l])%list, HRef (length h1))
          | None => None
          end
      | _, _ => None
      end
  | _ => Some (h, v)
  end.
(** spine_anim_data.py:42-45 *)
Definition setitem (h : heap) (v : hval) (k : string) (x : hval) : heap :=
  match v with
  | HRef a =>
      match hget h a with
      | Some c => hset h a (mkCell (c_kind c) (dset k x (c_items c)))
      | None => h
      end
  | _ => h
  end.
Definition to_json_data (keep : heap -> nat -> string * hval -> bool) (fuel : nat) (h : heap) (skeleton data : hval) : option (heap * hval) :=
  match export keep fuel h data with
  | Some (h1, json) =>
      match deepcopy h1 skeleton with
      | Some (h2, sk) => Some (setitem h2 json "skeleton" sk, json)
      | None => None
      end
  | None => None
  end.
