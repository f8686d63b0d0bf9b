(** What a document says about its elements and their references, for the graph of a
    Spine document. *)
From Verif Require Import PyBase Unicode Json Graph SpecGraph SpineGraph.
From Coq Require Import SpecFloat.
Open Scope string_scope.

(** The graph ids of the kinds of elements, spine_nodes.py:322-329. *)
Definition bone_id (s : string) : string := s ++ "_BONE".
Definition slot_id (s : string) : string := s ++ "_SLOT".
Definition ik_id (s : string) : string := s ++ "_IK".
Definition att_id (s : string) : string := s ++ "_ATTACHMENT".
Definition img_id (s : string) : string := s ++ "_IMAGE".

(** v.get(k) of a JSON object; v's text in an f-string (str(v); SpecRepr.v says what it is); what a for loop over v sees; the elements listed under a key of the document;
    the values that count as false. *)
Definition field (v : val) (k : string) : val :=
  match v with VDict d => match dget k d with Some x => x | None => VNone end | _ => VNone end.
Definition text (v : val) (s : string) : Prop := py_str v = s.
Definition contents (v : val) : option (list val) :=
  match v with
  | VList l => Some l
  | VDict d => Some (map (fun kv => VStr (fst kv)) d)
  | VStr s => Some (map VStr (each_char s))
  | _ => None
  end.
Definition elems (v : val) : list val := match contents v with Some l => l | None => [] end.
Definition each (d : dict val) (k : string) : list val :=
  match dget k d with Some v => elems v | None => [] end.
Definition blank (v : val) : bool :=
  match v with
  | VNone | VBool false | VInt 0 | VFloat (S754_zero _) | VStr "" | VList [] | VDict [] => true
  | _ => false
  end.

Definition named (v : val) (s : string) : Prop := text (field v "name") s.
Definition is_named (l : list val) (s : string) : Prop := exists v, In v l /\ named v s.

(** Attachment [att] is listed under [key] for the slot named [s] in some skin. *)
Definition listed_in (skins : list val) (s key : string) (att : val) : Prop :=
  exists skin atts sl, In skin skins /\ field skin "attachments" = VDict atts /\
    dget s atts = Some (VDict sl) /\ In (key, att) sl.
Definition listed (d : dict val) : string -> string -> val -> Prop := listed_in (each d "skins").

(** The image of an attachment: its path, or its name, or its key. *)
Definition image (att : val) (key : string) : val :=
  if blank (field att "path") then if blank (field att "name") then VStr key else field att "name"
  else field att "path".

(** The slot listed in the document whose name is the str [s]. *)
Definition slot_named (d : dict val) (s : string) : Prop :=
  exists v, In v (each d "slots") /\ field v "name" = VStr s.

(** The references of a document. *)
Inductive reference (d : dict val) : string -> string -> Prop :=
| ref_bone_parent : forall l1 v l2 s p, each d "bones" = (l1 ++ v :: l2)%list -> named v s ->
    text (field v "parent") p -> is_named l1 p -> reference d (bone_id p) (bone_id s)
| ref_slot_bone : forall v s b, In v (each d "slots") -> named v s ->
    text (field v "bone") b -> is_named (each d "bones") b -> reference d (bone_id b) (slot_id s)
| ref_slot_attachment : forall s k a, slot_named d s -> listed d s k a -> reference d (slot_id s) (att_id k)
| ref_attachment_image : forall s k a i, slot_named d s -> listed d s k a -> text (image a k) i ->
    reference d (att_id k) (img_id i)
| ref_ik_bone : forall v s x b, In v (each d "ik") -> named v s -> In x (elems (field v "bones")) -> text x b ->
    is_named (each d "bones") b -> reference d (ik_id s) (bone_id b)
| ref_ik_target : forall v s b, In v (each d "ik") -> named v s -> blank (field v "target") = false ->
    text (field v "target") b -> is_named (each d "bones") b -> reference d (bone_id b) (ik_id s).

(** The elements of a document. *)
Inductive element (d : dict val) : string -> string -> Prop :=
| el_bone : forall s, is_named (each d "bones") s -> element d "BONE" (bone_id s)
| el_slot : forall s, is_named (each d "slots") s -> element d "SLOT" (slot_id s)
| el_ik : forall s, is_named (each d "ik") s -> element d "IK" (ik_id s)
| el_attachment : forall s k a, slot_named d s -> listed d s k a -> element d "ATTACHMENT" (att_id k)
| el_image : forall s k a i, slot_named d s -> listed d s k a -> text (image a k) i -> element d "IMAGE" (img_id i).

(** Node [i] has type [t]. *)
Definition typed (g : sgraph) (t i : string) : Prop := exists n, has_node g i n /\ n_type n = NTStr t.

(** ** Documents of the expected shape *)
Definition iterable (v : val) : Prop := exists l, contents v = Some l.
Definition is_object (v : val) : Prop := exists d, v = VDict d.
Definition has_key (k : string) (v : val) : Prop := exists d, v = VDict d /\ dmem k d = true.

Definition hashable (v : val) : Prop := match v with VList _ | VDict _ => False | _ => True end.
Definition skin_shape (slots : list val) (skin : val) : Prop :=
  is_object skin /\
  (blank (field skin "attachments") = false -> (forall v, In v slots -> hashable (field v "name")) /\ exists atts, field skin "attachments" = VDict atts /\
     forall v s x, In v slots -> field v "name" = VStr s -> dget s atts = Some x ->
       x = VList [] \/ exists sl, x = VDict sl /\ forall k a, In (k, a) sl -> is_object a).
Definition ik_shape (v : val) : Prop := has_key "name" v /\ has_key "bones" v /\ iterable (field v "bones").

Record doc_shape (d : dict val) : Prop := {
  sh_bones : exists v, dget "bones" d = Some v /\ iterable v;
  sh_slots : forall v, dget "slots" d = Some v -> iterable v;
  sh_ik : forall v, dget "ik" d = Some v -> iterable v;
  sh_skins : each d "slots" <> [] -> exists v, dget "skins" d = Some v /\ iterable v;
  sh_bone : forall v, In v (each d "bones") -> has_key "name" v;
  sh_slot : forall v, In v (each d "slots") -> has_key "name" v;
  sh_iks : forall v, In v (each d "ik") -> ik_shape v;
  sh_skin : forall v, In v (each d "skins") -> skin_shape (each d "slots") v }.

(** No two elements of a list share their name; no bone names itself as its parent (a bone
    named "None" without parent does). *)
Definition names (l : list val) : list string :=
  map (fun v => py_str (field v "name")) l.
Definition unique_names (d : dict val) : Prop :=
  NoDup (names (each d "bones")) /\ NoDup (names (each d "slots")) /\ NoDup (names (each d "ik")).
Definition no_self_parent (d : dict val) : Prop :=
  forall v s, In v (each d "bones") -> named v s -> ~ text (field v "parent") s.

(** ** Recursive removal *)
(** Nodes of type t all of whose children (parents) are such nodes. *)
Inductive only_below (g : sgraph) (t : string) : string -> Prop :=
| only_below_intro : forall i, typed g t i -> (forall c, edge g i c -> only_below g t c) -> only_below g t i.
Inductive only_above (g : sgraph) (t : string) : string -> Prop :=
| only_above_intro : forall i, typed g t i -> (forall p, edge g p i -> only_above g t p) -> only_above g t i.

(** [g'] is [g] without the nodes [gone]: the other nodes are unchanged up to their edges,
    and the edges between them are the same. *)
Definition without (g g' : sgraph) (gone : string -> Prop) : Prop :=
  (forall i n', has_node g' i n' -> ~ gone i /\ exists n, has_node g i n /\ core n' = core n) /\
  (forall i n, has_node g i n -> ~ gone i -> exists n', has_node g' i n') /\
  (forall p c, edge g' p c <-> edge g p c /\ ~ gone p /\ ~ gone c).
