(** Specification for SpineAnimationData: what is visible, which attachments are shown,
    where the bones of a slot lead, and how a removed skin is undone.  Written on the
    attributes of the data only. *)
From Verif Require Import PyBase PyNum Json SpecNums Classes Tags DrawOrder AnimData.
From Coq Require Import SpecFloat.
Open Scope string_scope.

(** ** Colors *)
Definition hex_digit (c : ascii) : Prop := In c (chars "0123456789abcdefABCDEF").
Definition hex_text (s : string) : Prop := Forall hex_digit (chars s).

(** The value of the slot's color, read as a hexadecimal number, has the low byte 0. *)
Definition transparent (s : obj) : Prop :=
  exists c n, ostr s "color" = Some c /\ color_value c n /\ N.modulo n 256 = 0%N.
Definition readable_color (s : obj) : Prop :=
  forall c, ostr s "color" = Some c -> exists n, color_value c n.

(** ** Visibility *)
(** Nothing in the setup pose makes the slot appear. *)
Definition bare (s : obj) : Prop :=
  oget s "attachment" = VNone /\ oget s "dark" = VNone /\ oget s "blend" = VNone /\
  oget s "color" = VNone.

(** The names a timeline shows (the text "None" counts as nothing). *)
Definition keyframe_shows (k : obj) (n : string) : Prop := ostr k "name" = Some n /\ n <> "None".
Definition timeline_shows (t : slot_timeline) (n : string) : Prop :=
  exists k, In k (st_attachment t) /\ keyframe_shows k n.
(** Colored: the timeline changes the color. *)
Definition colored (t : slot_timeline) : Prop := st_color t <> [] \/ st_twoColor t <> [].
(** Empty: no color, and no attachment keyframe except one that hides at time 0. *)
Definition empty_timeline (t : slot_timeline) : Prop :=
  ~ colored t /\
  (st_attachment t = [] \/
   exists k, st_attachment t = [k] /\ (forall n, ~ keyframe_shows k n) /\
             py_eq (oget k "time") (VInt 0) = true).

Definition timeline_hides (s : obj) (t : slot_timeline) : Prop :=
  empty_timeline t \/ (transparent s /\ ~ colored t) \/
  (bare s /\ forall n, ~ timeline_shows t n).

Definition timeline (a : animation) (s : obj) (t : slot_timeline) : Prop :=
  In (slot_name s, t) (an_slots a).
Definition has_timeline (a : animation) (s : obj) : Prop := exists t, timeline a s t.

Definition visible_in_setup (s : obj) : Prop := ~ transparent s /\ ~ bare s.
Definition visible_in (a : animation) (s : obj) : Prop :=
  (exists t, timeline a s t /\ ~ timeline_hides s t) \/
  (~ has_timeline a s /\ visible_in_setup s).

(** Animation [a] shows attachment [n] on slot [s], which it makes visible. *)
Definition shown_in (a : animation) (s : obj) (n : string) : Prop :=
  visible_in a s /\
  (ostr s "attachment" = Some n \/ exists t, timeline a s t /\ timeline_shows t n).

Definition in_animations (d : anim_data) (a : animation) : Prop := exists i, In (i, a) (d_animations d).

Definition used_slot (d : anim_data) (s : obj) : Prop :=
  exists a, in_animations d a /\ visible_in a s.
Definition used_attachment (d : anim_data) (n : string) : Prop :=
  exists a s, in_animations d a /\ In s (d_slots d) /\ shown_in a s n.

(** Attachment [o] is filed under slot [sl] and name [n] in some skin. *)
Definition skin_attachment (d : anim_data) (sl n : string) (o : obj) : Prop :=
  exists s m, In s (d_skins d) /\ In (sl, m) (sk_atts s) /\ In (n, o) m.

(** Names identify slots, and a dictionary has each key once. *)
Definition distinct_slots (d : anim_data) : Prop := NoDup (map slot_name (d_slots d)).
Definition distinct_timelines (d : anim_data) : Prop :=
  forall a, in_animations d a -> NoDup (dkeys (an_slots a)).

(** What the analysis needs: readable colors; timelines of known slots with a non-empty
    name; and something visible in the setup pose or a timeline in every animation. *)
Definition analysable (d : anim_data) : Prop :=
  (forall s, In s (d_slots d) -> readable_color s) /\
  forall a, in_animations d a ->
    (forall n t, In (n, t) (an_slots a) -> n <> "" /\ exists s, In s (d_slots d) /\ slot_name s = n) /\
    ((exists s, In s (d_slots d) /\ visible_in_setup s) \/ an_slots a <> []).

(** Where the analysis stops: a timeline of no slot, nothing to show, and the first animation of such a kind. *)
Definition stray_timeline (d : anim_data) (a : animation) : Prop :=
  exists n t, In (n, t) (an_slots a) /\ (n = "" \/ forall s, In s (d_slots d) -> slot_name s <> n).
Definition nothing_shown (d : anim_data) (a : animation) : Prop :=
  an_slots a = [] /\ forall s, In s (d_slots d) -> ~ visible_in_setup s.
Definition stops_at (d : anim_data) (P : animation -> Prop) : Prop :=
  exists before i a after, d_animations d = (before ++ (i, a) :: after)%list /\ P a /\
    forall j b, In (j, b) before -> ~ stray_timeline d b /\ ~ nothing_shown d b.

(** ** Scale *)
(** The first element with a name. *)
Definition first_named {A} (name : A -> string) (n : string) (l : list A) (x : A) : Prop :=
  exists l1 l2, l = (l1 ++ x :: l2)%list /\ name x = n /\ forall y, In y l1 -> name y <> n.

(** The bones from [b] up to, and without, the bone named "root". *)
Inductive lineage (d : anim_data) : obj -> list obj -> Prop :=
| lin_root : forall b, bone_name b = "root" -> lineage d b []
| lin_up : forall b p b' l,
    bone_name b <> "root" -> ostr b "parent" = Some p ->
    first_named bone_name p (d_bones d) b' -> lineage d b' l -> lineage d b (b :: l).

(** The scale in a name: the tag's, or 1 *)
Definition tag_scale (name : string) (f : float64) : Prop :=
  get_tags_from_name name = Ok [("scale", f)] \/ (get_tags_from_name name = Ok [] /\ f = f_one).

Definition slot_scale_is (d : anim_data) (s : obj) (f : float64) : Prop :=
  exists i b l fs f0,
    ostr s "bone" = Some i /\ first_named bone_name i (d_bones d) b /\ lineage d b l /\
    Forall2 (fun b f => tag_scale (bone_name b) f) l fs /\ tag_scale (slot_name s) f0 /\
    f = fmul f0 (fold_left fmul fs f_one).

(** ** Removing a skin *)
Definition linked_to (n : string) (o : obj) : Prop :=
  o_cls o = CSkinLinkedMesh /\ oget o "skin" = VStr n.

(** [o'] is [src] with the name, path, width and height of [o]. *)
Definition copy_of (src o o' : obj) : Prop :=
  o_cls o' = o_cls src /\
  (forall k, In k ["name"; "path"; "width"; "height"] -> oget o' k = oget o k) /\
  (forall k, ~ In k ["name"; "path"; "width"; "height"] -> oget o' k = oget src k).

(** [m] and [m'] have the same keys in the same order, and [R] relates the values. *)
Definition keywise {A} (R : string -> A -> A -> Prop) : dict A -> dict A -> Prop :=
  Forall2 (fun x y => fst x = fst y /\ R (fst x) (snd x) (snd y)).

(** What becomes of the attachment [o] filed under [sl] and [k]. *)
Definition unlinked (n : string) (source : skin) (sl k : string) (o o' : obj) : Prop :=
  (~ linked_to n o /\ o' = o) \/
  (linked_to n o /\ exists m src, dget sl (sk_atts source) = Some m /\ dget k m = Some src /\
                                  copy_of src o o').
Definition skin_unlinked (n : string) (source : skin) (s s' : skin) : Prop :=
  sk_name s' = sk_name s /\
  keywise (fun sl => keywise (fun k => unlinked n source sl k)) (sk_atts s) (sk_atts s').

Definition others (n : string) (l : list skin) : list skin :=
  filter (fun s => negb (opt_eqb (sk_name s) (Some n))) l.
Definition has_source (d : anim_data) (n : string) (source : skin) : Prop :=
  forall s sl m k o, In s (d_skins d) -> sk_name s <> Some n -> In (sl, m) (sk_atts s) -> In (k, o) m ->
    linked_to n o -> exists m' src, dget sl (sk_atts source) = Some m' /\ dget k m' = Some src.
Definition first_skin (d : anim_data) (n : string) (s : skin) : Prop :=
  exists l1 l2, d_skins d = (l1 ++ s :: l2)%list /\ sk_name s = Some n /\
                forall y, In y l1 -> sk_name y <> Some n.

(** The image an attachment names: its path, if any, else its name. *)
Definition names_image (o : obj) (x : option string) : Prop :=
  (exists p, ostr o "path" = Some p /\ p <> "" /\ x = Some p) \/
  ((ostr o "path" = None \/ ostr o "path" = Some "") /\ x = ostr o "name").
Definition in_skin (s : skin) (sl k : string) (o : obj) : Prop :=
  exists m, In (sl, m) (sk_atts s) /\ In (k, o) m.
(** A skin's dictionaries have each key once. *)
Definition distinct_keys (s : skin) : Prop :=
  NoDup (dkeys (sk_atts s)) /\ forall sl m, In (sl, m) (sk_atts s) -> NoDup (dkeys m).

(** ** Endless ancestry *)
(** [climb d n b x]: n steps from [b] up to [x] without meeting the bone named "root". *)
Inductive climb (d : anim_data) : nat -> obj -> obj -> Prop :=
| climb_0 : forall b, bone_name b <> "root" -> climb d 0 b b
| climb_S : forall n b p b' x,
    bone_name b <> "root" -> ostr b "parent" = Some p ->
    first_named bone_name p (d_bones d) b' -> climb d n b' x -> climb d (S n) b x.
(** The ancestors of [b] run into a cycle. *)
Definition endless (d : anim_data) (b : obj) : Prop :=
  exists i k x, climb d i b x /\ climb d (S k) x x.
(** No bone is its own ancestor. *)
Definition no_bone_cycle (d : anim_data) : Prop := forall b k, ~ climb d (S k) b b.

(** Removing the deform timelines of a skin. *)
Definition without_deform (n : string) (a a' : animation) : Prop :=
  an_ik a' = an_ik a /\ an_drawOrder a' = an_drawOrder a /\ an_bones a' = an_bones a /\
  an_slots a' = an_slots a /\ an_events a' = an_events a /\ an_transform a' = an_transform a /\
  an_path a' = an_path a /\
  an_deform a' = filter (fun kv => negb (String.eqb n (fst kv))) (an_deform a).
