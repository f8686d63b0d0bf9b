(** Specification notions for draw orders: what a list of (slot, offset) pairs means for a
    list of slot names (the rule of the Spine runtime). *)
From Coq Require Export Permutation.
From Verif Require Import PyBase Json Classes.
Open Scope string_scope.

Definition move : Type := string * Z.

(** The offset object says: slot s moves by z places. *)
Definition int_value (v : val) (z : Z) : Prop :=
  v = VInt z \/ (v = VBool true /\ z = 1%Z) \/ (v = VBool false /\ z = 0%Z).
Definition offset_of (o : obj) (m : move) : Prop :=
  oget o "slot" = VStr (fst m) /\ int_value (oget o "offset") (snd m).
Definition moves_of (l : list obj) (ms : list move) : Prop := Forall2 offset_of l ms.

(** Each slot is listed once and exists, each target is a place in the list, and no two
    slots have the same target. *)
Definition valid_moves (names : list string) (ms : list move) : Prop :=
  NoDup (map fst ms) /\
  (forall s z, In (s, z) ms -> exists i j, nth_error names i = Some s /\
     (Z.of_nat i + z = Z.of_nat j)%Z /\ j < length names) /\
  (forall s z i s' z' i', In (s, z) ms -> In (s', z') ms ->
     nth_error names i = Some s -> nth_error names i' = Some s' ->
     (Z.of_nat i + z = Z.of_nat i' + z')%Z -> s = s').

Definition unlisted (ms : list move) (s : string) : bool := negb (smem s (map fst ms)).

(** l is the draw order: listed slots at their index plus offset, the others in their
    relative order in the remaining places. *)
Definition draw_order_of (names : list string) (ms : list move) (l : list string) : Prop :=
  Permutation l names /\
  (forall s z i, In (s, z) ms -> nth_error names i = Some s ->
     exists j, Z.of_nat j = (Z.of_nat i + z)%Z /\ nth_error l j = Some s) /\
  filter (unlisted ms) l = filter (unlisted ms) names.

(** The slots that are not removed. *)
Definition survivors (removed l : list string) : list string := filter (fun s => negb (smem s removed)) l.

(** Offsets of a keyframe as they come: the last entry of a slot counts. *)
Definition counted (l : list obj) (s : string) (o : obj) : Prop :=
  exists a b, l = (a ++ o :: b)%list /\ oget o "slot" = VStr s /\ forall o', In o' b -> oget o' "slot" <> VStr s.
(** A slot of the skeleton is moved by something that is not an int. *)
Definition not_by_int (names : list string) (l : list obj) : Prop :=
  exists s o, In s names /\ counted l s o /\ forall z, ~ int_value (oget o "offset") z.
(** An entry is without slot, or of a slot that neither exists nor is removed. *)
Definition of_no_slot (removed names : list string) (l : list obj) : Prop :=
  exists o, In o l /\ forall s, oget o "slot" = VStr s -> ~ In s names /\ ~ In s removed.
