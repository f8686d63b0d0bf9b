(** Objects of a type that the traversals do not support, at any depth (C149). *)
From Verif Require Import PyBase PyNum Json Version Classes Traverse.
Open Scope string_scope.

(** An object that is neither JSON nor an element (a tuple, a set, ...) occurs. *)
Inductive foreign : pyobj -> Prop :=
| foreign_here : foreign POther
| foreign_list : forall x l, In x l -> foreign x -> foreign (PList l)
| foreign_dict : forall k x d, In (k, x) d -> foreign x -> foreign (PDict d)
| foreign_attr : forall k x c d, In (k, x) d -> foreign x -> foreign (PElem c d).

(** The attributes that are removed for versions that compare less than 3.8.0 (all three numbers
    have to be less, so no version with a patch number of 0 or more does: C02, C55). *)
Definition removed (ver : version) (c : cls) (k : string) : Prop :=
  (v_major ver < 3 /\ v_minor ver < 8 /\ v_patch ver < 0)%Z /\ In c [CBoneTS; CBoneRS; CIkTimeline; CSlotKeyframe] /\ In k ["c2"; "c3"; "c4"].
(** ... and one occurs outside of them. *)
Inductive foreign_kept (ver : version) : pyobj -> Prop :=
| kept_here : foreign_kept ver POther
| kept_list : forall x l, In x l -> foreign_kept ver x -> foreign_kept ver (PList l)
| kept_dict : forall k x d, In (k, x) d -> foreign_kept ver x -> foreign_kept ver (PDict d)
| kept_attr : forall k x c d, In (k, x) d -> ~ removed ver c k -> foreign_kept ver x -> foreign_kept ver (PElem c d).
