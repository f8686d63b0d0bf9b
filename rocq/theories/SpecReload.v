(** Specification for loading again what an editor exports after a history of calls. *)
From Verif Require Import PyBase Json Version Classes SpineGraph DrawOrder SpecDoc AnimData Editor SpecAnim SpecEditor.
Open Scope string_scope.

(** Only attributes that the class declares have a value. *)
Definition own_attributes (o : obj) : Prop := forall k, oget o k <> VNone -> In k (attrs_of (o_cls o)).

(** Every slot under which a skin files attachments is a slot of the document. *)
Definition filed_under_slots (d : anim_data) : Prop :=
  forall s sl m, In s (d_skins d) -> In (sl, m) (sk_atts s) -> In sl (map slot_name (d_slots d)).

(** What loading the exported document asks for *)
Record can_reload (d : anim_data) : Prop := {
  cr_slots : d_slots d <> [];
  cr_required : no_null_required d;
  cr_own : forall sl k o, skin_attachment d sl k o -> own_attributes o;
  cr_filed : filed_under_slots d }.
