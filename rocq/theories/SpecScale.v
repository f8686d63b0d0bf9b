(** Scales that cannot be computed (C152). *)
From Verif Require Import PyBase PyNum Json Classes Tags AnimData SpecAnim.
Open Scope string_scope.

Definition readable (name : string) : Prop := exists f, tag_scale name f.
(** There is no bone of the name that [o] has as [attr]. *)
Definition leads_nowhere (d : anim_data) (o : obj) (attr : string) : Prop :=
  forall i b, ostr o attr = Some i -> ~ first_named bone_name i (d_bones d) b.
(** Going up from [b] one leaves the skeleton, without meeting "root" or an unreadable tag. *)
Definition orphan (d : anim_data) (b : obj) : Prop :=
  exists n x, climb d n b x /\ (forall i y, i <= n -> climb d i b y -> readable (bone_name y)) /\ leads_nowhere d x "parent".
(** Going up from [b] one meets an unreadable tag, and not "root" before. *)
Definition bad_tag_above (d : anim_data) (b : obj) : Prop :=
  exists n x, climb d n b x /\ ~ readable (bone_name x).
Definition bone_of (d : anim_data) (o b : obj) : Prop := exists i, ostr o "bone" = Some i /\ first_named bone_name i (d_bones d) b.
