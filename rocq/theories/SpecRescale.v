(** Spec for scaling after saving and loading: which scales of bones come back as they were. *)
From Verif Require Import PyBase PyNum Json Classes AnimData Editor SpecText.
Open Scope string_scope.

Definition scale_attribute (k : string) : Prop := k = "scaleX" \/ k = "scaleY".
(** Every scale that equals 1 is the float 1.0. *)
Definition ones_are_floats (d : anim_data) : Prop :=
  forall b k, In b (d_bones d) -> scale_attribute k -> py_eq (oget b k) (VFloat f_one) = true -> oget b k = VFloat f_one.
(** The floats among the scales are binary64, as json.load gives them. *)
Definition scales_binary64 (d : anim_data) : Prop :=
  forall b k f, In b (d_bones d) -> scale_attribute k -> oget b k = VFloat f -> is_float f.

(** Safe erasing of animations, and scaling by such factors *)
Definition light_call (factor : val -> Prop) (op : eop) : Prop :=
  match op with
  | EoEraseAnimations _ _ _ safe => safe = true
  | EoScale sx sy => factor sx /\ factor sy
  | EoEraseSkins _ _ _ | EoClean _ => False
  end.
(** The outcomes of calls made one after the other, each exception caught *)
Fixpoint run_calls (e : editor) (l : list eop) : editor * list (res unit) :=
  match l with
  | [] => (e, [])
  | op :: l' => let '(e1, r) := estep e op in let '(e2, rs) := run_calls e1 l' in (e2, r :: rs)
  end.
