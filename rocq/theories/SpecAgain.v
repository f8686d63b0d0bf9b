(** Specification for C135: clean-ups after a clean-up that failed. *)
From Verif Require Import PyBase Json Classes AnimData Editor SpecAnim SpecEditor SpecFail.
Open Scope string_scope.

(** Calls that neither clean up nor read the document into the graph, whatever their outcome *)
Definition light (op : eop) : Prop :=
  match op with
  | EoScale _ _ => True
  | EoEraseAnimations _ _ _ safe => safe = true
  | EoEraseSkins _ _ _ | EoClean _ => False
  end.
Inductive light_calls (e : editor) : editor -> Prop :=
| no_calls : light_calls e e
| one_more : forall e1 op e2 r, light_calls e e1 -> light op -> estep e1 op = (e2, r) -> light_calls e e2.
