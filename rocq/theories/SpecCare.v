(** Specification for C141: calls of a caller that builds the graph again after calls that failed. *)
From Verif Require Import PyBase Classes SpineGraph AnimData Editor SpecAnim SpecEditor.

(** erase_skins builds the graph again. *)
Definition builds_graph (op : eop) : bool := match op with EoEraseSkins _ _ _ => true | _ => false end.
Definition cleans_up (op : eop) : bool :=
  match op with
  | EoEraseSkins _ _ safe | EoEraseAnimations _ _ _ safe => negb safe
  | EoClean _ => true
  | EoScale _ _ => false
  end.
(** The editor after calls of which any may fail; [steady]: no call has failed since erase_skins last returned.
    If one has, no clean-up returns before erase_skins does. *)
Inductive careful_calls (e0 : editor) : bool -> editor -> Prop :=
| careful_none : loaded e0 -> careful_calls e0 true e0
| careful_fails : forall steady e op e' x, careful_calls e0 steady e -> eop_ok op -> estep e op = (e', Err x) -> careful_calls e0 false e'
| careful_works : forall steady e op e', careful_calls e0 steady e -> eop_ok op -> estep e op = (e', Ok tt) ->
    steady = true \/ builds_graph op = true \/ cleans_up op = false -> careful_calls e0 (steady || builds_graph op) e'.
