(** Specification for C136: calls after calls that failed. *)
From Verif Require Import PyBase Json Version Classes SpineGraph DrawOrder AnimData Editor SpecAnim SpecEditor SpecFail.
Open Scope string_scope.

(** The editor after any calls to it, the last one first: a caller that catches every exception and goes on. *)
Inductive any_calls (e0 : editor) : list eop -> editor -> Prop :=
| calls_none : loaded e0 -> any_calls e0 [] e0
| calls_more : forall ops e op e' r, any_calls e0 ops e -> eop_ok op -> estep e op = (e', r) -> any_calls e0 (op :: ops) e'.

(** What no call changes, failed or not: the version, the bones' names and parents, the constraints; slots
    only disappear or lose their attachment. *)
Record as_loaded (e0 e : editor) : Prop := {
  al_version : e_ver e = e_ver e0;
  al_bones : map (fun b => (oget b "name", oget b "parent")) (d_bones (e_data e)) = map (fun b => (oget b "name", oget b "parent")) (d_bones (e_data e0));
  al_ik : map (obj_json (e_ver e)) (d_ik (e_data e)) = map (obj_json (e_ver e0)) (d_ik (e_data e0));
  al_names : NoDup (map slot_name (d_slots (e_data e)));
  al_slots : forall s, In s (d_slots (e_data e)) -> exists s0, In s0 (d_slots (e_data e0)) /\ o_cls s = o_cls s0 /\ slot_name s = slot_name s0 /\
    (forall k, k <> "attachment" -> oget s k = oget s0 k) /\ (oget s "attachment" = oget s0 "attachment" \/ oget s "attachment" = VNone) }.
