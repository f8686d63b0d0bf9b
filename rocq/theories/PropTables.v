(** Properties C07 and C89: the class tables of the model are those declared in the code, and
    what a loaded element holds under each attribute. *)
From Verif Require Import PyBase PyNum Json Version Classes SpecTables TableFacts.
Open Scope string_scope.

(** ** C07, in terms of the declared tables *)
(** An element whose keys are all known is built exactly when the declared required
    attributes are there. *)
Theorem C07_declared : forall c d, (forall k, In k (dkeys d) -> In k (r_attrs (declared c))) ->
  ((exists o, build_obj c (VDict d) = Ok o) <-> forall k, In k (r_required (declared c)) -> In k (dkeys d)).
Proof. exact required_exact. Qed.
Print Assumptions C07_declared.
Example C07_ex_slot : r_required (declared CSlot) = ["name"; "bone"] /\ r_required (declared CBone) = ["name"] /\
  r_required (declared CDrawOffset) = ["offset"] /\ r_required (declared CIk) = [].
Proof. repeat split. Qed.

(** ** C89: declared attributes and defaults *)
Theorem C89_declared : forall c,
  attrs_of c = r_attrs (declared c) /\ defaults_old c = r_old (declared c) /\
  defaults_38 c = r_38 (declared c) /\ required c = r_required (declared c) /\
  unsupported_old c = r_unsupported (declared c).
Proof. exact tables_agree. Qed.
Print Assumptions C89_declared.
(** No class of the code is left out. *)
Theorem C89_all_classes : forall r, In r rows -> exists c, declared c = r.
Proof. exact rows_covered. Qed.
Print Assumptions C89_all_classes.
(** After loading, each attribute is the given value if there is one that is not null, else the
    declared default for the version, else None. *)
Theorem C89_loaded : forall c ver d o l k, build_obj c (VDict d) = Ok o -> declared_defaults c ver l ->
  In k (r_attrs (declared c)) ->
  oget (obj_set_defaults ver o) k =
  match dget k d with
  | Some VNone | None => match dget k l with Some dv => dv | None => VNone end
  | Some v => v
  end.
Proof. exact loaded_value. Qed.
Print Assumptions C89_loaded.

Example C89_ex : exists o l, build_obj CBoneRS (VDict [("angle", VInt 5); ("time", VNone)]) = Ok o /\
  declared_defaults CBoneRS (mkVersion 3 8 99) l /\
  map (oget (obj_set_defaults (mkVersion 3 8 99) o)) ["angle"; "time"; "x"; "c4"; "curve"] =
    [VInt 5; VInt 0; VInt 1; VInt 1; VList []].
Proof.
  eexists. exists (r_38 (declared CBoneRS)). split; [reflexivity | ]. split; [ | reflexivity].
  split; [reflexivity | ]. intros H. exfalso. apply H. repeat split; discriminate.
Qed.
Example C89_ex_old : exists o l, build_obj CBoneRS (VDict [("angle", VInt 5)]) = Ok o /\
  declared_defaults CBoneRS (mkVersion 3 7 94) l /\
  map (oget (obj_set_defaults (mkVersion 3 7 94) o)) ["angle"; "time"; "x"; "c4"; "curve"] =
    [VInt 5; VNone; VNone; VNone; VList []].
Proof.
  eexists. exists (r_old (declared CBoneRS)). split; [reflexivity | ]. split; [ | reflexivity].
  split; [ | reflexivity]. intros (_ & H & _). exfalso. apply H. reflexivity.
Qed.
