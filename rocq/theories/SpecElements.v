(** What a class derived from SpineData has (C150, C151). *)
From Verif Require Import PyBase PyNum Json Version Classes Traverse Elements.
Open Scope string_scope.

(** The class, or the nearest of its bases that assigns it, assigns [x]. *)
Inductive assigns {A} (f : body -> option A) (x : A) : klass -> Prop :=
| assigns_here : forall b k, f b = Some x -> assigns f x (b :: k)
| assigns_base : forall b k, f b = None -> assigns f x k -> assigns f x (b :: k).
Definition no_one_assigns {A} (f : body -> option A) (k : klass) : Prop := forall b, In b k -> f b = None.

(** Both tables of default values are declared. *)
Definition complete (k : klass) : Prop :=
  exists d d38, assigns b_default (Some d) k /\ assigns b_default38 (Some d38) k.
(** The attributes of its instances, and those that have to be given. *)
Definition attribute (k : klass) (a : string) : Prop := exists l, assigns b_init l k /\ In a l.
Definition required_attribute (k : klass) (a : string) : Prop := exists l, assigns b_required l k /\ In a l.

(** The class has a function of this name. *)
Definition has_function (k : klass) (n : string) : Prop :=
  (exists b, In b k /\ In n (b_functions b)) \/
  In n ["get"; "default_values"; "set_default_values"; "to_json"; "clean_unsupported_attributes";
        "set_default_values_from_version"; "to_spine_data_ignoring_default_values"; "remove_unsupported_attributes"; "traverse_spine_data"].
Definition constant_name (n : string) : Prop :=
  In n ["DEFAULT_VALUES"; "SPINE_3_8_DEFAULT_VALUES"; "UNSUPPORTED_VALUES_OLD_VERSION"; "REQUIRED"].
Definition special (n : string) : Prop := exists s, n = "__" ++ s.
