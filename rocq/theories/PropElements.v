(** Properties C150 and C151: classes derived from SpineData. *)
From Verif Require Import PyBase PyNum Json Version Classes Traverse Elements SpecElements ElementFacts.
Open Scope string_scope.

(** ** C150: making an element *)
Theorem C150_incomplete : forall k values, ~ complete k -> construct k values = Err ENotImplemented.
Proof. exact incomplete. Qed.
Print Assumptions C150_incomplete.
Theorem C150_unknown : forall k values, complete k ->
  (forall l, construct k values = Err (EUnsupported l) -> l <> [] /\ forall a, In a l <-> In a (dkeys values) /\ ~ attribute k a) /\
  ((exists a, In a (dkeys values) /\ ~ attribute k a) -> exists l, construct k values = Err (EUnsupported l)).
Proof. exact unknown_refused. Qed.
Print Assumptions C150_unknown.
Theorem C150_required : forall k values, complete k -> (forall a, In a (dkeys values) -> attribute k a) ->
  (forall l, construct k values = Err (ERequired l) -> l <> [] /\ forall a, In a l <-> required_attribute k a /\ ~ In a (dkeys values)) /\
  ((exists a, required_attribute k a /\ ~ In a (dkeys values)) -> exists l, construct k values = Err (ERequired l)).
Proof. exact missing_refused. Qed.
Print Assumptions C150_required.
Theorem C150_made : forall k values, complete k -> (forall a, In a (dkeys values) -> attribute k a) -> (forall a, required_attribute k a -> In a (dkeys values)) ->
  exists x, construct k values = Ok x /\ (forall l, assigns b_init l k -> dkeys x = l) /\
    forall a v, In (a, v) x -> (In (a, v) values) \/ (v = VNone /\ ~ In a (dkeys values)).
Proof. exact constructed. Qed.
Print Assumptions C150_made.
Theorem C150_library : forall c, complete (klass_of c) /\ (forall ver, class_defaults (klass_of c) (Some ver) = Some (default_values c ver)) /\
  forall values, construct (klass_of c) values = match build_attrs c values with Ok o => Ok (o_attrs o) | Err e => Err e end.
Proof. exact library_classes. Qed.
Print Assumptions C150_library.
(** A class that lacks the table for 3.8, and one derived from it that declares it and requires an attribute. *)
Definition half : body := mkBody (Some (Some [("x", VInt 0)])) None None None (Some ["x"; "y"]) [].
Definition whole : body := mkBody None (Some (Some [])) None (Some ["y"]) None ["area"].
Example C150_ex : ~ complete [half] /\ complete [whole; half] /\ required_attribute [whole; half] "y" /\ attribute [whole; half] "x" /\
  construct [half] [("y", VInt 1)] = Err ENotImplemented /\
  construct [whole; half] [("y", VInt 1); ("z", VInt 2)] = Err (EUnsupported ["z"]) /\
  construct [whole; half] [("x", VInt 1)] = Err (ERequired ["y"]) /\
  construct [whole; half] [("y", VInt 1)] = Ok [("x", VNone); ("y", VInt 1)].
Proof.
  split. { intros (d & d38 & _ & H). inversion H as [b k E | b k _ K]; subst; [discriminate E | inversion K]. }
  split. { exists [("x", VInt 0)], []. split; [constructor 2; [reflexivity | constructor; reflexivity] | constructor; reflexivity]. }
  split. { exists ["y"]. split; [constructor; reflexivity | left; reflexivity]. }
  split. { exists ["x"; "y"]. split; [constructor 2; [reflexivity | constructor; reflexivity] | left; reflexivity]. }
  repeat split.
Qed.

(** ** C151: get *)
Theorem C151_attribute : forall k attrs n d v, ~ special n -> dget n attrs = Some v -> element_get k attrs n d = Ok (if is_none v then d else of_val v).
Proof. exact get_attribute. Qed.
Print Assumptions C151_attribute.
Theorem C151_other : forall k attrs n d, ~ special n -> dget n attrs = None -> ~ constant_name n ->
  (has_function k n -> element_get k attrs n d = Ok POther) /\ (~ has_function k n -> element_get k attrs n d = Ok d).
Proof. exact get_other. Qed.
Print Assumptions C151_other.
(** The statement one would expect: a name that is no attribute gives the default.  It is false. *)
Definition default_for_others : Prop := forall c values attrs n d, construct (klass_of c) values = Ok attrs -> ~ special n -> dget n attrs = None ->
  element_get (klass_of c) attrs n d = Ok d.
(** get("scale") on a bone is the method of this name, not the default. *)
Theorem C151_default_refuted : exists c values attrs n d, construct (klass_of c) values = Ok attrs /\ ~ special n /\ dget n attrs = None /\
  element_get (klass_of c) attrs n d <> Ok d.
Proof.
  exists CBone, [("name", VStr "b")]. eexists. exists "scale", (PInt 1). split; [vm_compute; reflexivity | ]. split; [intros [s E]; discriminate E | ].
  split; [vm_compute; reflexivity | ]. intros E. vm_compute in E. discriminate E.
Qed.
Print Assumptions C151_default_refuted.
Example C151_ex : exists attrs, construct (klass_of CSlot) [("name", VStr "s"); ("bone", VStr "b")] = Ok attrs /\
  element_get (klass_of CSlot) attrs "bone" PNone = Ok (PStr "b") /\ element_get (klass_of CSlot) attrs "attachment" (PInt 3) = Ok (PInt 3) /\
  element_get (klass_of CSlot) attrs "nothing" (PInt 3) = Ok (PInt 3) /\ ~ has_function (klass_of CSlot) "nothing" /\
  element_get (klass_of CSlot) attrs "to_json" (PInt 3) = Ok POther /\ has_function (klass_of CSlot) "to_json".
Proof.
  eexists. split; [vm_compute; reflexivity | ]. repeat (split; [vm_compute; reflexivity | ]).
  split. { intros [(b & [<- | []] & H) | H]; [destruct H as [H | []]; discriminate H | ]. repeat (destruct H as [H | H]; [discriminate H | ]). exact H. }
  split; [vm_compute; reflexivity | ]. right. do 3 right. left. reflexivity.
Qed.
