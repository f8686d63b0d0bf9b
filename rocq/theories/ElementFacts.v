(** Classes derived from SpineData (C150, C151). *)
From Verif Require Import PyBase PyNum Json Version Classes Traverse Elements SpecElements.
From Verif Require PyFacts.
Open Scope string_scope.

Lemma assigns_iff : forall A (f : body -> option A) x k base, assigns f x k -> inherited f k base = x.
Proof. intros A f x k base H. induction H; cbn [inherited]; rewrite H; auto. Qed.
Lemma assigns_or : forall A (f : body -> option A) k base, assigns f (inherited f k base) k \/ (no_one_assigns f k /\ inherited f k base = base).
Proof.
  intros A f k base. induction k as [ | b k IH]; [right; split; [intros ? [] | reflexivity] | ]. cbn [inherited]. destruct (f b) as [x | ] eqn:E.
  - left. constructor. exact E.
  - destruct IH as [IH | [N IH]]; [left; constructor 2; assumption | right; split; [ | exact IH]]. intros b' [<- | H]; [exact E | exact (N _ H)].
Qed.
Lemma no_assigns : forall A (f : body -> option A) k x, no_one_assigns f k -> ~ assigns f x k.
Proof.
  intros A f k x N H. induction H as [b k H | b k _ _ IH]; [rewrite (N b (or_introl eq_refl)) in H; discriminate H | ]. apply IH. intros b' H'. apply N. right. exact H'.
Qed.
Lemma inherited_some : forall A (f : body -> option (option A)) k x, inherited f k None = Some x <-> assigns f (Some x) k.
Proof.
  intros A f k x. split; [ | apply assigns_iff]. intros E. destruct (assigns_or _ f k None) as [H | [_ H]]; [rewrite E in H; exact H | rewrite E in H; discriminate H].
Qed.
Lemma inherited_in : forall f k a, In a (inherited f k []) <-> exists l : list string, assigns f l k /\ In a l.
Proof.
  intros f k a. split.
  - intros H. destruct (assigns_or _ f k []) as [K | [_ K]]; [eauto | rewrite K in H; contradiction].
  - intros (l & K & H). rewrite (assigns_iff _ _ _ _ [] K). exact H.
Qed.
Lemma complete_new : forall k, complete k <-> new_instance k = Ok tt.
Proof.
  intros k. unfold complete, new_instance. split.
  - intros (d & d38 & H & H38). apply inherited_some in H. apply inherited_some in H38. rewrite H, H38. reflexivity.
  - destruct (inherited b_default k None) as [d | ] eqn:E; [ | discriminate]. destruct (inherited b_default38 k None) as [d38 | ] eqn:E38; [ | discriminate]. intros _. exists d, d38. split; apply inherited_some; assumption.
Qed.
Theorem incomplete : forall k values, ~ complete k -> construct k values = Err ENotImplemented.
Proof.
  intros k values H. unfold construct. assert (new_instance k = Err ENotImplemented) as ->; [ | reflexivity]. rewrite complete_new in H. unfold new_instance in *.
  destruct (inherited b_default k None); [ | reflexivity]. destruct (inherited b_default38 k None); [ | reflexivity]. destruct H. reflexivity.
Qed.

Lemma none_left : forall A (p : A -> bool) l, filter p l = [] <-> forall x, In x l -> p x = false.
Proof.
  intros A p l. split.
  - intros E x H. destruct (p x) eqn:P; [ | reflexivity]. assert (In x (filter p l)) as K by (apply filter_In; auto). rewrite E in K. contradiction.
  - intros H. induction l as [ | a l IH]; [reflexivity | ]. cbn [filter]. rewrite (H a (or_introl eq_refl)). apply IH. intros x Hx. apply H. right. exact Hx.
Qed.
Lemma not_in : forall x l, negb (smem x l) = false <-> In x l.
Proof. intros x l. rewrite Bool.negb_false_iff. apply PyFacts.smem_in. Qed.
Lemma is_out : forall x l, negb (smem x l) = true <-> ~ In x l.
Proof. intros x l. rewrite Bool.negb_true_iff. apply PyFacts.smem_nin. Qed.

Theorem unknown_refused : forall k values, complete k ->
  (forall l, construct k values = Err (EUnsupported l) -> l <> [] /\ forall a, In a l <-> In a (dkeys values) /\ ~ attribute k a) /\
  ((exists a, In a (dkeys values) /\ ~ attribute k a) -> exists l, construct k values = Err (EUnsupported l)).
Proof.
  intros k values C. apply complete_new in C. unfold construct, check_keys, attribute. rewrite C. cbn [bind]. split.
  - intros l H. destruct (filter _ (dkeys values)) as [ | a l'] eqn:E.
    + destruct (filter _ (inherited b_required k [])); discriminate H.
    + injection H as <-. split; [discriminate | ]. intros b. rewrite <- E, filter_In, is_out, inherited_in. tauto.
  - intros (a & H & N). rewrite <- inherited_in in N. assert (In a (filter (fun k0 => negb (smem k0 (inherited b_init k []))) (dkeys values))) as K by (apply filter_In; split; [exact H | apply is_out; exact N]).
    destruct (filter _ (dkeys values)); [contradiction | ]. eexists. reflexivity.
Qed.
Theorem missing_refused : forall k values, complete k -> (forall a, In a (dkeys values) -> attribute k a) ->
  (forall l, construct k values = Err (ERequired l) -> l <> [] /\ forall a, In a l <-> required_attribute k a /\ ~ In a (dkeys values)) /\
  ((exists a, required_attribute k a /\ ~ In a (dkeys values)) -> exists l, construct k values = Err (ERequired l)).
Proof.
  intros k values C A. apply complete_new in C. unfold construct, check_keys, required_attribute. rewrite C. cbn [bind].
  assert (filter (fun k0 => negb (smem k0 (inherited b_init k []))) (dkeys values) = []) as ->.
  { apply none_left. intros x H. apply not_in. apply inherited_in. exact (A x H). }
  split.
  - intros l H. destruct (filter _ (inherited b_required k [])) as [ | a l'] eqn:E; [discriminate H | ]. injection H as <-. split; [discriminate | ].
    intros b. rewrite <- E, filter_In, is_out, inherited_in. tauto.
  - intros (a & H & N). rewrite <- inherited_in in H. assert (In a (filter (fun k0 => negb (smem k0 (dkeys values))) (inherited b_required k []))) as K by (apply filter_In; split; [exact H | apply is_out; exact N]).
    destruct (filter _ (inherited b_required k [])); [contradiction | ]. eexists. reflexivity.
Qed.
Theorem constructed : forall k values, complete k -> (forall a, In a (dkeys values) -> attribute k a) -> (forall a, required_attribute k a -> In a (dkeys values)) ->
  exists x, construct k values = Ok x /\ (forall l, assigns b_init l k -> dkeys x = l) /\
    forall a v, In (a, v) x -> (In (a, v) values) \/ (v = VNone /\ ~ In a (dkeys values)).
Proof.
  intros k values C A R. apply complete_new in C. unfold construct, check_keys. rewrite C. cbn [bind].
  assert (filter (fun k0 => negb (smem k0 (inherited b_init k []))) (dkeys values) = []) as ->.
  { apply none_left. intros x H. apply not_in. apply inherited_in. exact (A x H). }
  assert (filter (fun k0 => negb (smem k0 (dkeys values))) (inherited b_required k []) = []) as ->.
  { apply none_left. intros x H. apply not_in. apply inherited_in in H. exact (R x H). }
  cbn [bind]. eexists. split; [reflexivity | ]. split.
  - intros l H. rewrite (assigns_iff _ _ _ _ [] H). unfold dkeys. rewrite map_map. apply map_id.
  - intros a v H. apply in_map_iff in H as (b & [= <- <-] & _). unfold get_or_none. destruct (dget b values) as [w | ] eqn:E.
    + left. apply PyFacts.dget_some_in. exact E.
    + right. split; [reflexivity | ]. intros K. apply PyFacts.dget_none in E. contradiction.
Qed.

Theorem library_classes : forall c, complete (klass_of c) /\ (forall ver, class_defaults (klass_of c) (Some ver) = Some (default_values c ver)) /\
  forall values, construct (klass_of c) values = match build_attrs c values with Ok o => Ok (o_attrs o) | Err e => Err e end.
Proof.
  intros c. split; [exists (defaults_old c), (defaults_38 c); split; constructor; reflexivity | ]. split.
  - intros ver. unfold class_defaults, default_values. cbn [klass_of inherited b_default b_default38]. destruct (ver_ge ver SPINE_3_8); reflexivity.
  - intros values. unfold construct, build_attrs, new_instance. cbn [klass_of inherited b_default b_default38 b_init b_required bind].
    assert (match match required c with [] => None | s :: l => Some (s :: l) end with Some x => x | None => [] end = required c) as -> by (destruct (required c); reflexivity).
    destruct (check_keys (attrs_of c) (required c) values); reflexivity.
Qed.

(** ** get *)
Lemma prefix_special : forall n, String.prefix "__" n = true <-> special n.
Proof.
  intros n. unfold special. split.
  - intros H. destruct n as [ | a n]; [discriminate H | ]. cbn [String.prefix] in H. destruct (Ascii.ascii_dec "_" a) as [<- | ]; [ | discriminate H].
    destruct n as [ | b n]; [discriminate H | ]. cbn [String.prefix] in H. destruct (Ascii.ascii_dec "_" b) as [<- | ]; [ | discriminate H]. exists n. reflexivity.
  - intros [s ->]. destruct s; reflexivity.
Qed.
Lemma of_val_none : forall v, of_val v = PNone <-> v = VNone.
Proof. intros v. destruct v; split; intros H; try discriminate H; reflexivity. Qed.
Lemma keeps : forall (p default : pyobj), p <> PNone -> match Some p with None | Some PNone => Ok default | Some x => Ok x end = Ok p.
Proof. intros p default H. destruct p; try reflexivity. destruct H. reflexivity. Qed.
Theorem get_attribute : forall k attrs n d v, ~ special n -> dget n attrs = Some v -> element_get k attrs n d = Ok (if is_none v then d else of_val v).
Proof.
  intros k attrs n d v S E. unfold element_get. destruct (String.prefix "__" n) eqn:P; [destruct S; apply prefix_special; exact P | ]. rewrite E. destruct v; reflexivity.
Qed.
Lemma class_function : forall k n, (existsb (fun b => smem n (b_functions b)) k || smem n base_functions)%bool = true <-> has_function k n.
Proof.
  intros k n. unfold has_function. rewrite Bool.orb_true_iff, existsb_exists, PyFacts.smem_in. split; (intros [(b & H & K) | H]; [left; exists b; split; [exact H | apply PyFacts.smem_in; exact K] | right; exact H]).
Qed.
Lemma not_constant : forall k n, ~ constant_name n -> class_attribute k n = if (existsb (fun b => smem n (b_functions b)) k || smem n base_functions)%bool then Some POther else None.
Proof.
  intros k n N. unfold constant_name in N. unfold class_attribute.
  destruct (String.eqb_spec n "DEFAULT_VALUES"); [destruct N; subst; cbn [In]; tauto | ]. destruct (String.eqb_spec n "SPINE_3_8_DEFAULT_VALUES"); [destruct N; subst; cbn [In]; tauto | ].
  destruct (String.eqb_spec n "UNSUPPORTED_VALUES_OLD_VERSION"); [destruct N; subst; cbn [In]; tauto | ]. destruct (String.eqb_spec n "REQUIRED"); [destruct N; subst; cbn [In]; tauto | ]. reflexivity.
Qed.
Theorem get_other : forall k attrs n d, ~ special n -> dget n attrs = None -> ~ constant_name n ->
  (has_function k n -> element_get k attrs n d = Ok POther) /\ (~ has_function k n -> element_get k attrs n d = Ok d).
Proof.
  intros k attrs n d S E N. unfold element_get. destruct (String.prefix "__" n) eqn:P; [destruct S; apply prefix_special; exact P | ]. rewrite E, (not_constant _ _ N).
  pose proof (class_function k n) as F. destruct (existsb _ k || _)%bool; split; intros H; try reflexivity; exfalso.
  - apply H, F. reflexivity.
  - apply F in H. discriminate H.
Qed.
