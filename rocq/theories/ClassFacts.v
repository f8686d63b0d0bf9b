(** Proofs about single elements (Classes.v). *)
From Verif Require Import PyBase PyNum Json Version PyFacts VersionFacts SpecVersion Classes.
Open Scope string_scope.

(** ** Products *)
Lemma in_times : forall A z (l l' : list A), times z l = Ok l' -> incl l' l.
Proof.
  intros A z l l' E. unfold times in E. destruct (_ && _)%bool; [injection E as <- | discriminate]. intros x.
  induction (Z.to_nat z) as [ | n IH]; cbn; [tauto | ]. rewrite in_app_iff. tauto.
Qed.
Lemma mul_sequence : forall a b v, (as_num a = None \/ as_num b = None) -> py_mul a b = Ok v ->
  (exists s, v = VStr s) \/ exists l l', v = VList l' /\ incl l' l /\ (a = VList l \/ b = VList l).
Proof.
  intros a b v H E. unfold py_mul in E.
  destruct a as [ | ? | ? | ? | ? | ? | ?], b as [ | ? | ? | ? | ? | ? | ?]; cbn [as_num] in *; try (destruct H; discriminate); try discriminate E;
    match type of E with context [times ?z ?l] => destruct (times z l) as [l' | ] eqn:T; [ | discriminate E] end;
    cbn [bind] in E; injection E as <-; eauto; right; eexists _, l'; (split; [reflexivity | split; [eapply in_times; eauto | auto]]).
Qed.

(** ** Lists in place of dictionaries *)
Lemma by_elements_not : forall A (f : val -> res A) l r, by_elements f l <> Ok r.
Proof. intros A f l r H. unfold by_elements in H. destruct (mapM _ l); discriminate. Qed.
Lemma attachments_of_ok : forall A (f : val -> res A) v r, mk_attachments_of f v = Ok r -> exists d, v = VDict d /\ dmapM f d = Ok r.
Proof.
  intros A f v r H. destruct v as [ | | | | s | l | d]; try discriminate H.
  - destruct s; discriminate H.
  - destruct l; [discriminate H | ]. destruct (by_elements_not _ _ _ _ H).
  - exists d. auto.
Qed.

(** ** Tables, checked by computation *)
Lemma attrs_of_NoDup : forall c, NoDup (attrs_of c).
Proof.
  intros c. assert (H : forall l, (fix nd (l : list string) : bool :=
     match l with [] => true | x :: l' => (negb (smem x l') && nd l')%bool end) l = true -> NoDup l).
  { induction l as [ | x l IH]; intros H; constructor.
    - apply andb_prop in H as [H _]. apply negb_true_iff in H. apply smem_nin in H. auto.
    - apply andb_prop in H as [_ H]. auto. }
  apply H. destruct c; reflexivity.
Qed.

Lemma defaults_refl : forall c ver k d,
  dget k (default_values c ver) = Some d -> py_eq d d = true.
Proof.
  intros c ver k d H.
  assert (F : forallb (fun kv => py_eq (snd kv) (snd kv)) (default_values c ver) = true).
  { unfold default_values. destruct (ver_ge ver SPINE_3_8); destruct c; reflexivity. }
  rewrite forallb_forall in F. apply dget_some_in in H. apply (F _ H).
Qed.

Lemma required_attrs : forall c k, In k (required c) -> In k (attrs_of c).
Proof. intros c k. destruct c; simpl; tauto. Qed.
Lemma required_no_default : forall c ver k, In k (required c) -> dget k (default_values c ver) = None.
Proof.
  intros c ver k H. unfold default_values.
  destruct c; simpl in H; try contradiction; destruct (ver_ge ver SPINE_3_8);
    repeat (destruct H as [<- | H]; [reflexivity | ]); destruct H.
Qed.
Lemma name_attrs_attrs : forall c k, In k (name_attrs c) -> In k (attrs_of c).
Proof. intros c k. destruct c; simpl; tauto. Qed.
Lemma name_defaults : forall c ver k v,
  In k (name_attrs c) -> dget k (default_values c ver) = Some v -> is_str_or_null v = true.
Proof.
  intros c ver k v H. unfold default_values.
  destruct c; simpl in H; try contradiction; destruct (ver_ge ver SPINE_3_8);
    repeat (destruct H as [<- | H]; [simpl; intros E; inversion E; reflexivity | ]); destruct H.
Qed.

(** ** Construction (C06, C07) *)
Definition unknown (c : cls) (d : dict val) : list string :=
  filter (fun k => negb (smem k (attrs_of c))) (dkeys d).
Definition missing (c : cls) (d : dict val) : list string :=
  filter (fun k => negb (smem k (dkeys d))) (required c).

Lemma obj_values_dict : forall c d, obj_values c (VDict d) = Ok d.
Proof. intros c d. destruct c, d; reflexivity. Qed.

Lemma check_keys_spec : forall c d,
  check_keys (attrs_of c) (required c) d =
  match unknown c d with
  | _ :: _ => Err (EUnsupported (unknown c d))
  | [] => match missing c d with _ :: _ => Err (ERequired (missing c d)) | [] => Ok tt end
  end.
Proof. reflexivity. Qed.

Lemma build_obj_spec : forall c d,
  build_obj c (VDict d) =
  match unknown c d with
  | _ :: _ => Err (EUnsupported (unknown c d))
  | [] => match missing c d with
          | _ :: _ => Err (ERequired (missing c d))
          | [] => Ok (mkObj c (map (fun k => (k, get_or_none k d)) (attrs_of c)))
          end
  end.
Proof.
  intros. unfold build_obj. rewrite obj_values_dict. cbn [bind]. unfold build_attrs. rewrite check_keys_spec.
  destruct (unknown c d); [ | reflexivity]. destruct (missing c d); reflexivity.
Qed.

Lemma dget_map_key : forall (A : Type) (f : string -> A) l k, In k l ->
  dget k (map (fun k => (k, f k)) l) = Some (f k).
Proof.
  intros A f l k. induction l as [ | x l IH]; simpl; intros H; [destruct H | ].
  eqb_cases k x; [subst; auto | ]. destruct H as [H | H]; [congruence | auto].
Qed.
Lemma dget_map_key_none : forall (A : Type) (f : string -> A) l k, ~ In k l ->
  dget k (map (fun k => (k, f k)) l) = None.
Proof.
  intros A f l k H. apply dget_none. intros Hi. apply H. unfold dkeys in Hi. rewrite map_map in Hi.
  rewrite map_id in Hi. auto.
Qed.

Lemma build_obj_inv : forall c d o, build_obj c (VDict d) = Ok o ->
  unknown c d = [] /\ missing c d = [] /\
  o = mkObj c (map (fun k => (k, get_or_none k d)) (attrs_of c)).
Proof.
  intros c d o. rewrite build_obj_spec. destruct (unknown c d); [ | discriminate].
  destruct (missing c d); [ | discriminate]. intros H. inversion H. auto.
Qed.
Lemma unknown_nil : forall c d, unknown c d = [] <-> (forall k, In k (dkeys d) -> In k (attrs_of c)).
Proof.
  intros c d. unfold unknown. split.
  - intros H k Hk. destruct (smem k (attrs_of c)) eqn:E; [apply smem_in; auto | ].
    assert (Hi : In k []) by (rewrite <- H; apply filter_In; rewrite E; auto). destruct Hi.
  - intros H. apply filter_none. intros k Hk. apply H, smem_in in Hk. rewrite Hk. auto.
Qed.
Lemma missing_nil : forall c d, missing c d = [] <-> (forall k, In k (required c) -> In k (dkeys d)).
Proof.
  intros c d. unfold missing. split.
  - intros H k Hk. destruct (smem k (dkeys d)) eqn:E; [apply smem_in; auto | ].
    assert (Hi : In k []) by (rewrite <- H; apply filter_In; rewrite E; auto). destruct Hi.
  - intros H. apply filter_none. intros k Hk. apply H, smem_in in Hk. rewrite Hk. auto.
Qed.

Lemma build_obj_kept : forall c d o, build_obj c (VDict d) = Ok o ->
  o_cls o = c /\ dkeys (o_attrs o) = attrs_of c /\
  (forall k v, dget k d = Some v -> In k (attrs_of c) /\ oget o k = v) /\
  (forall k, dget k d = None -> oget o k = VNone).
Proof.
  intros c d o H. apply build_obj_inv in H as [Hu [_ ->]]. simpl. split; auto. split.
  { unfold dkeys. rewrite map_map, map_id. auto. }
  rewrite unknown_nil in Hu. split.
  - intros k v E. assert (Hi : In k (attrs_of c)).
    { apply Hu. eapply dget_in_keys; eauto. }
    split; auto. unfold oget. simpl. rewrite dget_map_key by auto. unfold get_or_none. rewrite E. auto.
  - intros k E. unfold oget. simpl. destruct (in_dec string_dec k (attrs_of c)).
    + rewrite dget_map_key by auto. unfold get_or_none. rewrite E. auto.
    + rewrite dget_map_key_none by auto. auto.
Qed.

(** ** Well-formed elements *)
Definition wf_obj (c : cls) (o : obj) : Prop :=
  o_cls o = c /\ dkeys (o_attrs o) = attrs_of c /\ type_guard o = true.

Lemma mk_obj_inv : forall c v o, mk_obj c v = Ok o -> build_obj c v = Ok o /\ type_guard o = true.
Proof.
  intros c v o H. unfold mk_obj in H. inv_bind H. destruct (type_guard x) eqn:Eg; inversion H; subst; auto.
Qed.
Lemma mk_obj_wf : forall c v o, mk_obj c v = Ok o -> wf_obj c o.
Proof.
  intros c v o H. apply mk_obj_inv in H as [H Hg]. unfold build_obj in H. inv_bind H.
  unfold build_attrs in H. inv_bind H. inversion H; subst. split; auto. split; auto.
  simpl. unfold dkeys. rewrite map_map, map_id. auto.
Qed.

Lemma wf_NoDup : forall c o, wf_obj c o -> NoDup (dkeys (o_attrs o)).
Proof. intros c o [_ [H _]]. rewrite H. apply attrs_of_NoDup. Qed.

(** [__dict__] as a function of the key. *)
Lemma attrs_as_map : forall l (d : dict val), dkeys d = l -> NoDup l ->
  d = map (fun k => (k, get_or_none k d)) l.
Proof.
  intros l d <- Hn. induction d as [ | [k v] d IH]; simpl; auto.
  inversion Hn; subst. f_equal.
  - unfold get_or_none. simpl. rewrite seqb_refl. auto.
  - rewrite IH at 1 by auto. apply map_ext_in. intros k' Hk'. f_equal. unfold get_or_none. simpl.
    eqb_cases k' k; auto. subst. contradiction.
Qed.

Lemma oget_attrs : forall o k, oget o k = get_or_none k (o_attrs o).
Proof. reflexivity. Qed.

(** ** Filling defaults *)
Lemma dkeys_fill : forall defs d, dkeys (fill_defaults defs d) = dkeys d.
Proof. intros. unfold dkeys, fill_defaults. rewrite map_map. apply map_ext. auto. Qed.

Definition fill1 (defs : dict val) (k : string) (v : val) : val :=
  match v, dget k defs with VNone, Some d => d | _, _ => v end.
Lemma fill_defaults_eq : forall defs d,
  fill_defaults defs d = map (fun kv => (fst kv, fill1 defs (fst kv) (snd kv))) d.
Proof.
  intros. unfold fill_defaults. apply map_ext. intros [k v]. simpl. unfold fill1.
  destruct v, (dget k defs); auto.
Qed.
Lemma dget_fill : forall defs d k,
  dget k (fill_defaults defs d) = option_map (fill1 defs k) (dget k d).
Proof.
  intros. rewrite fill_defaults_eq. induction d as [ | [k' v] d IH]; simpl; auto.
  eqb_cases k k'; subst; auto.
Qed.
Lemma oget_set_defaults : forall ver o k, In k (dkeys (o_attrs o)) ->
  oget (obj_set_defaults ver o) k = fill1 (default_values (o_cls o) ver) k (oget o k).
Proof.
  intros ver o k H. unfold oget, obj_set_defaults. simpl. rewrite dget_fill.
  destruct (dget k (o_attrs o)) eqn:E; simpl; auto. apply dget_none in E. contradiction.
Qed.

Lemma type_guard_defaults : forall ver c o, wf_obj c o -> wf_obj c (obj_set_defaults ver o).
Proof.
  intros ver c o [Hc [Hk Hg]]. split; auto. split.
  { simpl. rewrite dkeys_fill. auto. }
  unfold type_guard in *. simpl. apply andb_prop in Hg as [Hg1 Hg2].
  rewrite Hc in *.
  assert (G : forall k, In k (attrs_of c) ->
    oget (obj_set_defaults ver o) k = fill1 (default_values c ver) k (oget o k)).
  { intros k Hi. rewrite oget_set_defaults by (rewrite Hk; auto). rewrite Hc. auto. }
  apply andb_true_intro. split.
  - rewrite forallb_forall in *. intros k Hi. rewrite G by (apply name_attrs_attrs; auto).
    specialize (Hg1 k Hi). unfold fill1.
    destruct (oget o k); auto. destruct (dget k (default_values c ver)) eqn:E; auto.
    eapply name_defaults; eauto.
  - destruct c; auto; rewrite G by (simpl; tauto); unfold fill1; destruct (oget o "name"); auto; discriminate.
Qed.

(** ** Export (C08) *)
Lemma py_eq_none_r : forall v, py_eq v VNone = true -> v = VNone.
Proof. intros []; simpl; auto; discriminate. Qed.
Lemma py_eq_none_l : forall v, py_eq VNone v = true -> v = VNone.
Proof. intros []; simpl; auto; discriminate. Qed.

Lemma exported_spec : forall defs k v,
  exported defs k v = true <->
  (v <> VNone /\ py_eq v (get_or_none k defs) = false) \/ (v = VNone /\ dget k defs = Some VNone).
Proof.
  intros. unfold exported. destruct v; simpl is_none; cbv iota;
    try (rewrite negb_true_iff; split; [left; split; [discriminate | auto] | intros [[_ H] | [H _]]; [auto | discriminate]]).
  destruct (dget k defs) as [[] | ]; split; try discriminate; try (intros [[H _] | [_ H]]; congruence); auto.
Qed.

Lemma dget_filter_val : forall (f : string -> val -> bool) (d : dict val) k,
  NoDup (dkeys d) ->
  dget k (filter (fun kv => f (fst kv) (snd kv)) d) =
  match dget k d with Some v => if f k v then Some v else None | None => None end.
Proof.
  intros f d k. induction d as [ | [k' v] d IH]; simpl; intros Hn; auto.
  inversion Hn; subst. destruct (f k' v) eqn:E; simpl.
  - eqb_cases k k'; [subst; rewrite E; auto | auto].
  - eqb_cases k k'; [ | auto]. subst. rewrite E. rewrite IH by auto.
    assert (dget k' d = None) by (apply dget_none; auto). rewrite H. auto.
Qed.
Lemma dget_export : forall defs d k, NoDup (dkeys d) ->
  dget k (export_attrs defs d) =
  match dget k d with Some v => if exported defs k v then Some v else None | None => None end.
Proof. intros. unfold export_attrs. apply (dget_filter_val (exported defs)). auto. Qed.

Lemma obj_json_spec : forall ver c o k v, wf_obj c o ->
  exists d, obj_json ver o = VDict d /\
    (dget k d = Some v <->
     In k (attrs_of c) /\ oget o k = v /\ exported (default_values c ver) k v = true).
Proof.
  intros ver c o k v H. pose proof (wf_NoDup c o H) as Hn. destruct H as [Hc [Hk _]].
  eexists. split; [reflexivity | ]. rewrite dget_export by auto. rewrite Hc. unfold oget.
  destruct (dget k (o_attrs o)) as [v' | ] eqn:E.
  - assert (Hi : In k (attrs_of c)) by (rewrite <- Hk; eapply dget_in_keys; eauto).
    destruct (exported (default_values c ver) k v') eqn:Ex; split.
    + intros H. inversion H; subst. auto.
    + intros [_ [<- _]]. auto.
    + discriminate.
    + intros [_ [<- H]]. congruence.
  - assert (Hi : ~ In k (attrs_of c)) by (rewrite <- Hk; apply dget_none; auto).
    split; [discriminate | tauto].
Qed.

(** ** Reload of one element *)
Definition raw (ver : version) (o : obj) : obj :=
  mkObj (o_cls o)
    (map (fun k => (k, get_or_none k (export_attrs (default_values (o_cls o) ver) (o_attrs o))))
       (attrs_of (o_cls o))).
Definition reload (ver : version) (o : obj) : obj := obj_set_defaults ver (raw ver o).

(** Every required attribute is present (not None). *)
Definition req_ok (o : obj) : Prop := forall k, In k (required (o_cls o)) -> oget o k <> VNone.

Lemma oget_raw : forall ver c o k, wf_obj c o -> In k (attrs_of c) ->
  oget (raw ver o) k = if exported (default_values c ver) k (oget o k) then oget o k else VNone.
Proof.
  intros ver c o k H Hi. pose proof (wf_NoDup c o H) as Hn. destruct H as [Hc [Hk _]].
  unfold raw. rewrite Hc. unfold oget at 1. simpl. rewrite dget_map_key by auto.
  unfold get_or_none. rewrite dget_export by auto. unfold oget.
  destruct (dget k (o_attrs o)) as [v | ] eqn:E.
  - destruct (exported _ k v); auto.
  - exfalso. apply dget_none in E. rewrite Hk in E. auto.
Qed.
Lemma dkeys_raw : forall ver o, dkeys (o_attrs (raw ver o)) = attrs_of (o_cls o).
Proof. intros. unfold raw. simpl. unfold dkeys. rewrite map_map, map_id. auto. Qed.

Lemma oget_reload : forall ver c o k, wf_obj c o -> In k (attrs_of c) ->
  oget (reload ver o) k =
  if exported (default_values c ver) k (oget o k) then oget o k else get_or_none k (default_values c ver).
Proof.
  intros ver c o k H Hi. unfold reload.
  assert (Hc : o_cls o = c) by apply H.
  rewrite oget_set_defaults by (rewrite dkeys_raw, Hc; auto).
  rewrite (oget_raw ver c) by auto. change (o_cls (raw ver o)) with (o_cls o). rewrite Hc.
  destruct (exported (default_values c ver) k (oget o k)) eqn:E.
  - unfold fill1. destruct (oget o k) eqn:Eo; auto. apply exported_spec in E as [[E _] | [_ E]]; [congruence | ].
    rewrite E. auto.
  - unfold fill1, get_or_none. destruct (dget k (default_values c ver)); auto.
Qed.

Lemma exported_reload : forall ver c k v,
  exported (default_values c ver) k
    (if exported (default_values c ver) k v then v else get_or_none k (default_values c ver)) =
  exported (default_values c ver) k v.
Proof.
  intros. destruct (exported (default_values c ver) k v) eqn:E; auto.
  unfold get_or_none. destruct (dget k (default_values c ver)) as [d | ] eqn:Ed.
  - destruct (exported (default_values c ver) k d) eqn:E2; auto.
    apply exported_spec in E2 as [[H1 H2] | [-> H2]].
    + unfold get_or_none in H2. rewrite Ed in H2. rewrite (defaults_refl _ _ _ _ Ed) in H2. discriminate.
    + rewrite H2 in Ed. destruct v; unfold exported in E; simpl in E; rewrite ?H2 in E; try discriminate;
        unfold get_or_none in E; rewrite H2 in E; simpl in E; discriminate.
  - unfold exported. simpl. rewrite Ed. auto.
Qed.

Lemma wf_attrs_map : forall c o, wf_obj c o ->
  o_attrs o = map (fun k => (k, oget o k)) (attrs_of c).
Proof.
  intros c o H. pose proof (wf_NoDup c o H) as Hn. destruct H as [_ [Hk _]].
  rewrite (attrs_as_map (attrs_of c) (o_attrs o)) at 1; auto.
  rewrite <- Hk. auto.
Qed.

Lemma wf_raw : forall ver c o, wf_obj c o -> req_ok o -> wf_obj c (raw ver o).
Proof.
  intros ver c o H Hr. pose proof H as Hw. destruct H as [Hc [Hk Hg]]. split; [exact Hc | ].
  split; [rewrite dkeys_raw, Hc; auto | ].
  unfold type_guard in *. change (o_cls (raw ver o)) with (o_cls o). rewrite Hc in *.
  apply andb_prop in Hg as [Hg1 Hg2]. apply andb_true_intro. split.
  - rewrite forallb_forall in *. intros k Hi. rewrite (oget_raw ver c) by (auto using name_attrs_attrs).
    specialize (Hg1 k Hi). destruct (exported _ _ _); auto.
  - unfold req_ok in Hr. rewrite Hc in Hr.
    destruct c; auto; (rewrite (oget_raw ver _ o "name" Hw) by (simpl; tauto));
      (match goal with |- context [exported ?d ?k ?v] =>
         replace (exported d k v) with true; [auto | ] end);
      symmetry; apply exported_spec; left; (split; [apply Hr; simpl; tauto | ]);
      unfold default_values; destruct (ver_ge ver SPINE_3_8); unfold get_or_none; simpl dget; cbv iota;
      destruct (oget o "name"); auto; discriminate.
Qed.

Lemma reload_wf : forall ver c o, wf_obj c o -> req_ok o -> wf_obj c (reload ver o).
Proof. intros. apply type_guard_defaults. apply wf_raw; auto. Qed.

Lemma export_attrs_as_map : forall ver c (f : string -> val),
  export_attrs (default_values c ver) (map (fun k => (k, f k)) (attrs_of c)) =
  map (fun k => (k, f k)) (filter (fun k => exported (default_values c ver) k (f k)) (attrs_of c)).
Proof. intros. unfold export_attrs. rewrite filter_map_comm. auto. Qed.

Lemma reload_attrs : forall ver c o, wf_obj c o ->
  o_attrs (reload ver o) =
  map (fun k => (k, if exported (default_values c ver) k (oget o k) then oget o k
                    else get_or_none k (default_values c ver))) (attrs_of c).
Proof.
  intros ver c o H. assert (Hc : o_cls o = c) by apply H.
  assert (Hk : dkeys (o_attrs (reload ver o)) = attrs_of c).
  { unfold reload. simpl. rewrite dkeys_fill. unfold dkeys. rewrite map_map, map_id, Hc. auto. }
  rewrite (attrs_as_map (attrs_of c) (o_attrs (reload ver o))) at 1; auto.
  - apply map_ext_in. intros k Hi. f_equal. rewrite <- oget_attrs. apply oget_reload; auto.
  - apply attrs_of_NoDup.
Qed.

Lemma reload_json : forall ver c o, wf_obj c o -> obj_json ver (reload ver o) = obj_json ver o.
Proof.
  intros ver c o H. assert (Hc : o_cls o = c) by apply H. unfold obj_json.
  change (o_cls (reload ver o)) with (o_cls o). rewrite Hc. f_equal.
  rewrite (reload_attrs ver c o H), (wf_attrs_map c o H).
  rewrite !export_attrs_as_map.
  rewrite (filter_ext _ (fun k => exported (default_values c ver) k (oget o k)))
    by (intros; apply exported_reload).
  apply map_ext_in. intros k Hi. apply filter_In in Hi as [_ E]. rewrite E. auto.
Qed.

(** The exported JSON of an element can be read back. *)
Lemma mk_obj_json : forall ver c o, wf_obj c o -> req_ok o -> mk_obj c (obj_json ver o) = Ok (raw ver o).
Proof.
  intros ver c o H Hr. pose proof (wf_NoDup c o H) as Hn. pose proof (wf_raw ver c o H Hr) as Hw.
  unfold mk_obj, obj_json. rewrite build_obj_spec.
  assert (Hc : o_cls o = c) by apply H. assert (Hk : dkeys (o_attrs o) = attrs_of c) by apply H.
  rewrite Hc.
  assert (Hu : unknown c (export_attrs (default_values c ver) (o_attrs o)) = []).
  { apply unknown_nil. intros k Hi. rewrite <- Hk. unfold export_attrs, dkeys in *.
    apply in_map_iff in Hi as [[k' v] [<- Hi]]. apply filter_In in Hi as [Hi _]. apply in_map with (f := fst) in Hi. auto. }
  assert (Hm : missing c (export_attrs (default_values c ver) (o_attrs o)) = []).
  { apply missing_nil. intros k Hi. assert (Ha : In k (attrs_of c)) by (apply required_attrs; auto).
    unfold req_ok in Hr. rewrite Hc in Hr. specialize (Hr k Hi).
    apply dget_in_keys with (v := oget o k). rewrite dget_export by auto.
    unfold oget in *. destruct (dget k (o_attrs o)) as [v | ] eqn:E; [ | congruence].
    replace (exported (default_values c ver) k v) with true; auto. symmetry. apply exported_spec.
    left. split; auto. unfold get_or_none. rewrite required_no_default by auto.
    destruct (py_eq v VNone) eqn:E2; auto. apply py_eq_none_r in E2. congruence. }
  rewrite Hu, Hm. cbn [bind].
  assert (Er : mkObj c (map (fun k => (k, get_or_none k (export_attrs (default_values c ver) (o_attrs o)))) (attrs_of c)) = raw ver o).
  { unfold raw. rewrite Hc. auto. }
  rewrite Er. destruct Hw as [_ [_ Hg]]. rewrite Hg. auto.
Qed.

(** ... and only then. *)
Lemma mk_obj_json_req : forall ver c o x, wf_obj c o -> mk_obj c (obj_json ver o) = Ok x -> req_ok o.
Proof.
  intros ver c o x H Hm. pose proof (wf_NoDup c o H) as Hn. assert (Hc : o_cls o = c) by apply H.
  apply mk_obj_inv in Hm as [Hm _]. unfold obj_json in Hm. apply build_obj_inv in Hm as [_ [Hm _]].
  rewrite missing_nil in Hm. intros k Hi E. rewrite Hc in *. specialize (Hm k Hi).
  apply in_keys_dget in Hm as [v Hv]. rewrite dget_export in Hv by auto. unfold oget in E.
  destruct (dget k (o_attrs o)) as [v' | ]; [ | discriminate]. subst v'.
  unfold exported in Hv. simpl in Hv. rewrite required_no_default in Hv by auto. discriminate.
Qed.

(** C10 for one element: the reloaded value is the same or equal in the sense of ==. *)
Definition same_value (v w : val) : Prop := v = w \/ py_eq v w = true.
(** No attribute is None where its class has another default (true after loading). *)
Definition filled (ver : version) (o : obj) : Prop :=
  forall k d, In k (attrs_of (o_cls o)) -> dget k (default_values (o_cls o) ver) = Some d ->
    oget o k = VNone -> d = VNone.

Lemma filled_defaults : forall ver c o, wf_obj c o -> filled ver (obj_set_defaults ver o).
Proof.
  intros ver c o [Hc [Hk _]] k d Hi Hd He. simpl in Hi, Hd.
  rewrite oget_set_defaults in He by (rewrite Hk, <- Hc; auto).
  unfold fill1 in He. rewrite Hd in He. destruct (oget o k); auto; discriminate.
Qed.

Lemma reload_same : forall ver c o k, wf_obj c o -> filled ver o -> In k (attrs_of c) ->
  same_value (oget o k) (oget (reload ver o) k).
Proof.
  intros ver c o k H Hf Hi. rewrite (oget_reload ver c) by auto.
  destruct (exported (default_values c ver) k (oget o k)) eqn:E; [left; auto | ].
  unfold exported in E. destruct (is_none (oget o k)) eqn:En.
  - assert (Eo : oget o k = VNone) by (destruct (oget o k); auto; discriminate).
    left. rewrite Eo. assert (Hc : o_cls o = c) by apply H. unfold filled in Hf. rewrite Hc in Hf.
    unfold get_or_none. destruct (dget k (default_values c ver)) as [d | ] eqn:Ed; auto.
    symmetry. eapply Hf; eauto.
  - right. apply negb_false_iff in E. auto.
Qed.

(** ** C03 *)
Lemma clean_noop : forall ver o, ver_lt ver SPINE_3_8 = false -> obj_clean_unsupported ver o = o.
Proof.
  intros ver [c a] H. unfold obj_clean_unsupported. simpl. rewrite H. f_equal.
  rewrite <- (map_id a) at 2. apply map_ext. intros [k v]. auto.
Qed.
Lemma clean_others : forall ver o k,
  (forall l, unsupported_old (o_cls o) = Some l -> ~ In k l) ->
  oget (obj_clean_unsupported ver o) k = oget o k.
Proof.
  intros ver [c a] k H. unfold oget, obj_clean_unsupported. simpl in *.
  induction a as [ | [k' v] a IH]; simpl; auto. eqb_cases k k'; auto. subst k'.
  destruct (unsupported_old c) as [l | ]; [ | rewrite andb_false_r; auto].
  assert (E : smem k l = false) by (apply smem_nin; apply H; auto). rewrite E, andb_false_r. auto.
Qed.
Lemma clean_listed : forall ver o k l, ver_lt ver SPINE_3_8 = true ->
  unsupported_old (o_cls o) = Some l -> In k l -> oget (obj_clean_unsupported ver o) k = VNone.
Proof.
  intros ver [c a] k l H Hl Hi. unfold oget, obj_clean_unsupported. simpl in *. rewrite Hl, H.
  induction a as [ | [k' v] a IH]; simpl; auto. eqb_cases k k'; auto. subst k'.
  apply smem_in in Hi. rewrite Hi. auto.
Qed.

Lemma clean_exact : forall ver o k,
  ((forall l, unsupported_old (o_cls o) = Some l -> ~ In k l) -> oget (obj_clean_unsupported ver o) k = oget o k) /\
  (forall l, ver_lt ver SPINE_3_8 = true -> unsupported_old (o_cls o) = Some l -> In k l ->
     oget (obj_clean_unsupported ver o) k = VNone).
Proof. intros. split; [apply clean_others | intros; eapply clean_listed; eauto]. Qed.

Lemma build_obj_unknown : forall c d,
  unknown c d <> [] -> build_obj c (VDict d) = Err (EUnsupported (unknown c d)).
Proof. intros c d H. rewrite build_obj_spec. destruct (unknown c d); [congruence | reflexivity]. Qed.
Lemma build_obj_required_present : forall c d o, build_obj c (VDict d) = Ok o ->
  forall k, In k (required c) -> In k (dkeys d).
Proof. intros c d o H. apply build_obj_inv in H as [_ [H _]]. apply missing_nil. auto. Qed.
Lemma build_obj_required : forall c d, (forall k, In k (dkeys d) -> In k (attrs_of c)) ->
  (forall o, build_obj c (VDict d) = Ok o -> forall k, In k (required c) -> In k (dkeys d)) /\
  ((forall k, In k (required c) -> In k (dkeys d)) -> exists o, build_obj c (VDict d) = Ok o) /\
  (missing c d <> [] -> build_obj c (VDict d) = Err (ERequired (missing c d))).
Proof.
  intros c d H. split; [intros; eapply build_obj_required_present; eauto | ].
  apply unknown_nil in H. split.
  - intros Hr. apply missing_nil in Hr. rewrite build_obj_spec, H, Hr. eauto.
  - intros Hm. rewrite build_obj_spec, H. destruct (missing c d); [congruence | auto].
Qed.

(** The only attribute with default None is the name of a slot keyframe. *)
Lemma none_default : forall c ver k, dget k (default_values c ver) = Some VNone <-> c = CSlotKeyframe /\ k = "name".
Proof.
  intros c ver k. split.
  - intros H. apply dget_some_in in H. unfold default_values in H.
    destruct (ver_ge ver SPINE_3_8), c; simpl in H;
      repeat (destruct H as [H | H]; [inversion H; subst; auto | ]); destruct H.
  - intros [-> ->]. unfold default_values. destruct (ver_ge ver SPINE_3_8); reflexivity.
Qed.
Lemma obj_json_exact : forall ver c o k v, wf_obj c o ->
  exists d, obj_json ver o = VDict d /\
    (dget k d = Some v <->
     In k (attrs_of c) /\ oget o k = v /\
     ((v <> VNone /\ py_eq v (get_or_none k (default_values c ver)) = false) \/
      (v = VNone /\ c = CSlotKeyframe /\ k = "name"))).
Proof.
  intros ver c o k v H. destruct (obj_json_spec ver c o k v H) as [d [E Hd]]. exists d. split; auto.
  rewrite Hd, exported_spec, none_default. tauto.
Qed.
Lemma export_nested_exact : forall ver c attrs k v, dkeys attrs = attrs_of c -> c <> CSlotKeyframe ->
  (dget k (export_attrs (default_values c ver) attrs) = Some v <->
   dget k attrs = Some v /\ v <> VNone /\ py_eq v (get_or_none k (default_values c ver)) = false).
Proof.
  intros ver c attrs k v Hk Hc. rewrite dget_export by (rewrite Hk; apply attrs_of_NoDup).
  destruct (dget k attrs) as [w | ]; [ | split; [discriminate | intros [H _]; discriminate]].
  destruct (exported (default_values c ver) k w) eqn:E.
  - apply exported_spec in E. split; intros H.
    + inversion H; subst. split; auto. destruct E as [E | [_ E]]; auto. apply none_default in E as [E _]. contradiction.
    + destruct H as [H _]. auto.
  - split; [discriminate | ]. intros [H1 H2]. inversion H1; subst.
    assert (exported (default_values c ver) k v = true) by (apply exported_spec; auto). congruence.
Qed.

Lemma element_reload : forall ver c v o o', mk_obj c v = Ok o ->
  mk_obj c (obj_json ver (obj_set_defaults ver o)) = Ok o' ->
  obj_json ver (obj_set_defaults ver o') = obj_json ver (obj_set_defaults ver o) /\
  forall k, In k (attrs_of c) ->
    let x := oget (obj_set_defaults ver o) k in let y := oget (obj_set_defaults ver o') k in x = y \/ py_eq x y = true.
Proof.
  intros ver c v o o' H H'. assert (W := mk_obj_wf _ _ _ H).
  assert (W2 : wf_obj c (obj_set_defaults ver o)) by (apply type_guard_defaults; auto).
  pose proof (mk_obj_json_req _ _ _ _ W2 H') as R. rewrite (mk_obj_json _ _ _ W2 R) in H'. inversion H'; subst.
  split; [apply (reload_json ver c); auto | ].
  intros k Hk. apply (reload_same ver c); auto. apply (filled_defaults ver c); auto.
Qed.
