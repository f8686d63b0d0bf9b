(** Lemmas on the generic traversals. *)
From Verif Require Import PyBase PyFacts PyNum Json Version Classes Traverse SpecTraverse.
Open Scope string_scope.

Section pyobj_ind_strong.
  Variable P : pyobj -> Prop.
  Hypothesis HNone : P PNone.
  Hypothesis HBool : forall b, P (PBool b).
  Hypothesis HInt : forall z, P (PInt z).
  Hypothesis HFloat : forall f, P (PFloat f).
  Hypothesis HStr : forall s, P (PStr s).
  Hypothesis HList : forall l, Forall P l -> P (PList l).
  Hypothesis HDict : forall d, Forall (fun kv => P (snd kv)) d -> P (PDict d).
  Hypothesis HElem : forall c d, Forall (fun kv => P (snd kv)) d -> P (PElem c d).
  Hypothesis HOther : P POther.
  Fixpoint pyobj_ind' (v : pyobj) : P v :=
    let dict := fix go (d : list (string * pyobj)) : Forall (fun kv => P (snd kv)) d :=
                  match d with
                  | [] => Forall_nil _
                  | (k, x) :: d' => Forall_cons (k, x) (pyobj_ind' x) (go d')
                  end in
    match v with
    | PNone => HNone
    | PBool b => HBool b
    | PInt z => HInt z
    | PFloat f => HFloat f
    | PStr s => HStr s
    | PList l =>
        HList l ((fix go (l : list pyobj) : Forall P l :=
                  match l with
                  | [] => Forall_nil P
                  | x :: l' => Forall_cons x (pyobj_ind' x) (go l')
                  end) l)
    | PDict d => HDict d (dict d)
    | PElem c d => HElem c d (dict d)
    | POther => HOther
    end.
End pyobj_ind_strong.

Ltac fin_bind IH :=
  match goal with |- context[bind (bind ?m _) _] => destruct m eqn:?E end;
  cbn [bind] in *;
  [injection IH as ->; reflexivity | discriminate IH].

(** ** JSON values *)
Lemma json_of_val : forall ver v, to_json ver (of_val v) = Ok v.
Proof.
  intros ver. induction v as [ | b | z | f | s | l IH | d IH] using val_ind'; try reflexivity.
  - cbn [of_val to_json]. induction IH as [ | x l Hx _ IHl]; [reflexivity | ].
    cbn [map]. rewrite Hx. cbn [bind].
    fin_bind IHl.
  - cbn [of_val to_json]. induction IH as [ | [k x] l Hx _ IHl]; [reflexivity | ].
    cbn [map]. cbn [snd] in Hx. rewrite Hx. cbn [bind].
    fin_bind IHl.
Qed.
Lemma defaults_of_val : forall ver v, set_default_values ver (of_val v) = Ok (of_val v).
Proof.
  intros ver. induction v as [ | b | z | f | s | l IH | d IH] using val_ind'; try reflexivity.
  - cbn [of_val set_default_values]. induction IH as [ | x l Hx _ IHl]; [reflexivity | ].
    cbn [map]. rewrite Hx. cbn [bind].
    fin_bind IHl.
  - cbn [of_val set_default_values]. induction IH as [ | [k x] l Hx _ IHl]; [reflexivity | ].
    cbn [map]. cbn [snd] in Hx. rewrite Hx. cbn [bind].
    fin_bind IHl.
Qed.
Lemma clean_of_val : forall ver v, clean_unsupported_attributes ver (of_val v) = Ok (of_val v).
Proof.
  intros ver. induction v as [ | b | z | f | s | l IH | d IH] using val_ind'; try reflexivity.
  - cbn [of_val clean_unsupported_attributes]. induction IH as [ | x l Hx _ IHl]; [reflexivity | ].
    cbn [map]. rewrite Hx. cbn [bind].
    fin_bind IHl.
  - cbn [of_val clean_unsupported_attributes]. induction IH as [ | [k x] l Hx _ IHl]; [reflexivity | ].
    cbn [map]. cbn [snd] in Hx. rewrite Hx. cbn [bind].
    fin_bind IHl.
Qed.
Lemma peq_of_val : forall v w, peq (of_val v) w = py_eq v w.
Proof.
  induction v as [ | b | z | f | s | l IH | d IH] using val_ind'; intros w; try reflexivity.
  - destruct w; try reflexivity. cbn [of_val peq py_eq]. revert l0.
    induction IH as [ | x l Hx _ IHl]; intros [ | y m]; cbn [map]; try reflexivity.
    rewrite Hx, IHl. reflexivity.
  - destruct w as [ | | | | | | w]; try reflexivity. cbn [of_val peq py_eq].
    rewrite map_length. f_equal.
    induction IH as [ | [k x] l Hx _ IHl]; [reflexivity | ]. cbn [map]. rewrite IHl. cbn [snd] in Hx.
    destruct (dget k w); [rewrite Hx | ]; reflexivity.
Qed.

(** ** Lists and dictionaries of elements *)
Lemma json_list : forall ver A (f : A -> pyobj) g l, (forall x, In x l -> to_json ver (f x) = Ok (g x)) ->
  to_json ver (p_list f l) = Ok (VList (map g l)).
Proof.
  intros ver A f g l H. unfold p_list. cbn [to_json]. induction l as [ | x l IH]; [reflexivity | ].
  cbn [map]. rewrite (H x (or_introl eq_refl)). cbn [bind].
  specialize (IH (fun y Hy => H y (or_intror Hy))). fin_bind IH.
Qed.
Lemma json_dict : forall ver A (f : A -> pyobj) g (d : dict A), (forall x, to_json ver (f x) = Ok (g x)) ->
  to_json ver (p_dict f d) = Ok (VDict (dmap g d)).
Proof.
  intros ver A f g d H. unfold p_dict. cbn [to_json]. induction d as [ | [k x] l IH]; [reflexivity | ].
  cbn [dmap map fst snd]. rewrite H. cbn [bind]. unfold dmap in IH.
  fin_bind IH.
Qed.
Lemma defaults_list : forall ver A B (f : A -> pyobj) (g : A -> B) (h : B -> pyobj) l,
  (forall x, set_default_values ver (f x) = Ok (h (g x))) ->
  set_default_values ver (p_list f l) = Ok (p_list h (map g l)).
Proof.
  intros ver A B f g h l H. unfold p_list. cbn [set_default_values]. induction l as [ | x l IH]; [reflexivity | ].
  cbn [map]. rewrite H. cbn [bind].
  fin_bind IH.
Qed.
Lemma defaults_dict : forall ver A B (f : A -> pyobj) (g : A -> B) (h : B -> pyobj) (d : dict A),
  (forall x, set_default_values ver (f x) = Ok (h (g x))) ->
  set_default_values ver (p_dict f d) = Ok (p_dict h (dmap g d)).
Proof.
  intros ver A B f g h d H. unfold p_dict. cbn [set_default_values]. induction d as [ | [k x] l IH]; [reflexivity | ].
  cbn [dmap map fst snd]. rewrite H. cbn [bind]. unfold dmap in IH.
  fin_bind IH.
Qed.
Lemma clean_list : forall ver A B (f : A -> pyobj) (g : A -> B) (h : B -> pyobj) l,
  (forall x, clean_unsupported_attributes ver (f x) = Ok (h (g x))) ->
  clean_unsupported_attributes ver (p_list f l) = Ok (p_list h (map g l)).
Proof.
  intros ver A B f g h l H. unfold p_list. cbn [clean_unsupported_attributes]. induction l as [ | x l IH]; [reflexivity | ].
  cbn [map]. rewrite H. cbn [bind].
  fin_bind IH.
Qed.
Lemma clean_dict : forall ver A B (f : A -> pyobj) (g : A -> B) (h : B -> pyobj) (d : dict A),
  (forall x, clean_unsupported_attributes ver (f x) = Ok (h (g x))) ->
  clean_unsupported_attributes ver (p_dict f d) = Ok (p_dict h (dmap g d)).
Proof.
  intros ver A B f g h d H. unfold p_dict. cbn [clean_unsupported_attributes]. induction d as [ | [k x] l IH]; [reflexivity | ].
  cbn [dmap map fst snd]. rewrite H. cbn [bind]. unfold dmap in IH.
  fin_bind IH.
Qed.

(** ** One element, attribute by attribute *)
Definition json_attr (ver : version) (c : cls) (a : string * pyobj) (b : string * val) : Prop :=
  fst a = fst b /\ to_json ver (snd a) = Ok (snd b) /\
  written (default_values c ver) (fst a) (snd a) = exported (default_values c ver) (fst b) (snd b).
Lemma json_elem : forall ver c l m, Forall2 (json_attr ver c) l m ->
  to_json ver (PElem c l) = Ok (VDict (export_attrs (default_values c ver) m)).
Proof.
  intros ver c l m H. cbn [to_json]. unfold export_attrs. induction H as [ | [k x] [k' v] l m (HK & HV & HW) _ IH]; [reflexivity | ].
  cbn [fst snd] in *. subst k'. cbn [filter fst snd]. rewrite HW.
  destruct (exported (default_values c ver) k v) eqn:EX.
  - rewrite HV. cbn [bind].
    fin_bind IH.
  - exact IH.
Qed.
Definition default_attr (ver : version) (c : cls) (a b : string * pyobj) : Prop :=
  fst a = fst b /\
  match snd a with
  | PNone => snd b = match dget (fst a) (default_values c ver) with Some v => of_val v | None => PNone end
  | x => set_default_values ver x = Ok (snd b)
  end.
Lemma defaults_elem : forall ver c l m, Forall2 (default_attr ver c) l m ->
  set_default_values ver (PElem c l) = Ok (PElem c m).
Proof.
  intros ver c l m H. cbn [set_default_values]. induction H as [ | [k x] [k' v] l m (HK & HV) _ IH]; [reflexivity | ].
  cbn [fst snd] in *. subst k'.
  assert (match x with PNone => match dget k (default_values c ver) with Some v => Ok (of_val v) | None => Ok PNone end
          | _ => set_default_values ver x end = Ok v) as ->.
  { destruct x; try exact HV. rewrite HV. destruct (dget k (default_values c ver)); reflexivity. }
  cbn [bind].
  fin_bind IH.
Qed.
Definition clean_attr (ver : version) (c : cls) (a b : string * pyobj) : Prop :=
  fst a = fst b /\
  if (ver_lt ver SPINE_3_8 && match unsupported_old c with Some l => smem (fst a) l | None => false end)%bool
  then snd b = PNone
  else clean_unsupported_attributes ver (snd a) = Ok (snd b).
Lemma clean_elem : forall ver c l m, Forall2 (clean_attr ver c) l m ->
  clean_unsupported_attributes ver (PElem c l) = Ok (PElem c m).
Proof.
  intros ver c l m H. cbn [clean_unsupported_attributes]. induction H as [ | [k x] [k' v] l m (HK & HV) _ IH]; [reflexivity | ].
  cbn [fst snd] in *. subst k'.
  match goal with |- context[if ?b then Ok PNone else ?y] => assert ((if b then Ok PNone else y) = Ok v) as -> by (destruct b; [rewrite HV; reflexivity | exact HV]) end.
  cbn [bind].
  fin_bind IH.
Qed.

(** ** Elements without nested elements *)
Lemma written_val : forall defs k v, written defs k (of_val v) = exported defs k v.
Proof.
  intros defs k v. unfold exported. destruct v; try reflexivity.
  - cbn [is_none written of_val]. exact (f_equal negb (peq_of_val (VList l) _)).
  - cbn [is_none written of_val]. exact (f_equal negb (peq_of_val (VDict d) _)).
Qed.
Lemma p_obj_json : forall ver o, to_json ver (p_obj o) = Ok (obj_json ver o).
Proof.
  intros ver [c a]. unfold p_obj, obj_json. cbn [o_cls o_attrs]. apply json_elem.
  induction a as [ | [k v] a IH]; cbn [dmap map fst snd]; constructor; auto.
  split; [reflexivity | ]. cbn [fst snd]. split; [apply json_of_val | apply written_val].
Qed.
Lemma p_obj_defaults : forall ver o, set_default_values ver (p_obj o) = Ok (p_obj (obj_set_defaults ver o)).
Proof.
  intros ver [c a]. unfold p_obj, obj_set_defaults. cbn [o_cls o_attrs]. apply defaults_elem.
  induction a as [ | [k v] a IH]; cbn [dmap fill_defaults map fst snd]; constructor; auto.
  split; [reflexivity | ]. cbn [fst snd].
  destruct v as [ | b | z | f | s | l | d]; [ | exact (defaults_of_val ver (VBool b)) | exact (defaults_of_val ver (VInt z))
    | exact (defaults_of_val ver (VFloat f)) | exact (defaults_of_val ver (VStr s))
    | exact (defaults_of_val ver (VList l)) | exact (defaults_of_val ver (VDict d)) ].
  cbn [of_val]. destruct (dget k (default_values c ver)); reflexivity.
Qed.
Lemma p_obj_clean : forall ver o, clean_unsupported_attributes ver (p_obj o) = Ok (p_obj (obj_clean_unsupported ver o)).
Proof.
  intros ver [c a]. unfold p_obj, obj_clean_unsupported. cbn [o_cls o_attrs]. apply clean_elem.
  induction a as [ | [k v] a IH]; cbn [dmap map fst snd]; constructor; auto.
  split; [reflexivity | ]. cbn [fst snd].
  match goal with |- context[if ?b then _ = PNone else _] => destruct b end; [reflexivity | apply clean_of_val].
Qed.

(** ** The records of Classes.v *)
Lemma written_list : forall A B (f : A -> pyobj) (g : A -> val) defs k l (d : dict B),
  In (get_or_none k defs) [VNone; VList []; VDict []] ->
  written defs k (p_list f l) = exported defs k (VList (map g l)).
Proof.
  intros A B f g defs k l d H. unfold written, p_list, exported. cbn [is_none]. f_equal.
  destruct H as [<- | [<- | [<- | []]]]; destruct l; reflexivity.
Qed.
Lemma written_dict : forall A (f : A -> pyobj) (g : A -> val) defs k (d : dict A),
  In (get_or_none k defs) [VNone; VList []; VDict []] ->
  written defs k (p_dict f d) = exported defs k (VDict (dmap g d)).
Proof.
  intros A f g defs k d H. unfold written, p_dict, exported. cbn [is_none]. f_equal.
  destruct H as [<- | [<- | [<- | []]]]; destruct d; reflexivity.
Qed.
Ltac default_case ver :=
  unfold default_values; destruct (ver_ge ver SPINE_3_8); cbn; auto 6.
Ltac json_items :=
  repeat first [ apply json_list; intros | apply json_dict; intros | apply p_obj_json ].
Ltac json_step ver :=
  constructor; [ split; [reflexivity | cbn [fst snd]; split; [json_items | first [eapply (@written_list _ unit _ _ _ _ _ []) | eapply written_dict]; default_case ver ] ] | ].

Lemma p_slot_timeline_json : forall ver t, to_json ver (p_slot_timeline t) = Ok (slot_timeline_json ver t).
Proof. intros ver t. apply json_elem. do 3 (json_step ver). constructor. Qed.
Lemma p_bone_timeline_json : forall ver t, to_json ver (p_bone_timeline t) = Ok (bone_timeline_json ver t).
Proof. intros ver t. apply json_elem. do 4 (json_step ver). constructor. Qed.
Lemma p_draw_order_json : forall ver t, to_json ver (p_draw_order t) = Ok (draw_order_json ver t).
Proof.
  intros ver t. apply json_elem. constructor.
  - split; [reflexivity | ]. split; [apply json_of_val | apply written_val].
  - json_step ver. constructor.
Qed.
Lemma p_animation_json : forall ver a, to_json ver (p_animation a) = Ok (animation_json ver a).
Proof.
  intros ver a. apply json_elem.
  repeat (constructor; [ split; [reflexivity | cbn [fst snd]; split;
     [ json_items; first [apply p_draw_order_json | apply p_bone_timeline_json | apply p_slot_timeline_json]
     | first [eapply (@written_list _ unit _ _ _ _ _ []) | eapply written_dict]; default_case ver ] ] | ]).
  constructor.
Qed.
Lemma p_skin_json : forall ver s, to_json ver (p_skin s) = Ok (skin_json ver s).
Proof.
  intros ver [n a]. apply json_elem. constructor; [ | constructor; [ | constructor]]; (split; [reflexivity | ]); cbn [fst snd sk_name sk_attachments].
  - split; [apply json_of_val | apply written_val].
  - destruct a as [a | ].
    + split; [json_items | ]. apply written_dict. default_case ver.
    + split; [reflexivity | ]. default_case ver.
Qed.
Lemma p_data_json : forall ver d, to_json ver (p_data d) = Ok (VDict (data_json ver d)).
Proof.
  intros ver d. apply json_elem. unfold data_attrs.
  repeat (constructor; [ split; [reflexivity | cbn [fst snd]; split;
     [ json_items; first [apply p_skin_json | apply p_animation_json]
     | first [eapply (@written_list _ unit _ _ _ _ _ []) | eapply written_dict]; default_case ver ] ] | ]).
  constructor.
Qed.

Ltac default_items :=
  repeat first [ apply (@defaults_list _ obj obj); intros; apply p_obj_defaults | apply defaults_list; intros | apply defaults_dict; intros | apply p_obj_defaults ].
Ltac default_step := constructor; [ split; [reflexivity | cbn [fst snd]; default_items ] | ].
Lemma p_slot_timeline_defaults : forall ver t, set_default_values ver (p_slot_timeline t) = Ok (p_slot_timeline (slot_timeline_defaults ver t)).
Proof. intros ver t. apply defaults_elem. do 3 default_step. constructor. Qed.
Lemma p_bone_timeline_defaults : forall ver t, set_default_values ver (p_bone_timeline t) = Ok (p_bone_timeline (bone_timeline_defaults ver t)).
Proof. intros ver t. apply defaults_elem. do 4 default_step. constructor. Qed.
Lemma default_value_attr : forall ver c k v,
  default_attr ver c (k, of_val v) (k, of_val (match v, dget k (default_values c ver) with VNone, Some w => w | w, _ => w end)).
Proof.
  intros ver c k v. split; [reflexivity | ]. cbn [fst snd].
  destruct v as [ | b | z | f | s | l | d]; [ | exact (defaults_of_val ver (VBool b)) | exact (defaults_of_val ver (VInt z))
    | exact (defaults_of_val ver (VFloat f)) | exact (defaults_of_val ver (VStr s))
    | exact (defaults_of_val ver (VList l)) | exact (defaults_of_val ver (VDict d)) ].
  cbn [of_val]. destruct (dget k (default_values c ver)); reflexivity.
Qed.
Lemma p_draw_order_defaults : forall ver t, set_default_values ver (p_draw_order t) = Ok (p_draw_order (draw_order_defaults ver t)).
Proof.
  intros ver [tm offs]. apply defaults_elem. constructor; [ | default_step; constructor].
  destruct tm; exact (default_value_attr ver CDrawOrder "time" _).
Qed.
Lemma p_animation_defaults : forall ver a, set_default_values ver (p_animation a) = Ok (p_animation (animation_defaults ver a)).
Proof.
  intros ver a. apply defaults_elem.
  repeat (constructor; [ split; [reflexivity | cbn [fst snd];
     default_items; first [apply p_draw_order_defaults | apply p_bone_timeline_defaults | apply p_slot_timeline_defaults] ] | ]).
  constructor.
Qed.
Lemma p_skin_defaults : forall ver s, set_default_values ver (p_skin s) = Ok (p_skin (skin_defaults ver s)).
Proof.
  intros ver [n a]. apply defaults_elem. constructor; [ | constructor; [ | constructor]]; (split; [reflexivity | ]);
    cbn [fst snd sk_name sk_attachments skin_defaults].
  - destruct n; [reflexivity | ]. default_case ver.
  - destruct a as [a | ]; [default_items | ]. default_case ver.
Qed.
Lemma p_data_defaults : forall ver d, set_default_values ver (p_data d) = Ok (p_data (data_defaults ver d)).
Proof.
  intros ver d. apply defaults_elem.
  repeat (constructor; [ split; [reflexivity | cbn [fst snd];
     default_items; first [apply p_skin_defaults | apply p_animation_defaults] ] | ]).
  constructor.
Qed.

Ltac clean_items :=
  repeat first [ apply clean_list; intros | apply clean_dict; intros | apply p_obj_clean ].
Ltac clean_step := constructor; [ split; [reflexivity | cbn [fst snd unsupported_old]; rewrite Bool.andb_false_r; clean_items ] | ].
Lemma p_slot_timeline_clean : forall ver t, clean_unsupported_attributes ver (p_slot_timeline t) = Ok (p_slot_timeline (slot_timeline_map (obj_clean_unsupported ver) t)).
Proof. intros ver t. apply clean_elem. do 3 clean_step. constructor. Qed.
Lemma p_bone_timeline_clean : forall ver t, clean_unsupported_attributes ver (p_bone_timeline t) = Ok (p_bone_timeline (bone_timeline_map (obj_clean_unsupported ver) t)).
Proof. intros ver t. apply clean_elem. do 4 clean_step. constructor. Qed.
Lemma p_draw_order_clean : forall ver t, clean_unsupported_attributes ver (p_draw_order t) = Ok (p_draw_order (draw_order_map (obj_clean_unsupported ver) t)).
Proof. intros ver t. apply clean_elem. clean_step; [apply clean_of_val | ]. clean_step. constructor. Qed.
Lemma p_animation_clean : forall ver a, clean_unsupported_attributes ver (p_animation a) = Ok (p_animation (animation_map (obj_clean_unsupported ver) a)).
Proof.
  intros ver a. apply clean_elem.
  repeat (constructor; [ split; [reflexivity | cbn [fst snd unsupported_old]; rewrite Bool.andb_false_r;
     clean_items; first [apply p_draw_order_clean | apply p_bone_timeline_clean | apply p_slot_timeline_clean] ] | ]).
  constructor.
Qed.
Lemma p_skin_clean : forall ver s, clean_unsupported_attributes ver (p_skin s) = Ok (p_skin (skin_map (obj_clean_unsupported ver) s)).
Proof.
  intros ver [n a]. apply clean_elem. clean_step; [apply clean_of_val | ]. clean_step; [ | constructor].
  cbn [sk_attachments skin_map]. destruct a; cbn [option_map]; [clean_items | reflexivity].
Qed.
Lemma p_data_clean : forall ver d, clean_unsupported_attributes ver (p_data d) = Ok (p_data (data_clean_unsupported ver d)).
Proof.
  intros ver d. apply clean_elem.
  repeat (constructor; [ split; [reflexivity | cbn [fst snd unsupported_old]; rewrite Bool.andb_false_r;
     clean_items; first [apply p_skin_clean | apply p_animation_clean] ] | ]).
  constructor.
Qed.

(** ** Elements at any depth *)
Lemma no_element : forall c a v, ~ occurs c a (of_val v).
Proof.
  intros c a. induction v as [ | b | z | f | s | l IH | d IH] using val_ind'; intros H; inversion H; subst.
  - apply in_map_iff in H1. destruct H1 as (y & <- & Hy). rewrite Forall_forall in IH. exact (IH y Hy H2).
  - apply in_map_iff in H1. destruct H1 as ([k' y] & [= <- <-] & Hy). rewrite Forall_forall in IH. exact (IH _ Hy H2).
Qed.

Definition no_null (ver : version) (c : cls) (a : list (string * pyobj)) : Prop :=
  forall k, In (k, PNone) a -> dget k (default_values c ver) = None \/ dget k (default_values c ver) = Some VNone.
Lemma defaults_everywhere : forall ver p q, set_default_values ver p = Ok q ->
  forall c a, occurs c a q -> no_null ver c a.
Proof.
  intros ver. induction p as [ | b | z | f | s | l IH | d IH | c' d IH | ] using pyobj_ind'; intros q E c a HO;
    try (injection E as <-; inversion HO; fail); cbn [set_default_values] in E.
  - match type of E with bind ?m _ = _ => destruct m as [l' | ] eqn:E1; [ | discriminate E] end.
    cbn [bind] in E. injection E as <-. inversion HO; subst. clear HO.
    revert l' E1 H0. induction IH as [ | w m Hx _ IHm]; intros l' E1 HI.
    + injection E1 as <-. contradiction.
    + destruct (set_default_values ver w) as [y | ] eqn:Ex; [ | discriminate E1]. cbn [bind] in E1.
      match type of E1 with bind ?g _ = _ => destruct g as [ys | ] eqn:E2; [ | discriminate E1] end.
      cbn [bind] in E1. injection E1 as <-. destruct HI as [<- | HI].
      * exact (Hx _ eq_refl _ _ H1).
      * exact (IHm _ eq_refl HI).
  - match type of E with bind ?m _ = _ => destruct m as [l' | ] eqn:E1; [ | discriminate E] end.
    cbn [bind] in E. injection E as <-. inversion HO; subst. clear HO.
    revert l' E1 H0. induction IH as [ | [k' w] m Hx _ IHm]; intros l' E1 HI.
    + injection E1 as <-. contradiction.
    + cbn [snd] in Hx. destruct (set_default_values ver w) as [y | ] eqn:Ex; [ | discriminate E1]. cbn [bind] in E1.
      match type of E1 with bind ?g _ = _ => destruct g as [ys | ] eqn:E2; [ | discriminate E1] end.
      cbn [bind] in E1. injection E1 as <-. destruct HI as [[= <- <-] | HI].
      * exact (Hx _ eq_refl _ _ H1).
      * exact (IHm _ eq_refl HI).
  - match type of E with bind ?m _ = _ => destruct m as [l' | ] eqn:E1; [ | discriminate E] end.
    cbn [bind] in E. injection E as <-.
    assert (forall k y, In (k, y) l' -> exists x, In (k, x) d /\
      match x with
      | PNone => y = match dget k (default_values c' ver) with Some v => of_val v | None => PNone end
      | _ => set_default_values ver x = Ok y
      end) as HL.
    { clear HO IH. revert l' E1. induction d as [ | [k' w] m IHm]; intros l' E1 k y HI.
      - injection E1 as <-. contradiction.
      - match type of E1 with bind ?g _ = _ => destruct g as [y' | ] eqn:Ex; [ | discriminate E1] end. cbn [bind] in E1.
        match type of E1 with bind ?g _ = _ => destruct g as [ys | ] eqn:E2; [ | discriminate E1] end.
        cbn [bind] in E1. injection E1 as <-. destruct HI as [[= <- <-] | HI].
        + exists w. split; [left; reflexivity | ]. destruct w; try exact Ex.
          destruct (dget k' (default_values c' ver)); injection Ex as <-; reflexivity.
        + destruct (IHm _ eq_refl _ _ HI) as (x & Hx & Hy). exists x. split; [right; exact Hx | exact Hy]. }
    inversion HO; subst.
    + intros k HI. destruct (HL _ _ HI) as (x & Hx & Hy). destruct x; try discriminate Hy.
      * destruct (dget k (default_values c' ver)) as [v | ]; [ | left; reflexivity].
        right. destruct v; try discriminate Hy. reflexivity.
      * cbn [set_default_values] in Hy. match type of Hy with bind ?g _ = _ => destruct g; discriminate Hy end.
      * cbn [set_default_values] in Hy. match type of Hy with bind ?g _ = _ => destruct g; discriminate Hy end.
      * cbn [set_default_values] in Hy. match type of Hy with bind ?g _ = _ => destruct g; discriminate Hy end.
    + match goal with HI : In (?k0, ?x0) l', HX : occurs c a ?x0 |- _ => rename HI into HIx; rename HX into HXx end.
      destruct (HL _ _ HIx) as (y & Hy & E2). rewrite Forall_forall in IH.
      specialize (IH _ Hy). cbn [snd] in IH.
      destruct y; try exact (IH _ E2 _ _ HXx).
      exfalso. subst x. match type of HXx with context[dget ?k0 ?d0] => destruct (dget k0 d0) end;
        [exact (no_element _ _ _ HXx) | inversion HXx].
  - discriminate E.
Qed.

Lemma loaded_no_null : forall v x, load_document v = Ok x ->
  forall c a, occurs c a (p_data (doc_data x)) -> no_null (doc_version x) c a.
Proof.
  intros v x H c a HO. unfold load_document in H. destruct v; try discriminate H.
  destruct (dget_err "skeleton" d) as [sk | ]; [ | discriminate H]. cbn [bind] in H.
  destruct (py_item sk "spine") as [sp | ]; [ | discriminate H]. cbn [bind] in H.
  destruct sp; try discriminate H.
  destruct (mk_version s) as [ver | ]; [ | discriminate H]. cbn [bind] in H.
  destruct (mk_data d) as [y | ]; [ | discriminate H]. cbn [bind] in H.
  destruct sk; try discriminate H. injection H as <-. cbn [doc_data doc_version] in *.
  exact (defaults_everywhere _ _ _ (p_data_defaults ver y) _ _ HO).
Qed.
