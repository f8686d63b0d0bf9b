(** Lemmas on the class tables and on what a loaded element holds. *)
From Verif Require Import PyBase PyFacts PyNum Json Version Classes ClassFacts SpecTables.
Open Scope string_scope.

(** The Python class behind each class of the model. *)
Definition py_name (c : cls) : string :=
  match c with
  | CBone => "Bone" | CBoneTS => "BoneTranslateAndShearKeyframe" | CBoneRS => "BoneRotateAndScaleKeyframe"
  | CBoneTimeline => "BoneTimeline" | CDeform => "Deform" | CDrawOffset => "DrawOrderTimelineOffset"
  | CDrawOrder => "DrawOrderTimeline" | CEvents => "Events" | CEventTimeline => "EventTimeline"
  | CIk => "Ik" | CIkTimeline => "IkTimeline" | CPath => "Path" | CPathTimeline => "PathTimeline"
  | CSkin38 => "Skin38" | CSkinAttachment => "SkinAttachment" | CSkinMesh => "SkinMesh"
  | CSkinPath => "SkinPath" | CSkinLinkedMesh => "SkinLinkedMesh" | CSkinBoundingBox => "SkinBoundingBox"
  | CSkinPoint => "SkinPoint" | CSkinClipping => "SkinClipping" | CSlot => "Slot"
  | CSlotKeyframe => "SlotKeyframe" | CSlotTimeline => "SlotTimeline" | CTransform => "Transform"
  | CTransformTimeline => "TransformTimeline" | CAnimation => "Animation" | CAnimData => "SpineAnimationData"
  end.
Definition declared (c : cls) : row := row_of (py_name c).
(** The declared defaults that apply to a version. *)
Definition declared_defaults (c : cls) (ver : version) (l : list (string * val)) : Prop :=
  ((3 <= v_major ver /\ 8 <= v_minor ver /\ 0 <= v_patch ver)%Z -> l = r_38 (declared c)) /\
  (~ (3 <= v_major ver /\ 8 <= v_minor ver /\ 0 <= v_patch ver)%Z -> l = r_old (declared c)).

Lemma tables_agree : forall c,
  attrs_of c = r_attrs (declared c) /\ defaults_old c = r_old (declared c) /\
  defaults_38 c = r_38 (declared c) /\ required c = r_required (declared c) /\
  unsupported_old c = r_unsupported (declared c).
Proof. destruct c; repeat split; reflexivity. Qed.

Lemma rows_covered : forall r, In r rows -> exists c, declared c = r.
Proof.
  intros r H. unfold rows in H. cbn [In] in H.
  repeat (destruct H as [<- | H]; [
    first [ exists CBone; reflexivity | exists CBoneTS; reflexivity | exists CBoneRS; reflexivity
          | exists CBoneTimeline; reflexivity | exists CDeform; reflexivity | exists CDrawOffset; reflexivity
          | exists CDrawOrder; reflexivity | exists CEvents; reflexivity | exists CEventTimeline; reflexivity
          | exists CIk; reflexivity | exists CIkTimeline; reflexivity | exists CPath; reflexivity
          | exists CPathTimeline; reflexivity | exists CSkin38; reflexivity | exists CSkinAttachment; reflexivity
          | exists CSkinMesh; reflexivity | exists CSkinPath; reflexivity | exists CSkinLinkedMesh; reflexivity
          | exists CSkinBoundingBox; reflexivity | exists CSkinPoint; reflexivity | exists CSkinClipping; reflexivity
          | exists CSlot; reflexivity | exists CSlotKeyframe; reflexivity | exists CSlotTimeline; reflexivity
          | exists CTransform; reflexivity | exists CTransformTimeline; reflexivity
          | exists CAnimation; reflexivity | exists CAnimData; reflexivity ] | ]).
  contradiction.
Qed.

Lemma declared_defaults_ok : forall c ver l, declared_defaults c ver l -> default_values c ver = l.
Proof.
  intros c ver l [H1 H2]. unfold default_values, ver_ge, SPINE_3_8. cbn [v_major v_minor v_patch].
  destruct (tables_agree c) as (_ & E1 & E2 & _). rewrite E1, E2.
  destruct (Z.geb_spec (v_major ver) 3), (Z.geb_spec (v_minor ver) 8), (Z.geb_spec (v_patch ver) 0); cbn [andb];
    first [ symmetry; apply H1; lia | symmetry; apply H2; lia ].
Qed.

Lemma fill_get : forall defs attrs k v, dget k attrs = Some v ->
  dget k (fill_defaults defs attrs) =
  Some (match v with VNone => match dget k defs with Some dv => dv | None => VNone end | _ => v end).
Proof.
  intros defs attrs k v. induction attrs as [ | [k' v'] m IH]; cbn; [discriminate | ].
  unfold dget in *. cbn. destruct (String.eqb k k') eqn:E.
  - intros [= ->]. apply String.eqb_eq in E. subst k'.
    destruct v; destruct (dget k defs); reflexivity.
  - exact IH.
Qed.

Lemma loaded_value : forall c ver d o l k, build_obj c (VDict d) = Ok o -> declared_defaults c ver l ->
  In k (r_attrs (declared c)) ->
  oget (obj_set_defaults ver o) k =
  match dget k d with
  | Some VNone | None => match dget k l with Some dv => dv | None => VNone end
  | Some v => v
  end.
Proof.
  intros c ver d o l k H HD HI.
  destruct (build_obj_kept c d o H) as (HC & HK & HV & HN).
  destruct (tables_agree c) as (EA & _). rewrite <- EA in HI.
  rewrite <- HK in HI.
  assert (exists v, dget k (o_attrs o) = Some v) as [v Hv].
  { destruct (dget k (o_attrs o)) eqn:E; [eauto | ]. exfalso. apply dget_none in E. contradiction. }
  unfold oget, obj_set_defaults. cbn [o_attrs].
  rewrite (fill_get _ _ _ _ Hv). rewrite HC, (declared_defaults_ok _ _ _ HD).
  assert (oget o k = v) as Ho by (unfold oget; rewrite Hv; reflexivity).
  destruct (dget k d) as [w | ] eqn:Ed.
  - destruct (HV _ _ Ed) as [_ E]. rewrite <- Ho, E. destruct w; reflexivity.
  - rewrite (HN _ Ed) in Ho. rewrite <- Ho. reflexivity.
Qed.

Lemma required_exact : forall c d, (forall k, In k (dkeys d) -> In k (r_attrs (declared c))) ->
  ((exists o, build_obj c (VDict d) = Ok o) <-> forall k, In k (r_required (declared c)) -> In k (dkeys d)).
Proof.
  intros c d H. destruct (tables_agree c) as (EA & _ & _ & ER & _). rewrite <- EA in H. rewrite <- ER.
  destruct (build_obj_required c d H) as (H1 & H2 & _). split.
  - intros [o Ho]. exact (H1 o Ho).
  - exact H2.
Qed.
