(** Property C152: scales that cannot be computed. *)
From Verif Require Import PyBase PyNum Json Classes Tags SpineGraph DrawOrder AnimData SpecAnim SpecScale ScaleFacts ScaleFail.
From Verif Require PropAnim.
Open Scope string_scope.

(** Success is C35, running forever is C68; these are the exceptions. *)
Theorem C152_attribute_error : forall d o, (exists m, get_slot_custom_scale d (Some o) = Err (EAttr m)) <->
  readable (slot_name o) /\ (leads_nowhere d o "bone" \/ exists b, bone_of d o b /\ orphan d b).
Proof. exact scale_attribute_error. Qed.
Print Assumptions C152_attribute_error.
Theorem C152_value_error : forall d o, (exists m, get_slot_custom_scale d (Some o) = Err (EValue m)) <->
  ~ readable (slot_name o) \/ exists b, bone_of d o b /\ bad_tag_above d b.
Proof. exact scale_value_error. Qed.
Print Assumptions C152_value_error.
Theorem C152_no_other : forall d s e, get_slot_custom_scale d s = Err e -> (exists m, e = EAttr m) \/ (exists m, e = EValue m) \/ e = EDiverges.
Proof. exact scale_errors. Qed.
Print Assumptions C152_no_other.
Theorem C152_none : forall d, exists m, get_slot_custom_scale d None = Err (EAttr m).
Proof. intros d. eexists. reflexivity. Qed.
Print Assumptions C152_none.

(** The first bone has no parent and is not called "root"; a bone above "c" has an unreadable tag. *)
Definition d152 : anim_data := PropAnim.data_of (PropAnim.doc
  [PropAnim.obj1 [("name", VStr "hip")]; PropAnim.obj1 [("name", VStr "a[scale:2]"); ("parent", VStr "hip")];
   PropAnim.obj1 [("name", VStr "root")]; PropAnim.obj1 [("name", VStr "b[scale:x]"); ("parent", VStr "root")];
   PropAnim.obj1 [("name", VStr "c"); ("parent", VStr "b[scale:x]")]]
  [PropAnim.obj1 [("name", VStr "s"); ("bone", VStr "a[scale:2]")]; PropAnim.obj1 [("name", VStr "t"); ("bone", VStr "c")];
   PropAnim.obj1 [("name", VStr "u"); ("bone", VStr "none")]; PropAnim.obj1 [("name", VStr "v[scale:1][scale:1]"); ("bone", VStr "root")]] [] []).
Example C152_ex : map (fun n => match get_slot_custom_scale d152 (get_slot d152 n) with Err (EAttr _) => 1 | Err (EValue _) => 2 | _ => 0 end)
  ["s"; "t"; "u"; "v[scale:1][scale:1]"; "w"] = [1; 2; 1; 2; 1].
Proof. vm_compute. reflexivity. Qed.
Example C152_ex_orphan : exists s b, get_slot d152 "s" = Some s /\ bone_of d152 s b /\ orphan d152 b.
Proof.
  assert (exists m, get_slot_custom_scale d152 (get_slot d152 "s") = Err (EAttr m)) as H by (eexists; vm_compute; reflexivity).
  destruct (get_slot d152 "s") as [s | ] eqn:E; [ | vm_compute in E; discriminate E]. apply scale_attribute_error in H as [_ [H | (b & B & O)]].
  - exfalso. assert (get_bone d152 (ostr s "bone") = None) as K by (apply nowhere; exact H). vm_compute in E. injection E as <-. vm_compute in K. discriminate K.
  - exists s, b. auto.
Qed.
