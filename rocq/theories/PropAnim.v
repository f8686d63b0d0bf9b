(** Properties C28-C30, C32-C36 and the exact statements C64-C68, C119 (visibility analysis,
    removal of a skin, custom scale, termination of loading). *)
From Verif Require Import PyBase PyNum Json Version Tags Classes Graph SpineGraph DrawOrder AnimData Editor
  SpecAnim AnimFacts SkinFacts ScaleFacts TermFacts.
From Verif Require Import SpecNums.
From Verif Require NumFacts.
From Coq Require Import SpecFloat.
Open Scope string_scope.

(** ** C28 *)
Theorem C28_eight_digits : forall d l, distinct_slots d -> get_slots_with_alpha_zero d = Ok l ->
  forall s c, In s (d_slots d) -> ostr s "color" = Some c -> hex_text c -> String.length c = 8 ->
  (In (slot_name s) l <-> exists rrggbb, c = (rrggbb ++ "00")%string).
Proof.
  intros d l Hs H s c Hin Hc Hx L. rewrite (listed_alpha d l Hs H s Hin). apply hex_transparent; auto.
  rewrite L. auto with arith.
Qed.
Print Assumptions C28_eight_digits.

Theorem C28_no_color : forall d l, distinct_slots d -> get_slots_with_alpha_zero d = Ok l ->
  forall s, In s (d_slots d) -> ostr s "color" = None -> ~ In (slot_name s) l.
Proof.
  intros d l Hs H s Hin Hc C. apply (listed_alpha d l Hs H s Hin) in C. destruct C as (c & n & E & _). congruence.
Qed.
Print Assumptions C28_no_color.

(** The call fails only for colors that are not hexadecimal. *)
Theorem C28_returns : forall d,
  (exists l, get_slots_with_alpha_zero d = Ok l) <-> forall s, In s (d_slots d) -> readable_color s.
Proof. intros d. apply alpha_zero_total. Qed.
Print Assumptions C28_returns.
Theorem C28_hex_readable : forall s c, ostr s "color" = Some c -> hex_text c -> c <> "" -> readable_color s.
Proof. exact hex_readable_color. Qed.
Print Assumptions C28_hex_readable.

(** ** C119: exactly which colors *)
Theorem C119_listed : forall d l, get_slots_with_alpha_zero d = Ok l ->
  forall n, In n l <-> exists s c k, In s (d_slots d) /\ slot_name s = n /\ ostr s "color" = Some c /\ color_value c (256 * k).
Proof. exact listed_exactly. Qed.
Print Assumptions C119_listed.
Theorem C119_returns : forall d, (exists l, get_slots_with_alpha_zero d = Ok l) <->
  forall s c, In s (d_slots d) -> ostr s "color" = Some c -> exists k, color_value c k.
Proof. exact returns_exactly. Qed.
Print Assumptions C119_returns.
Theorem C119_refused : forall d x, get_slots_with_alpha_zero d = Err x -> exists w, x = EValue w.
Proof. exact alpha_refused. Qed.
Print Assumptions C119_refused.
Theorem C119_one_value : forall c k k', color_value c k -> color_value c k' -> k = k'.
Proof. exact color_unique. Qed.
Print Assumptions C119_one_value.

(** Test data. *)
Definition doc (bones slots skins anims : list val) : val :=
  VDict [("skeleton", VDict [("spine", VStr "3.8.99")]); ("bones", VList bones); ("slots", VList slots);
         ("skins", VList skins); ("animations", VDict (map (fun v => match v with
            | VDict [(k, x)] => (k, x) | _ => ("", VNone) end) anims))].
Definition obj1 (l : dict val) : val := VDict l.
Definition no_data : anim_data := mkData [] [] [] [] [] [] [] [].
Definition data_of (j : val) : anim_data :=
  match load_document j with Ok x => doc_data x | Err _ => no_data end.

Definition d28 : anim_data := data_of (doc
  [obj1 [("name", VStr "root")]]
  [obj1 [("name", VStr "a"); ("bone", VStr "root"); ("color", VStr "ffaA0900")];
   obj1 [("name", VStr "b"); ("bone", VStr "root"); ("color", VStr "000000Ff")];
   obj1 [("name", VStr "c"); ("bone", VStr "root")]] [] []).
Example C28_ex : get_slots_with_alpha_zero d28 = Ok ["a"] /\ length (d_slots d28) = 3.
Proof. split; vm_compute; reflexivity. Qed.
Example C28_ex_hex : hex_text "ffaA0900".
Proof.
  repeat (apply Forall_cons; [unfold hex_digit; repeat (first [left; reflexivity | right]) | ]). apply Forall_nil.
Qed.

(** An underscore, Arabic digits and blanks at the end are let through. *)
Definition d119 (c : string) : anim_data := data_of (doc
  [obj1 [("name", VStr "root")]]
  [obj1 [("name", VStr "a"); ("bone", VStr "root"); ("color", VStr c)]] [] []).
Example C119_ex : get_slots_with_alpha_zero (d119 "_f_f00 ") = Ok ["a"] /\
  get_slots_with_alpha_zero (d119 (unchars (map ascii_of_N [217; 163; 217; 160; 48]%N))) = Ok ["a"] /\
  get_slots_with_alpha_zero (d119 "100") = Ok ["a"] /\ get_slots_with_alpha_zero (d119 "10") = Ok [] /\
  get_slots_with_alpha_zero (d119 " 00") = Err (EValue "invalid literal for int() with base 16").
Proof. repeat split; vm_compute; reflexivity. Qed.
Example C119_value_ex : color_value "_f_f00 " (256 * 255).
Proof. apply NumFacts.color_iff. vm_compute. reflexivity. Qed.

(** ** C29 *)
Theorem C29_unused_slots : forall d slots atts, distinct_slots d -> distinct_timelines d ->
  get_unused_slots_and_attachments d = Ok (slots, atts) ->
  forall n, In n slots <-> exists s, In s (d_slots d) /\ slot_name s = n /\ ~ used_slot d s.
Proof. intros d slots atts Hs Ht H. exact (proj1 (unused_spec d slots atts Hs Ht H)). Qed.
Print Assumptions C29_unused_slots.

(** ** C30 *)
Theorem C30_used_kept : forall d slots atts, distinct_slots d -> distinct_timelines d ->
  get_unused_slots_and_attachments d = Ok (slots, atts) ->
  forall n, In n atts -> ~ used_attachment d n /\ exists sl o, skin_attachment d sl n o.
Proof.
  intros d slots atts Hs Ht H n Hn. apply (proj2 (unused_spec d slots atts Hs Ht H)) in Hn as (A & sl & o & B & _).
  eauto.
Qed.
Print Assumptions C30_used_kept.

(** ** C65: exactly the reported attachments *)
Theorem C65_reported : forall d slots atts, distinct_slots d -> distinct_timelines d ->
  get_unused_slots_and_attachments d = Ok (slots, atts) ->
  forall n, In n atts <-> ~ used_attachment d n /\
    exists sl o, skin_attachment d sl n o /\ (o_cls o = CSkinMesh -> In sl slots).
Proof. intros d slots atts Hs Ht H. exact (proj2 (unused_spec d slots atts Hs Ht H)). Qed.
Print Assumptions C65_reported.

(** ** C64: exactly when the analysis returns *)
Theorem C64_returns : forall d, distinct_slots d -> distinct_timelines d ->
  ((exists r, get_unused_slots_and_attachments d = Ok r) <-> analysable d).
Proof. exact unused_total. Qed.
Print Assumptions C64_returns.

(** A document with slots of all kinds: "hat" only shown by an animation, "ghost" always
    transparent, "body" visible in the setup pose, "eye" hidden by the only animation. *)
Definition d29 : anim_data := data_of (doc
  [obj1 [("name", VStr "root")]]
  [obj1 [("name", VStr "body"); ("bone", VStr "root"); ("attachment", VStr "body1")];
   obj1 [("name", VStr "hat"); ("bone", VStr "root")];
   obj1 [("name", VStr "ghost"); ("bone", VStr "root"); ("color", VStr "ffffff00"); ("attachment", VStr "g")];
   obj1 [("name", VStr "eye"); ("bone", VStr "root"); ("attachment", VStr "eye1")]]
  [obj1 [("name", VStr "default");
         ("attachments", VDict [("body", VDict [("body1", VDict []); ("body2", VDict [])]);
                                ("hat", VDict [("hat1", VDict []); ("hat2", VDict [("type", VStr "mesh")])]);
                                ("ghost", VDict [("g", VDict [])]);
                                ("eye", VDict [("eye1", VDict [])])])]]
  [VDict [("walk", VDict [("slots", VDict
     [("hat", VDict [("attachment", VList [obj1 [("time", VInt 1); ("name", VStr "hat1")]])]);
      ("eye", VDict [("attachment", VList [obj1 [("time", VInt 0); ("name", VNone)]])])])])]]).
Example C29_ex : get_unused_slots_and_attachments d29 = Ok (["ghost"; "eye"], ["body2"; "g"; "eye1"]).
Proof. vm_compute. reflexivity. Qed.
Lemma d29_distinct : distinct_slots d29 /\ distinct_timelines d29.
Proof.
  split.
  - unfold distinct_slots. vm_compute. repeat constructor; cbn; intuition discriminate.
  - intros a (i & H). vm_compute in H. destruct H as [H | []]. injection H as _ <-. cbn.
    repeat constructor; cbn; intuition discriminate.
Qed.
Example C30_ex_used : used_attachment d29 "hat1".
Proof.
  destruct d29_distinct as [A B].
  pose proof (C65_reported d29 _ _ A B C29_ex "hat1") as [_ H].
  unfold used_attachment. eexists _, _. split; [eexists; vm_compute; left; reflexivity | ].
  split; [right; left; vm_compute; reflexivity | ]. split.
  - left. eexists. split; [left; vm_compute; reflexivity | ].
    intros [[_ [C | (k & C & N & _)]] | [[T _] | [_ N]]].
    + discriminate.
    + injection C as <-. apply (N "hat1"). split; [vm_compute; reflexivity | discriminate].
    + destruct T as (c & n & C & _). discriminate.
    + apply (N "hat1"). eexists. split; [left; reflexivity | split; [vm_compute; reflexivity | discriminate]].
  - right. eexists. split; [left; vm_compute; reflexivity | ].
    eexists. split; [left; reflexivity | split; [vm_compute; reflexivity | discriminate]].
Qed.

(** ** C32: false as stated.  A document with nothing visible in the setup pose, and an
    animation that has no slot timeline. *)
Definition d32 : anim_data := data_of (doc
  [obj1 [("name", VStr "root")]] [obj1 [("name", VStr "a"); ("bone", VStr "root")]] []
  [VDict [("idle", VDict [])]]).
Theorem C32_refuted : exists d w,
  distinct_slots d /\ distinct_timelines d /\
  (forall s, In s (d_slots d) -> readable_color s) /\
  (forall a n t, in_animations d a -> In (n, t) (an_slots a) ->
     n <> "" /\ exists s, In s (d_slots d) /\ slot_name s = n) /\
  get_unused_slots_and_attachments d = Err (EType w).
Proof.
  exists d32. eexists. split; [ | split; [ | split; [ | split]]].
  - unfold distinct_slots. vm_compute. repeat constructor; cbn; intuition discriminate.
  - intros a (i & H). vm_compute in H. destruct H as [H | []]. injection H as _ <-. constructor.
  - intros s H c E. vm_compute in H. destruct H as [<- | []]. discriminate.
  - intros a n t (i & H) Hin. vm_compute in H. destruct H as [H | []]. injection H as _ <-. destruct Hin.
  - vm_compute. reflexivity.
Qed.
Print Assumptions C32_refuted.

(** What holds of C32: with something visible in the setup pose. *)
Theorem C32_analysis_returns_partial : forall d, distinct_slots d -> distinct_timelines d ->
  (forall s, In s (d_slots d) -> readable_color s) ->
  (forall a n t, in_animations d a -> In (n, t) (an_slots a) ->
     n <> "" /\ exists s, In s (d_slots d) /\ slot_name s = n) ->
  (exists s, In s (d_slots d) /\ visible_in_setup s) ->
  exists r, get_unused_slots_and_attachments d = Ok r.
Proof.
  intros d Hs Ht Hc Ha Hv. apply unused_total; auto. split; auto. intros a Hin. split; auto.
  intros n t Hn. apply (Ha a n t); auto.
Qed.
Print Assumptions C32_analysis_returns_partial.
Example C32_ex : exists r, get_unused_slots_and_attachments d29 = Ok r.
Proof. eexists. vm_compute. reflexivity. Qed.

(** ** C33 *)
Theorem C33_unknown_skin : forall d n, (forall s, In s (d_skins d) -> sk_name s <> Some n) ->
  exists w, remove_skin n d = (d, Err (EEditor w)).
Proof. exact remove_skin_unknown. Qed.
Print Assumptions C33_unknown_skin.

Theorem C33_known_skin : forall d n source, first_skin d n source ->
  (has_source d n source ->
   exists d' r, remove_skin n d = (d', Ok r) /\
     d_bones d' = d_bones d /\ d_slots d' = d_slots d /\ d_events d' = d_events d /\ d_ik d' = d_ik d /\
     d_transform d' = d_transform d /\ d_path d' = d_path d /\
     Forall2 (skin_unlinked n source) (others n (d_skins d)) (d_skins d') /\
     Forall2 (fun x y => fst y = fst x /\ without_deform n (snd x) (snd y)) (d_animations d) (d_animations d')) /\
  (~ has_source d n source ->
   exists d' k, remove_skin n d = (d', Err (EKey k)) /\
     d_bones d' = d_bones d /\ d_slots d' = d_slots d /\ d_events d' = d_events d /\ d_ik d' = d_ik d /\
     d_transform d' = d_transform d /\ d_path d' = d_path d /\ d_animations d' = d_animations d /\
     Forall2 (fun s s' => sk_name s' = sk_name s /\ (sk_name s = Some n -> s' = s) /\
       keywise (fun sl => keywise (fun k o o' => o' = o \/ unlinked n source sl k o o')) (sk_atts s) (sk_atts s'))
       (d_skins d) (d_skins d')).
Proof.
  intros d n source H. destruct (remove_skin_known d n source H) as [A B]. split; auto.
  intros S. destruct (A S) as (d' & E & R). eauto.
Qed.
Print Assumptions C33_known_skin.

Definition mesh (l : dict val) : val := VDict (("type", VStr "mesh") :: l).
Definition linked (skin parent : string) (l : dict val) : val :=
  VDict (("type", VStr "linkedmesh") :: ("skin", VStr skin) :: ("parent", VStr parent) :: l).
Definition d33 : anim_data := data_of (doc
  [obj1 [("name", VStr "root")]] [obj1 [("name", VStr "s"); ("bone", VStr "root")]]
  [obj1 [("name", VStr "a"); ("attachments", VDict [("s", VDict
     [("m", linked "b" "m" [("path", VStr "p1"); ("width", VInt 5)]); ("r", VDict [])])])];
   obj1 [("name", VStr "b"); ("attachments", VDict [("s", VDict
     [("m", mesh [("path", VStr "p2"); ("width", VInt 9)]); ("i", VDict [("path", VStr "p3")])])])]]
  [VDict [("idle", VDict [("deform", VDict [("b", VDict []); ("a", VDict [])])])]]).
Example C33_ex : exists d' r, remove_skin "b" d33 = (d', Ok r) /\ map sk_name (d_skins d') = [Some "a"] /\
  r = ([Some "p2"], [("s", [("i", "p3")])]).
Proof. eexists _, _. split; [vm_compute; reflexivity | split; vm_compute; reflexivity]. Qed.
Example C33_ex_source : exists source, first_skin d33 "b" source /\ has_source d33 "b" source.
Proof.
  eexists. split.
  - eexists [_], []. split; [vm_compute; reflexivity | split; [vm_compute; reflexivity | ]].
    intros y [<- | []]. vm_compute. discriminate.
  - intros s sl m k o Hs Hn Hm Ho [L1 L2]. vm_compute in Hs. destruct Hs as [<- | [<- | []]].
    + vm_compute in Hm. destruct Hm as [Hm | []]. injection Hm as <- <-.
      destruct Ho as [Ho | [Ho | []]]; injection Ho as <- <-; [ | discriminate].
      eexists _, _. split; vm_compute; reflexivity.
    + exfalso. apply Hn. reflexivity.
Qed.

(** ** C34: false as stated *)
(** A linked mesh is replaced by the removed skin's attachment with the same key, not by
    its parent mesh: if that is itself a linked mesh, the result still links to the
    removed skin; *)
Definition d34 : anim_data := data_of (doc
  [obj1 [("name", VStr "root")]] [obj1 [("name", VStr "s"); ("bone", VStr "root")]]
  [obj1 [("name", VStr "a"); ("attachments", VDict [("s", VDict [("m", linked "b" "q" [])])])];
   obj1 [("name", VStr "b"); ("attachments", VDict [("s", VDict
     [("m", linked "b" "q" []); ("q", mesh [])])])]] []).
Theorem C34_refuted : exists d d' r n sl k o,
  remove_skin n d = (d', Ok r) /\ skin_attachment d' sl k o /\ linked_to n o.
Proof.
  exists d34. eexists _, _, "b", "s", "m", _. split; [vm_compute; reflexivity | split].
  - eexists _, _. split; [left; reflexivity | split; [vm_compute; left; reflexivity | left; reflexivity]].
  - split; reflexivity.
Qed.
Print Assumptions C34_refuted.
(** and if it does not exist, the removal fails although the parent mesh is there. *)
Definition d34' : anim_data := data_of (doc
  [obj1 [("name", VStr "root")]] [obj1 [("name", VStr "s"); ("bone", VStr "root")]]
  [obj1 [("name", VStr "a"); ("attachments", VDict [("s", VDict [("m", linked "b" "q" [])])])];
   obj1 [("name", VStr "b"); ("attachments", VDict [("s", VDict [("q", mesh [])])])]] []).
Theorem C34_refuted_parent : exists d d' n e,
  remove_skin n d = (d', Err (EKey e)) /\
  forall s sl m k o, In s (d_skins d) -> In (sl, m) (sk_atts s) -> In (k, o) m -> linked_to n o ->
    exists s' m' p o', In s' (d_skins d) /\ sk_name s' = Some n /\ In (sl, m') (sk_atts s') /\
      oget o "parent" = VStr p /\ In (p, o') m' /\ o_cls o' = CSkinMesh.
Proof.
  exists d34'. eexists _, "b", _. split; [vm_compute; reflexivity | ].
  intros s sl m k o Hs Hm Ho [L1 L2]. vm_compute in Hs. destruct Hs as [<- | [<- | []]].
  - vm_compute in Hm. destruct Hm as [Hm | []]. injection Hm as <- <-.
    destruct Ho as [Ho | []]. injection Ho as <- <-.
    eexists _, _, "q", _. split; [right; left; vm_compute; reflexivity | ].
    split; [reflexivity | split; [left; reflexivity | split; [reflexivity | split; [left; reflexivity | reflexivity]]]].
  - vm_compute in Hm. destruct Hm as [Hm | []]. injection Hm as <- <-.
    destruct Ho as [Ho | []]. injection Ho as <- <-. discriminate.
Qed.
Print Assumptions C34_refuted_parent.

(** ** C66: what becomes of linked meshes *)
Theorem C66_linked_meshes : forall d n d' r, remove_skin n d = (d', Ok r) ->
  exists source, first_skin d n source /\
    Forall2 (skin_unlinked n source) (others n (d_skins d)) (d_skins d').
Proof. exact remove_skin_linked. Qed.
Print Assumptions C66_linked_meshes.
(** In particular: if all the removed skin's attachments that linked meshes are replaced
    by do not link to it themselves, no linked mesh is left that does. *)
Theorem C66_no_link_left : forall d n d' r source, remove_skin n d = (d', Ok r) -> first_skin d n source ->
  (forall sl k o, in_skin source sl k o -> ~ linked_to n o) ->
  forall sl k o, skin_attachment d' sl k o -> ~ linked_to n o.
Proof. exact remove_skin_no_link. Qed.
Print Assumptions C66_no_link_left.
Theorem C34_copied_partial : forall d n d' r source, remove_skin n d = (d', Ok r) -> first_skin d n source ->
  Forall2 (skin_unlinked n source) (others n (d_skins d)) (d_skins d').
Proof. exact remove_skin_copied. Qed.
Print Assumptions C34_copied_partial.

(** ** C67: what remove_skin reports *)
Theorem C67_reports : forall d n d' images atts, remove_skin n d = (d', Ok (images, atts)) ->
  exists source, first_skin d n source /\
   (forall x, In x images <-> exists sl k o, in_skin source sl k o /\
      (((o_cls o = CSkinMesh \/ o_cls o = CSkinLinkedMesh) /\ names_image o x) \/
       (o_cls o <> CSkinAttachment /\ o_cls o <> CSkinMesh /\ o_cls o <> CSkinLinkedMesh /\
        exists p, ostr o "path" = Some p /\ x = Some p))) /\
   (distinct_keys source -> forall sl k p,
      (exists m, dget sl atts = Some m /\ dget k m = Some p) <->
      exists o, in_skin source sl k o /\ o_cls o = CSkinAttachment /\ names_image o (Some p)).
Proof. exact remove_skin_reports. Qed.
Print Assumptions C67_reports.

(** ** C35 *)
Theorem C35_scale : forall d s f, get_slot_custom_scale d (Some s) = Ok f <-> slot_scale_is d s f.
Proof. exact slot_scale. Qed.
Print Assumptions C35_scale.

Definition d35 : anim_data := data_of (doc
  [obj1 [("name", VStr "root[scale:7]")]; obj1 [("name", VStr "root")];
   obj1 [("name", VStr "a[scale:0.5]"); ("parent", VStr "root")];
   obj1 [("name", VStr "b[scale:3]"); ("parent", VStr "a[scale:0.5]")];
   obj1 [("name", VStr "c"); ("parent", VStr "b[scale:3]")]]
  [obj1 [("name", VStr "s[scale:2]"); ("bone", VStr "c")]] [] []).
Example C35_ex : exists s f, get_slot d35 "s[scale:2]" = Some s /\ get_slot_custom_scale d35 (Some s) = Ok f /\
  f = S754_finite false 6755399441055744 (-51).
Proof. eexists _, _. split; [vm_compute; reflexivity | split; vm_compute; reflexivity]. Qed.

(** ** C36: false as stated.  Two bones that are each other's parent. *)
Definition j36 : val := doc
  [obj1 [("name", VStr "a"); ("parent", VStr "b")]; obj1 [("name", VStr "b"); ("parent", VStr "a")]]
  [obj1 [("name", VStr "s"); ("bone", VStr "a")]]
  [obj1 [("name", VStr "default"); ("attachments", VDict [("s", VDict [])])]] [].
Theorem C36_refuted : exists j x s b, mk_editor j = Err EDiverges /\ load_document j = Ok x /\
  get_slot (doc_data x) "s" = Some s /\ get_bone (doc_data x) (ostr s "bone") = Some b /\
  forall fuel acc, bone_scale_loop fuel (doc_data x) acc (Some b) = Err EDiverges.
Proof.
  exists j36. eexists _, _, _. split; [vm_compute; reflexivity | ].
  split; [vm_compute; reflexivity | ]. split; [vm_compute; reflexivity | ]. split; [vm_compute; reflexivity | ].
  match goal with |- forall fuel acc, bone_scale_loop fuel ?dd acc (Some ?bb) = _ =>
    assert (E : get_bone_custom_scale_recursive dd (Some bb) = Err EDiverges) by (vm_compute; reflexivity) end.
  apply loop_endless in E as [E T]. exact (endless_forever _ _ E T).
Qed.
Print Assumptions C36_refuted.

(** ** C68: loading ends unless the bones of a used slot run into a cycle. *)
Theorem C68_load_ends : forall j, mk_editor j = Err EDiverges ->
  exists x s sl m o i b, load_document j = Ok x /\ In s (d_skins (doc_data x)) /\ In (sl, m) (sk_atts s) /\
    In o (d_slots (doc_data x)) /\ slot_name o = sl /\ ostr o "bone" = Some i /\
    first_named bone_name i (d_bones (doc_data x)) b /\ endless (doc_data x) b.
Proof. exact load_ends. Qed.
Print Assumptions C68_load_ends.

Theorem C36_no_cycle_partial : forall j,
  (forall x, load_document j = Ok x -> no_bone_cycle (doc_data x)) -> mk_editor j <> Err EDiverges.
Proof. exact load_ends_no_cycle. Qed.
Print Assumptions C36_no_cycle_partial.

(** The bound on the number of rounds in the model is no restriction: the scale of a slot
    diverges in the model exactly if the ancestors run into a cycle (and their tags are
    readable), and then it diverges whatever the bound. *)
Theorem C68_scale_diverges : forall d s, get_slot_custom_scale d s = Err EDiverges <->
  exists o i b f, s = Some o /\ ostr o "bone" = Some i /\ first_named bone_name i (d_bones d) b /\
    tag_scale (slot_name o) f /\ endless d b /\ tags_ok d b.
Proof. exact slot_scale_diverges. Qed.
Print Assumptions C68_scale_diverges.
Theorem C68_forever : forall d b, endless d b -> tags_ok d b ->
  forall fuel acc, bone_scale_loop fuel d acc (Some b) = Err EDiverges.
Proof. exact endless_forever. Qed.
Print Assumptions C68_forever.
Example C68_ex : no_bone_cycle d29.
Proof.
  intros b k H. destruct (climb_inv _ _ _ _ H) as (_ & p & b' & _ & F & C).
  apply first_named_in in F as [F _]. vm_compute in F. destruct F as [<- | []].
  apply climb_start in C. apply C. reflexivity.
Qed.
