(** Proofs about what a clean-up keeps, and about the images. *)
From Verif Require Import PyBase PyFacts Json Version Graph SpecGraph GraphFacts GraphApi GraphRemove IdFacts Classes ClassFacts DocFacts ReloadFacts SpineGraph SpecSpine
  SpineFacts BuildFacts BuildTotal SpineRemove DrawOrder SpecDraw DrawFacts AnimData AnimFacts Editor SpecAnim SkinFacts SpecEditor EditorGraph EditorData EditorBuild EditorClean EditorOut EditorHist EditorFacts.
From Coq Require Import Sorting.Sorted Permutation.
Open Scope string_scope.

(** ** Bones and ik constraints *)
Lemma reload_list_json : forall ver c l, Forall (loaded_obj ver c) l -> map (obj_json ver) (map (reload ver) l) = map (obj_json ver) l.
Proof. intros ver c l H. rewrite map_map. apply map_ext_in. intros o Ho. rewrite Forall_forall in H. apply (reload_json ver c). apply (H o Ho). Qed.
Lemma clean_bones : forall enum e e' bs ss is inv atts leafs orphans imgs rem, st e bs ss is ->
  clean_ok enum e e' bs ss is inv atts leafs orphans imgs rem -> bones_json e' = map (obj_json (e_ver e)) bs /\ ik_json e' = map (obj_json (e_ver e)) is.
Proof.
  intros enum e e' bs ss is inv atts leafs orphans imgs rem [_ S] C. pose proof (co_data _ _ _ _ _ _ _ _ _ _ _ _ C) as D. unfold bones_json, ik_json.
  rewrite (co_ver _ _ _ _ _ _ _ _ _ _ _ _ C), (cl_bones _ _ _ _ _ _ _ _ D), (cl_ik _ _ _ _ _ _ _ _ D).
  split; eapply reload_list_json; [exact (sy_bones_ok _ _ _ _ _ _ S) | exact (sy_ik_ok _ _ _ _ _ _ S)].
Qed.
(** No call ever changes the ik, transform and path constraints, the events, or the header. *)
Definition fixed (e0 e : editor) : Prop :=
  ik_json e = ik_json e0 /\ d_transform (e_data e) = d_transform (e_data e0) /\ d_path (e_data e) = d_path (e_data e0) /\
  d_events (e_data e) = d_events (e_data e0).
Theorem history_fixed : forall e0 ops e eb, last_built e0 ops e eb ->
  fixed e0 e /\ map (obj_json (e_ver e0)) (d_ik (e_data eb)) = ik_json e0 /\ e_ver e = e_ver e0 /\ doc_skeleton (e_doc e) = doc_skeleton (e_doc e0).
Proof.
  intros e0 ops e eb H.
  apply (history_all e0 (fun e _ _ is => fixed e0 e /\ map (obj_json (e_ver e0)) is = ik_json e0)) in H as (ss & S & I & F & J).
  - split; [auto | split; [auto | split; [apply (si_ver _ _ _ I) | apply (si_skeleton _ _ _ I)]]].
  - intros _. split; [repeat split; auto | reflexivity].
  - clear. intros e bs ss is o e1 bs1 ss1 is1 e2 ss2 S I [F J] Q S1 I1 M.
    assert (F1 : fixed e0 e1 /\ map (obj_json (e_ver e0)) is1 = ik_json e0).
    { destruct F as (F1 & F2 & F3 & F4). destruct Q as [ | l | sx sy l R | l d1 removed g R B]; [split; [repeat split | ]; auto | split; [repeat split | ]; auto | split; [repeat split | ]; auto | ].
      destruct S as [D S]. apply (removal_facts _ _ _ _ _ R) in D as (_ & _ & (_ & Hs & He & Hi & Ht & Hp) & _).
      split; [ | rewrite <- (si_ver _ _ _ I); exact F1]. split; [unfold ik_json in *; cbn; rewrite Hi; exact F1 | cbn; split; [congruence | split; congruence]]. }
    destruct F1 as [F1 J1]. assert (G : fixed e0 e2).
    { destruct M as [ | enum e2 inv atts leafs orphans imgs rem Oo C]; auto. destruct (clean_bones _ _ _ _ _ _ _ _ _ _ _ _ S1 C) as [_ E].
      destruct F1 as (_ & F2 & F3 & F4). pose proof (co_data _ _ _ _ _ _ _ _ _ _ _ _ C) as D.
      split; [rewrite E, (si_ver _ _ _ I1); auto | ]. rewrite (cl_transform _ _ _ _ _ _ _ _ D), (cl_path _ _ _ _ _ _ _ _ D), (cl_events _ _ _ _ _ _ _ _ D). auto. }
    split; auto. destruct o; exact G.
Qed.

(** ** Clean-up keeps everything else *)
Lemma same_without : forall slots l, survivors slots l = without slots l.
Proof. reflexivity. Qed.
Lemma draw_kept : forall rem names k k', NoDup names -> remove_offsets_with_ids rem names k = (k', Ok tt) -> draw_order_kept rem names k k'.
Proof.
  intros rem names k k' N E. destruct (remove_offsets_in_range _ _ _ _ N E) as (Ht & ms & M & V & _). split; auto. exists ms. split; [auto | ]. split; auto.
  intros ms0 l M0 V0 D0. exact (proj1 (remove_offsets_order _ _ _ _ _ _ _ N M0 V0 D0 E M)).
Qed.
Lemma Forall2_same_map : forall A B (R : A -> B -> Prop) (f : A -> B) l, (forall x, In x l -> R x (f x)) -> Forall2 R l (map f l).
Proof. intros A B R f l H. induction l as [ | x l IH]; cbn; constructor; [apply H; left; auto | apply IH; intros y Hy; apply H; right; auto]. Qed.
Lemma cleaned_kept : forall rem atts bs ss is d d', NoDup (map slot_name (d_slots d)) -> cleaned rem atts (map slot_name (d_slots d)) bs ss is d d' ->
  Forall2 (skin_kept rem atts) (d_skins d) (d_skins d') /\
  Forall2 (fun x y => fst y = fst x /\ animation_kept d rem atts (snd x) (snd y)) (d_animations d) (d_animations d').
Proof.
  intros rem atts bs ss is d d' N C. split.
  - rewrite (cl_skins _ _ _ _ _ _ _ _ C). apply Forall2_same_map. intros s _. split; auto.
  - eapply Forall2_impl; [ | exact (cl_anims _ _ _ _ _ _ _ _ C)]. intros x y [E K]. split; auto. destruct K. constructor; auto.
    + rewrite ca_deform. apply Forall2_same_map. intros [i z] _. unfold clean_deform. cbn [fst snd]. split; [auto | ]. cbn [fst snd].
      pose proof (is_skin_true (d_skins d) i) as Q. split; intros Hs.
      * apply Q in Hs. rewrite Hs. reflexivity.
      * destruct (is_skin (d_skins d) i); [destruct Hs; apply Q; auto | reflexivity].
    + eapply Forall2_impl; [ | exact ca_draw]. intros a b. apply draw_kept. auto.
Qed.
Theorem clean_keeps : forall e0 ops e eb enum e' rem atts, plain_slots (e_data e0) -> plain_setup (e_data e0) -> last_built e0 ops e eb -> order_ok enum ->
  clean_animation enum e = (e', Ok (rem, atts)) -> all_else_kept rem atts e e' /\ bones_json e' = bones_json eb.
Proof.
  intros e0 ops e eb enum e' rem atts Pl Ps B O E. destruct (history_plain _ _ _ _ Ps B) as (ss & [D S] & I & Es).
  destruct (clean_success _ _ _ _ _ _ _ _ D S O E) as (inv & leafs & orphans & imgs & K). pose proof (co_data _ _ _ _ _ _ _ _ _ _ _ _ K) as C.
  destruct (cleaned_kept _ _ _ _ _ _ _ (sync_distinct_slots _ _ _ _ _ _ S) C) as [C1 C2]. destruct (clean_bones _ _ _ _ _ _ _ _ _ _ _ _ (conj D S) K) as [Eb Ei].
  destruct (history_fixed _ _ _ _ B) as ((F1 & _) & F2 & F3 & _).
  assert (Vb : e_ver eb = e_ver e0).
  { clear - B. induction B as [ | ops e eb op e' B IH O E]; auto. destruct op; auto. apply history_fixed in B as (_ & _ & V & _). auto. }
  split; [constructor; auto | ].
  - exact (co_skeleton _ _ _ _ _ _ _ _ _ _ _ _ K).
  - exact (co_ver _ _ _ _ _ _ _ _ _ _ _ _ K).
  - rewrite Ei, F1, F3. auto.
  - exact (cl_transform _ _ _ _ _ _ _ _ C).
  - exact (cl_path _ _ _ _ _ _ _ _ C).
  - exact (cl_events _ _ _ _ _ _ _ _ C).
  - rewrite (clean_slots_plain _ _ _ _ _ _ _ _ _ _ _ _ _ Ps I (conj D S) K), <- Es. apply filter_ext. intros s. unfold keep. f_equal. apply smem_same.
    intros x. symmetry. eapply plain_rem; eauto. split; auto.
  - rewrite Eb. unfold bones_json. rewrite F3, Vb. auto.
Qed.

(** ** Scaling and later calls *)
Lemma safe_bones : forall enum l e e' r, erase_skins enum l true e = (e', Ok r) -> dinv (e_ver e) (e_data e) -> d_bones (e_data e') = d_bones (e_data e).
Proof.
  intros enum l e e' [[rem atts] imgs] E D. apply erase_skins_inv in E as (d1 & removed & g & e3 & R & _ & _ & -> & [(_ & -> & _) | (K & _)]); [ | discriminate].
  apply (removal_facts _ _ _ _ _ R) in D as (_ & _ & (Hb & _) & _). exact Hb.
Qed.
Theorem bones_after : forall e0 ops e eb op e', last_built e0 ops e eb -> eop_ok op -> estep e op = (e', Ok tt) ->
  match op with
  | EoEraseSkins _ _ _ => bones_json e' = bones_json e
  | EoEraseAnimations _ _ _ true => bones_json e' = bones_json e
  | EoEraseAnimations _ _ _ false | EoClean _ => bones_json e' = bones_json eb
  | EoScale sx sy => scale_bones sx sy (d_bones (e_data e)) = (d_bones (e_data e'), Ok tt)
  end.
Proof.
  intros e0 ops e eb op e' B Ho E. destruct (history_since _ _ _ _ B) as (ss & [D S] & I).
  assert (B' : last_built e0 (op :: ops) e' (match op with EoEraseSkins _ _ _ => e | _ => eb end)) by (econstructor; eauto).
  assert (Vv : forall ops e eb, last_built e0 ops e eb -> e_ver eb = e_ver e0).
  { clear. intros ops e eb B. induction B as [ | ops e eb op e' B IH O E]; auto. destruct op; auto. apply history_fixed in B as (_ & _ & V & _). auto. }
  assert (Ve : e_ver e = e_ver e0) by apply (si_ver _ _ _ I). assert (Vb := Vv _ _ _ B).
  destruct op as [enum l safe | enum l strict safe | enum | sx sy]; cbn [estep] in E.
  - destruct (erase_skins enum l safe e) as [e1 r] eqn:Er. destruct r as [r | x]; [ | discriminate]. injection E as ->. destruct safe.
    + apply safe_bones in Er as Eb; auto. apply history_fixed in B' as (_ & _ & V & _). unfold bones_json. rewrite Eb, V, Ve. auto.
    + destruct r as [[rem atts] imgs]. apply erase_skins_inv in Er as (d1 & removed & g & e3 & R & Bg & _ & -> & [(K & _) | (_ & K)]); [discriminate | ].
      destruct (st_rebuild _ _ _ _ _ _ _ _ (conj D S) R Bg) as [D1 S1].
      destruct (clean_success _ _ _ _ _ _ _ _ D1 S1 Ho K) as (inv & leafs & orphans & imgs1 & C).
      destruct (clean_bones _ _ _ _ _ _ _ _ _ _ _ _ (conj D1 S1) C) as [Eb _]. exact Eb.
  - destruct (erase_animations enum l strict safe e) as [e1 r] eqn:Er. destruct r as [r | x]; [ | discriminate]. injection E as ->.
    destruct r as [j [rem atts]]. apply erase_animations_inv in Er as (d1 & R & _ & [(-> & -> & _) | (-> & K)]); apply erase_raw_data in R; subst d1.
    + reflexivity.
    + destruct (st_anims _ _ _ _ l (conj D S)) as [D1 S1]. destruct (clean_success _ _ _ _ _ _ _ _ D1 S1 Ho K) as (inv & leafs & orphans & imgs1 & C).
      destruct (clean_bones _ _ _ _ _ _ _ _ _ _ _ _ (conj D1 S1) C) as [Eb _]. rewrite Eb. unfold bones_json. cbn. change (map (obj_json (e_ver e)) (d_bones (e_data eb)) = map (obj_json (e_ver eb)) (d_bones (e_data eb))). congruence.
  - destruct (clean_animation enum e) as [e1 r] eqn:Er. destruct r as [[rem atts] | x]; [ | discriminate]. injection E as ->.
    destruct (clean_success _ _ _ _ _ _ _ _ D S Ho Er) as (inv & leafs & orphans & imgs1 & C).
    destruct (clean_bones _ _ _ _ _ _ _ _ _ _ _ _ (conj D S) C) as [Eb _]. rewrite Eb. unfold bones_json. congruence.
  - apply scale_inv in E as (l & E & ->). exact E.
Qed.
(** Without a call of scale_animation the bones are exported as they were loaded. *)
Definition not_scale (op : eop) : Prop := match op with EoScale _ _ => False | _ => True end.
Theorem bones_unscaled : forall e0 ops e eb, last_built e0 ops e eb -> Forall not_scale ops -> bones_json e = bones_json e0 /\ bones_json eb = bones_json e0.
Proof.
  intros e0 ops e eb B. induction B as [ | ops e eb op e' B IH O E]; auto. intros F. apply Forall_cons_iff in F as [F1 F2]. destruct (IH F2) as [I1 I2].
  pose proof (bones_after _ _ _ _ _ _ B O E) as K. destruct op as [enum l safe | enum l strict safe | enum | sx sy]; [ | destruct safe | | destruct F1]; split; congruence.
Qed.
