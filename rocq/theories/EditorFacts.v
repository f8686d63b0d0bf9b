(** Proofs about the editor's calls. *)
From Verif Require Import PyBase PyFacts Json Version Graph SpecGraph GraphFacts GraphApi GraphRemove IdFacts Classes ClassFacts DocFacts ReloadFacts SpineGraph SpecSpine
  SpineFacts BuildFacts BuildTotal SpineRemove DrawOrder SpecDraw DrawFacts AnimData AnimFacts Editor SpecAnim SkinFacts SpecEditor EditorGraph EditorData EditorBuild EditorClean EditorOut EditorHist.
From Coq Require Import Sorting.Sorted Permutation.
Open Scope string_scope.

(** ** Erasing animations *)
Lemma dkeys_filter : forall A (l : list string) (d : dict A), dkeys (filter (fun kv => negb (smem (fst kv) l)) d) = without l (dkeys d).
Proof.
  intros A l d. unfold without, dkeys. induction d as [ | [k v] d IH]; auto. cbn [filter map fst]. destruct (smem k l); cbn [negb]; auto. cbn [map fst]. rewrite IH. auto.
Qed.
Lemma cleaned_keys : forall rem atts names bs ss is d d', cleaned rem atts names bs ss is d d' -> dkeys (d_animations d') = dkeys (d_animations d).
Proof. intros. exact (Forall2_keys _ _ _ _ _ (cl_anims _ _ _ _ _ _ _ _ H)). Qed.
Theorem erase_animations_left : forall e0 ops e enum names strict safe e' j rep, history e0 ops e -> order_ok enum ->
  erase_animations enum names strict safe e = (e', Ok (j, rep)) ->
  dkeys (d_animations (e_data e')) = without names (dkeys (d_animations (e_data e))) /\ j = editor_json e' /\
  (safe = true -> rep = ([], []) /\
     e' = put_data e (set_animations (e_data e) (filter (fun kv => negb (smem (fst kv) names)) (d_animations (e_data e))))).
Proof.
  intros e0 ops e enum names strict safe e' j [rem atts] H O E. destruct (last_built_ex _ _ _ H) as [eb B]. destruct (history_state _ _ _ _ B) as [ss S].
  apply erase_animations_inv in E as (d1 & R & J & C). apply erase_raw_data in R. subst d1. destruct C as [(-> & -> & -> & ->) | (-> & C)].
  - split; [ | split; [auto | intros _; split; reflexivity]]. cbn. apply dkeys_filter.
  - split; [ | split; [auto | discriminate]]. apply (st_anims _ _ _ _ names) in S as [D S].
    destruct (clean_success _ _ _ _ _ _ _ _ D S O C) as (inv & leafs & orphans & imgs & K).
    rewrite (cleaned_keys _ _ _ _ _ _ _ _ (co_data _ _ _ _ _ _ _ _ _ _ _ _ K)). cbn. apply dkeys_filter.
Qed.

(** Refusing *)
Lemma erase_raw_found : forall l (a : dict animation) nf, NoDup (dkeys a) ->
  let f := fun acc n => let '(a, nf) := acc in if dmem n a then (ddel n a, nf) else (a, (nf ++ [n])%list) in
  exists an nf', fold_left f l (a, nf) = (an, (nf ++ nf')%list) /\ (nf' = [] <-> NoDup l /\ forall n, In n l -> In n (dkeys a)).
Proof.
  induction l as [ | n l IH]; intros a nf N f; cbn [fold_left].
  - exists a, []. rewrite app_nil_r. split; auto. split; auto. intros _. split; [constructor | intros n []].
  - unfold f at 2. destruct (dmem n a) eqn:M.
    + assert (Hn : In n (dkeys a)). { unfold dmem in M. destruct (dget n a) eqn:G; [ | discriminate]. eapply dget_in_keys; eauto. }
      assert (Kd : forall k, In k (dkeys (ddel n a)) <-> In k (dkeys a) /\ k <> n).
      { intros k. unfold ddel, dkeys. rewrite !in_map_iff. split.
        - intros ([k' v] & E & Hi). cbn in E. subst k'. apply filter_In in Hi as [Hi Hb]. cbn in Hb. split; [exists (k, v); auto | ].
          intros ->. rewrite String.eqb_refl in Hb. discriminate.
        - intros (([k' v] & E & Hi) & Hk). cbn in E. subst k'. exists (k, v). split; auto. apply filter_In. split; auto. cbn.
          destruct (String.eqb n k) eqn:Eb; auto. apply String.eqb_eq in Eb. congruence. }
      destruct (IH (ddel n a) nf) as (an & nf' & E & Q); [apply NoDup_dkeys_filter; auto | ]. exists an, nf'. split; [exact E | ].
      rewrite Q. split.
      * intros [N1 K]. split; [constructor; auto; intros Hi; apply K, Kd in Hi; tauto | ]. intros k [<- | Hk]; auto. apply K, Kd in Hk. tauto.
      * intros [N1 K]. apply NoDup_cons_iff in N1 as [N1 N2]. split; auto. intros k Hk. apply Kd. split; [apply K; right; auto | ]. intros ->. auto.
    + assert (Hn : ~ In n (dkeys a)). { unfold dmem in M. destruct (dget n a) eqn:G; [discriminate | ]. apply dget_none in G. auto. }
      destruct (IH a (nf ++ [n])%list N) as (an & nf' & E & Q). exists an, (n :: nf'). split; [rewrite <- app_assoc in E; exact E | ].
      split; [discriminate | ]. intros [_ K]. destruct Hn. apply K. left. auto.
Qed.
Definition all_found (names keys : list string) : Prop := NoDup names /\ forall n, In n names -> In n keys.
Lemma erase_raw_strict : forall names strict d, NoDup (dkeys (d_animations d)) ->
  (all_found names (dkeys (d_animations d)) -> erase_raw_animations_data names strict d = (not_erased names d, Ok tt)) /\
  (~ all_found names (dkeys (d_animations d)) -> erase_raw_animations_data names strict d =
     (not_erased names d, if strict then Err (EValue "Animations could not be found inside the spine file") else Ok tt)).
Proof.
  intros names strict d N. destruct (erase_raw_found names (d_animations d) [] N) as (an & nf & E & Q).
  assert (Ea : an = filter (fun kv => negb (smem (fst kv) names)) (d_animations d)) by (eapply erase_raw_fold; exact E).
  unfold erase_raw_animations_data. rewrite E. cbn [app]. subst an. fold (not_erased names d). unfold all_found. rewrite <- Q. split.
  - intros ->. reflexivity.
  - intros K. destruct nf as [ | n nf]; [tauto | ]. destruct strict; reflexivity.
Qed.
Theorem erase_animations_refused : forall e0 ops e enum names safe, history e0 ops e ->
  (all_found names (dkeys (d_animations (e_data e))) ->
     erase_animations enum names true safe e = erase_animations enum names false safe e) /\
  (~ all_found names (dkeys (d_animations (e_data e))) ->
     erase_animations enum names true safe e =
       (put_data e (set_animations (e_data e) (filter (fun kv => negb (smem (fst kv) names)) (d_animations (e_data e)))),
        Err (EValue "Animations could not be found inside the spine file"))).
Proof.
  intros e0 ops e enum names safe H. destruct (last_built_ex _ _ _ H) as [eb B]. destruct (history_state _ _ _ _ B) as [ss [D _]].
  pose proof (di_names _ _ D) as N. split; intros K.
  - unfold erase_animations. unfold mbind at 1. unfold on_data at 1. rewrite (proj1 (erase_raw_strict names true _ N) K).
    unfold mbind at 3. unfold on_data at 1. rewrite (proj1 (erase_raw_strict names false _ N) K). reflexivity.
  - unfold erase_animations. unfold mbind at 1. unfold on_data at 1. rewrite (proj2 (erase_raw_strict names true _ N) K). reflexivity.
Qed.

(** ** Clean-up: references to slots *)
Lemma cleaned_anim : forall rem atts names bs ss is d d' a', cleaned rem atts names bs ss is d d' -> in_animations d' a' ->
  exists a, in_animations d a /\ clean_anim rem atts names (d_skins d) a a'.
Proof.
  intros rem atts names bs ss is d d' a' C [i Hi]. destruct (Forall2_in_r _ _ _ _ _ (cl_anims _ _ _ _ _ _ _ _ C) (i, a') Hi) as ([i0 a] & H1 & _ & H2).
  exists a. split; [exists i0; auto | auto].
Qed.
Lemma cleaned_anim_fwd : forall rem atts names bs ss is d d' a, cleaned rem atts names bs ss is d d' -> in_animations d a ->
  exists a', in_animations d' a' /\ clean_anim rem atts names (d_skins d) a a'.
Proof.
  intros rem atts names bs ss is d d' a C [i Hi]. destruct (Forall2_fwd _ _ _ _ _ (cl_anims _ _ _ _ _ _ _ _ C) (i, a) Hi) as ([i0 a'] & H1 & _ & H2).
  exists a'. split; [exists i0; auto | auto].
Qed.
Lemma dkeys_drop : forall A (l : list string) (d : dict A), dkeys (drop_keys l d) = without l (dkeys d).
Proof. intros. apply dkeys_filter. Qed.
Lemma in_without : forall l m x, In x (without l m) <-> In x m /\ ~ In x l.
Proof. intros l m x. unfold without. rewrite filter_In, negb_true_iff, smem_nin. tauto. Qed.
Lemma cleaned_no_slot : forall rem atts names bs ss is d d' n, cleaned rem atts names bs ss is d d' -> NoDup names -> In n rem -> ~ mentions_slot d' n.
Proof.
  intros rem atts names bs ss is d d' n C Nn Hn [H | [H | [H | H]]].
  - destruct H as (s' & Hs & Hk). rewrite (cl_skins _ _ _ _ _ _ _ _ C) in Hs. apply in_map_iff in Hs as (s & <- & Hs).
    unfold clean_skin, sk_atts in Hk. cbn [sk_attachments] in Hk. rewrite dkeys_dmap, dkeys_drop, in_without in Hk. tauto.
  - destruct H as (a' & Ha & Hk). destruct (cleaned_anim _ _ _ _ _ _ _ _ _ C Ha) as (a & _ & K). rewrite (ca_slots _ _ _ _ _ _ K), dkeys_drop, in_without in Hk. tauto.
  - destruct H as (a' & i & x & Ha & Hi & Hk). destruct (cleaned_anim _ _ _ _ _ _ _ _ _ C Ha) as (a & _ & K). rewrite (ca_deform _ _ _ _ _ _ K) in Hi.
    apply in_map_iff in Hi as ([i0 x0] & E & Hi). unfold clean_deform in E. cbn [fst snd] in E. injection E as -> <-.
    destruct (is_skin (d_skins d) i); [rewrite dkeys_dmap in Hk | ]; rewrite dkeys_drop, in_without in Hk; tauto.
  - destruct H as (a' & k' & o & Ha & Hk & Ho & Eo). destruct (cleaned_anim _ _ _ _ _ _ _ _ _ C Ha) as (a & _ & K).
    destruct (Forall2_in_r _ _ _ _ _ (ca_draw _ _ _ _ _ _ K) k' Hk) as (k & _ & R). apply remove_offsets_in_range in R as (_ & ms & M & _ & Q); auto.
    destruct (Forall2_fwd _ _ _ _ _ M o Ho) as ([s z] & Hm & E1 & _). cbn in E1. rewrite Eo in E1. injection E1 as ->. apply Q in Hm. tauto.
Qed.
Lemma st_distinct : forall e bs ss is, st e bs ss is -> distinct_slots (e_data e).
Proof. intros e bs ss is [_ S]. eapply sync_distinct_slots; eauto. Qed.
Theorem clean_no_slot_left : forall e0 ops e enum e' rem atts, history e0 ops e -> order_ok enum ->
  clean_animation enum e = (e', Ok (rem, atts)) -> forall n, In n rem -> ~ mentions_slot (e_data e') n.
Proof.
  intros e0 ops e enum e' rem atts H O E n Hn. destruct (last_built_ex _ _ _ H) as [eb B]. destruct (history_state _ _ _ _ B) as [ss [D S]].
  destruct (clean_success _ _ _ _ _ _ _ _ D S O E) as (inv & leafs & orphans & imgs & K).
  eapply cleaned_no_slot; [exact (co_data _ _ _ _ _ _ _ _ _ _ _ _ K) | | exact Hn]. eapply sync_distinct_slots; eauto.
Qed.

(** The slot list *)
Lemma plain_base : forall s, ~ has_text s "_SLOT" -> slot_base s = s.
Proof. intros s H. unfold slot_base. apply (to_base_iff T_SLOT); [simpl; tauto | exact H]. Qed.
Lemma plain_img_base : forall s, ~ has_text s "_IMAGE" -> img_base s = s.
Proof. intros s H. unfold img_base. apply (to_base_iff T_IMAGE); [simpl; tauto | exact H]. Qed.
Lemma occurs_dec : forall p l, occurs p l \/ ~ occurs p l.
Proof.
  intros p l. assert (Pre : forall p l : list ascii, (exists b, l = (p ++ b)%list) \/ ~ (exists b, l = (p ++ b)%list)).
  { clear. induction p as [ | c p IH]; intros l; [left; exists l; auto | ]. destruct l as [ | x l]; [right; intros (b & E); discriminate | ].
    destruct (ascii_dec c x) as [-> | N]; [ | right; intros (b & E); injection E; congruence].
    destruct (IH l) as [(b & ->) | K]; [left; exists b; auto | right]. intros (b & E). injection E as E. apply K. exists b. auto. }
  induction l as [ | c l IH].
  - destruct (Pre p []) as [(b & E) | K]; [left; exists [], b; auto | right]. intros (a & b & E). symmetry in E. apply app_eq_nil in E as [-> E]. apply K. exists b. auto.
  - destruct (Pre p (c :: l)) as [(b & E) | K]; [left; exists [], b; auto | ]. destruct IH as [(a & b & E) | K2]; [left; exists (c :: a), b; cbn; f_equal; auto | right].
    intros ([ | x a] & b & E); [apply K; exists b; auto | ]. injection E as _ E. apply K2. exists a, b. auto.
Qed.
Lemma text_dec : forall s x, has_text s x \/ ~ has_text s x.
Proof. intros s x. change (contains s x \/ ~ contains s x). rewrite contains_occurs. apply occurs_dec. Qed.
Lemma odd_base : forall s, slot_base s <> s -> has_text s "_SLOT".
Proof. intros s H. destruct (text_dec s "_SLOT") as [K | K]; auto. destruct H. apply plain_base. auto. Qed.
Lemma odd_img : forall s, img_base s <> s -> has_text s "_IMAGE".
Proof. intros s H. destruct (text_dec s "_IMAGE") as [K | K]; auto. destruct H. apply plain_img_base. auto. Qed.

(** ** Properties of all states of a history *)
Theorem history_all : forall (e0 : editor) (P : editor -> list obj -> list obj -> list obj -> Prop),
  (loaded e0 -> P e0 (d_bones (e_data e0)) (d_slots (e_data e0)) (d_ik (e_data e0))) ->
  (forall e bs ss is o e1 bs1 ss1 is1 e2 ss2, st e bs ss is -> since e0 e ss -> P e bs ss is ->
     pre e bs ss is o e1 bs1 ss1 is1 -> st e1 bs1 ss1 is1 -> since e0 e1 ss1 -> mid e1 bs1 ss1 is1 e2 ss2 -> P (post o e2) bs1 ss2 is1) ->
  forall ops e eb, last_built e0 ops e eb ->
  exists ss, st e (d_bones (e_data eb)) ss (d_ik (e_data eb)) /\ since e0 e ss /\ P e (d_bones (e_data eb)) ss (d_ik (e_data eb)).
Proof.
  intros e0 P P0 Ps ops e eb H. induction H as [H | ops e eb op e' H [ss [IH [I2 I3]]] O E].
  - pose proof H as (j & _ & Hj). apply mk_editor_inv in Hj as (_ & _ & B). destruct (loaded_sync e0 H) as (D & _ & S). exists (d_slots (e_data e0)). split; [split; auto | ].
    assert (F : Forall (slot_from (e_data e0)) (d_slots (e_data e0))) by (apply Forall_forall; intros s Hs; exists s; auto).
    split; auto. constructor; auto using desc_refl. intros i Hi. eapply (built_imgs (e_doc e0)); eauto.
  - destruct (step_run _ _ _ _ _ _ IH O E) as (o & e1 & ss1 & e2 & ss2 & R). destruct R as (Q & St1 & M & Ee & R). exists ss2.
    assert (I4 : since e0 e1 ss1) by (eapply since_pre; [exact IH | exact I2 | exact Q]).
    split; [destruct op; exact R | ]. split.
    + rewrite Ee. apply since_post. destruct M as [ | enum e2 inv atts leafs orphans imgs rem Oo C]; auto. eapply since_clean; eauto.
    + rewrite Ee. pose proof (Ps e _ ss _ o e1 _ ss1 _ e2 ss2 IH I2 I3 Q St1 I4 M) as K. destruct op; exact K.
Qed.

(** *** The setup pose: nothing is ever unset in a document with plain names. *)
Definition no_unset (e : editor) (ss : list obj) : Prop := d_slots (e_data e) = ss.
Lemma from_setup : forall d0 s a, slot_from d0 s -> ostr s "attachment" = Some a -> In s (d_slots d0).
Proof.
  intros d0 s a (s0 & H & [-> | [-> (b & Hb)]]) E; auto. unfold ostr in E. rewrite oget_oset, String.eqb_refl in E. destruct (dmem "attachment" (o_attrs s0)); discriminate.
Qed.
Lemma unset_plain : forall e0 e ss inv atts, plain_setup (e_data e0) -> since e0 e ss -> st e (d_bones (e_data e)) ss (d_ik (e_data e)) \/ (exists bs is, st e bs ss is) ->
  get_unused_slots_and_attachments (e_data e) = Ok (inv, atts) -> forall s, slot_from (e_data e0) s -> unset_slot atts s = s.
Proof.
  intros e0 e ss inv atts Pl I S A s Hs. unfold unset_slot. destruct (ostr s "attachment") as [a | ] eqn:Ea; auto.
  destruct (smem (graph_id T_ATTACHMENT a) atts) eqn:M; auto. apply smem_in in M. exfalso.
  assert (S' : exists bs is, st e bs ss is) by (destruct S; eauto). destruct S' as (bs & is & D & S').
  apply (unused_spec _ _ _ (sync_distinct_slots _ _ _ _ _ _ S') (dinv_timelines _ _ D) A) in M as (_ & sl & o & Ho & _).
  destruct (si_desc _ _ _ I _ _ _ Ho) as (o0 & Ho0 & _). eapply (Pl s a); eauto. eapply from_setup; eauto.
Qed.
Lemma map_same : forall A (f : A -> A) l, (forall x, In x l -> f x = x) -> map f l = l.
Proof. intros A f l H. induction l as [ | x l IH]; auto. cbn. rewrite H, IH; simpl; auto. intros y Hy. apply H. right. auto. Qed.
Lemma from_filter : forall d0 f ss, Forall (slot_from d0) ss -> forall s, In s (filter f ss) -> slot_from d0 s.
Proof. intros d0 f ss F s H. rewrite Forall_forall in F. apply F. apply filter_In in H. tauto. Qed.
Lemma clean_slots_plain : forall enum e0 e e' bs ss is inv atts leafs orphans imgs rem, plain_setup (e_data e0) -> since e0 e ss -> st e bs ss is ->
  clean_ok enum e e' bs ss is inv atts leafs orphans imgs rem -> d_slots (e_data e') = filter (keep (inv ++ leafs)%list) ss.
Proof.
  intros enum e0 e e' bs ss is inv atts leafs orphans imgs rem Pl I S C. rewrite (cl_slots _ _ _ _ _ _ _ _ (co_data _ _ _ _ _ _ _ _ _ _ _ _ C)).
  apply map_same. intros s Hs. eapply unset_plain; eauto. { exact (co_unused _ _ _ _ _ _ _ _ _ _ _ _ C). } eapply from_filter; [exact (si_ss _ _ _ I) | exact Hs].
Qed.
Theorem history_plain : forall e0 ops e eb, plain_setup (e_data e0) -> last_built e0 ops e eb ->
  exists ss, st e (d_bones (e_data eb)) ss (d_ik (e_data eb)) /\ since e0 e ss /\ d_slots (e_data e) = ss.
Proof.
  intros e0 ops e eb Pl. apply (history_all e0 (fun e _ ss _ => d_slots (e_data e) = ss)); auto. clear ops e eb.
  intros e bs ss is o e1 bs1 ss1 is1 e2 ss2 S I E Q S1 I1 M.
  assert (E1 : d_slots (e_data e1) = ss1).
  { destruct Q as [ | | | l d1 removed g R B]; auto. destruct S as [D S]. apply (removal_facts _ _ _ _ _ R) in D as (_ & _ & (_ & Hs & _) & _). exact Hs. }
  assert (E2 : d_slots (e_data e2) = ss2).
  { destruct M as [ | enum e2 inv atts leafs orphans imgs rem Oo C]; auto. eapply clean_slots_plain; eauto. }
  destruct o; exact E2.
Qed.

(** ** Clean-up: the slot list *)
Lemma keep_names : forall gone ss, map slot_name (filter (keep gone) ss) = without gone (map slot_name ss).
Proof.
  intros gone ss. unfold without, keep. induction ss as [ | s ss IH]; auto. cbn [filter map]. destruct (smem (slot_name s) gone); cbn [negb]; auto. cbn [map]. f_equal. auto.
Qed.
Lemma clean_names : forall enum e e' bs ss is inv atts leafs orphans imgs rem, st e bs ss is ->
  clean_ok enum e e' bs ss is inv atts leafs orphans imgs rem ->
  map slot_name (d_slots (e_data e')) = without (inv ++ leafs)%list (map slot_name (d_slots (e_data e))).
Proof.
  intros enum e e' bs ss is inv atts leafs orphans imgs rem [_ S] C. rewrite (sy_names _ _ _ _ _ _ (co_sync _ _ _ _ _ _ _ _ _ _ _ _ C)).
  rewrite keep_names, (sy_names _ _ _ _ _ _ S). auto.
Qed.
Lemma leaf_name : forall enum e e' bs ss is inv atts leafs orphans imgs rem s, st e bs ss is ->
  clean_ok enum e e' bs ss is inv atts leafs orphans imgs rem -> In s leafs -> In s (map slot_name (d_slots (e_data e))).
Proof.
  intros enum e e' bs ss is inv atts leafs orphans imgs rem s [_ S] C H. apply (ch_leafs _ _ _ _ _ _ (co_choice _ _ _ _ _ _ _ _ _ _ _ _ C)) in H as [H _].
  rewrite (sy_names _ _ _ _ _ _ S). eapply sync_has; eauto.
Qed.
Lemma from_name : forall d0 s, slot_from d0 s -> exists s0, In s0 (d_slots d0) /\ slot_name s0 = slot_name s.
Proof.
  intros d0 s (s0 & H & [-> | [-> _]]); exists s0; split; auto. unfold slot_name, ostr. rewrite oget_oset. destruct (String.eqb "attachment" "name") eqn:E; [discriminate | ]. auto.
Qed.
Lemma plain_leaf : forall enum e0 e e' bs ss is inv atts leafs orphans imgs rem, plain_slots (e_data e0) -> since e0 e ss -> st e bs ss is ->
  clean_ok enum e e' bs ss is inv atts leafs orphans imgs rem -> forall s, In s leafs -> slot_base s = s.
Proof.
  intros enum e0 e e' bs ss is inv atts leafs orphans imgs rem Pl I S C s Hs. eapply leaf_name in Hs; eauto. apply in_map_iff in Hs as (o & <- & Ho).
  pose proof (si_slots _ _ _ I) as F. rewrite Forall_forall in F. destruct (from_name _ _ (F o Ho)) as (s0 & H0 & E0). apply plain_base. rewrite <- E0. apply Pl. auto.
Qed.
Lemma plain_rem : forall enum e0 e e' bs ss is inv atts leafs orphans imgs rem, plain_slots (e_data e0) -> since e0 e ss -> st e bs ss is ->
  clean_ok enum e e' bs ss is inv atts leafs orphans imgs rem -> forall x, In x rem <-> In x (inv ++ leafs)%list.
Proof.
  intros enum e0 e e' bs ss is inv atts leafs orphans imgs rem Pl I S C x. rewrite (co_rem_in _ _ _ _ _ _ _ _ _ _ _ _ C), in_app_iff.
  split; (intros [H | H]; [auto | right]).
  - destruct H as (s & Hs & ->). rewrite (plain_leaf _ _ _ _ _ _ _ _ _ _ _ _ _ Pl I S C s Hs). auto.
  - exists x. split; auto. rewrite (plain_leaf _ _ _ _ _ _ _ _ _ _ _ _ _ Pl I S C x H). auto.
Qed.
Lemma without_same : forall l l' m, (forall x, In x l <-> In x l') -> without l m = without l' m.
Proof. intros l l' m H. apply filter_ext. intros x. rewrite (smem_same l l' H). auto. Qed.
Theorem clean_slot_list : forall e0 ops e enum e' rem atts, plain_slots (e_data e0) -> history e0 ops e -> order_ok enum ->
  clean_animation enum e = (e', Ok (rem, atts)) ->
  map slot_name (d_slots (e_data e')) = without rem (map slot_name (d_slots (e_data e))).
Proof.
  intros e0 ops e enum e' rem atts Pl H O E. destruct (last_built_ex _ _ _ H) as [eb B]. destruct (history_since _ _ _ _ B) as [ss [[D S] I]].
  destruct (clean_success _ _ _ _ _ _ _ _ D S O E) as (inv & leafs & orphans & imgs & K).
  rewrite (clean_names _ _ _ _ _ _ _ _ _ _ _ _ (conj D S) K). symmetry. apply without_same. eapply plain_rem; eauto. split; auto.
Qed.
(** Whatever the names, a slot that goes unreported has "_SLOT" in its name, and so has some
    slot that goes when a slot is reported that stays. *)
Theorem clean_slot_list_any : forall e0 ops e enum e' rem atts n, history e0 ops e -> order_ok enum ->
  clean_animation enum e = (e', Ok (rem, atts)) -> In n (map slot_name (d_slots (e_data e))) ->
  let left := map slot_name (d_slots (e_data e')) in
  (~ In n left -> In n rem \/ has_text n "_SLOT") /\
  (In n rem -> ~ In n left \/
     exists s, In s (map slot_name (d_slots (e_data e))) /\ ~ In s left /\ s <> n /\ has_text s "_SLOT").
Proof.
  intros e0 ops e enum e' rem atts n H O E Hn left. destruct (last_built_ex _ _ _ H) as [eb B]. destruct (history_since _ _ _ _ B) as [ss [[D S] I]].
  destruct (clean_success _ _ _ _ _ _ _ _ D S O E) as (inv & leafs & orphans & imgs & K).
  pose proof (clean_names _ _ _ _ _ _ _ _ _ _ _ _ (conj D S) K) as L. fold left in L. rewrite L. split.
  - intros Hl. rewrite in_without in Hl. rewrite (co_rem_in _ _ _ _ _ _ _ _ _ _ _ _ K). destruct (in_dec string_dec n inv) as [Hi | Hi]; auto.
    destruct (in_dec string_dec n leafs) as [Hf | Hf]; [ | destruct Hl; split; auto; rewrite in_app_iff; tauto].
    destruct (string_dec (slot_base n) n) as [Eb | Eb]; [left; right; exists n; auto | right; apply odd_base; auto].
  - intros Hr. rewrite (co_rem_in _ _ _ _ _ _ _ _ _ _ _ _ K) in Hr. rewrite in_without. destruct Hr as [Hr | (s & Hs & ->)].
    + left. rewrite in_app_iff. tauto.
    + destruct (string_dec (slot_base s) s) as [Eb | Eb].
      * left. rewrite Eb, in_app_iff. tauto.
      * right. exists s. split; [eapply leaf_name; eauto; split; auto | ]. split; [rewrite in_without, in_app_iff; tauto | ]. split; auto using odd_base.
Qed.

(** ** Clean-up: references to attachments *)
Lemma hides_dec : forall s t, readable_color s -> timeline_hides s t \/ ~ timeline_hides s t.
Proof.
  intros s t R. apply slot_alpha_zero_total in R as [b Rb]. pose proof (slot_alpha_zero_spec s b Rb) as T.
  pose proof (st_is_empty_spec t) as Te. pose proof (has_color_spec t) as Tc. pose proof (not_visible_spec s) as Tb.
  assert (Ts : (forall n, ~ timeline_shows t n) \/ ~ (forall n, ~ timeline_shows t n)).
  { destruct (used_attachments t) as [ | x l] eqn:E; [left | right].
    - intros n Hn. apply in_used_attachments in Hn. rewrite E in Hn. auto.
    - intros K. apply (K x). apply in_used_attachments. rewrite E. left. auto. }
  unfold timeline_hides. destruct (st_is_empty t), b, (has_color t), (not_visible_in_setup s); try (left; tauto);
  assert (true = true) by auto; assert (false <> true) by discriminate; tauto.
Qed.
Lemma is_skin_true : forall skins i, is_skin skins i = true <-> exists s, In s skins /\ sk_name s = Some i.
Proof. intros skins i. unfold is_skin. rewrite existsb_exists. split; intros (s & H & E); exists s; (split; [auto | ]); apply opt_eqb_spec; auto. Qed.
Theorem clean_no_attachment_left : forall e0 ops e enum e' rem atts, history e0 ops e -> order_ok enum ->
  clean_animation enum e = (e', Ok (rem, atts)) -> forall k, In k atts ->
  ~ attachment_in_skins (e_data e') k /\ ~ attachment_in_deforms (e_data e') k /\
  (plain_setup (e_data e0) -> ~ attachment_in_setup (e_data e') k) /\
  (forall sl t, keyframe_names (e_data e') sl t k -> k = "None" \/
     exists s, In s (d_slots (e_data e)) /\ slot_name s = sl /\ timeline_hides s t).
Proof.
  intros e0 ops e enum e' rem atts H O E k Hk. destruct (last_built_ex _ _ _ H) as [eb B]. destruct (history_since _ _ _ _ B) as [ss [[D S] I]].
  destruct (clean_success _ _ _ _ _ _ _ _ D S O E) as (inv & leafs & orphans & imgs & K). pose proof (co_data _ _ _ _ _ _ _ _ _ _ _ _ K) as C.
  pose proof (sync_distinct_slots _ _ _ _ _ _ S) as Ds. pose proof (dinv_timelines _ _ D) as Dt. pose proof (co_unused _ _ _ _ _ _ _ _ _ _ _ _ K) as A.
  destruct (unused_spec _ _ _ Ds Dt A) as [Ui Ua]. pose proof (proj1 (Ua k) Hk) as [Nu _].
  split; [ | split; [ | split]].
  - intros (sl & o & Ho). apply (cleaned_att _ _ _ _ _ _ _ _ C) in Ho. tauto.
  - intros (a' & s' & i & x & sl & y & Ha & Hs & En & Hx & Hy & Hkk). destruct (cleaned_anim _ _ _ _ _ _ _ _ _ C Ha) as (a & _ & Ca).
    rewrite (ca_deform _ _ _ _ _ _ Ca) in Hx. apply in_map_iff in Hx as ([i0 x0] & Ex & Hx). unfold clean_deform in Ex. cbn [fst snd] in Ex. injection Ex as -> <-.
    assert (Hi : is_skin (d_skins (e_data e)) i = true).
    { apply is_skin_true. rewrite (cl_skins _ _ _ _ _ _ _ _ C) in Hs. apply in_map_iff in Hs as (s & <- & Hs). exists s. auto. }
    rewrite Hi in Hy. unfold dmap in Hy. apply in_map_iff in Hy as ([sl0 y0] & Ey & Hy). cbn [fst snd] in Ey. injection Ey as -> <-.
    rewrite dkeys_drop, in_without in Hkk. tauto.
  - intros Pl (s & Hs & Es). destruct (history_plain _ _ _ _ Pl B) as (ss2 & St2 & I2 & E2). destruct St2 as [D2 S2].
    destruct (clean_success _ _ _ _ _ _ _ _ D2 S2 O E) as (inv2 & leafs2 & orphans2 & imgs2 & K2).
    rewrite (clean_slots_plain _ _ _ _ _ _ _ _ _ _ _ _ _ Pl I2 (conj D2 S2) K2) in Hs. apply filter_In in Hs as [Hs Hkeep]. rewrite <- E2 in Hs.
    pose proof (co_unused _ _ _ _ _ _ _ _ _ _ _ _ K2) as A2. rewrite A in A2. injection A2 as <-.
    assert (Hi : In (slot_name s) inv).
    { apply Ui. exists s. split; [auto | split; [auto | ]]. intros (a & Ha & Hv). apply Nu. exists a, s. split; [auto | split; [auto | split; auto]]. }
    unfold keep in Hkeep. rewrite negb_true_iff, smem_nin, in_app_iff in Hkeep. tauto.
  - intros sl t (a' & kf & Ha & Ht & Hkf & En). destruct (string_dec k "None") as [-> | Nk]; auto. right.
    destruct (cleaned_anim _ _ _ _ _ _ _ _ _ C Ha) as (a & Ha0 & Ca). rewrite (ca_slots _ _ _ _ _ _ Ca) in Ht. apply in_drop_keys in Ht as [Ht Hr].
    destruct (proj1 (unused_total _ Ds Dt) (ex_intro _ _ A)) as [Rc An]. destruct (An a Ha0) as [Hn _]. destruct (Hn sl t Ht) as (_ & s & Hs & Es).
    exists s. split; [auto | split; [auto | ]]. destruct (hides_dec s t (Rc s Hs)) as [Hh | Hh]; auto. destruct Nu. exists a, s. split; [auto | split; [auto | ]].
    assert (Tl : timeline a s t) by (unfold timeline; rewrite Es; auto).
    split; [left; exists t; auto | right]. exists t. split; auto. exists kf. split; auto. split; auto.
Qed.
