(** Documents that look alike to the analysis: what it reads of slots, slot timelines, skins and draw orders is the same. *)
From Verif Require Import PyBase PyFacts PyNum Json Version Classes Graph SpineGraph DrawOrder SpecDraw AnimData SpecAnim SpecEditor SpecFail ReloadImages.
Open Scope string_scope.

Definition slot_alike (s s' : obj) : Prop :=
  oget s' "name" = oget s "name" /\ oget s' "attachment" = oget s "attachment" /\ oget s' "color" = oget s "color" /\ oget s' "dark" = oget s "dark" /\ oget s' "blend" = oget s "blend".
Definition key_alike (k k' : obj) : Prop :=
  oget k' "name" = oget k "name" /\ py_eq (oget k' "time") (VInt 0) = py_eq (oget k "time") (VInt 0).
Definition timeline_alike (t t' : slot_timeline) : Prop :=
  Forall2 key_alike (st_attachment t) (st_attachment t') /\ (st_color t' = [] <-> st_color t = []) /\ (st_twoColor t' = [] <-> st_twoColor t = []).
Definition offset_alike (o o' : obj) : Prop := oget o' "slot" = oget o "slot" /\ oget o' "offset" = oget o "offset".
Definition order_alike (k k' : draw_order) : Prop := Forall2 offset_alike (do_offsets k) (do_offsets k').
Definition anim_alike (a a' : animation) : Prop :=
  Forall2 (fun x y => fst y = fst x /\ timeline_alike (snd x) (snd y)) (an_slots a) (an_slots a') /\ Forall2 order_alike (an_drawOrder a) (an_drawOrder a').
Record alike (d d' : anim_data) : Prop := {
  ak_slots : Forall2 slot_alike (d_slots d) (d_slots d');
  ak_anims : Forall2 (fun x y => fst y = fst x /\ anim_alike (snd x) (snd y)) (d_animations d) (d_animations d');
  ak_skins : forall sl k o, skin_attachment d sl k o -> exists o', skin_attachment d' sl k o' /\ o_cls o' = o_cls o;
  ak_back : forall sl k o', skin_attachment d' sl k o' -> exists o, skin_attachment d sl k o /\ o_cls o = o_cls o' }.

(** ** Symmetry *)
Lemma Forall2_sym : forall A B (R : A -> B -> Prop) (Q : B -> A -> Prop) l l', (forall x y, R x y -> Q y x) -> Forall2 R l l' -> Forall2 Q l' l.
Proof. intros A B R Q l l' H F. induction F; constructor; auto. Qed.
Lemma slot_sym : forall s s', slot_alike s s' -> slot_alike s' s.
Proof. intros s s' (H1 & H2 & H3 & H4 & H5). repeat split; auto. Qed.
Lemma key_sym : forall k k', key_alike k k' -> key_alike k' k.
Proof. intros k k' [H1 H2]. split; auto. Qed.
Lemma timeline_sym : forall t t', timeline_alike t t' -> timeline_alike t' t.
Proof. intros t t' (H1 & H2 & H3). split; [ | tauto]. eapply Forall2_sym; [ | exact H1]. exact key_sym. Qed.
Lemma order_sym : forall k k', order_alike k k' -> order_alike k' k.
Proof. intros k k' H. eapply Forall2_sym; [ | exact H]. intros x y [H1 H2]. split; auto. Qed.
Lemma anim_sym : forall a a', anim_alike a a' -> anim_alike a' a.
Proof.
  intros a a' [H1 H2]. split; [eapply Forall2_sym; [ | exact H1] | eapply Forall2_sym; [ | exact H2]]; [ | exact order_sym].
  intros x y [E T]. split; [auto | apply timeline_sym; exact T].
Qed.
Lemma alike_sym : forall d d', alike d d' -> alike d' d.
Proof.
  intros d d' [H1 H2 H3 H4]. constructor; [ | | exact H4 | exact H3].
  - eapply Forall2_sym; [exact slot_sym | exact H1].
  - eapply Forall2_sym; [ | exact H2]. intros x y [E T]. split; [auto | apply anim_sym; exact T].
Qed.

(** ** Slots *)
Lemma alike_name : forall s s', slot_alike s s' -> slot_name s' = slot_name s.
Proof. intros s s' (H & _). unfold slot_name, ostr. rewrite H. reflexivity. Qed.
Lemma alike_transparent : forall s s', slot_alike s s' -> transparent s -> transparent s'.
Proof. intros s s' (_ & _ & H & _) (c & n & E & K). exists c, n. unfold ostr in *. rewrite H. auto. Qed.
Lemma alike_readable : forall s s', slot_alike s s' -> readable_color s -> readable_color s'.
Proof. intros s s' (_ & _ & H & _) K c E. apply K. unfold ostr in *. rewrite <- H. exact E. Qed.
Lemma alike_bare : forall s s', slot_alike s s' -> bare s -> bare s'.
Proof. intros s s' (_ & H1 & H2 & H3 & H4) (B1 & B2 & B3 & B4). unfold bare. rewrite H1, H2, H3, H4. auto. Qed.
Lemma alike_setup : forall s s', slot_alike s s' -> visible_in_setup s -> visible_in_setup s'.
Proof.
  intros s s' H [V1 V2]. apply slot_sym in H. split; intros K; [apply V1; eapply alike_transparent; eauto | apply V2; eapply alike_bare; eauto].
Qed.

(** ** Timelines *)
Lemma alike_key : forall k k' n, key_alike k k' -> keyframe_shows k n -> keyframe_shows k' n.
Proof. intros k k' n [H _] [E N]. split; [unfold ostr in *; rewrite H; exact E | exact N]. Qed.
Lemma alike_shows : forall t t' n, timeline_alike t t' -> timeline_shows t n -> timeline_shows t' n.
Proof.
  intros t t' n (F & _) (k & Hk & K). destruct (Forall2_in_l _ _ _ _ _ _ F Hk) as (k' & Hk' & A). exists k'. split; [exact Hk' | eapply alike_key; eauto].
Qed.
Lemma alike_colored : forall t t', timeline_alike t t' -> colored t -> colored t'.
Proof. intros t t' (_ & H1 & H2) [C | C]; [left | right]; tauto. Qed.
Lemma alike_empty : forall t t', timeline_alike t t' -> empty_timeline t -> empty_timeline t'.
Proof.
  intros t t' H [C E]. split; [intros K; apply C; eapply alike_colored; [apply timeline_sym; exact H | exact K] | ]. destruct H as (F & _). destruct E as [E | (k & E & N & T)]; rewrite E in F.
  - inversion F; subst. left. reflexivity.
  - inversion F as [ | ? k' ? l' A F']; subst. inversion F'; subst. right. exists k'. split; [reflexivity | ]. split.
    + intros n K. apply (N n). eapply alike_key; [apply key_sym; exact A | exact K].
    + rewrite (proj2 A). exact T.
Qed.
Lemma alike_hides : forall s s' t t', slot_alike s s' -> timeline_alike t t' -> timeline_hides s t -> timeline_hides s' t'.
Proof.
  intros s s' t t' S T [H | [[H C] | [H C]]].
  - left. eapply alike_empty; eauto.
  - right. left. split; [eapply alike_transparent; eauto | ]. intros K. apply C. eapply alike_colored; [apply timeline_sym; exact T | exact K].
  - right. right. split; [eapply alike_bare; eauto | ]. intros n K. apply (C n). eapply alike_shows; [apply timeline_sym; exact T | exact K].
Qed.

(** ** Animations *)
Lemma alike_timeline : forall a a' s s' t, anim_alike a a' -> slot_alike s s' -> timeline a s t -> exists t', timeline a' s' t' /\ timeline_alike t t'.
Proof.
  intros a a' s s' t [F _] S T. destruct (Forall2_in_l _ _ _ _ _ _ F T) as ([n t'] & Ht & E & A). cbn [fst snd] in E, A. subst n. exists t'. split; [ | exact A].
  unfold timeline. rewrite (alike_name _ _ S). exact Ht.
Qed.
Lemma alike_visible : forall a a' s s', anim_alike a a' -> slot_alike s s' -> visible_in a s -> visible_in a' s'.
Proof.
  intros a a' s s' A S [(t & T & N) | [N V]].
  - left. destruct (alike_timeline _ _ _ _ _ A S T) as (t' & T' & K). exists t'. split; [exact T' | ]. intros Hd. apply N. eapply alike_hides; [apply slot_sym; exact S | apply timeline_sym; exact K | exact Hd].
  - right. split; [ | eapply alike_setup; eauto]. intros (t' & T'). apply N. destruct (alike_timeline _ _ _ _ _ (anim_sym _ _ A) (slot_sym _ _ S) T') as (t & T & _). exists t. exact T.
Qed.
Lemma alike_shown : forall a a' s s' n, anim_alike a a' -> slot_alike s s' -> shown_in a s n -> shown_in a' s' n.
Proof.
  intros a a' s s' n A S [V E]. split; [eapply alike_visible; eauto | ]. destruct E as [E | (t & T & K)].
  - left. unfold ostr in *. destruct S as (_ & Sa & _). rewrite Sa. exact E.
  - right. destruct (alike_timeline _ _ _ _ _ A S T) as (t' & T' & K'). exists t'. split; [exact T' | eapply alike_shows; eauto].
Qed.
Lemma alike_animation : forall d d' a, alike d d' -> in_animations d a -> exists a', in_animations d' a' /\ anim_alike a a'.
Proof.
  intros d d' a K (i & H). destruct (Forall2_in_l _ _ _ _ _ _ (ak_anims _ _ K) H) as ([j a'] & Ha & _ & A). cbn [snd] in A. exists a'. split; [exists j; exact Ha | exact A].
Qed.
Lemma alike_slot : forall d d' s, alike d d' -> In s (d_slots d) -> exists s', In s' (d_slots d') /\ slot_alike s s'.
Proof. intros d d' s K H. exact (Forall2_in_l _ _ _ _ _ _ (ak_slots _ _ K) H). Qed.

(** ** Documents *)
Lemma alike_used_slot : forall d d' s s', alike d d' -> slot_alike s s' -> used_slot d s -> used_slot d' s'.
Proof. intros d d' s s' K S (a & A & V). destruct (alike_animation _ _ _ K A) as (a' & A' & Aa). exists a'. split; [exact A' | eapply alike_visible; eauto]. Qed.
Lemma alike_used : forall d d' n, alike d d' -> used_attachment d n -> used_attachment d' n.
Proof.
  intros d d' n K (a & s & A & S & V). destruct (alike_animation _ _ _ K A) as (a' & A' & Aa). destruct (alike_slot _ _ _ K S) as (s' & S' & Sa).
  exists a', s'. split; [exact A' | ]. split; [exact S' | eapply alike_shown; eauto].
Qed.
Lemma alike_goes : forall d d' k, alike d d' -> goes d k -> goes d' k.
Proof.
  intros d d' k K (U & sl & o & A & M). split; [intros C; apply U; eapply alike_used; [apply alike_sym; exact K | exact C] | ].
  destruct (ak_skins _ _ K _ _ _ A) as (o' & A' & C). exists sl, o'. split; [exact A' | ]. intros E. rewrite C in E. destruct (M E) as (s & S & N & V).
  destruct (alike_slot _ _ _ K S) as (s' & S' & Sa). exists s'. split; [exact S' | ]. split; [rewrite (alike_name _ _ Sa); exact N | ].
  intros X. apply V. eapply alike_used_slot; [apply alike_sym; exact K | apply slot_sym; exact Sa | exact X].
Qed.
Lemma alike_slot_goes : forall d d' s s', alike d d' -> slot_alike s s' -> slot_goes d s -> slot_goes d' s'.
Proof.
  intros d d' s s' K S [U | G].
  - left. intros X. apply U. eapply alike_used_slot; [apply alike_sym; exact K | apply slot_sym; exact S | exact X].
  - right. intros k o' A. rewrite (alike_name _ _ S) in A. destruct (ak_back _ _ K _ _ _ A) as (o & B & _). eapply alike_goes; [exact K | eapply G; exact B].
Qed.
Lemma alike_names : forall d d', alike d d' -> map slot_name (d_slots d') = map slot_name (d_slots d).
Proof. intros d d' K. pose proof (ak_slots _ _ K) as F. induction F as [ | s s' l l' S F IH]; [reflexivity | ]. cbn [map]. rewrite IH, (alike_name _ _ S). reflexivity. Qed.
Lemma alike_analysable : forall d d', alike d d' -> analysable d -> analysable d'.
Proof.
  intros d d' K [R A]. split.
  - intros s' S'. destruct (alike_slot _ _ _ (alike_sym _ _ K) S') as (s & S & Sa). eapply alike_readable; [apply slot_sym; exact Sa | exact (R s S)].
  - intros a' Ha'. destruct (alike_animation _ _ _ (alike_sym _ _ K) Ha') as (a & Ha & Aa). destruct (A a Ha) as [A1 A2]. split.
    + intros n t' Ht. destruct Aa as [Aa _]. destruct (Forall2_in_l _ _ _ _ _ _ Aa Ht) as ([n' t] & Ht' & E & _). cbn [fst] in E. subst n'. destruct (A1 _ _ Ht') as [N (s & S & E)].
      split; [exact N | ]. destruct (alike_slot _ _ _ K S) as (s' & S' & Sa). exists s'. split; [exact S' | ]. rewrite (alike_name _ _ Sa). exact E.
    + destruct A2 as [(s & S & V) | N].
      * left. destruct (alike_slot _ _ _ K S) as (s' & S' & Sa). exists s'. split; [exact S' | eapply alike_setup; eauto].
      * right. intros E. destruct Aa as [Aa _]. rewrite E in Aa. inversion Aa. congruence.
Qed.

(** ** Draw orders *)
Lemma Forall2_split_at : forall A B (R : A -> B -> Prop) a x b l', Forall2 R (a ++ x :: b)%list l' -> exists a' x' b', l' = (a' ++ x' :: b')%list /\ R x x' /\ Forall2 R b b'.
Proof.
  intros A B R a. induction a as [ | y a IH]; intros x b l' F; cbn [app] in F; inversion F as [ | ? z ? m Hz Hm]; subst.
  - exists [], z, m. auto.
  - destruct (IH _ _ _ Hm) as (a' & x' & b' & -> & K). exists (z :: a')%list, x', b'. auto.
Qed.
Lemma alike_not_by_int : forall names l l', Forall2 offset_alike l l' -> not_by_int names l -> not_by_int names l'.
Proof.
  intros names l l' F (s & o & Hs & (a & b & -> & E & L) & N). destruct (Forall2_split_at _ _ _ _ _ _ _ F) as (a' & o' & b' & -> & [O1 O2] & Fb).
  exists s, o'. split; [exact Hs | ]. split; [ | intros z; rewrite O2; apply N]. exists a', b'. split; [reflexivity | ]. split; [rewrite O1; exact E | ].
  intros x' Hx. destruct (Forall2_in_r _ _ _ _ _ _ Fb Hx) as (x & Hx' & X1 & _). rewrite X1. exact (L x Hx').
Qed.
Lemma alike_of_no_slot : forall r names l l', Forall2 offset_alike l l' -> of_no_slot r names l -> of_no_slot r names l'.
Proof.
  intros r names l l' F (o & Ho & N). destruct (Forall2_in_l _ _ _ _ _ _ F Ho) as (o' & Ho' & O1 & _). exists o'. split; [exact Ho' | ]. intros s E. apply N. rewrite <- O1. exact E.
Qed.
Lemma alike_sound_key : forall names k k', order_alike k k' -> sound_key names k -> sound_key names k'.
Proof.
  intros names k k' F [N1 N2]. apply order_sym in F. split; intros K; [apply N1; eapply alike_not_by_int; eauto | apply N2; eapply alike_of_no_slot; eauto].
Qed.
Lemma alike_key_in : forall d d' k', alike d d' -> In k' (draw_keys d') -> exists k, In k (draw_keys d) /\ order_alike k k'.
Proof.
  intros d d' k' K H. apply in_flat_map in H as ([i a'] & Ha & Hk). cbn [snd] in Hk. destruct (Forall2_in_r _ _ _ _ _ _ (ak_anims _ _ K) Ha) as ([j a] & Hj & _ & [_ F]). cbn [snd] in F.
  destruct (Forall2_in_r _ _ _ _ _ _ F Hk) as (k & Hk' & O). exists k. split; [ | exact O]. apply in_flat_map. exists (j, a). auto.
Qed.
Definition sound_orders (d : anim_data) : Prop := forall k, In k (draw_keys d) -> sound_key (map slot_name (d_slots d)) k.
Lemma alike_sound : forall d d', alike d d' -> sound_orders d -> sound_orders d'.
Proof.
  intros d d' K S k' Hk. destruct (alike_key_in _ _ _ K Hk) as (k & Hk' & O). rewrite (alike_names _ _ K). eapply alike_sound_key; [exact O | exact (S k Hk')].
Qed.
