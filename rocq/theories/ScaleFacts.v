(** Proofs about the custom scale of slots. *)
From Verif Require Import PyBase PyNum Json Version Tags Classes SpineGraph DrawOrder AnimData
  PyFacts SpecTags TagFacts SpecAnim SkinFacts.
From Coq Require Import SpecFloat.
Open Scope string_scope.

Lemma tag_scale_spec : forall n f, tag_scale n f <-> scale_in_name n = Ok f.
Proof.
  intros n f. unfold tag_scale, scale_in_name. split.
  - intros [-> | [-> ->]]; reflexivity.
  - intros H. apply bind_ok in H as (tags & H & E). injection E as <-. rewrite H.
    destruct tags as [ | [k g] tags]; [right; auto | left].
    destruct (get_tags_only_scale _ _ _ _ H (or_introl eq_refl)) as [-> E]. rewrite E. reflexivity.
Qed.
Lemma tag_scale_fun : forall n f f', tag_scale n f -> tag_scale n f' -> f = f'.
Proof. intros n f f' H H'. apply tag_scale_spec in H, H'. congruence. Qed.

Lemma first_named_find : forall A (name : A -> string) n l x,
  first_named name n l x <-> find (fun b => String.eqb (name b) n) l = Some x.
Proof.
  intros. rewrite find_split. unfold first_named. split.
  - intros (l1 & l2 & H & E & N). exists l1, l2. split; auto. split; [apply seqb_eq; auto | ].
    intros y Hy. apply seqb_neq. auto.
  - intros (l1 & l2 & H & E & N). exists l1, l2. split; auto. split; [apply seqb_eq; auto | ].
    intros y Hy. apply seqb_neq. auto.
Qed.
Lemma first_named_fun : forall A (name : A -> string) n l x y,
  first_named name n l x -> first_named name n l y -> x = y.
Proof. intros A name n l x y H H'. apply first_named_find in H, H'. congruence. Qed.
Lemma first_named_in : forall A (name : A -> string) n l x, first_named name n l x -> In x l /\ name x = n.
Proof. intros A name n l x (l1 & l2 & -> & H & _). split; auto. apply in_or_app. right. left. auto. Qed.

Section Bones.
  Variable d : anim_data.

  Lemma get_bone_spec : forall n b, get_bone d (Some n) = Some b <-> first_named bone_name n (d_bones d) b.
  Proof. intros. rewrite first_named_find. reflexivity. Qed.

  Lemma lineage_fun : forall b l, lineage d b l -> forall l', lineage d b l' -> l = l'.
  Proof.
    induction 1 as [b Hb | b p b' l Hb Hp Hf H IH]; intros l' H'; inversion H'; subst; auto; try contradiction.
    assert (p0 = p) as -> by congruence. rewrite (first_named_fun _ _ _ _ _ _ H2 Hf) in H3.
    f_equal. apply IH. auto.
  Qed.
  Lemma lineage_suffix : forall b l, lineage d b l -> forall l1 x l2, l = (l1 ++ x :: l2)%list -> lineage d x (x :: l2).
  Proof.
    induction 1 as [b Hb | b p b' l Hb Hp Hf H IH]; intros l1 x l2 E.
    - destruct l1; discriminate.
    - destruct l1 as [ | y l1]; cbn [app] in E; injection E as -> ->.
      + econstructor; eauto.
      + eapply IH. reflexivity.
  Qed.
  (** Bones met on the way are found by their own name. *)
  Lemma lineage_named : forall b l, lineage d b l -> forall x, In x (tl l) ->
    first_named bone_name (bone_name x) (d_bones d) x.
  Proof.
    induction 1 as [b Hb | b p b' l Hb Hp Hf H IH]; intros x Hx; cbn [tl] in Hx; [contradiction | ].
    inversion H; subst; [contradiction | ]. cbn [tl] in IH. destruct Hx as [<- | Hx]; auto.
    destruct (first_named_in _ _ _ _ _ Hf) as [_ E]. rewrite E. auto.
  Qed.
  Lemma lineage_NoDup : forall b l, lineage d b l -> NoDup (map bone_name (tl l)).
  Proof.
    intros b l H. remember (tl l) as t eqn:Et.
    assert (S : forall l1 x l2, t = (l1 ++ x :: l2)%list -> lineage d x (x :: l2)).
    { intros l1 x l2 E. destruct l as [ | y l]; cbn [tl] in Et; subst t; [destruct l1; discriminate | ].
      apply (lineage_suffix _ _ H (y :: l1)). cbn [app]. rewrite E. auto. }
    assert (Nm : forall x, In x t -> first_named bone_name (bone_name x) (d_bones d) x).
    { subst t. apply (lineage_named _ _ H). }
    clear Et H. induction t as [ | x t IH]; cbn [map]; constructor.
    - intros C. apply in_map_iff in C as (y & E & Hy).
      assert (y = x) as ->.
      { pose proof (Nm y (or_intror Hy)) as F1. pose proof (Nm x (or_introl eq_refl)) as F2.
        rewrite E in F1. eapply first_named_fun; eauto. }
      apply in_split in Hy as (t1 & t2 & ->).
      pose proof (S [] x _ eq_refl) as L1. pose proof (S (x :: t1) x t2 eq_refl) as L2.
      pose proof (lineage_fun _ _ L1 _ L2) as E2. injection E2 as E2.
      apply (f_equal (@length obj)) in E2. rewrite app_length in E2. cbn [length] in E2. lia.
    - apply IH.
      + intros l1 y l2 E. apply (S (x :: l1)). cbn [app]. rewrite E. auto.
      + intros y Hy. apply Nm. right. auto.
  Qed.
  Lemma lineage_short : forall b l, lineage d b l -> length l <= S (length (d_bones d)).
  Proof.
    intros b l H. pose proof (lineage_NoDup _ _ H) as N.
    assert (L : length (map bone_name (tl l)) <= length (map bone_name (d_bones d))).
    { apply NoDup_incl_length; auto. intros n Hn. apply in_map_iff in Hn as (x & <- & Hx).
      apply in_map. apply (first_named_in _ _ _ _ _ (lineage_named _ _ H x Hx)). }
    rewrite !map_length in L. destruct l; cbn [tl length] in *; lia.
  Qed.

  Lemma loop_ok : forall fuel acc b f, bone_scale_loop fuel d acc (Some b) = Ok f ->
    exists l fs, lineage d b l /\ Forall2 (fun b f => tag_scale (bone_name b) f) l fs /\ f = fold_left fmul fs acc.
  Proof.
    induction fuel as [ | fuel IH]; intros acc b f H; cbn [bone_scale_loop] in H;
      (eqb_cases (bone_name b) "root"; [injection H as <-; exists [], []; repeat split; auto; constructor; auto | ]).
    - discriminate.
    - apply bind_ok in H as (g & Hg & H). destruct (ostr b "parent") as [p | ] eqn:Ep.
      + destruct (get_bone d (Some p)) as [b' | ] eqn:Eb.
        * destruct (IH _ _ _ H) as (l & fs & A & B & C). exists (b :: l), (g :: fs). split; [ | split; auto].
          -- econstructor; eauto. apply get_bone_spec. auto.
          -- constructor; auto. apply tag_scale_spec. auto.
        * destruct fuel; discriminate.
      + destruct fuel; discriminate.
  Qed.
  Lemma loop_lineage : forall b l, lineage d b l -> forall fs acc fuel,
    Forall2 (fun b f => tag_scale (bone_name b) f) l fs -> length l <= fuel ->
    bone_scale_loop fuel d acc (Some b) = Ok (fold_left fmul fs acc).
  Proof.
    induction 1 as [b Hb | b p b' l Hb Hp Hf H IH]; intros fs acc fuel Hfs Hl; inversion Hfs; subst.
    - destruct fuel; cbn [bone_scale_loop]; rewrite Hb; reflexivity.
    - destruct fuel as [ | fuel]; cbn [length] in Hl; [lia | ]. cbn [bone_scale_loop].
      apply seqb_neq in Hb. rewrite Hb. apply tag_scale_spec in H2. rewrite H2. cbn [bind fold_left].
      rewrite Hp. apply get_bone_spec in Hf. rewrite Hf. apply IH; auto. lia.
  Qed.

  Theorem slot_scale : forall s f, get_slot_custom_scale d (Some s) = Ok f <-> slot_scale_is d s f.
  Proof.
    intros s f. unfold get_slot_custom_scale, get_bone_custom_scale_recursive, slot_scale_is. split.
    - intros H. apply bind_ok in H as (f0 & H0 & H). apply bind_ok in H as (fb & Hb & H). injection H as <-.
      destruct (ostr s "bone") as [i | ]; [ | discriminate].
      destruct (get_bone d (Some i)) as [b | ] eqn:Eb; [ | discriminate].
      destruct (loop_ok _ _ _ _ Hb) as (l & fs & A & B & ->).
      exists i, b, l, fs, f0. split; [auto | split; [apply get_bone_spec; auto | split; [auto | split; [auto | split; [apply tag_scale_spec; auto | auto]]]]].
    - intros (i & b & l & fs & f0 & Hi & Hb & Hl & Hfs & H0 & ->). rewrite Hi.
      apply get_bone_spec in Hb. rewrite Hb. apply tag_scale_spec in H0. rewrite H0. cbn [bind].
      rewrite (loop_lineage _ _ Hl fs) by (auto; apply (lineage_short _ _ Hl)). reflexivity.
  Qed.

  (** *** Divergence *)
  Lemma climb_inv : forall n b x, climb d n b x ->
    bone_name b <> "root" /\
    match n with
    | 0 => x = b
    | S m => exists p b', ostr b "parent" = Some p /\ first_named bone_name p (d_bones d) b' /\ climb d m b' x
    end.
  Proof. destruct 1; eauto 6. Qed.
  Lemma climb_add : forall i b x, climb d i b x -> forall j y, climb d j x y -> climb d (i + j) b y.
  Proof.
    induction 1 as [b Hb | n b p b' x Hb Hp Hf H IH]; intros j y Hj; auto.
    cbn [plus]. econstructor; eauto.
  Qed.
  Lemma climb_prefix : forall n b x, climb d n b x -> forall m, m <= n -> exists z, climb d m b z.
  Proof.
    induction 1 as [b Hb | n b p b' x Hb Hp Hf H IH]; intros m Hm.
    - assert (m = 0) as -> by lia. exists b. constructor; auto.
    - destruct m as [ | m]; [exists b; constructor; auto | ].
      destruct (IH m) as [z Hz]; [lia | ]. exists z. econstructor; eauto.
  Qed.
  Lemma climb_start : forall n b x, climb d n b x -> bone_name b <> "root".
  Proof. destruct 1; auto. Qed.
  Lemma endless_climb : forall b, endless d b -> forall n, exists x, climb d n b x.
  Proof.
    intros b (i & k & x & Hi & Hx) n.
    assert (L : forall m, climb d (m * S k) x x).
    { induction m as [ | m IH]; [constructor; eapply climb_start; eauto | ].
      change (S m * S k) with (S k + m * S k). eapply climb_add; eauto. }
    apply (climb_prefix _ _ _ (climb_add _ _ _ Hi _ _ (L n))). nia.
  Qed.

  Definition tags_ok (b : obj) : Prop := forall i x, climb d i b x -> exists f, tag_scale (bone_name x) f.

  Lemma loop_climb : forall fuel acc b x, climb d fuel b x -> tags_ok b ->
    bone_scale_loop fuel d acc (Some b) = Err EDiverges.
  Proof.
    induction fuel as [ | fuel IH]; intros acc b x H T; destruct (climb_inv _ _ _ H) as [H1 H0]; cbn [bone_scale_loop].
    - apply seqb_neq in H1. rewrite H1. auto.
    - destruct H0 as (p & b' & H2 & H3 & H4).
      destruct (T 0 b) as [f Hf]; [constructor; auto | ]. apply tag_scale_spec in Hf.
      pose proof H1 as H1'. apply seqb_neq in H1. rewrite H1, Hf. cbn [bind]. rewrite H2.
      pose proof H3 as H3'. apply get_bone_spec in H3. rewrite H3. apply (IH _ _ x); auto.
      intros i y Hy. apply (T (S i)). econstructor; eauto.
  Qed.

  (** The names met while climbing. *)
  Inductive trail : list obj -> obj -> obj -> Prop :=
  | trail_0 : forall b, bone_name b <> "root" -> trail [] b b
  | trail_S : forall l b p b' x,
      bone_name b <> "root" -> ostr b "parent" = Some p ->
      first_named bone_name p (d_bones d) b' -> trail l b' x -> trail (b' :: l) b x.
  Lemma trail_climb : forall l b x, trail l b x -> climb d (length l) b x.
  Proof. induction 1; cbn [length]; econstructor; eauto. Qed.
  Lemma climb_trail : forall n b x, climb d n b x -> exists l, length l = n /\ trail l b x.
  Proof.
    induction 1 as [b Hb | n b p b' x Hb Hp Hf H (l & IH1 & IH2)].
    - exists []. split; auto. constructor; auto.
    - exists (b' :: l). cbn [length]. split; auto. econstructor; eauto.
  Qed.
  Lemma trail_app : forall l1 y l2 b x, trail (l1 ++ y :: l2) b x -> trail (l1 ++ [y]) b y /\ trail l2 y x.
  Proof.
    induction l1 as [ | z l1 IH]; cbn [app]; intros y l2 b x H; inversion H; subst.
    - split; auto. econstructor; eauto. constructor. apply trail_climb in H7. eapply climb_start; eauto.
    - destruct (IH _ _ _ _ H7) as [A B]. split; auto. econstructor; eauto.
  Qed.
  Lemma trail_named : forall l b x, trail l b x -> forall y, In y l -> first_named bone_name (bone_name y) (d_bones d) y.
  Proof.
    induction 1 as [b Hb | l b p b' x Hb Hp Hf H IH]; intros y Hy; [contradiction | ].
    destruct Hy as [<- | Hy]; auto. destruct (first_named_in _ _ _ _ _ Hf) as [_ E]. rewrite E. auto.
  Qed.

  Lemma dup_split : forall l : list string, ~ NoDup l -> exists x l1 l2 l3, l = (l1 ++ x :: l2 ++ x :: l3)%list.
  Proof.
    induction l as [ | a l IH]; intros H; [exfalso; apply H; constructor | ].
    destruct (in_dec string_dec a l) as [Hi | Hi].
    - apply in_split in Hi as (l2 & l3 & ->). exists a, [], l2, l3. auto.
    - destruct IH as (x & l1 & l2 & l3 & ->).
      + intros N. apply H. constructor; auto.
      + exists x, (a :: l1), l2, l3. auto.
  Qed.
  Lemma map_split2 : forall (l : list obj) x l1 l2 l3, map bone_name l = (l1 ++ x :: l2 ++ x :: l3)%list ->
    exists k1 y k2 z k3, l = (k1 ++ y :: k2 ++ z :: k3)%list /\ bone_name y = x /\ bone_name z = x.
  Proof.
    intros l x l1 l2 l3 H. apply map_eq_app in H as (k1 & k & -> & _ & H).
    apply map_eq_cons in H as (y & k' & -> & Hy & H). apply map_eq_app in H as (k2 & k4 & -> & _ & H).
    apply map_eq_cons in H as (z & k3 & -> & Hz & _). exists k1, y, k2, z, k3. auto.
  Qed.

  Lemma climb_endless : forall n b x, climb d n b x -> length (d_bones d) < n -> endless d b.
  Proof.
    intros n b x H L. destruct (climb_trail _ _ _ H) as (l & Hl & T).
    assert (N : ~ NoDup (map bone_name l)).
    { intros N. assert (I : length (map bone_name l) <= length (map bone_name (d_bones d))).
      { apply NoDup_incl_length; auto. intros m Hm. apply in_map_iff in Hm as (y & <- & Hy).
        apply in_map. apply (first_named_in _ _ _ _ _ (trail_named _ _ _ T y Hy)). }
      rewrite !map_length in I. lia. }
    apply dup_split in N as (m & l1 & l2 & l3 & E).
    apply map_split2 in E as (k1 & y & k2 & z & k3 & -> & Hy & Hz).
    assert (z = y) as ->.
    { pose proof (trail_named _ _ _ T y) as F1. pose proof (trail_named _ _ _ T z) as F2.
      rewrite Hy in F1. rewrite Hz in F2. eapply first_named_fun; [apply F2 | apply F1].
      - apply in_or_app. right. right. apply in_or_app. right. left. auto.
      - apply in_or_app. right. left. auto. }
    destruct (trail_app _ _ _ _ _ T) as [T1 T2]. destruct (trail_app _ _ _ _ _ T2) as [T3 _].
    exists (length (k1 ++ [y])), (length k2), y. split; [apply trail_climb; auto | ].
    apply trail_climb in T3. rewrite app_length in T3. cbn [length] in T3.
    replace (length k2 + 1) with (S (length k2)) in T3 by lia. auto.
  Qed.

  Lemma loop_diverges : forall fuel acc b, bone_scale_loop fuel d acc (Some b) = Err EDiverges ->
    exists x, climb d fuel b x /\ forall i y, i < fuel -> climb d i b y -> exists f, tag_scale (bone_name y) f.
  Proof.
    induction fuel as [ | fuel IH]; intros acc b H; cbn [bone_scale_loop] in H;
      (eqb_cases (bone_name b) "root"; [discriminate | ]).
    - exists b. split; [constructor; auto | ]. intros; lia.
    - destruct (scale_in_name (bone_name b)) as [g | e] eqn:Hg; cbn [bind] in H.
      + destruct (ostr b "parent") as [p | ] eqn:Ep; [ | destruct fuel; discriminate].
        destruct (get_bone d (Some p)) as [b' | ] eqn:Eb; [ | destruct fuel; discriminate].
        destruct (IH _ _ H) as (x & A & B). apply get_bone_spec in Eb. exists x. split; [econstructor; eauto | ].
        intros [ | i] y Hi Hy.
        * apply climb_inv in Hy as [_ ->]. exists g. apply tag_scale_spec. auto.
        * apply climb_inv in Hy as (_ & p0 & b2 & H2 & H3 & H4). assert (p0 = p) as -> by congruence.
          rewrite (first_named_fun _ _ _ _ _ _ H3 Eb) in H4. apply (B i); auto. lia.
      + exfalso. unfold scale_in_name in Hg.
        destruct (get_tags_from_name (bone_name b)) as [ts | e'] eqn:G; cbn [bind] in Hg; [discriminate | ].
        pose proof (get_tags_cases _ _ (find_tags_spec (bone_name b))) as C. rewrite G in C. injection Hg as ->. injection H as ->.
        destruct (find_tags (bone_name b)) as [ | t [ | t2 ts]].
        * discriminate.
        * destruct C as [(f & _ & _ & C) | (_ & w & C)]; discriminate.
        * destruct C as (w & C). discriminate.
  Qed.

  (** A climb can be shortened to one of less than |bones| + 2 steps. *)
  Lemma climb_shorten : forall n b x, climb d n b x -> exists m, m <= length (d_bones d) /\ climb d m b x.
  Proof.
    induction n as [n IHn] using (well_founded_induction lt_wf). intros b x H.
    destruct (le_lt_dec n (length (d_bones d))) as [L | L]; [exists n; auto | ].
    destruct (climb_trail _ _ _ H) as (l & Hl & T).
    assert (N : ~ NoDup (map bone_name l)).
    { intros N. assert (I : length (map bone_name l) <= length (map bone_name (d_bones d))).
      { apply NoDup_incl_length; auto. intros m Hm. apply in_map_iff in Hm as (y & <- & Hy).
        apply in_map. apply (first_named_in _ _ _ _ _ (trail_named _ _ _ T y Hy)). }
      rewrite !map_length in I. lia. }
    apply dup_split in N as (m & l1 & l2 & l3 & E).
    apply map_split2 in E as (k1 & y & k2 & z & k3 & -> & Hy & Hz).
    assert (z = y) as ->.
    { pose proof (trail_named _ _ _ T y) as F1. pose proof (trail_named _ _ _ T z) as F2.
      rewrite Hy in F1. rewrite Hz in F2. eapply first_named_fun; [apply F2 | apply F1].
      - apply in_or_app. right. right. apply in_or_app. right. left. auto.
      - apply in_or_app. right. left. auto. }
    destruct (trail_app _ _ _ _ _ T) as [T1 T2]. destruct (trail_app _ _ _ _ _ T2) as [_ T3].
    assert (C : climb d (length (k1 ++ [y]) + length k3) b x)
      by (eapply climb_add; apply trail_climb; eauto).
    apply (IHn _) in C; auto. rewrite <- Hl, !app_length. cbn [length]. rewrite app_length. cbn [length]. lia.
  Qed.

  (** Fuel is no restriction: out of fuel means that the loop never ends. *)
  Theorem loop_endless : forall b, get_bone_custom_scale_recursive d (Some b) = Err EDiverges <->
    endless d b /\ tags_ok b.
  Proof.
    intros b. unfold get_bone_custom_scale_recursive. split.
    - intros H. destruct (loop_diverges _ _ _ H) as (x & A & B).
      split; [apply (climb_endless _ _ _ A); lia | ].
      intros i y Hy. destruct (climb_shorten _ _ _ Hy) as (m & Lm & Hm). apply (B m); auto. lia.
    - intros [E T]. destruct (endless_climb _ E (S (length (d_bones d)))) as [x Hx].
      eapply loop_climb; eauto.
  Qed.
  Theorem endless_forever : forall b, endless d b -> tags_ok b ->
    forall fuel acc, bone_scale_loop fuel d acc (Some b) = Err EDiverges.
  Proof.
    intros b E T fuel acc. destruct (endless_climb _ E fuel) as [x Hx]. eapply loop_climb; eauto.
  Qed.
End Bones.
