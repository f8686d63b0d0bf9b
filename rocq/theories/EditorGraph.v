(** The graph during a clean-up: every removal step computed exactly. *)
From Verif Require Import PyBase PyFacts Json Graph SpecGraph GraphFacts GraphApi GraphRemove IdFacts SpineGraph SpecSpine SpineFacts BuildFacts BuildTotal SpineRemove.
Open Scope string_scope.

(** ** The invariant of the editor's graph *)
Record gview (g : sgraph) : Prop := {
  gv_good : good g;
  gv_slot_down : forall s c, edge g (slot_id s) c -> exists k, c = att_id k;
  gv_att_down : forall k c, edge g (att_id k) c -> exists i, c = img_id i;
  gv_att_up : forall p k, edge g p (att_id k) -> exists s, p = slot_id s;
  gv_img_up : forall p i, edge g p (img_id i) -> exists k, p = att_id k;
  gv_att : forall k, has g T_ATTACHMENT k -> exists s, edge g (slot_id s) (att_id k);
  gv_img : forall i, has g T_IMAGE i -> exists k, edge g (att_id k) (img_id i);
  gv_att_img : forall k, has g T_ATTACHMENT k -> exists i, edge g (att_id k) (img_id i) }.

Lemma id_inj : forall t t' s s', In t five -> In t' five -> graph_id t s = graph_id t' s' -> t = t' /\ s = s'.
Proof. intros. apply graph_id_inj; auto using five_kinds. Qed.
Lemma slot_inj : forall s s', slot_id s = slot_id s' -> s = s'.
Proof. intros s s' H. apply (id_inj T_SLOT T_SLOT) in H as [_ H]; five; auto. Qed.
Lemma att_inj : forall s s', att_id s = att_id s' -> s = s'.
Proof. intros s s' H. apply (id_inj T_ATTACHMENT T_ATTACHMENT) in H as [_ H]; five; auto. Qed.
Lemma img_inj : forall s s', img_id s = img_id s' -> s = s'.
Proof. intros s s' H. apply (id_inj T_IMAGE T_IMAGE) in H as [_ H]; five; auto. Qed.
Lemma slot_att : forall s k, slot_id s <> att_id k.
Proof. intros s k H. apply (id_inj T_SLOT T_ATTACHMENT) in H as [H _]; five. discriminate. Qed.
Lemma slot_img : forall s k, slot_id s <> img_id k.
Proof. intros s k H. apply (id_inj T_SLOT T_IMAGE) in H as [H _]; five. discriminate. Qed.
Lemma att_img : forall s k, att_id s <> img_id k.
Proof. intros s k H. apply (id_inj T_ATTACHMENT T_IMAGE) in H as [H _]; five. discriminate. Qed.

Lemma in_slots : forall s l, In (slot_id s) (map slot_id l) <-> In s l.
Proof. intros s l. rewrite in_map_iff. split; [intros (x & E & H); apply slot_inj in E; subst; auto | eauto]. Qed.
Lemma in_atts : forall s l, In (att_id s) (map att_id l) <-> In s l.
Proof. intros s l. rewrite in_map_iff. split; [intros (x & E & H); apply att_inj in E; subst; auto | eauto]. Qed.
Lemma in_imgs : forall s l, In (img_id s) (map img_id l) <-> In s l.
Proof. intros s l. rewrite in_map_iff. split; [intros (x & E & H); apply img_inj in E; subst; auto | eauto]. Qed.
Lemma slot_not_att : forall s l, ~ In (slot_id s) (map att_id l).
Proof. intros s l H. apply in_map_iff in H as (x & E & _). symmetry in E. apply slot_att in E. auto. Qed.
Lemma slot_not_img : forall s l, ~ In (slot_id s) (map img_id l).
Proof. intros s l H. apply in_map_iff in H as (x & E & _). symmetry in E. apply slot_img in E. auto. Qed.
Lemma att_not_slot : forall s l, ~ In (att_id s) (map slot_id l).
Proof. intros s l H. apply in_map_iff in H as (x & E & _). apply slot_att in E. auto. Qed.
Lemma att_not_img : forall s l, ~ In (att_id s) (map img_id l).
Proof. intros s l H. apply in_map_iff in H as (x & E & _). symmetry in E. apply att_img in E. auto. Qed.
Lemma img_not_slot : forall s l, ~ In (img_id s) (map slot_id l).
Proof. intros s l H. apply in_map_iff in H as (x & E & _). apply slot_img in E. auto. Qed.
Lemma img_not_att : forall s l, ~ In (img_id s) (map att_id l).
Proof. intros s l H. apply in_map_iff in H as (x & E & _). apply att_img in E. auto. Qed.
Ltac noid :=
  match goal with
  | H : In (slot_id _) (map att_id _) |- _ => destruct (slot_not_att _ _ H)
  | H : In (slot_id _) (map img_id _) |- _ => destruct (slot_not_img _ _ H)
  | H : In (att_id _) (map slot_id _) |- _ => destruct (att_not_slot _ _ H)
  | H : In (att_id _) (map img_id _) |- _ => destruct (att_not_img _ _ H)
  | H : In (img_id _) (map slot_id _) |- _ => destruct (img_not_slot _ _ H)
  | H : In (img_id _) (map att_id _) |- _ => destruct (img_not_att _ _ H)
  end.

Lemma edge_has : forall (g : sgraph) p c, good g -> edge g p c -> In p (ids g) /\ In c (ids g).
Proof.
  intros g p c G H. pose proof (good_wf g G) as W. destruct H as (n & Hn & Hc). split.
  - apply has_node_dget, dget_in_keys in Hn. auto.
  - apply (wf_child_in g p c W). apply edge_children. exists n. auto.
Qed.

(** Ids of one type, taken apart. *)
Lemma unmap : forall t (l : list string), (forall i, In i l -> exists s, i = graph_id t s) -> exists l', l = map (graph_id t) l'.
Proof.
  intros t l. induction l as [ | i l IH]; intros H; [exists []; auto | ].
  destruct (H i (or_introl eq_refl)) as [s ->]. destruct IH as [l' ->]; [intros; apply H; right; auto | ]. exists (s :: l'). auto.
Qed.
Lemma NoDup_map' : forall A B (f : A -> B) l, (forall x y, f x = f y -> x = y) -> NoDup l -> NoDup (map f l).
Proof.
  intros A B f l I H. induction H as [ | x l H N IH]; simpl; constructor; auto.
  intros K. apply in_map_iff in K as (y & E & K). apply I in E. subst. auto.
Qed.

Lemma remove_ids : forall t (l : list string) (g : sgraph), good g -> NoDup l -> In t five -> (forall s, In s l -> has g t s) ->
  exists r, mforeach (fun a => g_remove (graph_id t a)) l g = (minus g (map (graph_id t) l), Ok r).
Proof.
  intros t l. induction l as [ | s l IH]; intros g G N Ht H; cbn [mforeach map].
  - exists []. rewrite minus_nil. auto.
  - apply NoDup_cons_iff in N as [N1 N2]. assert (Hs : has g t s) by (apply H; left; auto).
    pose proof Hs as Hs'. apply in_keys_dget in Hs as [n Hn]. pose proof (remove_one g (graph_id t s) (good_wf g G)) as E. rewrite Hn in E.
    destruct (IH (minus g [graph_id t s])) as [r Er]; auto.
    + apply good_minus; [auto | constructor; [intros [] | constructor] | ]. intros i [<- | []]. auto.
    + intros x Hx. apply has_minus. split; [apply H; right; auto | ]. intros [E' | []]. apply id_inj in E' as [_ ->]; auto.
    + unfold mbind. unfold g_remove at 1. rewrite E. rewrite Er. eexists. unfold mret. f_equal. rewrite (minus_app g [graph_id t s]). auto.
Qed.
Lemma remove_slots_run : forall l g, good g -> NoDup l -> (forall s, In s l -> has g T_SLOT s) ->
  exists r, remove_slots l g = (minus g (map slot_id l), Ok r).
Proof.
  intros l g G N H. destruct (remove_ids T_SLOT l g G N) as [r E]; five; auto. exists r. exact E.
Qed.
Lemma remove_attachments_run : forall l g, good g -> NoDup l -> (forall s, In s l -> has g T_ATTACHMENT s) ->
  exists r, remove_attachments l g = (minus g (map att_id l), Ok r).
Proof.
  intros l g G N H. destruct (remove_ids T_ATTACHMENT l g G N) as [r E]; five; auto. exists r. exact E.
Qed.

(** Removal of leafs and heads, with names instead of ids. *)
Lemma leafs_run : forall t g, good g -> In t five -> exists l,
  remove_leafs_of_type t g = (minus g (map (graph_id t) l), Ok (map (fun s => to_base_id t (graph_id t s)) l)) /\ NoDup l /\
  (forall s, In s l <-> only_below g t (graph_id t s)) /\ incl (map (graph_id t) l) (ids g).
Proof.
  intros t g G Ht. destruct (remove_leafs_spec t g (good_wf g G)) as (l & E & N & H).
  destruct (unmap t l) as [l' ->].
  { intros i Hi. apply H, doomed_below in Hi. destruct Hi as [i Hi _]. apply typed_form in Hi as [_ K]; auto. }
  exists l'. split; [rewrite E, map_map; auto | ]. split; [eapply NoDup_map_inv; eauto | ]. split.
  - intros s. rewrite <- doomed_below, <- H, in_map_iff. split; [eauto | ]. intros (x & Ex & Hx). apply id_inj in Ex as [_ ->]; auto.
  - intros i Hi. apply H in Hi. eapply doomed_in; eauto.
Qed.
Lemma heads_run : forall t g, good g -> In t five -> exists l,
  remove_heads_of_type t g = (minus g (map (graph_id t) l), Ok (map (fun s => to_base_id t (graph_id t s)) l)) /\ NoDup l /\
  (forall s, In s l <-> only_above g t (graph_id t s)) /\ incl (map (graph_id t) l) (ids g).
Proof.
  intros t g G Ht. pose proof (good_wf g G) as W. destruct (remove_heads_spec t g W) as (l & E & N & H).
  destruct (unmap t l) as [l' ->].
  { intros i Hi. apply H, doomed_above in Hi; auto. destruct Hi as [i Hi _]. apply typed_form in Hi as [_ K]; auto. }
  exists l'. split; [rewrite E, map_map; auto | ]. split; [eapply NoDup_map_inv; eauto | ]. split.
  - intros s. rewrite <- doomed_above, <- H, in_map_iff by auto. split; [eauto | ]. intros (x & Ex & Hx). apply id_inj in Ex as [_ ->]; auto.
  - intros i Hi. apply H in Hi. eapply doomed_in; eauto.
Qed.

Lemma below_typed : forall g t i, only_below g t i -> typed g t i.
Proof. intros g t i H. inversion H. auto. Qed.
Lemma above_typed : forall g t i, only_above g t i -> typed g t i.
Proof. intros g t i H. inversion H. auto. Qed.

(** ** What a clean-up removes from the graph *)
(** Slots left without attachments; attachments only used by invisible slots; images only
    used by removed attachments. *)
Definition is_leaf (g : sgraph) (inv atts : list string) (s : string) : Prop :=
  has g T_SLOT s /\ ~ In s inv /\ forall k, edge g (slot_id s) (att_id k) -> In k atts.
Definition is_orphan (g : sgraph) (inv atts : list string) (k : string) : Prop :=
  has g T_ATTACHMENT k /\ ~ In k atts /\ forall s, edge g (slot_id s) (att_id k) -> In s inv.
Definition is_unused (g : sgraph) (gone : list string) (i : string) : Prop :=
  has g T_IMAGE i /\ forall k, edge g (att_id k) (img_id i) -> In k gone.

Section Clean.
  Variable g : sgraph.
  Variables inv atts : list string.
  Hypothesis V : gview g.
  Hypothesis Ninv : NoDup inv.
  Hypothesis Natts : NoDup atts.
  Hypothesis Hinv : forall s, In s inv -> has g T_SLOT s.
  Hypothesis Hatts : forall k, In k atts -> has g T_ATTACHMENT k.

  Definition gone1 : list string := (map slot_id inv ++ map att_id atts)%list.
  Let G : good g := gv_good g V.

  Lemma gone1_ok : NoDup gone1 /\ incl gone1 (ids g).
  Proof.
    split.
    - apply NoDup_app_intro; try (apply NoDup_map'; auto using slot_inj, att_inj).
      intros x H1 H2. apply in_map_iff in H1 as (s & <- & _). noid.
    - intros x H. apply in_app_iff in H as [H | H]; apply in_map_iff in H as (s & <- & H).
      + apply Hinv. auto.
      + apply Hatts. auto.
  Qed.
  Lemma good1 : good (minus g gone1).
  Proof. apply good_minus; [exact G | apply gone1_ok | apply gone1_ok]. Qed.
  Lemma in_gone1_slot : forall s, In (slot_id s) gone1 <-> In s inv.
  Proof. intros s. unfold gone1. rewrite in_app_iff, in_slots. split; [ | auto]. intros [H | H]; auto. noid. Qed.
  Lemma in_gone1_att : forall s, In (att_id s) gone1 <-> In s atts.
  Proof. intros s. unfold gone1. rewrite in_app_iff, in_atts. split; [ | auto]. intros [H | H]; auto. noid. Qed.
  Lemma in_gone1_img : forall s, ~ In (img_id s) gone1.
  Proof. intros s. unfold gone1. rewrite in_app_iff. intros [H | H]; noid. Qed.

  Lemma remove_first :
    (exists r, remove_slots inv g = (minus g (map slot_id inv), Ok r)) /\
    exists r, remove_attachments atts (minus g (map slot_id inv)) = (minus g gone1, Ok r).
  Proof.
    split; [apply remove_slots_run; auto | ].
    assert (G0 : good (minus g (map slot_id inv))).
    { apply good_minus; [auto | apply NoDup_map'; auto using slot_inj | ]. intros x H. apply in_map_iff in H as (s & <- & H). apply Hinv. auto. }
    destruct (remove_attachments_run atts (minus g (map slot_id inv))) as [r E]; auto.
    2: { exists r. rewrite E. unfold gone1. rewrite minus_app. auto. }
    - intros k Hk. apply has_minus. split; [auto | ]. apply att_not_slot.
  Qed.

  (** Leaf slots *)
  Lemma remove_leafs : exists leafs,
    remove_leafs_of_type T_SLOT (minus g gone1) =
      (minus g (gone1 ++ map slot_id leafs)%list, Ok (map (fun s => to_base_id T_SLOT (slot_id s)) leafs)) /\
    NoDup leafs /\ forall s, In s leafs <-> is_leaf g inv atts s.
  Proof.
    destruct (leafs_run T_SLOT _ good1) as (l & E & N & H & I); five. exists l. split; [ | split]; auto.
    - rewrite E, minus_app. reflexivity.
    - intros s. rewrite H. split.
      + intros K. inversion K as [i Ht Hc]; subst. apply (typed_has _ T_SLOT s good1) in Ht; five.
        apply has_minus in Ht as [Ht Hn]. change (graph_id T_SLOT s) with (slot_id s) in *. rewrite in_gone1_slot in Hn.
        split; [auto | ]. split; [auto | ]. intros k Hk. destruct (in_dec string_dec k atts) as [ | Nk]; auto. exfalso.
        assert (Hb : only_below (minus g gone1) T_SLOT (att_id k)).
        { apply Hc. apply edge_minus. rewrite in_gone1_slot, in_gone1_att. auto. }
        first [apply below_typed in Hb | apply above_typed in Hb]. apply typed_form in Hb as [_ [x Hx]]; [ | apply good1].
        apply (id_inj T_ATTACHMENT T_SLOT) in Hx as [Hx _]; five. discriminate.
      + intros (Hs & Hn & Hk). constructor.
        * apply typed_has; five; [apply good1 | ]. apply has_minus. rewrite (in_gone1_slot s). auto.
        * intros c Hc. apply edge_minus in Hc as (Hc & _ & Hm). exfalso.
          destruct (gv_slot_down g V s c Hc) as [k ->]. rewrite in_gone1_att in Hm. auto.
  Qed.

  Variable leafs : list string.
  Hypothesis Nleafs : NoDup leafs.
  Hypothesis Hleafs : forall s, In s leafs <-> is_leaf g inv atts s.
  Definition gone2 : list string := (gone1 ++ map slot_id leafs)%list.

  Lemma gone2_ok : NoDup gone2 /\ incl gone2 (ids g).
  Proof.
    split.
    - apply NoDup_app_intro; [apply gone1_ok | apply NoDup_map'; auto using slot_inj | ].
      intros x H1 H2. apply in_map_iff in H2 as (s & <- & H2). rewrite in_gone1_slot in H1. apply Hleafs in H2. destruct H2 as (_ & H2 & _). auto.
    - intros x H. apply in_app_iff in H as [H | H]; [apply gone1_ok; auto | ]. apply in_map_iff in H as (s & <- & H).
      apply Hleafs in H. apply H.
  Qed.
  Lemma good2 : good (minus g gone2).
  Proof. apply good_minus; [exact G | apply gone2_ok | apply gone2_ok]. Qed.
  Lemma in_gone2_slot : forall s, In (slot_id s) gone2 <-> In s inv \/ In s leafs.
  Proof. intros s. unfold gone2. rewrite in_app_iff, in_slots, in_gone1_slot. tauto. Qed.
  Lemma in_gone2_att : forall s, In (att_id s) gone2 <-> In s atts.
  Proof. intros s. unfold gone2. rewrite in_app_iff, in_gone1_att. split; [ | auto]. intros [H | H]; auto. noid. Qed.
  Lemma in_gone2_img : forall s, ~ In (img_id s) gone2.
  Proof. intros s. unfold gone2. rewrite in_app_iff. intros [H | H]; [revert H; apply in_gone1_img | noid]. Qed.

  (** Attachments whose slots are all gone *)
  Lemma remove_orphans : exists orphans,
    remove_heads_of_type T_ATTACHMENT (minus g gone2) =
      (minus g (gone2 ++ map att_id orphans)%list, Ok (map (fun s => to_base_id T_ATTACHMENT (att_id s)) orphans)) /\
    NoDup orphans /\ forall k, In k orphans <-> is_orphan g inv atts k.
  Proof.
    destruct (heads_run T_ATTACHMENT _ good2) as (l & E & N & H & I); five. exists l. split; [ | split]; auto.
    - rewrite E, minus_app. reflexivity.
    - intros k. rewrite H. split.
      + intros K. inversion K as [i Ht Hc]; subst. apply (typed_has _ T_ATTACHMENT k good2) in Ht; five.
        apply has_minus in Ht as [Ht Hn]. change (graph_id T_ATTACHMENT k) with (att_id k) in *. rewrite in_gone2_att in Hn.
        split; [auto | ]. split; [auto | ]. intros s Hs. destruct (in_dec string_dec s inv) as [ | Ns]; auto. exfalso.
        assert (Nl : ~ In s leafs). { intros Hl. apply Hleafs in Hl as (_ & _ & Hl). apply Hn, Hl. auto. }
        assert (Hb : only_above (minus g gone2) T_ATTACHMENT (slot_id s)).
        { apply Hc. apply edge_minus. rewrite in_gone2_slot, in_gone2_att. tauto. }
        first [apply below_typed in Hb | apply above_typed in Hb]. apply typed_form in Hb as [_ [x Hx]]; [ | apply good2].
        apply (id_inj T_SLOT T_ATTACHMENT) in Hx as [Hx _]; five. discriminate.
      + intros (Hk & Hn & Hs). constructor.
        * apply typed_has; five; [apply good2 | ]. apply has_minus. rewrite (in_gone2_att k). auto.
        * intros p Hp. apply edge_minus in Hp as (Hp & Hm & _). exfalso.
          destruct (gv_att_up g V p k Hp) as [s ->]. rewrite in_gone2_slot in Hm. auto.
  Qed.

  Variable orphans : list string.
  Hypothesis Norphans : NoDup orphans.
  Hypothesis Horphans : forall k, In k orphans <-> is_orphan g inv atts k.
  Definition gone3 : list string := (gone2 ++ map att_id orphans)%list.

  Lemma gone3_ok : NoDup gone3 /\ incl gone3 (ids g).
  Proof.
    split.
    - apply NoDup_app_intro; [apply gone2_ok | apply NoDup_map'; auto using att_inj | ].
      intros x H1 H2. apply in_map_iff in H2 as (s & <- & H2). rewrite in_gone2_att in H1. apply Horphans in H2. destruct H2 as (_ & H2 & _). auto.
    - intros x H. apply in_app_iff in H as [H | H]; [apply gone2_ok; auto | ]. apply in_map_iff in H as (s & <- & H).
      apply Horphans in H. apply H.
  Qed.
  Lemma good3 : good (minus g gone3).
  Proof. apply good_minus; [exact G | apply gone3_ok | apply gone3_ok]. Qed.
  Lemma in_gone3_slot : forall s, In (slot_id s) gone3 <-> In s inv \/ In s leafs.
  Proof. intros s. unfold gone3. rewrite in_app_iff, in_gone2_slot. split; [ | auto]. intros [H | H]; auto. noid. Qed.
  Lemma in_gone3_att : forall s, In (att_id s) gone3 <-> In s atts \/ In s orphans.
  Proof. intros s. unfold gone3. rewrite in_app_iff, in_gone2_att, in_atts. tauto. Qed.
  Lemma in_gone3_img : forall s, ~ In (img_id s) gone3.
  Proof. intros s. unfold gone3. rewrite in_app_iff. intros [H | H]; [revert H; apply in_gone2_img | noid]. Qed.

  (** No attachment is without image. *)
  Lemma remove_bare : remove_leafs_of_type T_ATTACHMENT (minus g gone3) = (minus g gone3, Ok []).
  Proof.
    destruct (leafs_run T_ATTACHMENT _ good3) as (l & E & N & H & I); five. destruct l as [ | k l].
    - rewrite E. simpl. rewrite minus_nil. auto.
    - exfalso. assert (K : only_below (minus g gone3) T_ATTACHMENT (att_id k)) by (apply H; left; auto).
      inversion K as [i Ht Hc]; subst. apply (typed_has _ T_ATTACHMENT k good3) in Ht; five. apply has_minus in Ht as [Ht Hn].
      destruct (gv_att_img g V k Ht) as [i Hi]. assert (Hb : only_below (minus g gone3) T_ATTACHMENT (img_id i)).
      { apply Hc. apply edge_minus. split; [auto | ]. split; [auto | ]. apply in_gone3_img. }
      first [apply below_typed in Hb | apply above_typed in Hb]. apply typed_form in Hb as [_ [x Hx]]; [ | apply good3].
      apply (id_inj T_IMAGE T_ATTACHMENT) in Hx as [Hx _]; five. discriminate.
  Qed.

  (** Images *)
  Lemma remove_images : exists imgs,
    remove_heads_of_type T_IMAGE (minus g gone3) =
      (minus g (gone3 ++ map img_id imgs)%list, Ok (map (fun s => to_base_id T_IMAGE (img_id s)) imgs)) /\
    NoDup imgs /\ forall i, In i imgs <-> is_unused g (atts ++ orphans)%list i.
  Proof.
    destruct (heads_run T_IMAGE _ good3) as (l & E & N & H & I); five. exists l. split; [ | split]; auto.
    - rewrite E, minus_app. reflexivity.
    - intros i. rewrite H. split.
      + intros K. inversion K as [j Ht Hc]; subst. apply (typed_has _ T_IMAGE i good3) in Ht; five.
        apply has_minus in Ht as [Ht Hn]. change (graph_id T_IMAGE i) with (img_id i) in *.
        split; [auto | ]. intros k Hk. apply in_app_iff. rewrite <- in_gone3_att.
        destruct (in_dec string_dec (att_id k) gone3) as [ | Nk]; auto. exfalso.
        assert (Hb : only_above (minus g gone3) T_IMAGE (att_id k)) by (apply Hc; apply edge_minus; auto).
        first [apply below_typed in Hb | apply above_typed in Hb]. apply typed_form in Hb as [_ [x Hx]]; [ | apply good3].
        apply (id_inj T_ATTACHMENT T_IMAGE) in Hx as [Hx _]; five. discriminate.
      + intros (Hi & Hk). constructor.
        * apply typed_has; five; [apply good3 | ]. apply has_minus. split; [auto | apply in_gone3_img].
        * intros p Hp. apply edge_minus in Hp as (Hp & Hm & _). exfalso.
          destruct (gv_img_up g V p i Hp) as [k ->]. rewrite in_gone3_att, <- in_app_iff in Hm. auto.
  Qed.

  Variable imgs : list string.
  Hypothesis Nimgs : NoDup imgs.
  Hypothesis Himgs : forall i, In i imgs <-> is_unused g (atts ++ orphans)%list i.
  Definition gone4 : list string := (gone3 ++ map img_id imgs)%list.

  Lemma gone4_ok : NoDup gone4 /\ incl gone4 (ids g).
  Proof.
    split.
    - apply NoDup_app_intro; [apply gone3_ok | apply NoDup_map'; auto using img_inj | ].
      intros x H1 H2. apply in_map_iff in H2 as (s & <- & H2). apply in_gone3_img in H1. auto.
    - intros x H. apply in_app_iff in H as [H | H]; [apply gone3_ok; auto | ]. apply in_map_iff in H as (s & <- & H).
      apply Himgs in H. apply H.
  Qed.
  Lemma good4 : good (minus g gone4).
  Proof. apply good_minus; [exact G | apply gone4_ok | apply gone4_ok]. Qed.
  Lemma in_gone4_slot : forall s, In (slot_id s) gone4 <-> In s inv \/ In s leafs.
  Proof. intros s. unfold gone4. rewrite in_app_iff, in_gone3_slot. split; [ | auto]. intros [H | H]; auto. noid. Qed.
  Lemma in_gone4_att : forall s, In (att_id s) gone4 <-> In s atts \/ In s orphans.
  Proof. intros s. unfold gone4. rewrite in_app_iff, in_gone3_att. split; [ | auto]. intros [H | H]; auto. noid. Qed.
  Lemma in_gone4_img : forall s, In (img_id s) gone4 <-> In s imgs.
  Proof. intros s. unfold gone4. rewrite in_app_iff, in_imgs. split; [ | auto]. intros [H | H]; auto. exfalso. revert H. apply in_gone3_img. Qed.
  Lemma gone4_kind : forall t s, In t five -> In (graph_id t s) gone4 -> In t [T_SLOT; T_ATTACHMENT; T_IMAGE].
  Proof.
    intros t s Ht H. unfold gone4, gone3, gone2, gone1 in H. rewrite !in_app_iff, !in_map_iff in H.
    destruct H as [[[[H | H] | H] | H] | H]; destruct H as (x & E & _);
      [ apply (id_inj T_SLOT t) in E as [E _] | apply (id_inj T_ATTACHMENT t) in E as [E _] | apply (id_inj T_SLOT t) in E as [E _]
      | apply (id_inj T_ATTACHMENT t) in E as [E _] | apply (id_inj T_IMAGE t) in E as [E _]]; five; subst; simpl; tauto.
  Qed.

  Lemma gview4 : gview (minus g gone4).
  Proof.
    constructor.
    - apply good4.
    - intros s c H. apply edge_minus in H as [H _]. eapply gv_slot_down; eauto.
    - intros s c H. apply edge_minus in H as [H _]. eapply gv_att_down; eauto.
    - intros s c H. apply edge_minus in H as [H _]. eapply gv_att_up; eauto.
    - intros s c H. apply edge_minus in H as [H _]. eapply gv_img_up; eauto.
    - intros k H. apply has_minus in H as [H Hn]. change (graph_id T_ATTACHMENT k) with (att_id k) in Hn. pose proof Hn as Hn'.
      rewrite in_gone4_att, Horphans in Hn.
      assert (X : ~ forall s, In (slot_id s) (ids g) -> edge g (slot_id s) (att_id k) -> In s inv).
      { intros X. apply Hn. right. split; [auto | ]. split; [tauto | ]. intros s Hs. apply X; auto. apply (edge_has g _ _ G Hs). }
      assert (Y : exists s, edge g (slot_id s) (att_id k) /\ ~ In s inv).
      { assert (Z : forall l, (forall i, In i l -> edge g i (att_id k)) -> (exists s, edge g (slot_id s) (att_id k) /\ ~ In s inv) \/ forall s, In (slot_id s) l -> In s inv).
        { induction l as [ | i l IH]; intros Hl; [right; intros s [] | ].
          destruct IH as [IH | IH]; [intros; apply Hl; right; auto | left; auto | ].
          destruct (gv_att_up g V i k) as [s ->]; [apply Hl; left; auto | ].
          destruct (in_dec string_dec s inv) as [Hs | Hs].
          - right. intros s' [E | H']; [apply slot_inj in E; subst; auto | auto].
          - left. exists s. split; auto. apply Hl. left. auto. }
        assert (Pe : forall i, edge g i (att_id k) <-> In i (parents_of g (att_id k))).
        { intros i. rewrite edge_children. apply (good_wf g G). }
        destruct (Z (parents_of g (att_id k))) as [Y | Y]; auto.
        - intros i Hi. apply Pe. auto.
        - exfalso. apply X. intros s _ Hs. apply Y, Pe. auto. }
      destruct Y as (s & Hs & Ni). exists s. apply edge_minus. split; [auto | ]. split; [ | auto].
      rewrite in_gone4_slot. intros [K | K]; auto. apply Hleafs in K as (_ & _ & K). apply Hn. left. auto.
    - intros i H. apply has_minus in H as [H Hn]. change (graph_id T_IMAGE i) with (img_id i) in Hn. pose proof Hn as Hn'.
      rewrite in_gone4_img, Himgs in Hn.
      assert (Y : exists k, edge g (att_id k) (img_id i) /\ ~ In k (atts ++ orphans)%list).
      { assert (Z : forall l, (forall j, In j l -> edge g j (img_id i)) -> (exists k, edge g (att_id k) (img_id i) /\ ~ In k (atts ++ orphans)%list) \/ forall k, In (att_id k) l -> In k (atts ++ orphans)%list).
        { induction l as [ | j l IH]; intros Hl; [right; intros s [] | ].
          destruct IH as [IH | IH]; [intros; apply Hl; right; auto | left; auto | ].
          destruct (gv_img_up g V j i) as [k ->]; [apply Hl; left; auto | ].
          destruct (in_dec string_dec k (atts ++ orphans)%list) as [Hk | Hk].
          - right. intros s' [E | H']; [apply att_inj in E; subst; auto | auto].
          - left. exists k. split; auto. apply Hl. left. auto. }
        assert (Pe : forall j, edge g j (img_id i) <-> In j (parents_of g (img_id i))).
        { intros j. rewrite edge_children. apply (good_wf g G). }
        destruct (Z (parents_of g (img_id i))) as [Y | Y]; auto.
        - intros j Hj. apply Pe. auto.
        - exfalso. apply Hn. split; auto. intros k Hk. apply Y, Pe. auto. }
      destruct Y as (k & Hk & Nk). exists k. apply edge_minus. split; [auto | ]. split; [ | auto].
      rewrite in_gone4_att, <- in_app_iff. auto.
    - intros k H. apply has_minus in H as [H Hn]. change (graph_id T_ATTACHMENT k) with (att_id k) in Hn.
      destruct (gv_att_img g V k H) as [i Hi]. exists i. apply edge_minus. split; [auto | ]. split; [auto | ].
      rewrite in_gone4_img. intros K. apply Himgs in K as (_ & K). rewrite in_gone4_att, <- in_app_iff in Hn. auto.
  Qed.
End Clean.
