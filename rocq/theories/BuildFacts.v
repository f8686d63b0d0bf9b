(** The graph of a Spine document: what building it produces. *)
From Verif Require Import PyBase PyFacts Json Graph SpecGraph GraphFacts GraphApi GraphRemove IdFacts SpineGraph SpecSpine SpineFacts.
Open Scope string_scope.

Lemma iter_contents : forall v l, py_iter v = Ok l <-> contents v = Some l.
Proof. intros v l. destruct v; cbn; split; intros H; try discriminate; injection H as <-; reflexivity. Qed.
Lemma truthy_blank : forall v, truthy v = negb (blank v).
Proof. intros v. destruct v as [ | [ | ] | [ | | ] | [ | | | ] | [ | ] | [ | ] | [ | ]]; reflexivity. Qed.
Lemma iter_elems : forall v l, py_iter v = Ok l -> elems v = l.
Proof. intros v l H. apply iter_contents in H. unfold elems. rewrite H. auto. Qed.
Lemma to_graph_id_ok : forall t v i, to_graph_id t v = Ok i -> exists s, text v s /\ i = graph_id t s.
Proof. intros t v i H. injection H as <-. exists (py_str v). split; [reflexivity | auto]. Qed.
Lemma py_item_ok : forall v k x, py_item v k = Ok x -> field v k = x /\ exists d, v = VDict d /\ dget k d = Some x.
Proof.
  intros v k x H. unfold py_item, dget_err, field in *. destruct v; try discriminate.
  destruct (dget k d) eqn:E; [ | discriminate]. injection H as <-. eauto.
Qed.
Lemma as_dict_ok : forall v d, as_dict v = Ok d -> v = VDict d.
Proof. intros v d H. unfold as_dict in H. destruct v; try discriminate. congruence. Qed.
Lemma text_fun : forall v s s', text v s -> text v s' -> s = s'.
Proof. unfold text. intros. congruence. Qed.
Lemma has_tn_same : forall g g' t s, good g -> good g' -> In t five -> tn g' t = tn g t -> (has g' t s <-> has g t s).
Proof. intros g g' t s G G' Ht E. rewrite !has_tn by auto. rewrite E. tauto. Qed.

Lemma edge_if_ok : forall g tp tc p c g' u, good g -> In tp five -> In tc five -> may tp tc = true -> may tc tp = true ->
  has g tc c ->
  (edge_if_present (graph_id tp p) (graph_id tc c) (graph_id tp p) g = (g', Ok u) ->
   good g' /\ ids g' = ids g /\ (forall t, tn g' t = tn g t) /\ ~ (tp = tc /\ p = c) /\
   (forall a b, edge g' a b <-> edge g a b \/ (has g tp p /\ a = graph_id tp p /\ b = graph_id tc c))).
Proof.
  intros g tp tc p c g' u G Hp Hc M1 M2 Ic H. unfold edge_if_present in H. inv_m H. injection H0 as <-.
  destruct (dmem (graph_id tp p) (g_nodes g)) eqn:E.
  - apply dmem_in in E. change (has g tp p) in E.
    apply g_edge_ok in H as (Hn & G' & Ei & Et & Ee); auto. split; [auto | ]. split; [auto | ]. split; [auto | ]. split.
    + intros [-> ->]. apply Hn. auto.
    + intros a b. rewrite Ee. tauto.
  - apply mret_ok in H as [-> _]. apply dmem_nin in E. change (~ has g tp p) in E. split; [auto | ]. split; [auto | ]. split; [auto | ].
    split; [intros [-> ->]; auto | ]. intros a b. tauto.
Qed.
Lemma edge_if_ok' : forall g tp tc p c g' u, good g -> In tp five -> In tc five -> may tp tc = true ->
  has g tp p ->
  edge_if_present (graph_id tp p) (graph_id tc c) (graph_id tc c) g = (g', Ok u) ->
   good g' /\ ids g' = ids g /\ (forall t, tn g' t = tn g t) /\
   (forall a b, edge g' a b <-> edge g a b \/ (has g tc c /\ a = graph_id tp p /\ b = graph_id tc c)).
Proof.
  intros g tp tc p c g' u G Hp Hc M1 Ic H. unfold edge_if_present in H. inv_m H. injection H0 as <-.
  destruct (dmem (graph_id tc c) (g_nodes g)) eqn:E.
  - apply dmem_in in E. change (has g tc c) in E.
    apply g_edge_ok in H as (Hn & G' & Ei & Et & Ee); auto. split; [auto | ]. split; [auto | ]. split; [auto | ].
    intros a b. rewrite Ee. tauto.
  - apply mret_ok in H as [-> _]. apply dmem_nin in E. change (~ has g tc c) in E. split; [auto | ]. split; [auto | ]. split; [auto | ].
    intros a b. tauto.
Qed.

Lemma in_five : In T_BONE five /\ In T_SLOT five /\ In T_IK five /\ In T_ATTACHMENT five /\ In T_IMAGE five.
Proof. unfold five. simpl. tauto. Qed.
Ltac five := try (unfold five; simpl; tauto).

(** ** Bones *)
Lemma bone_step : forall g v idx g' u, good g -> add_bone_to_graph v idx g = (g', Ok u) ->
  exists s q, named v s /\ text (field v "parent") q /\ s <> q /\ ~ has g T_BONE s /\ good g' /\
    ids g' = (ids g ++ [bone_id s])%list /\
    (forall t, tn g' t = (tn g t ++ tn_add T_BONE (bone_id s, mkNData idx v) t)%list) /\
    (forall p c, edge g' p c <-> edge g p c \/ (has g T_BONE q /\ p = bone_id q /\ c = bone_id s)).
Proof.
  intros g v idx g' u G H. unfold add_bone_to_graph in H. inv_m H. inv_m H. inv_m H. inv_m H. inv_m H.
  apply py_item_ok in H0 as [N _]. apply to_graph_id_ok in H1 as (s & Ts & ->).
  apply as_dict_ok in H3. apply to_graph_id_ok in H4 as (q & Tq & ->).
  destruct in_five as (F1 & F2 & F3 & F4 & F5).
  apply g_add_ok in H2 as (Hn & G2 & Ei & Et & Ee); auto.
  assert (H2 : has g0 T_BONE s) by (unfold has; rewrite Ei; apply in_app_iff; right; left; auto).
  apply edge_if_ok in H as (G' & Ei' & Et' & Hs & Ee'); auto.
  exists s, q. split; [unfold named; rewrite N; auto | ].
  split; [rewrite H3; exact Tq | ]. assert (Hsq : s <> q) by (intros ->; apply Hs; auto). split; [auto | ]. split; [auto | ]. split; [auto | ].
  split; [rewrite Ei', Ei; auto | ]. split; [intros t; rewrite Et', Et; auto | ].
  intros p c. rewrite Ee', Ee. rewrite (has_add g g0 T_BONE s) by auto. split.
  - intros [K | ([K | [_ K]] & K2)]; auto. congruence.
  - intros [K | [K1 K2]]; auto.
Qed.

(** The nodes of type t are those of the elements l. *)
Definition lists (t : string) (l : list (Z * val)) (ns : list (string * ndata)) : Prop :=
  Forall2 (fun n kv => exists s, named (snd kv) s /\ n = (graph_id t s, mkNData (fst kv) (snd kv))) ns l.
Lemma lists_snoc : forall t l ns kv s, lists t l ns -> named (snd kv) s ->
  lists t (l ++ [kv])%list (ns ++ [(graph_id t s, mkNData (fst kv) (snd kv))])%list.
Proof. intros. apply Forall2_app; auto. constructor; eauto. Qed.
Lemma lists_has : forall g t l q, good g -> In t five -> lists t l (tn g t) -> (has g t q <-> is_named (map snd l) q).
Proof.
  intros g t l q G Ht L. rewrite has_tn by auto. set (ns := tn g t) in *. clearbody ns. unfold is_named.
  induction L as [ | n kv ns l (s & Hs & ->) L IH]; simpl; [split; [tauto | intros (v & [] & _)] | ]. rewrite IH. split.
  - intros [E | (v & Hv & Hq)]; [ | exists v; auto]. apply graph_id_inj in E as [_ <-]; auto using five_kinds. exists (snd kv). auto.
  - intros (v & [<- | Hv] & Hq); [ | right; eauto]. left. f_equal. eapply text_fun; eauto.
Qed.
Lemma lists_data : forall t l ns, lists t l ns -> map snd ns = map (fun kv => mkNData (fst kv) (snd kv)) l.
Proof. intros t l ns L. induction L as [ | n kv ns l (s & Hs & ->) L IH]; simpl; f_equal; auto. Qed.

Definition parent_edge (bones : list val) (p c : string) : Prop :=
  exists l1 v l2 s q, bones = (l1 ++ v :: l2)%list /\ named v s /\ text (field v "parent") q /\ is_named l1 q /\
    p = bone_id q /\ c = bone_id s.
Lemma app_snoc_inv : forall A (l1 l2 : list A) v l x, (l ++ [x] = l1 ++ v :: l2)%list ->
  (l2 = [] /\ l = l1 /\ x = v) \/ (exists l2', l2 = (l2' ++ [x])%list /\ l = (l1 ++ v :: l2')%list).
Proof.
  intros A l1 l2 v l x H. destruct l2 as [ | y l2] using rev_ind.
  - left. apply app_inj_tail in H as [-> ->]. auto.
  - right. clear IHl2. change (v :: l2 ++ [y])%list with ((v :: l2) ++ [y])%list in H. rewrite app_assoc in H.
    apply app_inj_tail in H as [-> ->]. eauto.
Qed.

Lemma parent_edge_snoc : forall l x s q p c, named x s -> text (field x "parent") q ->
  (parent_edge (l ++ [x]) p c <-> parent_edge l p c \/ (is_named l q /\ p = bone_id q /\ c = bone_id s)).
Proof.
  intros l x s q p c Hs Hq. split.
  - intros (l1 & v & l2 & s' & q' & E & K1 & K2 & K3 & K4 & K5). apply app_snoc_inv in E as [(-> & -> & ->) | (l2' & -> & ->)].
    + right. rewrite (text_fun _ _ _ Hs K1), (text_fun _ _ _ Hq K2). auto.
    + left. exists l1, v, l2', s', q'. auto 10.
  - intros [(l1 & v & l2 & s' & q' & -> & K) | (K1 & K2 & K3)].
    + exists l1, v, (l2 ++ [x])%list, s', q'. rewrite <- app_assoc. auto.
    + exists l, x, [], s, q. auto 10.
Qed.

Definition bones_done (l : list (Z * val)) (g : sgraph) : Prop :=
  good g /\ lists T_BONE l (tn g T_BONE) /\ (forall t, t <> T_BONE -> tn g t = []) /\
  (forall p c, edge g p c <-> parent_edge (map snd l) p c) /\
  (forall v s, In v (map snd l) -> named v s -> ~ text (field v "parent") s).
Lemma bones_done_nil : bones_done [] new_graph.
Proof.
  split; [apply good_new | ]. split; [constructor | ]. split; [auto | ]. split; [ | intros v s []].
  intros p c. split; [intros (n & Hn & _); discriminate | ]. intros (l1 & v & l2 & s & q & E & _). destruct l1; discriminate.
Qed.
Lemma bone_done_step : forall pre x g1 g2 u, bones_done pre g1 -> add_bone_to_graph (snd x) (fst x) g1 = (g2, Ok u) -> bones_done (pre ++ [x])%list g2.
Proof.
  intros pre x g1 g2 u (G & L & O & Ed & Ns) H. apply bone_step in H as (s & q & Hs & Hq & Hne & _ & G2 & _ & Et & Ee); auto.
  split; [auto | ]. split; [ | split; [ | split]].
  - rewrite Et. apply (lists_snoc T_BONE pre _ x s); auto.
  - intros t Ht. rewrite Et, O by auto. unfold tn_add. rewrite (proj2 (seqb_neq T_BONE t)) by congruence. auto.
  - intros p c. rewrite Ee, Ed, map_app. simpl. rewrite (parent_edge_snoc _ _ s q) by auto.
    destruct in_five as (F1 & _). rewrite (lists_has g1 T_BONE pre) by auto. tauto.
  - intros v n Hv Hn Hp. rewrite map_app in Hv. apply in_app_iff in Hv as [Hv | [<- | []]]; [apply (Ns v n); auto | ].
    apply Hne. rewrite (text_fun _ _ _ Hs Hn), (text_fun _ _ _ Hq Hp). auto.
Qed.
Lemma bones_loop : forall l g' r, mforeach (fun x => add_bone_to_graph (snd x) (fst x)) l new_graph = (g', Ok r) ->
  bones_done l g'.
Proof.
  intros l g' r H. revert H. apply (mforeach_inv _ _ _ _ bones_done).
  - intros pre x post g1 g2 b E K H. eapply bone_done_step; eauto.
  - apply bones_done_nil.
Qed.

(** ** Attachments of a slot *)
(** [g'] is [g] with the attachments X of the slot named s, and their images. *)
Definition ext (s : string) (X : string -> val -> Prop) (g g' : sgraph) : Prop :=
  good g' /\ tn g' T_BONE = tn g T_BONE /\ tn g' T_SLOT = tn g T_SLOT /\ tn g' T_IK = tn g T_IK /\
  (forall k, has g' T_ATTACHMENT k <-> has g T_ATTACHMENT k \/ exists a, X k a) /\
  (forall i, has g' T_IMAGE i <-> has g T_IMAGE i \/ exists k a, X k a /\ text (image a k) i) /\
  (forall p c, edge g' p c <-> edge g p c \/ (exists k a, X k a /\ p = slot_id s /\ c = att_id k) \/
                               (exists k a i, X k a /\ text (image a k) i /\ p = att_id k /\ c = img_id i)).

Lemma ext_refl : forall s g, good g -> ext s (fun _ _ => False) g g.
Proof. intros s g G. do 4 (split; [auto | ]). split; [ | split].
  - intros k. split; auto. intros [K | (a & [])]; auto.
  - intros i. split; auto. intros [K | (k & a & [] & _)]; auto.
  - intros p c. split; auto. intros [K | [(k & a & [] & _) | (k & a & i & [] & _)]]; auto.
Qed.
Lemma ext_trans : forall s X Y Z g1 g2 g3, ext s X g1 g2 -> ext s Y g2 g3 -> (forall k a, Z k a <-> X k a \/ Y k a) -> ext s Z g1 g3.
Proof.
  intros s X Y Z g1 g2 g3 (A0 & A1 & A2 & A3 & A4 & A5 & A6) (B0 & B1 & B2 & B3 & B4 & B5 & B6) H.
  split; [auto | ]. split; [congruence | ]. split; [congruence | ]. split; [congruence | ]. split; [ | split].
  - intros k. rewrite B4, A4. split.
    + intros [[K | (a & K)] | (a & K)]; auto; right; exists a; apply H; auto.
    + intros [K | (a & K)]; auto. apply H in K as [K | K]; eauto.
  - intros i. rewrite B5, A5. split.
    + intros [[K | (k & a & K1 & K2)] | (k & a & K1 & K2)]; auto; right; exists k, a; rewrite H; auto.
    + intros [K | (k & a & K1 & K2)]; auto. apply H in K1 as [K1 | K1]; eauto 6.
  - intros p c. rewrite B6, A6. split.
    + intros [[K | [(k & a & K1 & K2) | (k & a & i & K1 & K2)]] | [(k & a & K1 & K2) | (k & a & i & K1 & K2)]]; auto; right.
      * left. exists k, a. rewrite H. auto.
      * right. exists k, a, i. rewrite H. auto.
      * left. exists k, a. rewrite H. auto.
      * right. exists k, a, i. rewrite H. auto.
    + intros [K | [(k & a & K1 & K2) | (k & a & i & K1 & K2)]]; auto; apply H in K1 as [K1 | K1].
      * left. right. left. eauto.
      * right. left. eauto.
      * left. right. right. eauto.
      * right. right. eauto.
Qed.
Lemma ext_iff : forall s X Y g g', ext s X g g' -> (forall k a, X k a <-> Y k a) -> ext s Y g g'.
Proof.
  intros s X Y g g' H E. eapply ext_trans; [apply H | apply ext_refl; apply H | ]. intros k a. rewrite E. tauto.
Qed.

Lemma add_if_absent_ok : forall g t s x g' u, good g -> In t five -> add_if_absent t (graph_id t s) x g = (g', Ok u) ->
  good g' /\ (forall t', t' <> t -> tn g' t' = tn g t') /\ (forall s', has g' t s' <-> has g t s' \/ s' = s) /\
  (forall p c, edge g' p c <-> edge g p c).
Proof.
  intros g t s x g' u G Ht H. unfold add_if_absent in H. inv_m H. injection H0 as <-.
  destruct (dmem (graph_id t s) (g_nodes g)) eqn:E.
  - apply dmem_in in E. change (has g t s) in E. apply mret_ok in H as [-> _]. split; [auto | ]. split; [auto | ]. split; [ | tauto].
    intros s'. split; auto. intros [K | ->]; auto.
  - apply g_add_ok in H as (Hn & G' & Ei & Et & Ee); auto. split; [auto | ]. split; [ | split; [ | auto]].
    + intros t' Ht'. rewrite Et. unfold tn_add. rewrite (proj2 (seqb_neq t t')) by congruence. apply app_nil_r.
    + intros s'. rewrite (has_add g g' t s) by auto. tauto.
Qed.

Lemma image_of_image : forall d k, image_of d k = image (VDict d) k.
Proof. intros d k. unfold image_of, image, field, get_item, val_or. rewrite !truthy_blank. destruct (blank _); auto. cbn. destruct (blank _); auto. Qed.

Lemma add_attachment_ok : forall g s k a g' u, good g -> has g T_SLOT s ->
  add_attachment_to_slot (slot_id s) (k, a) g = (g', Ok u) ->
  ext s (fun k' a' => k' = k /\ a' = a) g g'.
Proof.
  intros g s k a g' u G Hs H. unfold add_attachment_to_slot in H. destruct in_five as (F1 & F2 & F3 & F4 & F5).
  inv_m H. rename g0 into g1. inv_m H. rename g0 into g2 || idtac. inv_m H. apply as_dict_ok in H1. subst a.
  apply to_graph_id_ok in H2 as (i & Ti & ->). rewrite image_of_image in Ti.
  inv_m H. rename g0 into g2. inv_m H. rename g0 into g3.
  apply add_if_absent_ok in H0 as (G1 & T1 & A1 & E1); auto.
  apply add_if_absent_ok in H1 as (G2 & T2 & A2 & E2); auto.
  assert (Ka : has g2 T_ATTACHMENT k).
  { apply (has_tn_same g1 g2); auto; [apply T2; discriminate | ]. apply A1. auto. }
  assert (Ki : has g2 T_IMAGE i) by (apply A2; auto).
  apply (g_edge_ok g2 T_ATTACHMENT T_IMAGE k i) in H2 as (_ & G3 & _ & T3 & E3); auto.
  assert (Ks : has g3 T_SLOT s).
  { apply (has_tn_same g2 g3); auto. apply (has_tn_same g1 g2); auto; [apply T2; discriminate | ].
    apply (has_tn_same g g1); auto. apply T1. discriminate. }
  assert (Ka3 : has g3 T_ATTACHMENT k) by (apply (has_tn_same g2 g3); auto).
  apply (g_edge_ok g3 T_SLOT T_ATTACHMENT s k) in H as (_ & G4 & _ & T4 & E4); auto.
  split; [auto | ]. split; [rewrite T4, T3, T2, T1; auto; discriminate | ]. split; [rewrite T4, T3, T2, T1; auto; discriminate | ].
  split; [rewrite T4, T3, T2, T1; auto; discriminate | ].
  split; [ | split].
  - intros k'. rewrite (has_tn_same g3 g'), (has_tn_same g2 g3), (has_tn_same g1 g2), A1; auto; [ | apply T2; discriminate].
    split; [intros [K | ->]; eauto | intros [K | (a' & -> & _)]; auto].
  - intros i'. rewrite (has_tn_same g3 g'), (has_tn_same g2 g3), A2, (has_tn_same g g1); auto; [ | apply T1; discriminate].
    split; [intros [K | ->]; [auto | right; exists k, (VDict a1); auto] | intros [K | (k' & a' & [-> ->] & Ti')]; auto].
    right. eapply text_fun; eauto.
  - intros p c. rewrite E4, E3, E2, E1. split.
    + intros [[K | [-> ->]] | [-> ->]]; auto.
      * right. right. exists k, (VDict a1), i. auto.
      * right. left. exists k, (VDict a1). auto.
    + intros [K | [(k' & a' & [-> ->] & -> & ->) | (k' & a' & i' & [-> ->] & Ti' & -> & ->)]]; auto.
      left. right. rewrite (text_fun _ _ _ Ti' Ti). auto.
Qed.

Lemma ext_has_slot : forall s X g g' s', good g -> ext s X g g' -> (has g' T_SLOT s' <-> has g T_SLOT s').
Proof. intros s X g g' s' G H. apply has_tn_same; auto; [apply H | five | apply H]. Qed.

Lemma add_attachments_ok : forall g s sl g' u, good g -> has g T_SLOT s ->
  mforeach (add_attachment_to_slot (slot_id s)) sl g = (g', Ok u) ->
  ext s (fun k a => In (k, a) sl) g g'.
Proof.
  intros g s sl g' u G Hs. apply (mforeach_inv _ _ _ _ (fun l h => ext s (fun k a => In (k, a) l) g h)).
  - intros pre [k a] post g1 g2 b E K H. eapply ext_trans; [apply K | eapply add_attachment_ok; [ | | apply H] | ].
    + apply K.
    + eapply ext_has_slot; eauto.
    + intros k' a'. cbv beta. rewrite in_app_iff. split.
      * intros [X | [X | []]]; auto. injection X as -> ->. auto.
      * intros [X | [-> ->]]; auto. right. left. auto.
  - apply ext_refl. auto.
Qed.

(** A list in place of the attachments of a slot *)
Lemma nth_in : forall l x y, py_nth l x = Ok y -> In y l.
Proof.
  intros l x y E. unfold py_nth in E. destruct (as_num x) as [[i | ] | ]; try discriminate E. cbv zeta in E.
  destruct (0 <=? _)%Z; [ | discriminate E]. destruct (nth_error _ _) as [v | ] eqn:N; [ | discriminate E]. injection E as <-. eapply nth_error_In; eauto.
Qed.
Lemma listed_one : forall i l x g g' u, add_listed_attachment i l x g = (g', Ok u) -> exists d, py_nth l x = Ok (VDict d).
Proof.
  intros i l x g g' u H. unfold add_listed_attachment in H. inv_m H. inv_m H. unfold add_attachment_to_slot in H. inv_m H. inv_m H.
  match goal with E : as_dict a = Ok _ |- _ => apply as_dict_ok in E; subst a end. eauto.
Qed.
Lemma listed_all : forall i l xs g g' u, mforeach (add_listed_attachment i l) xs g = (g', Ok u) -> forall x, In x xs -> exists d, py_nth l x = Ok (VDict d).
Proof.
  intros i l. induction xs as [ | y xs IH]; intros g g' u H x Hx; [destruct Hx | ]. cbn [mforeach] in H. inv_m H. inv_m H.
  destruct Hx as [<- | Hx]; [eapply listed_one; eauto | eapply IH; eauto].
Qed.
Lemma listed_none : forall i l g g' u, mforeach (add_listed_attachment i l) l g = (g', Ok u) -> l = [].
Proof.
  intros i l g g' u H. destruct l as [ | x l]; auto. exfalso. pose proof (listed_all _ _ _ _ _ _ H) as K.
  destruct (K x (or_introl eq_refl)) as [d Ed]. destruct (K (VDict d) (nth_in _ _ _ Ed)) as [d' Ed']. discriminate Ed'.
Qed.

Lemma add_skin_ok : forall g s nv skin g' u, good g -> has g T_SLOT s ->
  add_skin_to_slot (slot_id s) nv skin g = (g', Ok u) ->
  ext s (fun k a => exists n, nv = VStr n /\ listed_in [skin] n k a) g g'.
Proof.
  intros g s nv skin g' u G Hs H. unfold add_skin_to_slot in H. inv_m H. apply as_dict_ok in H0. subst skin.
  assert (Nothing : ~ (exists n sd v, nv = VStr n /\ get_item "attachments" a = VDict sd /\ dget n sd = Some v /\ v <> VDict []) -> g' = g ->
          ext s (fun k x => exists n, nv = VStr n /\ listed_in [VDict a] n k x) g g').
  { intros N ->. apply (ext_iff s (fun _ _ => False)); [apply ext_refl; auto | ]. intros k x. split; [tauto | ].
    intros (n & E & skin & atts & sl & [<- | []] & E1 & E2 & E3). apply N. exists n, atts, (VDict sl). repeat split; auto.
    intros X. injection X as ->. destruct E3. }
  destruct (truthy (get_item "attachments" a)) eqn:Et.
  - inv_m H. apply as_dict_ok in H0.
    assert (Hl : (nv = nv -> match nv with VStr n => dget n a0 = None | _ => True end) -> g' = g -> ext s (fun k x => exists n, nv = VStr n /\ listed_in [VDict a] n k x) g g').
    { intros N E. apply Nothing; auto. intros (n & sd & v & E1 & E2 & E3 & _). rewrite E1 in N. specialize (N eq_refl).
      rewrite E2 in H0. injection H0 as ->. congruence. }
    assert (Empty : forall g1 u1, add_skin_attachments_to_slot (slot_id s) (VList []) g = (g1, Ok u1) -> g1 = g).
    { intros g1 u1 X. injection X as <- _. auto. }
    inv_m H. destruct nv as [ | | | | n | | ]; try discriminate; try (match goal with E : Ok _ = Ok a1 |- _ => injection E as <- end; apply Hl; auto; eapply Empty; eauto; fail).
    match goal with E : Ok _ = Ok a1 |- _ => injection E as <- end. destruct (dget n a0) as [v | ] eqn:Ed.
    + unfold add_skin_attachments_to_slot in H. destruct v as [ | | | | t | l | sl]; try discriminate.
      * destruct t; [ | discriminate H]. apply mret_ok in H as [-> _]. apply (ext_iff s (fun _ _ => False)); [apply ext_refl; auto | ].
        intros k x. split; [tauto | ]. intros (n' & E & skin & atts & sl & [<- | []] & E1 & E2 & E3). injection E as <-.
        change (get_item "attachments" a = VDict atts) in E1. rewrite E1 in H0. injection H0 as ->. congruence.
      * inv_m H. match goal with X : mforeach _ _ _ = _ |- _ => pose proof (listed_none _ _ _ _ _ X) as El end. subst l. injection H1 as <- _. apply mret_ok in H as [-> _]. apply (ext_iff s (fun _ _ => False)); [apply ext_refl; auto | ].
        intros k x. split; [tauto | ]. intros (n' & E & skin & atts & sl & [<- | []] & E1 & E2 & E3). injection E as <-.
        change (get_item "attachments" a = VDict atts) in E1. rewrite E1 in H0. injection H0 as ->. congruence.
      * inv_m H. apply mret_ok in H as [-> _]. eapply ext_iff; [eapply add_attachments_ok; eauto | ].
        intros k x. cbv beta. split.
        -- intros K. exists n. split; auto. exists (VDict a), a0, sl. repeat split; auto. left. auto.
        -- intros (n' & E & skin & atts & sl' & [<- | []] & E1 & E2 & E3). injection E as <-.
           change (get_item "attachments" a = VDict atts) in E1. rewrite E1 in H0. injection H0 as ->. congruence.
    + apply Hl; auto. eapply Empty; eauto.
  - apply mret_ok in H as [-> _]. apply Nothing; auto. intros (n & sd & v & E1 & E2 & E3 & E4). rewrite E2 in Et. simpl in Et.
    destruct sd; [simpl in E3; discriminate E3 | discriminate].
Qed.

Lemma listed_in_app : forall l1 l2 s k a, listed_in (l1 ++ l2) s k a <-> listed_in l1 s k a \/ listed_in l2 s k a.
Proof.
  intros. split.
  - intros (skin & atts & sl & H & K). apply in_app_iff in H as [H | H]; [left | right]; exists skin, atts, sl; auto.
  - intros [(skin & atts & sl & H & K) | (skin & atts & sl & H & K)]; exists skin, atts, sl; rewrite in_app_iff; auto.
Qed.
Lemma add_skins_ok : forall g s nv skins g' u, good g -> has g T_SLOT s ->
  mforeach (add_skin_to_slot (slot_id s) nv) skins g = (g', Ok u) ->
  ext s (fun k a => exists n, nv = VStr n /\ listed_in skins n k a) g g'.
Proof.
  intros g s nv skins g' u G Hs.
  apply (mforeach_inv _ _ _ _ (fun l h => ext s (fun k a => exists n, nv = VStr n /\ listed_in l n k a) g h)).
  - intros pre skin post g1 g2 b E K H. eapply ext_trans; [apply K | eapply add_skin_ok; [ | | apply H] | ].
    + apply K.
    + eapply ext_has_slot; eauto.
    + intros k a. cbv beta. split.
      * intros (n & E1 & E2). apply listed_in_app in E2 as [E2 | E2]; eauto.
      * intros [(n & E1 & E2) | (n & E1 & E2)]; exists n; rewrite listed_in_app; auto.
  - apply (ext_iff s (fun _ _ => False)); [apply ext_refl; auto | ]. intros k a. split; [tauto | ].
    intros (n & E & skin & atts & sl & [] & _).
Qed.

(** ** Slots *)
Lemma slot_step : forall g v idx g' i, good g -> add_slot_to_graph v idx g = (g', Ok i) ->
  exists s b, i = slot_id s /\ named v s /\ text (field v "bone") b /\ ~ has g T_SLOT s /\ good g' /\
    ids g' = (ids g ++ [slot_id s])%list /\
    (forall t, tn g' t = (tn g t ++ tn_add T_SLOT (slot_id s, mkNData idx v) t)%list) /\
    (forall p c, edge g' p c <-> edge g p c \/ (has g T_BONE b /\ p = bone_id b /\ c = slot_id s)).
Proof.
  intros g v idx g' i G H. unfold add_slot_to_graph in H. inv_m H. inv_m H. inv_m H. inv_m H. inv_m H. inv_m H.
  apply mret_ok in H as [-> ->].
  apply py_item_ok in H0 as [N _]. apply to_graph_id_ok in H1 as (s & Ts & ->).
  apply as_dict_ok in H3. apply to_graph_id_ok in H4 as (b & Tb & ->).
  destruct in_five as (F1 & F2 & F3 & F4 & F5).
  apply g_add_ok in H2 as (Hn & G2 & Ei & Et & Ee); auto.
  assert (H2 : has g0 T_SLOT s) by (unfold has; rewrite Ei; apply in_app_iff; right; left; auto).
  unfold edge_if_present in H5. apply mbind_ok in H5 as (h & z & Hz & H5). injection Hz as <- <-.
  exists s, b. split; [auto | ]. split; [unfold named; rewrite N; auto | ].
  split; [rewrite H3; exact Tb | ]. split; [auto | ].
  destruct (dmem (graph_id T_BONE b) (g_nodes g0)) eqn:Em.
  - apply dmem_in in Em. change (has g0 T_BONE b) in Em.
    apply g_edge_ok in H5 as (_ & G' & Ei' & Et' & Ee'); auto.
    split; [auto | ]. split; [rewrite Ei', Ei; auto | ]. split; [intros t; rewrite Et', Et; auto | ].
    intros p c. rewrite Ee', Ee. rewrite (has_add g g0 T_SLOT s) in Em by auto. destruct Em as [Em | [X _]]; [ | discriminate X].
    unfold bone_id, slot_id. change (b ++ "_BONE")%string with (graph_id T_BONE b). change (s ++ "_SLOT") with (graph_id T_SLOT s). tauto.
  - apply dmem_nin in Em. change (~ has g0 T_BONE b) in Em. apply mret_ok in H5 as [-> _].
    split; [auto | ]. split; [auto | ]. split; [auto | ].
    intros p c. rewrite Ee. rewrite (has_add g g0 T_SLOT s) in Em by auto. tauto.
Qed.

Definition slot_listed (skins slots : list val) (k : string) (a : val) : Prop :=
  exists v s, In v slots /\ field v "name" = VStr s /\ listed_in skins s k a.
(** After the slots l. *)
Definition slots_done (skins : list val) (g0 : sgraph) (l : list (Z * val)) (g : sgraph) : Prop :=
  good g /\ tn g T_BONE = tn g0 T_BONE /\ tn g T_IK = tn g0 T_IK /\ lists T_SLOT l (tn g T_SLOT) /\
  (forall k, has g T_ATTACHMENT k <-> exists a, slot_listed skins (map snd l) k a) /\
  (forall i, has g T_IMAGE i <-> exists k a, slot_listed skins (map snd l) k a /\ text (image a k) i) /\
  (forall p c, edge g p c <-> edge g0 p c \/
     (exists v s b, In v (map snd l) /\ named v s /\ text (field v "bone") b /\ has g0 T_BONE b /\ p = bone_id b /\ c = slot_id s) \/
     (exists v s k a, In v (map snd l) /\ field v "name" = VStr s /\ listed_in skins s k a /\ p = slot_id s /\ c = att_id k) \/
     (exists k a i, slot_listed skins (map snd l) k a /\ text (image a k) i /\ p = att_id k /\ c = img_id i)).

Lemma slot_all_step : forall d skins g0 pre kv g1 g2 u, good g0 -> each d "skins" = skins ->
  slots_done skins g0 pre g1 -> add_slot_and_attachments d kv g1 = (g2, Ok u) ->
  (exists s, named (snd kv) s /\ ~ has g1 T_SLOT s) /\ slots_done skins g0 (pre ++ [kv])%list g2.
Proof.
  intros d skins g0 pre [idx v] g1 g2 u G0 Es (G1 & B1 & I1 & L1 & A1 & M1 & E1) H.
  unfold add_slot_and_attachments in H. inv_m H. rename g into g1'. inv_m H. inv_m H. inv_m H. inv_m H. apply mret_ok in H as [-> _].
  apply slot_step in H0 as (s & b & -> & Hs & Hb & Hn & G' & Ei & Et & Ee); auto.
  apply py_item_ok in H3 as [Nv _].
  assert (Sk : a1 = skins).
  { unfold each in Es. unfold dget_err in H1. destruct (dget "skins" d); [ | discriminate]. injection H1 as ->. rewrite (iter_elems _ _ H2) in Es. auto. }
  subst a1. destruct in_five as (F1 & F2 & F3 & F4 & F5).
  assert (Hs' : has g1' T_SLOT s) by (unfold has; rewrite Ei; apply in_app_iff; right; left; auto).
  apply add_skins_ok in H4 as (G2 & B2 & S2 & I2 & A2 & M2 & E2); auto.
  split; [exists s; auto | ].
  assert (Ts : forall n, field v "name" = VStr n -> n = s).
  { intros n En. unfold named in Hs. rewrite En in Hs. exact Hs. }
  assert (Em : map snd (pre ++ [(idx, v)])%list = (map snd pre ++ [v])%list) by (rewrite map_app; auto).
  assert (SL : forall k a, slot_listed skins (map snd pre ++ [v]) k a <->
               slot_listed skins (map snd pre) k a \/ exists n, a2 = VStr n /\ listed_in skins n k a).
  { intros k a. unfold slot_listed. split.
    - intros (w & n & Hw & K). apply in_app_iff in Hw as [Hw | [<- | []]]; [left; eauto | right]. exists n. rewrite Nv in K. auto.
    - intros [(w & n & Hw & K) | (n & K1 & K2)]; [exists w, n | exists v, n]; rewrite in_app_iff; [auto | ].
      split; [right; left; auto | ]. split; congruence. }
  assert (HB : has g1' T_BONE b <-> has g0 T_BONE b).
  { rewrite (has_add g1 g1' T_SLOT s) by auto. rewrite (has_tn_same g0 g1) by auto. split; auto. intros [K | [K _]]; auto. discriminate K. }
  assert (HB1 : has g1 T_BONE b <-> has g0 T_BONE b) by (apply has_tn_same; auto).
  assert (HA : forall k, has g1' T_ATTACHMENT k <-> has g1 T_ATTACHMENT k).
  { intros k. rewrite (has_add g1 g1' T_SLOT s) by auto. split; auto. intros [K | [K _]]; auto. discriminate K. }
  assert (HI : forall k, has g1' T_IMAGE k <-> has g1 T_IMAGE k).
  { intros k. rewrite (has_add g1 g1' T_SLOT s) by auto. split; auto. intros [K | [K _]]; auto. discriminate K. }
  split; [auto | ]. split; [rewrite B2, Et, B1; apply app_nil_r | ]. split; [rewrite I2, Et, I1; apply app_nil_r | ].
  split; [rewrite S2, Et; apply (lists_snoc T_SLOT pre _ (idx, v) s); auto | ].
  rewrite Em. split; [ | split].
  - intros k. rewrite A2, HA, A1. split.
    + intros [(a & K) | (a & K)]; exists a; apply SL; auto.
    + intros (a & K). apply SL in K as [K | K]; eauto.
  - intros i. rewrite M2, HI, M1. split.
    + intros [(k & a & K1 & K2) | (k & a & K1 & K2)]; exists k, a; rewrite SL; auto.
    + intros (k & a & K1 & K2). apply SL in K1 as [K1 | K1]; eauto 6.
  - intros p c. rewrite E2, Ee, E1. split.
    + intros [[[K | [(w & n & b' & K1 & K2) | [(w & n & k & a & K1 & K2) | (k & a & i & K1 & K2)]]] | (K1 & -> & ->)] | [(k & a & (n & K1 & K2) & -> & ->) | (k & a & i & K1 & K2)]]; auto; right.
      * left. exists w, n, b'. rewrite in_app_iff. auto.
      * right. left. exists w, n, k, a. rewrite in_app_iff. auto.
      * right. right. exists k, a, i. rewrite SL. auto.
      * left. exists v, s, b. rewrite in_app_iff. split; [right; left; auto | ]. rewrite <- HB1. auto.
      * right. left. assert (n = s) by (apply Ts; congruence). subst n. exists v, s, k, a. rewrite in_app_iff.
        split; [right; left; auto | ]. split; [congruence | auto].
      * right. right. exists k, a, i. rewrite SL. auto.
    + intros [K | [(w & n & b' & K1 & K2 & K3 & K4) | [(w & n & k & a & K1 & K2 & K3 & -> & ->) | (k & a & i & K1 & K2)]]]; auto.
      * apply in_app_iff in K1 as [K1 | [<- | []]]; [left; left; right; left; exists w, n, b'; auto | ].
        left. right. rewrite <- (text_fun _ _ _ Hs K2), <- (text_fun _ _ _ Hb K3) in K4. rewrite HB1. auto.
      * apply in_app_iff in K1 as [K1 | [<- | []]]; [left; left; right; right; left; exists w, n, k, a; auto | ].
        right. left. assert (n = s) by (apply Ts; auto). subst n. exists k, a. split; [ | auto]. exists s. split; [congruence | auto].
      * rewrite SL in K1. destruct K1 as [K1 | K1].
        -- left. left. right. right. right. eauto.
        -- right. right. eauto.
Qed.
Lemma slots_done_nil : forall skins g0, good g0 -> (forall t, t <> T_BONE -> tn g0 t = []) -> slots_done skins g0 [] g0.
Proof.
  intros skins g0 G H. destruct in_five as (F1 & F2 & F3 & F4 & F5). split; [auto | ]. split; [auto | ]. split; [auto | ].
  split; [rewrite H by discriminate; constructor | ]. split; [ | split].
  - intros k. rewrite has_tn by auto. rewrite H by discriminate. split; [intros [] | ]. intros (a & v & s & [] & _).
  - intros k. rewrite has_tn by auto. rewrite H by discriminate. split; [intros [] | ]. intros (k' & a & (v & s & [] & _) & _).
  - intros p c. split; auto. intros [K | [(v & s & b & [] & _) | [(v & s & k & a & [] & _) | (k & a & i & (v & s & [] & _) & _)]]]; auto.
Qed.

(** ** Ik constraints *)
Definition ik_edges (g1 : sgraph) (iks : list val) (p c : string) : Prop :=
  (exists v s x b, In v iks /\ named v s /\ In x (elems (field v "bones")) /\ text x b /\ has g1 T_BONE b /\ p = ik_id s /\ c = bone_id b) \/
  (exists v s b, In v iks /\ named v s /\ blank (field v "target") = false /\ text (field v "target") b /\ has g1 T_BONE b /\
     p = bone_id b /\ c = ik_id s).
Definition iks_done (g1 : sgraph) (l : list (Z * val)) (g : sgraph) : Prop :=
  good g /\ (forall t, t <> T_IK -> tn g t = tn g1 t) /\ lists T_IK l (tn g T_IK) /\
  (forall p c, edge g p c <-> edge g1 p c \/ ik_edges g1 (map snd l) p c).

Lemma ik_bones_ok : forall g s bs g' r, good g -> has g T_IK s ->
  mforeach (fun b => do! child_id := mlift (to_graph_id T_BONE b) in
                     edge_if_present (ik_id s) child_id child_id) bs g = (g', Ok r) ->
  good g' /\ (forall t, tn g' t = tn g t) /\
  (forall p c, edge g' p c <-> edge g p c \/ (exists x b, In x bs /\ text x b /\ has g T_BONE b /\ p = ik_id s /\ c = bone_id b)).
Proof.
  intros g s bs g' r G Hs.
  apply (mforeach_inv _ _ _ _ (fun l h => good h /\ (forall t, tn h t = tn g t) /\
    (forall p c, edge h p c <-> edge g p c \/ (exists x b, In x l /\ text x b /\ has g T_BONE b /\ p = ik_id s /\ c = bone_id b)))).
  - intros pre x post g1 g2 u E (G1 & T1 & E1) H. inv_m H. apply to_graph_id_ok in H0 as (b & Tb & ->).
    destruct in_five as (F1 & F2 & F3 & F4 & F5).
    apply (edge_if_ok' g1 T_IK T_BONE s b) in H as (G2 & _ & T2 & E2); auto.
    2: { apply (has_tn_same g g1); auto. }
    split; [auto | ]. split; [intros t; rewrite T2; auto | ]. intros p c. rewrite E2, E1.
    rewrite (has_tn_same g g1) by auto. split.
    + intros [[K | (x' & b' & K1 & K2)] | (K1 & -> & ->)]; auto; right.
      * exists x', b'. rewrite in_app_iff. auto.
      * exists x, b. rewrite in_app_iff. split; [right; left; auto | auto].
    + intros [K | (x' & b' & K1 & K2 & K3 & K4)]; auto. apply in_app_iff in K1 as [K1 | [<- | []]].
      * left. right. exists x', b'. auto.
      * right. rewrite (text_fun _ _ _ Tb K2). auto.
  - split; [auto | ]. split; [auto | ]. intros p c. split; auto. intros [K | (x & b & [] & _)]; auto.
Qed.

Lemma ik_step : forall g1 pre kv g g' u, good g1 -> iks_done g1 pre g -> add_ik_to_graph (snd kv) (fst kv) g = (g', Ok u) ->
  (exists s, named (snd kv) s /\ ~ has g T_IK s) /\ iks_done g1 (pre ++ [kv])%list g'.
Proof.
  intros g1 pre [idx v] g g' u G1 (G & T & L & Ed) H. unfold add_ik_to_graph in H. cbn [fst snd] in H.
  inv_m H. inv_m H. inv_m H. rename g0 into h1. inv_m H. inv_m H. inv_m H. rename g0 into h2. inv_m H.
  apply py_item_ok in H0 as [N _]. apply to_graph_id_ok in H1 as (s & Ts & ->). apply py_item_ok in H3 as [Nb _].
  apply as_dict_ok in H6. destruct in_five as (F1 & F2 & F3 & F4 & F5).
  apply g_add_ok in H2 as (Hn & G2 & Ei & Et & Ee); auto.
  assert (Hs : has h1 T_IK s) by (unfold has; rewrite Ei; apply in_app_iff; right; left; auto).
  apply (ik_bones_ok h1 s) in H5 as (G3 & T3 & E3); auto.
  assert (Ns : named v s) by (unfold named; rewrite N; auto).
  assert (El : elems (field v "bones") = a3) by (rewrite Nb; apply iter_elems; auto).
  assert (HB : forall b, has h1 T_BONE b <-> has g1 T_BONE b).
  { intros b. rewrite <- (has_tn_same g1 g) by (auto; apply T; discriminate). rewrite (has_add g h1 T_IK s) by auto.
    split; auto. intros [K | [K _]]; auto. discriminate K. }
  assert (Tg : get_item "target" a5 = field v "target") by (rewrite H6; auto). rewrite Tg in H.
  assert (F : good g' /\ (forall t, tn g' t = tn h2 t) /\ (forall p c, edge g' p c <-> edge h2 p c \/
              exists b, blank (field v "target") = false /\ text (field v "target") b /\ has g1 T_BONE b /\ p = bone_id b /\ c = ik_id s)).
  { rewrite truthy_blank in H. destruct (blank (field v "target")) eqn:Etr; cbn [negb] in H; cycle 1.
    - inv_m H. apply to_graph_id_ok in H0 as (b & Tb & ->).
      apply (edge_if_ok h2 T_BONE T_IK b s) in H as (G' & _ & T' & _ & E'); auto.
      2: { apply (has_tn_same h1 h2); auto. }
      split; [auto | ]. split; [auto | ]. intros p c. rewrite E'. rewrite (has_tn_same h1 h2) by auto. rewrite HB. split.
      + intros [K | K]; eauto 8.
      + intros [K | (b' & _ & Tb' & K)]; auto. rewrite (text_fun _ _ _ Tb Tb'). auto.
    - apply mret_ok in H as [-> _]. split; [auto | ]. split; [auto | ]. intros p c. split; auto. intros [K | (b & K & _)]; auto. discriminate. }
  destruct F as (G' & T' & E'). split; [exists s; auto | ]. split; [auto | ]. split; [ | split].
  - intros t Ht. rewrite T', T3, Et, T by auto. unfold tn_add. rewrite (proj2 (seqb_neq T_IK t)) by congruence. apply app_nil_r.
  - rewrite T', T3, Et. apply (lists_snoc T_IK pre _ (idx, v) s); auto.
  - intros p c. rewrite E', E3, Ee, Ed. rewrite map_app. cbn [map snd]. unfold ik_edges. split.
    + intros [[[K | [(w & n & x & b & K1 & K2) | (w & n & b & K1 & K2)]] | (x & b & K1 & K2 & K3 & K4)] | (b & K1 & K2)]; auto; right.
      * left. exists w, n, x, b. rewrite in_app_iff. auto.
      * right. exists w, n, b. rewrite in_app_iff. auto.
      * left. exists v, s, x, b. rewrite in_app_iff, El. split; [right; left; auto | ]. split; [auto | ]. split; [auto | ]. split; [auto | ].
        rewrite <- HB. auto.
      * right. exists v, s, b. rewrite in_app_iff. split; [right; left; auto | ]. auto.
    + intros [K | [(w & n & x & b & K1 & K2 & K3 & K4 & K5) | (w & n & b & K1 & K2 & K3)]]; auto; apply in_app_iff in K1 as [K1 | [<- | []]].
      * left. left. right. left. exists w, n, x, b. auto.
      * left. right. exists x, b. rewrite <- El, (text_fun _ _ _ Ns K2), HB. auto.
      * left. left. right. right. exists w, n, b. auto.
      * right. exists b. rewrite (text_fun _ _ _ Ns K2). auto.
Qed.

Lemma iks_done_nil : forall g1, good g1 -> tn g1 T_IK = [] -> iks_done g1 [] g1.
Proof.
  intros g1 G H. split; [auto | ]. split; [auto | ]. split; [rewrite H; constructor | ]. intros p c. split; auto.
  intros [K | [(v & s & x & b & [] & _) | (v & s & b & [] & _)]]; auto.
Qed.

(** ** The whole document *)
Lemma map_snd_enumerate : forall A (l : list A) i, map snd (enumerate_from i l) = l.
Proof. intros A l. induction l as [ | x l IH]; intros i; simpl; f_equal; auto. Qed.

Record built (d : dict val) (g : sgraph) : Prop := {
  bu_good : good g;
  bu_bones : lists T_BONE (enumerate (each d "bones")) (tn g T_BONE);
  bu_slots : lists T_SLOT (enumerate (each d "slots")) (tn g T_SLOT);
  bu_iks : lists T_IK (enumerate (each d "ik")) (tn g T_IK);
  bu_atts : forall k, has g T_ATTACHMENT k <-> exists s a, slot_named d s /\ listed d s k a;
  bu_imgs : forall i, has g T_IMAGE i <-> exists s k a, slot_named d s /\ listed d s k a /\ text (image a k) i;
  bu_edges : forall p c, edge g p c <-> reference d p c;
  bu_self : no_self_parent d }.

Definition listed_form (d : dict val) : forall k a, slot_listed (each d "skins") (each d "slots") k a <-> exists s, slot_named d s /\ listed d s k a.
Proof.
  intros k a. unfold slot_listed, slot_named, listed. split.
  - intros (v & s & K1 & K2 & K3). exists s. split; eauto.
  - intros (s & (v & K1 & K2) & K3). exists v, s. auto.
Qed.

Lemma done_built : forall d gb gs gi, bones_done (enumerate (each d "bones")) gb ->
  slots_done (each d "skins") gb (enumerate (each d "slots")) gs -> iks_done gs (enumerate (each d "ik")) gi -> built d gi.
Proof.
  intros d gb gs gi (Gb & Lb & Ob & Eb & Nb) (Gs & Bs & Is & Ls & As & Ms & Es) (Gi & Ti & Li & Ei).
  destruct in_five as (F1 & F2 & F3 & F4 & F5).
  assert (HBb : forall b, has gb T_BONE b <-> is_named (each d "bones") b).
  { intros b. rewrite (lists_has gb T_BONE _ b Gb F1 Lb). unfold enumerate. rewrite map_snd_enumerate. tauto. }
  assert (HBs : forall b, has gs T_BONE b <-> is_named (each d "bones") b).
  { intros b. rewrite <- HBb. apply has_tn_same; auto. }
  unfold enumerate in As, Ms, Es, Ei, Eb. rewrite map_snd_enumerate in As, Ms, Es, Ei, Eb. unfold enumerate in Nb. rewrite map_snd_enumerate in Nb.
  split.
  - auto.
  - rewrite Ti by discriminate. rewrite Bs. auto.
  - rewrite Ti by discriminate. auto.
  - auto.
  - intros k. rewrite (has_tn_same gs gi) by (auto; apply Ti; discriminate). rewrite As. split.
    + intros (a & K). apply listed_form in K as (s & K). eauto.
    + intros (s & a & K). exists a. apply listed_form. eauto.
  - intros k. rewrite (has_tn_same gs gi) by (auto; apply Ti; discriminate). rewrite Ms. split.
    + intros (k' & a & K & K'). apply listed_form in K as (s & K1 & K2). eauto 6.
    + intros (s & k' & a & K1 & K2 & K3). exists k', a. split; auto. apply listed_form. eauto.
  - intros p c. rewrite Ei, Es, Eb. split.
    + intros [[(l1 & v & l2 & s & q & K1 & K2 & K3 & K4 & -> & ->) | [(v & s & b & K1 & K2 & K3 & K4 & -> & ->) | [(v & s & k & a & K1 & K2 & K3 & -> & ->) | (k & a & i & K1 & K2 & -> & ->)]]] |
             [(v & s & x & b & K1 & K2 & K3 & K4 & K5 & -> & ->) | (v & s & b & K1 & K2 & K3 & K4 & K5 & -> & ->)]].
      * eapply ref_bone_parent; eauto.
      * eapply ref_slot_bone; eauto. apply HBb. auto.
      * apply (ref_slot_attachment d s k a); auto. exists v. auto.
      * apply listed_form in K1 as (s & K1 & K3). apply (ref_attachment_image d s k a i); auto.
      * apply (ref_ik_bone d v s x b); auto. apply HBs. auto.
      * apply (ref_ik_target d v s b); auto. apply HBs. auto.
    + intros R. destruct R as [l1 v l2 s q K1 K2 K3 K4 | v s b K1 K2 K3 K4 | s k a (v & K1 & K2) K3 | s k a i K1 K2 K3 | v s x b K1 K2 K3 K4 K5 | v s b K1 K2 K3 K4 K5].
      * left. left. exists l1, v, l2, s, q. auto 8.
      * left. right. left. exists v, s, b. rewrite HBb. auto 8.
      * left. right. right. left. exists v, s, k, a. auto 8.
      * left. right. right. right. exists k, a, i. rewrite listed_form. eauto 8.
      * right. left. exists v, s, x, b. rewrite HBs. auto 9.
      * right. right. exists v, s, b. rewrite HBs. auto 9.
  - exact Nb.
Qed.

Lemma build_ok : forall d g, create_from_json_data (VDict d) = Ok g -> built d g.
Proof.
  intros d g H. unfold create_from_json_data in H. destruct (build_graph_m d new_graph) as [g' [u | e]] eqn:E; [ | discriminate].
  injection H as ->. unfold build_graph_m in E. inv_m E. inv_m E. inv_m E. inv_m E. inv_m E. inv_m E. apply mret_ok in E as [-> _].
  assert (Eb : each d "bones" = a).
  { unfold each. inv_bind H. unfold dget_err in E. destruct (dget "bones" d); [ | discriminate]. injection E as ->. apply iter_elems. auto. }
  assert (Es : each d "slots" = a1).
  { unfold each. destruct (dget "slots" d); [apply iter_elems; auto | congruence]. }
  assert (Ei : each d "ik" = a3).
  { unfold each. destruct (dget "ik" d); [apply iter_elems; auto | congruence]. }
  subst a a1 a3. apply bones_loop in H0. assert (Gb : good g0) by apply H0.
  assert (Sd : slots_done (each d "skins") g0 (enumerate (each d "slots")) g1).
  { revert H2. apply (mforeach_inv _ _ _ _ (slots_done (each d "skins") g0)).
    - intros pre x post h1 h2 b Ep K Hx. eapply slot_all_step; eauto.
    - apply slots_done_nil; auto. apply H0. }
  assert (Gs : good g1) by apply Sd.
  assert (Id : iks_done g1 (enumerate (each d "ik")) g2).
  { revert H4. apply (mforeach_inv _ _ _ _ (iks_done g1)).
    - intros pre x post h1 h2 b Ep K Hx. eapply ik_step; eauto.
    - apply iks_done_nil; auto. destruct Sd as (_ & _ & T & _). rewrite T. apply H0. discriminate. }
  eapply done_built; eauto.
Qed.
