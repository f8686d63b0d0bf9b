(** Removing many nodes from a graph. *)
From Verif Require Import PyBase PyFacts Json Graph SpecGraph GraphFacts GraphSearch SpineGraph.
Open Scope string_scope.

Lemma smem_snoc : forall x R s, smem x (R ++ [s]) = (smem x R || String.eqb x s)%bool.
Proof. intros. rewrite smem_app. f_equal. simpl. apply orb_false_r. Qed.

Section Minus.
  Context {D : Type}.
  Implicit Types (g : graph D) (n : node D).

  Definition keep (R l : list string) : list string := filter (fun x => negb (smem x R)) l.
  Definition node_minus (R : list string) n : node D :=
    mkNode (n_id n) (n_data n) (n_type n) (n_public n) (n_order n) (n_forbidden n)
      (keep R (n_children n)) (keep R (n_parents n)).
  Definition minus g (R : list string) : graph D :=
    mkGraph (g_gen g) (g_counter g)
      (dmap (node_minus R) (filter (fun kv => negb (smem (fst kv) R)) (g_nodes g))).

  Lemma in_keep : forall R l x, In x (keep R l) <-> In x l /\ ~ In x R.
  Proof. intros. unfold keep. rewrite filter_In, negb_true_iff, smem_nin. tauto. Qed.
  Lemma keep_nil : forall l, keep [] l = l.
  Proof. intros. apply filter_all. auto. Qed.
  Lemma minus_nil : forall g, minus g [] = g.
  Proof.
    intros [a b ns]. unfold minus. simpl. f_equal. rewrite filter_all by auto. apply dmap_id_ext.
    intros k n _. destruct n. unfold node_minus. simpl. rewrite !keep_nil. auto.
  Qed.
  Lemma keep_app : forall R s l, drop s (keep R l) = keep (R ++ [s]) l.
  Proof.
    intros R s l. unfold drop, keep. rewrite filter_filter. apply filter_ext. intros x.
    rewrite smem_snoc, (seqb_sym s x). destruct (smem x R), (String.eqb x s); auto.
  Qed.
  Lemma node_minus_app : forall R s n, without_parent s (without_child s (node_minus R n)) = node_minus (R ++ [s]) n.
  Proof. intros R s n. unfold without_parent, without_child, node_minus. simpl. rewrite !keep_app. auto. Qed.
  Lemma dmap_filter_keys : forall A B (f : A -> B) (p : string -> bool) (d : dict A),
    filter (fun kv => p (fst kv)) (dmap f d) = dmap f (filter (fun kv => p (fst kv)) d).
  Proof.
    intros A B f p d. unfold dmap. induction d as [ | [k v] d IH]; simpl; auto. destruct (p k); simpl; rewrite IH; auto.
  Qed.
  Lemma removed_minus : forall g R s, removed (minus g R) s = minus g (R ++ [s]).
  Proof.
    intros g R s. unfold removed, minus. simpl. f_equal. unfold ddel.
    rewrite (dmap_filter_keys _ _ (node_minus R) (fun k => negb (String.eqb s k))). rewrite dmap_dmap, filter_filter.
    etransitivity; [apply dmap_ext; intros; apply node_minus_app | ]. f_equal. apply filter_ext.
    intros [k n]. cbn [fst]. rewrite smem_snoc, (seqb_sym s k).
    destruct (smem k R), (String.eqb k s); auto.
  Qed.
  Lemma dget_minus : forall g R j, dget j (g_nodes (minus g R)) =
    if smem j R then None else option_map (node_minus R) (dget j (g_nodes g)).
  Proof.
    intros g R j. unfold minus. simpl. rewrite dget_dmap.
    rewrite (dget_filter_keys (fun k => negb (smem k R))). destruct (smem j R); auto.
  Qed.
  Lemma ids_minus : forall g R, ids (minus g R) = keep R (ids g).
  Proof.
    intros g R. unfold ids, minus, keep. simpl. rewrite dkeys_dmap. apply (dkeys_filter (fun k => negb (smem k R))).
  Qed.
  Lemma children_minus : forall g R j, children_of (minus g R) j = if smem j R then [] else keep R (children_of g j).
  Proof. intros g R j. unfold children_of. rewrite dget_minus. destruct (smem j R); auto. destruct (dget j (g_nodes g)); auto. Qed.
  Lemma parents_minus : forall g R j, parents_of (minus g R) j = if smem j R then [] else keep R (parents_of g j).
  Proof. intros g R j. unfold parents_of. rewrite dget_minus. destruct (smem j R); auto. destruct (dget j (g_nodes g)); auto. Qed.
  Lemma minus_app : forall g R S, minus (minus g R) S = minus g (R ++ S).
  Proof.
    intros g R S. revert R. induction S as [ | s S IH]; intros R; [rewrite minus_nil, app_nil_r; auto | ].
    replace (R ++ s :: S)%list with ((R ++ [s]) ++ S)%list by (rewrite <- app_assoc; auto). rewrite <- IH, <- removed_minus.
    set (h := minus g R). clearbody h. clear. 
    rewrite <- (minus_nil h) at 2. rewrite removed_minus. simpl. 
    revert s. induction S as [ | x S IH] using rev_ind; intros s; [rewrite minus_nil; auto | ].
    change (s :: S ++ [x])%list with ((s :: S) ++ [x])%list. rewrite <- removed_minus, IH, removed_minus. auto.
  Qed.
  Lemma wf_minus : forall g R, wf g -> wf (minus g R).
  Proof.
    intros g R W. induction R as [ | x R IH] using rev_ind; [rewrite minus_nil; auto | ].
    rewrite <- removed_minus. apply wf_removed. auto.
  Qed.
  Lemma minus_ext : forall g R S, (forall x, In x (ids g) -> (In x R <-> In x S)) -> wf g -> minus g R = minus g S.
  Proof.
    intros g R S H W. unfold minus. f_equal.
    assert (K : forall x, In x (ids g) -> smem x R = smem x S).
    { intros x Hx. apply H in Hx. destruct (smem x R) eqn:E1; destruct (smem x S) eqn:E2; auto;
        [apply smem_in in E1; apply smem_nin in E2 | apply smem_in in E2; apply smem_nin in E1]; tauto. }
    rewrite (filter_ext_in (fun kv => negb (smem (fst kv) R)) (fun kv => negb (smem (fst kv) S)) (g_nodes g)).
    2: { intros [k n] Hk. simpl. rewrite K; auto. unfold ids, dkeys. apply in_map_iff. exists (k, n). auto. }
    unfold dmap. apply map_ext_in. intros [k n] Hk. apply filter_In in Hk as [Hk _]. simpl. f_equal.
    unfold node_minus. assert (W' := W). destruct W as (N & _).
    assert (Hd : dget k (g_nodes g) = Some n) by (apply in_dget; auto).
    f_equal; unfold keep; apply filter_ext_in; intros x Hx; rewrite K; auto.
    - apply (wf_child_in g k x W'). unfold children_of. rewrite Hd. auto.
    - apply (wf_parent_in g x k W'). unfold parents_of. rewrite Hd. auto.
  Qed.

  (** Removing a list of distinct present nodes, one after another. *)
  Lemma remove_one : forall g s, wf g ->
    remove_node_by_id g (IdStr s) =
    match dget s (g_nodes g) with
    | None => (g, Err (EValue "Node was not found in the graph"))
    | Some n => (minus g [s], Ok n)
    end.
  Proof.
    intros g s W. rewrite remove_node_spec by auto. destruct (dget s (g_nodes g)); auto.
    rewrite <- (minus_nil g) at 1. rewrite removed_minus. auto.
  Qed.
  Lemma remove_list : forall A (f : string -> M (graph D) A) (out : string -> A) l g, wf g -> NoDup l -> incl l (ids g) ->
    (forall s h n, In s l -> remove_node_by_id h (IdStr s) = (minus h [s], Ok n) -> n_id n = s -> f s h = (minus h [s], Ok (out s))) ->
    mforeach f l g = (minus g l, Ok (map out l)).
  Proof.
    intros A f out l. induction l as [ | s l IH]; intros g W N I F; cbn [mforeach].
    - unfold mret. rewrite minus_nil. auto.
    - apply NoDup_cons_iff in N as [N1 N2]. assert (Hs : In s (ids g)) by (apply I; left; auto).
      apply in_keys_dget in Hs as [n Hn]. pose proof (remove_one g s W) as E. rewrite Hn in E.
      unfold mbind at 1. rewrite (F s g n (or_introl eq_refl) E (wf_id g s n W Hn)).
      unfold mbind. rewrite IH; auto.
      + rewrite minus_app. auto.
      + apply wf_minus. auto.
      + intros x Hx. rewrite ids_minus. apply in_keep. split; [apply I; right; auto | ]. intros [-> | []]. auto.
      + intros x h m Hx. apply F. right. auto.
  Qed.
End Minus.

(** ** Removal in rounds *)
Section Rounds.
  Implicit Types g : sgraph.
  Variable rel : sgraph -> string -> list string.
  Variable select : M sgraph (list string).
  Variable t : string.
  Hypothesis rel_minus : forall g R j, rel (minus g R) j = if smem j R then [] else keep R (rel g j).
  Hypothesis select_spec : forall g, wf g -> exists l, select g = (g, Ok l) /\ NoDup l /\
    forall x, In x l <-> rel g x = [] /\ exists n, dget x (g_nodes g) = Some n /\ n_type n = NTStr t.

  (** All of type t, and all related nodes likewise. *)
  Inductive doomed g : string -> Prop :=
  | doomed_intro : forall i n, dget i (g_nodes g) = Some n -> n_type n = NTStr t ->
      (forall c, In c (rel g i) -> doomed g c) -> doomed g i.

  Lemma rounds_ok : forall fuel g R, wf g -> NoDup R -> (forall x, In x R -> doomed g x) ->
    length (ids g) <= fuel + length R ->
    exists l, remove_rounds fuel select t (minus g R) = (minus g (R ++ l), Ok (map (to_base_id t) l)) /\
      NoDup (R ++ l) /\ forall x, In x (R ++ l) <-> doomed g x.
  Proof.
    intros fuel. induction fuel as [ | fuel IH]; intros g R W N HR L;
      destruct (select_spec (minus g R) (wf_minus g R W)) as (l & E & Nl & Hl);
      cbn [remove_rounds]; unfold mbind at 1; rewrite E.
    - assert (Z : l = []).
      { destruct l as [ | x l]; auto. exfalso.
        assert (Hx : In x (x :: l)) by (left; auto). apply Hl in Hx as (_ & n & Hn & _).
        apply dget_in_keys in Hn. change (In x (ids (minus g R))) in Hn. rewrite ids_minus in Hn. apply in_keep in Hn as [Hi Hr].
        assert (length (x :: R) <= length (ids g)); [ | simpl in *; lia]. apply NoDup_incl_length; [constructor; auto | ].
        intros y [<- | Hy]; auto. apply HR in Hy. destruct Hy as [i m Hm _ _]. eapply dget_in_keys; eauto. }
      subst l. exists []. rewrite app_nil_r. split; [reflexivity | ]. split; [auto | ]. intros x. split; auto. intros Hx.
      induction Hx as [i n Hi Ht _ IHc]. destruct (in_dec string_dec i R) as [ | Hn]; auto. exfalso. apply (Hl i).
      assert (Es : smem i R = false) by (apply smem_nin; auto). split.
      + rewrite rel_minus, Es. apply filter_none. intros y Hy. apply negb_false_iff, smem_in. auto.
      + exists (node_minus R n). rewrite dget_minus, Es, Hi. auto.
    - destruct l as [ | a l].
      + exists []. rewrite app_nil_r. split; [reflexivity | ]. split; [auto | ]. intros x. split; auto. intros Hx.
        induction Hx as [i n Hi Ht _ IHc]. destruct (in_dec string_dec i R) as [ | Hn]; auto. exfalso. apply (Hl i).
        assert (Es : smem i R = false) by (apply smem_nin; auto). split.
        * rewrite rel_minus, Es. apply filter_none. intros y Hy. apply negb_false_iff, smem_in. auto.
        * exists (node_minus R n). rewrite dget_minus, Es, Hi. auto.
      + set (sel := (a :: l)) in *.
        assert (Hsel : forall x, In x sel -> ~ In x R /\ doomed g x).
        { intros x Hx. apply Hl in Hx as (Hr & n & Hn & Ht). rewrite dget_minus in Hn. destruct (smem x R) eqn:Es; [discriminate | ].
          apply smem_nin in Es as Es'. split; auto. destruct (dget x (g_nodes g)) as [m | ] eqn:Em; [ | discriminate].
          injection Hn as <-. apply (doomed_intro g x m); auto. intros c Hc. rewrite rel_minus, Es in Hr.
          apply HR. destruct (in_dec string_dec c R) as [ | Hcr]; auto. exfalso.
          assert (In c (keep R (rel g x))) by (apply in_keep; auto). rewrite Hr in *. auto. }
        assert (X : mforeach (fun i => do! n := g_remove i in mret (to_base_id t (n_id n))) sel (minus g R) =
                    (minus (minus g R) sel, Ok (map (to_base_id t) sel))).
        { apply remove_list; auto.
          - apply wf_minus; auto.
          - intros x Hx. apply Hl in Hx as (_ & n & Hn & _). eapply dget_in_keys; eauto.
          - intros s h n _ Eh Hi. unfold mbind, g_remove, mret. rewrite Eh, Hi. auto. }
        unfold mbind at 1. rewrite X. unfold mbind. rewrite minus_app.
        destruct (IH g (R ++ sel)%list) as (l2 & E2 & N2 & H2); auto.
        * apply NoDup_app_intro; auto. intros x Hx Hs. apply Hsel in Hs. tauto.
        * intros x Hx. apply in_app_iff in Hx as [ | Hx]; auto. apply Hsel; auto.
        * rewrite app_length. unfold sel. simpl. lia.
        * rewrite E2. exists (sel ++ l2)%list. rewrite app_assoc, map_app. split; [reflexivity | auto].
  Qed.
  Lemma rounds_all : forall g, wf g ->
    exists l, remove_rounds (length (g_nodes g)) select t g = (minus g l, Ok (map (to_base_id t) l)) /\
      NoDup l /\ forall x, In x l <-> doomed g x.
  Proof.
    intros g W. destruct (rounds_ok (length (g_nodes g)) g [] W) as (l & E & N & H).
    - constructor.
    - intros x [].
    - unfold ids, dkeys. rewrite map_length. simpl. lia.
    - rewrite minus_nil in E. exists l. auto.
  Qed.
End Rounds.

Lemma in_of_type : forall t g l x, In x (of_type t g l) <-> In x l /\ exists n, dget x (g_nodes g) = Some n /\ n_type n = NTStr t.
Proof.
  intros t g l x. unfold of_type. rewrite filter_In. apply and_iff_compat_l.
  destruct (dget x (g_nodes g)) as [n | ].
  - split.
    + intros H. exists n. split; auto. destruct (n_type n) as [z | s]; simpl in H; [discriminate | ]. apply seqb_eq in H. congruence.
    + intros (m & E & Ht). injection E as <-. rewrite Ht. simpl. apply seqb_refl.
  - split; [discriminate | ]. intros (n & H & _). discriminate.
Qed.
Lemma select_leafs : forall t (g : sgraph), wf g -> exists l, get_leafs_of_type t g = (g, Ok l) /\ NoDup l /\
  forall x, In x l <-> children_of g x = [] /\ exists n, dget x (g_nodes g) = Some n /\ n_type n = NTStr t.
Proof.
  intros t g W. destruct (tails_spec g W) as (l & E & N & H). unfold get_leafs_of_type. rewrite E. eexists. split; [reflexivity | ].
  split; [apply NoDup_filter; auto | ]. intros x. rewrite in_of_type, H. split; [tauto | ].
  intros [Hc (n & Hn & Ht)]. repeat split; eauto. eapply dget_in_keys; eauto.
Qed.
Lemma select_heads : forall t (g : sgraph), wf g -> exists l, get_heads_with_type t g = (g, Ok l) /\ NoDup l /\
  forall x, In x l <-> parents_of g x = [] /\ exists n, dget x (g_nodes g) = Some n /\ n_type n = NTStr t.
Proof.
  intros t g W. destruct (heads_spec g W) as (l & E & N & H). unfold get_heads_with_type. rewrite E. eexists. split; [reflexivity | ].
  split; [apply NoDup_filter; auto | ]. intros x. rewrite in_of_type, H. split; [tauto | ].
  intros [Hc (n & Hn & Ht)]. repeat split; eauto. eapply dget_in_keys; eauto.
Qed.
Lemma remove_leafs_spec : forall t g, wf g ->
  exists l, remove_leafs_of_type t g = (minus g l, Ok (map (to_base_id t) l)) /\ NoDup l /\ forall x, In x l <-> doomed children_of t g x.
Proof. intros t g W. apply rounds_all; auto; [apply @children_minus | apply select_leafs]. Qed.
Lemma remove_heads_spec : forall t g, wf g ->
  exists l, remove_heads_of_type t g = (minus g l, Ok (map (to_base_id t) l)) /\ NoDup l /\ forall x, In x l <-> doomed parents_of t g x.
Proof. intros t g W. apply rounds_all; auto; [apply @parents_minus | apply select_heads]. Qed.
