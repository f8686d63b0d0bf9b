(** Graph ids: "name_TYPE". *)
From Verif Require Import PyBase PyFacts Json Graph SpineGraph.
Open Scope string_scope.

Definition kinds : list string := [T_BONE; T_SLOT; T_IK; T_ATTACHMENT; T_IMAGE; T_PATH; T_DEFAULT].

(** p occurs in s. *)
Definition contains (s p : string) : Prop := exists a b, s = a ++ p ++ b.

Lemma kind_chars : forall t, In t kinds -> ~ In "_"%char (chars t).
Proof.
  intros t H. simpl in H. repeat (destruct H as [<- | H]; [vm_compute; intuition discriminate | ]). destruct H.
Qed.

Lemma last_underscore : forall (a b u v : list ascii), ~ In "_"%char u -> ~ In "_"%char v ->
  (a ++ "_"%char :: u = b ++ "_"%char :: v)%list -> a = b /\ u = v.
Proof.
  intros a. induction a as [ | x a IH]; intros [ | y b] u v Hu Hv E; simpl in E.
  - injection E as E2. auto.
  - injection E as E1 E2. subst u. destruct Hu. apply in_app_iff. right. left. auto.
  - injection E as E1 E2. subst v. destruct Hv. apply in_app_iff. right. left. auto.
  - injection E as E1 E2. apply IH in E2 as [-> ->]; auto. subst. auto.
Qed.
Lemma graph_id_chars : forall t s, chars (graph_id t s) = (chars s ++ "_"%char :: chars t)%list.
Proof. intros. unfold graph_id. rewrite !chars_app. reflexivity. Qed.
Lemma graph_id_inj : forall t t' s s', In t kinds -> In t' kinds -> graph_id t s = graph_id t' s' -> t = t' /\ s = s'.
Proof.
  intros t t' s s' Ht Ht' E. apply (f_equal chars) in E. rewrite !graph_id_chars in E.
  apply last_underscore in E as [E1 E2]; try (apply kind_chars; auto). split; apply chars_inj; auto.
Qed.

(** ** replace *)
Lemma strip_prefix_some : forall p l r, strip_prefix p l = Some r <-> l = (p ++ r)%list.
Proof.
  intros p. induction p as [ | a p IH]; intros l r; simpl.
  - split; congruence.
  - destruct l as [ | b l]; [split; discriminate | ]. destruct (Ascii.eqb_spec a b).
    + subst. rewrite IH. split; congruence.
    + split; [discriminate | ]. congruence.
Qed.
Lemma remove_all_length : forall fuel p l, length (remove_all_fuel fuel p l) <= length l.
Proof.
  intros fuel. induction fuel as [ | fuel IH]; intros p l; simpl; auto. destruct l as [ | x l]; auto.
  destruct (strip_prefix p (x :: l)) as [r | ] eqn:E.
  - apply strip_prefix_some in E. rewrite E, app_length. specialize (IH p r). lia.
  - simpl. specialize (IH p l). lia.
Qed.
Definition occurs (p l : list ascii) : Prop := exists a b, l = (a ++ p ++ b)%list.
Lemma remove_all_occurs : forall fuel p l, length l <= fuel -> p <> [] -> occurs p l ->
  length (remove_all_fuel fuel p l) + length p <= length l.
Proof.
  intros fuel. induction fuel as [ | fuel IH]; intros p l L Hp (a & b & E).
  - destruct l; [ | simpl in L; lia]. destruct a, p; simpl in *; congruence.
  - destruct l as [ | x l]; [destruct a, p; simpl in *; congruence | ]. cbn [remove_all_fuel].
    destruct (strip_prefix p (x :: l)) as [r | ] eqn:S.
    + apply strip_prefix_some in S. rewrite S, app_length. pose proof (remove_all_length fuel p r). lia.
    + destruct a as [ | y a].
      * simpl in E. assert (H : strip_prefix p (x :: l) = Some b) by (apply strip_prefix_some; auto). congruence.
      * simpl in E. injection E as <- E. simpl. assert (length (remove_all_fuel fuel p l) + length p <= length l); [ | lia].
        apply IH; auto; [simpl in L; lia | ]. exists a, b. auto.
Qed.

Section Suffix.
  Variable q : list ascii.
  Hypothesis Hq : ~ In "_"%char q.
  Let p := ("_"%char :: q)%list.

  (** no occurrence straddles the end of l *)
  Lemma no_straddle : forall x l r, (x :: l ++ p = p ++ r)%list -> exists r', (x :: l = p ++ r')%list /\ (r = r' ++ p)%list.
  Proof.
    intros x l r E. destruct (le_lt_dec (length p) (length (x :: l))) as [L | L].
    - exists (skipn (length p) (x :: l)). 
      assert (F : firstn (length p) (x :: l) = p).
      { change (x :: l ++ p)%list with ((x :: l) ++ p)%list in E. apply (f_equal (firstn (length p))) in E.
        rewrite firstn_app in E. replace (length p - length (x :: l)) with 0 in E by lia. simpl firstn in E at 2.
        rewrite app_nil_r in E. rewrite E. rewrite firstn_app, Nat.sub_diag, firstn_all, firstn_O. apply app_nil_r. }
      assert (G : (x :: l = p ++ skipn (length p) (x :: l))%list).
      { rewrite <- (firstn_skipn (length p) (x :: l)) at 1. rewrite F. auto. }
      split; auto. change (x :: l ++ p)%list with ((x :: l) ++ p)%list in E. rewrite G in E at 1. rewrite <- app_assoc in E.
      apply app_inv_head in E. auto.
    - exfalso. change (x :: l ++ p)%list with ((x :: l) ++ p)%list in E.
      assert (N : nth_error ((x :: l) ++ p) (length (x :: l)) = Some "_"%char) by (rewrite nth_error_app2, Nat.sub_diag; auto).
      rewrite E, nth_error_app1 in N by lia. unfold p in N. simpl in N. apply Hq. eapply nth_error_In; eauto.
  Qed.
  Lemma remove_suffix : forall l fuel, length (l ++ p) <= fuel -> ~ occurs p l -> remove_all_fuel fuel p (l ++ p) = l.
  Proof.
    intros l. induction l as [ | x l IH]; intros fuel L H; (destruct fuel as [ | fuel]; [simpl in L; lia | ]).
    - change ([] ++ p)%list with p in *. cbn [remove_all_fuel]. unfold p at 1.
      rewrite (proj2 (strip_prefix_some p p [])) by (rewrite app_nil_r; auto). destruct fuel; auto.
    - cbn [remove_all_fuel app]. destruct (strip_prefix p (x :: l ++ p)) as [r | ] eqn:S.
      + apply strip_prefix_some in S. apply no_straddle in S as (r' & S & _). destruct H. exists [], r'. auto.
      + f_equal. apply IH; [simpl in L; lia | ]. intros (a & b & E). apply H. exists (x :: a), b. rewrite E. reflexivity.
  Qed.
  Lemma remove_suffix_occurs : forall l fuel, length (l ++ p) <= fuel -> occurs p l ->
    length (remove_all_fuel fuel p (l ++ p)) < length l.
  Proof.
    intros l. induction l as [ | x l IH]; intros fuel L (a & b & E).
    - destruct a; discriminate.
    - destruct fuel as [ | fuel]; [simpl in L; lia | ]. cbn [remove_all_fuel app].
      destruct (strip_prefix p (x :: l ++ p)) as [r | ] eqn:S.
      + apply strip_prefix_some in S. apply no_straddle in S as (r' & S & ->).
        assert (Lx : length (x :: l) = length p + length r') by (rewrite S, app_length; auto).
        assert (K : length (remove_all_fuel fuel p (r' ++ p)) + length p <= length (r' ++ p)).
        { apply remove_all_occurs; [ | discriminate | exists r', []; rewrite app_nil_r; auto].
          rewrite app_length in L |- *. simpl in L, Lx |- *. lia. }
        rewrite (app_length r' p) in K. assert (0 < length p) by (simpl; lia). lia.
      + destruct a as [ | y a].
        * exfalso. change ([] ++ p ++ b)%list with (p ++ b)%list in E.
          assert (strip_prefix p (x :: l ++ p) = Some (b ++ p)%list); [ | congruence].
          apply strip_prefix_some. change (x :: l ++ p)%list with ((x :: l) ++ p)%list. rewrite E.
          rewrite <- app_assoc. auto.
        * injection E as <- E. simpl. apply -> Nat.succ_lt_mono. apply IH; [simpl in L; lia | ]. exists a, b. auto.
  Qed.
End Suffix.

Lemma contains_occurs : forall s p, contains s p <-> occurs (chars p) (chars s).
Proof.
  intros s p. split.
  - intros (a & b & ->). exists (chars a), (chars b). rewrite !chars_app. auto.
  - intros (a & b & E). exists (unchars a), (unchars b). apply chars_inj. rewrite !chars_app, !chars_unchars. auto.
Qed.
Lemma to_base_iff : forall t s, In t kinds -> (to_base_id t (graph_id t s) = s <-> ~ contains s ("_" ++ t)).
Proof.
  intros t s Ht. unfold to_base_id, str_remove_all. rewrite contains_occurs. rewrite graph_id_chars.
  rewrite <- chars_length, graph_id_chars. change (chars ("_" ++ t)) with ("_"%char :: chars t).
  pose proof (kind_chars t Ht) as Hq. split.
  - intros E O. apply (f_equal chars) in E. rewrite chars_unchars in E.
    pose proof (remove_suffix_occurs (chars t) Hq (chars s) _ (le_n _) O) as L. rewrite E in L. lia.
  - intros H. rewrite remove_suffix; auto. apply unchars_chars.
Qed.
