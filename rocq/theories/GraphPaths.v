(** Facts about get_all_paths (C20, C21). *)
From Coq Require Import Relation_Operators Operators_Properties.
From Verif Require Import PyBase PyFacts Graph SpecGraph GraphFacts GraphSearch.
Open Scope string_scope.

Section Paths.
  Context {D : Type}.
  Implicit Types (g : graph D) (n : node D).

  Lemma chain_tl : forall g x l, chain g (x :: l) -> chain g l.
  Proof. intros g x [ | y l]; simpl; tauto. Qed.
  Lemma chain_NoDup : forall g l, acyclic g -> chain g l -> NoDup l.
  Proof.
    intros g l Ha. induction l as [ | x l IH]; intros Hc; constructor.
    - intros Hx. apply in_split in Hx as (b & c & ->).
      apply (chain_app g (x :: b) x c) in Hc as [Hc _]. apply chain_reach in Hc. apply acyclic_reach with (x := x) in Ha. auto.
    - apply IH. eapply chain_tl; eauto.
  Qed.
  Lemma chain_incl : forall g l x, wf g -> chain g (x :: l) -> In x (ids g) -> incl (x :: l) (ids g).
  Proof.
    intros g l. induction l as [ | y l IH]; intros x W Hc Hx z [<- | Hz]; auto.
    - destruct Hz.
    - destruct Hc as [He Hc]. apply edge_children in He. apply wf_child_in in He; auto. apply (IH y); auto.
  Qed.
  Lemma last_in : forall (l : list string) d x, hd_error l = Some x -> In (last l d) l.
  Proof.
    intros l d x H. destruct l as [ | y l]; [discriminate | ]. clear H x. revert y.
    induction l as [ | z l IH]; intros y; [left; auto | ]. right. apply IH.
  Qed.

  (** All paths to [end_], depth first. *)
  Fixpoint ap (fuel : nat) g (maxd : Z) (end_ : string) (depth : Z) (start : string) : list (list string) :=
    match fuel with
    | O => []
    | S fuel' =>
        if Z.gtb depth maxd then []
        else if String.eqb start end_ then [[start]]
        else flat_map (fun c => map (cons start) (ap fuel' g maxd end_ (depth + 1) c)) (children_of g start)
    end.

  Lemma look_spec : forall g maxd end_, wf g -> acyclic g -> forall fuel depth P pa start,
    chain g (pa ++ [start])%list -> incl (pa ++ [start])%list (ids g) -> length (ids g) < fuel + length pa ->
    look_for_paths fuel g maxd end_ depth (mkPst P (rev pa) pa) start =
    Ok (mkPst (P ++ map (app pa) (ap fuel g maxd end_ depth start))%list (rev pa) pa).
  Proof.
    intros g maxd end_ W Ha. induction fuel as [ | fuel IH]; intros depth P pa start Hc Hi Hf.
    - pose proof (chain_NoDup g _ Ha Hc) as Hn. pose proof (NoDup_incl_len _ _ Hn Hi) as HL.
      rewrite app_length in HL. simpl in *. lia.
    - cbn [look_for_paths ap]. destruct (Z.gtb depth maxd).
      { simpl. rewrite app_nil_r. auto. }
      destruct (String.eqb start end_); [auto | ]. cbn [p_paths p_visited p_path].
      assert (Hstart : In start (ids g)) by (apply Hi, in_app_iff; right; left; auto).
      destruct (in_keys_dget _ _ Hstart) as [n En]. unfold ids in *. rewrite En.
      replace (start :: rev pa) with (rev (pa ++ [start])) by apply rev_unit.
      assert (Hch : children_of g start = n_children n) by (unfold children_of; rewrite En; auto).
      pose proof (chain_NoDup g _ Ha Hc) as Hn.
      assert (L : forall l Q, incl l (children_of g start) ->
        foldM (fun s c => if smem c (p_visited s) then Ok s
                          else look_for_paths fuel g maxd end_ (depth + 1) s c)
              (mkPst Q (rev (pa ++ [start])) (pa ++ [start])%list) l =
        Ok (mkPst (Q ++ flat_map (fun c => map (app (pa ++ [start])) (ap fuel g maxd end_ (depth + 1) c)) l)%list
              (rev (pa ++ [start])) (pa ++ [start])%list)).
      { induction l as [ | c l IHl]; intros Q Hl; cbn [foldM flat_map].
        - rewrite app_nil_r. auto.
        - assert (He : edge g start c) by (apply edge_children, Hl; left; auto).
          assert (Hc' : chain g ((pa ++ [start]) ++ [c])%list).
          { rewrite <- app_assoc. apply chain_snoc; auto. }
          pose proof (chain_NoDup g _ Ha Hc') as Hn'.
          assert (Hnv : smem c (rev (pa ++ [start])) = false).
          { apply smem_nin. rewrite <- in_rev. intros H. apply NoDup_app_inv in Hn' as (_ & _ & Hd).
            apply (Hd c); auto. left; auto. }
          cbn [p_visited]. rewrite Hnv. rewrite IH; auto.
          + cbn [bind]. rewrite IHl by (intros x Hx; apply Hl; right; auto). rewrite <- app_assoc. auto.
          + intros x Hx. apply in_app_iff in Hx as [Hx | [<- | []]]; auto. apply edge_children in He.
            eapply wf_child_in; eauto.
          + rewrite app_length. simpl. lia. }
      rewrite <- Hch, L by apply incl_refl. cbn [bind p_paths p_visited p_path]. f_equal. f_equal.
      + f_equal. rewrite flat_map_concat_map, flat_map_concat_map, concat_map, map_map. f_equal. apply map_ext.
        intros c. rewrite map_map. apply map_ext. intros l. rewrite <- app_assoc. auto.
      + rewrite rev_unit. unfold drop. simpl. rewrite seqb_refl. simpl. apply filter_all. intros x Hx.
        apply negb_true_iff, seqb_neq. intros <-. apply in_rev in Hx. apply NoDup_app_inv in Hn as (_ & _ & Hd).
        apply (Hd start); auto. left; auto.
      + assert (Hs : ~ In start pa).
        { intros H. apply NoDup_app_inv in Hn as (_ & _ & Hd). apply (Hd start); auto. left; auto. }
        clear - Hs. induction pa as [ | x pa IH]; simpl.
        * rewrite seqb_refl. auto.
        * rewrite (proj2 (seqb_neq start x)) by (intros <-; apply Hs; left; auto). f_equal. apply IH.
          intros H. apply Hs. right; auto.
  Qed.

  Lemma last_cons : forall (x y : string) l d, last (x :: y :: l) d = last (y :: l) d.
  Proof. reflexivity. Qed.
  Lemma last_d : forall (l : list string) d d', l <> [] -> last l d = last l d'.
  Proof.
    induction l as [ | x l IH]; intros d d' H; [congruence | ]. destruct l as [ | y l]; auto.
    rewrite !last_cons. apply IH. discriminate.
  Qed.

  Lemma ap_sound : forall g maxd end_, wf g -> forall fuel depth start l, In start (ids g) ->
    In l (ap fuel g maxd end_ depth start) ->
    path g start end_ l /\ (depth + Z.of_nat (length l) - 1 <= maxd)%Z.
  Proof.
    intros g maxd end_ W. induction fuel as [ | fuel IH]; intros depth start l Hs Hl; [destruct Hl | ].
    cbn [ap] in Hl. destruct (in_keys_dget _ _ Hs) as [n En]. rewrite <- has_node_dget in En.
    destruct (Z.gtb depth maxd) eqn:Ed; [destruct Hl | ].
    apply Z.gtb_ltb, Z.ltb_ge in Ed || (rewrite Z.gtb_ltb in Ed; apply Z.ltb_ge in Ed).
    eqb_cases start end_.
    - destruct Hl as [<- | []]. subst. split; [ | simpl; lia]. split; [eauto | ]. simpl. auto.
    - apply in_flat_map in Hl as (c & Hc & Hl). apply in_map_iff in Hl as (l' & <- & Hl).
      assert (He : edge g start c) by (apply edge_children; auto).
      apply IH in Hl as [(_ & H1 & H2 & H3) H4]; [ | eapply wf_child_in; eauto].
      split; [ | cbn [length]; lia]. split; [eauto | ]. split; [auto | ].
      destruct l' as [ | y l']; [discriminate | ]. simpl in H1. injection H1 as ->.
      split; [ | split; auto]. rewrite last_cons, (last_d _ start c) by discriminate. auto.
  Qed.
  Lemma ap_complete : forall g maxd end_, wf g -> acyclic g -> forall fuel depth start l,
    path g start end_ l -> (depth + Z.of_nat (length l) - 1 <= maxd)%Z -> length l <= fuel ->
    In l (ap fuel g maxd end_ depth start).
  Proof.
    intros g maxd end_ W Ha. induction fuel as [ | fuel IH]; intros depth start l Hp Hd Hf.
    - destruct Hp as (_ & H & _). destruct l; [discriminate | simpl in Hf; lia].
    - destruct Hp as (Hs & H1 & H2 & H3). destruct l as [ | x l]; [discriminate | ]. simpl in H1. injection H1 as ->.
      cbn [ap]. cbn [length] in Hd, Hf. replace (Z.gtb depth maxd) with false by (symmetry; rewrite Z.gtb_ltb; apply Z.ltb_ge; lia).
      destruct l as [ | c l].
      + simpl in H2. subst. rewrite seqb_refl. left; auto.
      + assert (Hne : start <> end_).
        { intros ->. pose proof (chain_NoDup g _ Ha H3) as Hn. apply NoDup_cons_iff in Hn as [Hn _]. apply Hn.
          rewrite last_cons in H2. pose proof (last_in (c :: l) end_ c eq_refl) as Hx. rewrite H2 in Hx. auto. }
        rewrite (proj2 (seqb_neq _ _) Hne). apply in_flat_map. destruct H3 as [He Hc]. exists c.
        split; [apply edge_children; auto | ]. apply in_map. apply IH.
        * split; [ | split; [auto | split; auto]].
          -- apply edge_children, (wf_child_in g start c W), in_keys_dget in He as [n Hn]. exists n. apply has_node_dget. auto.
          -- rewrite last_cons in H2. rewrite (last_d _ c start) by discriminate. auto.
        * cbn [length] in *. lia.
        * cbn [length] in *. lia.
  Qed.
  Lemma NoDup_flat_map : forall A B (f : A -> list B) l, NoDup l -> (forall x, In x l -> NoDup (f x)) ->
    (forall x y b, In x l -> In y l -> In b (f x) -> In b (f y) -> x = y) -> NoDup (flat_map f l).
  Proof.
    intros A B f l Hn Hf Hd. induction l as [ | x l IH]; simpl; [constructor | ]. inversion Hn; subst.
    apply NoDup_app_intro.
    - apply Hf. left; auto.
    - apply IH; auto; [intros; apply Hf; right; auto | intros y z b Hy Hz; apply Hd; right; auto].
    - intros b Hb1 Hb2. apply in_flat_map in Hb2 as (y & Hy & Hb2).
      assert (x = y) by (apply (Hd x y b); auto; [left | right]; auto). subst. auto.
  Qed.
  Lemma ap_NoDup : forall g maxd end_, wf g -> forall fuel depth start, In start (ids g) ->
    NoDup (ap fuel g maxd end_ depth start).
  Proof.
    intros g maxd end_ W. induction fuel as [ | fuel IH]; intros depth start Hs; cbn [ap]; [constructor | ].
    destruct (Z.gtb depth maxd); [constructor | ].
    destruct (String.eqb start end_); [constructor; [simpl; tauto | constructor] | ].
    assert (Hc : forall c, In c (children_of g start) -> In c (ids g)) by (intros c; apply wf_child_in; auto).
    apply NoDup_flat_map.
    - destruct (in_keys_dget _ _ Hs) as [n En]. unfold children_of. rewrite En. apply W in En. tauto.
    - intros c Hi. apply FinFun.Injective_map_NoDup; auto. intros a b E. injection E. auto.
    - intros c d l Hi Hj H1 H2. apply in_map_iff in H1 as (l1 & <- & H1). apply in_map_iff in H2 as (l2 & E & H2).
      injection E as ->. apply ap_sound in H1 as [(_ & H1 & _) _]; auto. apply ap_sound in H2 as [(_ & H2 & _) _]; auto.
      congruence.
  Qed.

  Lemma all_paths_valid : forall g s e d, wf g -> validate g = Ok [] -> In s (ids g) -> In e (ids g) ->
    exists ps, get_all_paths g s e d = Ok ps /\ NoDup ps /\
      forall l, In l ps <-> path g s e l /\ (Z.of_nat (length l) <= d)%Z.
  Proof.
    intros g s e d W Hv Hs He. unfold get_all_paths. rewrite Hv. cbn [bind].
    rewrite (proj2 (dmem_in s (g_nodes g)) Hs), (proj2 (dmem_in e (g_nodes g)) He). cbn [negb].
    apply validate_valid in Hv as [Ha _]; auto.
    change (mkPst [] [] []) with (mkPst [] (rev []) []). rewrite look_spec; auto.
    - assert (Hm : forall L : list (list string), map (app []) L = L) by (intros; apply map_id). rewrite Hm.
      cbn [bind p_paths]. eexists. split; [reflexivity | ]. cbn [app]. split; [apply ap_NoDup; auto | ].
      intros l. split.
      + intros Hl. apply ap_sound in Hl as [H1 H2]; auto. split; auto. lia.
      + intros [H1 H2]. apply ap_complete; auto; [lia | ].
        destruct H1 as (_ & H1 & _ & H3). destruct l as [ | x l]; [discriminate | ]. simpl in H1. injection H1 as ->.
        rewrite <- ids_length. apply le_S. apply NoDup_incl_len; [eapply chain_NoDup; eauto | eapply chain_incl; eauto].
    - simpl. auto.
    - intros x [<- | []]. auto.
    - rewrite ids_length. simpl. lia.
  Qed.
  Lemma all_paths_errors : forall g s e d, wf g ->
    (~ acyclic g \/ (exists h, bad_heads g h) \/ ~ In s (ids g) \/ ~ In e (ids g) ->
     exists m, get_all_paths g s e d = Err (EValue m)) /\
    (acyclic g -> (forall h, ~ bad_heads g h) -> In s (ids g) -> In e (ids g) -> exists ps, get_all_paths g s e d = Ok ps).
  Proof.
    intros g s e d W. split.
    - intros H. unfold get_all_paths. destruct (validate_spec g W) as (c & u & _ & _ & E & Hc & Hu). rewrite E. cbn [bind].
      destruct (_ ++ _)%list eqn:El; [ | eauto].
      assert (Hcu : c = [] /\ u = []) by (destruct c, u; simpl in El; try discriminate; auto). destruct Hcu as [-> ->].
      destruct H as [H | [[h H] | H]].
      + exfalso. apply H. apply Hc. auto.
      + exfalso. eapply Hu; eauto.
      + destruct H as [H | H].
        * apply dmem_nin in H. rewrite H. simpl. eauto.
        * apply dmem_nin in H. rewrite H. destruct (dmem s (g_nodes g)); simpl; eauto.
    - intros Ha Hb Hs He. destruct (all_paths_valid g s e d W) as (ps & E & _); eauto. apply validate_valid; auto.
  Qed.
End Paths.
