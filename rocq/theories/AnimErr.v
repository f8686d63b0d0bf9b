(** Proofs: which exception the clean-up analysis raises. *)
From Verif Require Import PyBase PyFacts Json Classes SpineGraph DrawOrder AnimData SpecAnim AnimFacts.
Open Scope string_scope.
Open Scope list_scope.

Lemma stray_dec : forall d a, {forall n t, In (n, t) (an_slots a) -> n <> "" /\ exists s, In s (d_slots d) /\ slot_name s = n} + {stray_timeline d a}.
Proof.
  intros d a. unfold stray_timeline. induction (an_slots a) as [ | [n t] l IH]; [left; intros n t [] | ].
  destruct (string_dec n "") as [-> | Hn]; [right; exists "", t; simpl; auto | ].
  destruct (in_dec string_dec n (map slot_name (d_slots d))) as [H | H].
  - destruct IH as [IH | IH].
    + left. intros n' t' [E | I]; [injection E as <- <- | eauto]. split; auto. apply in_map_iff in H as (s & <- & Hs). eauto.
    + right. destruct IH as (n' & t' & I & K). exists n', t'. simpl. auto.
  - right. exists n, t. split; [left; auto | ]. right. intros s Hs E. apply H. subst n. apply in_map. auto.
Qed.
Lemma visit_timeline_err : forall sd alpha noatt st kv x, visit_timeline sd alpha noatt st kv = Err x -> x = EKey (fst kv) /\ dget (fst kv) sd = None.
Proof.
  intros sd alpha noatt st [n t] x E. unfold visit_timeline in E. cbn [fst]. unfold dget_err in E. destruct (dget n sd); cbn [bind] in E.
  - match type of E with (if ?b then _ else _) = _ => destruct b end; discriminate.
  - injection E as <-. auto.
Qed.
Lemma stray_stops : forall sd alpha noatt l st, (exists n t, In (n, t) l /\ dget n sd = None) ->
  exists k, foldM (visit_timeline sd alpha noatt) st l = Err (EKey k).
Proof.
  intros sd alpha noatt l. induction l as [ | [n0 t0] l IH]; intros st (n & t & I & G); [destruct I | ]. cbn [foldM].
  destruct (visit_timeline sd alpha noatt st (n0, t0)) as [st' | x] eqn:E.
  - cbn [bind]. apply IH. destruct I as [X | I]; [ | eauto]. injection X as -> ->. unfold visit_timeline, dget_err in E. rewrite G in E. discriminate.
  - apply visit_timeline_err in E as [-> _]. cbn [bind]. eauto.
Qed.
Lemma slots_dict_none : forall d n, distinct_slots d -> n = "" \/ (forall s, In s (d_slots d) -> slot_name s <> n) -> dget n (slots_dict_of (d_slots d)) = None.
Proof.
  intros d n D H. destruct (dget n (slots_dict_of (d_slots d))) as [s | ] eqn:E; auto. apply slots_dict_spec in E as (I & Hn & Hne); auto.
  destruct H as [-> | H]; [congruence | ]. destruct (H s I Hn).
Qed.

Section Analysis.
  Variable d : anim_data.
  Hypothesis Hs : distinct_slots d.
  Hypothesis Ht : distinct_timelines d.

  Lemma bad_color : (exists s, In s (d_slots d) /\ ~ readable_color s) -> exists w, get_unused_slots_and_attachments d = Err (EValue w).
  Proof.
    intros (s & I & H). unfold get_unused_slots_and_attachments. cbv zeta. destruct (get_slots_with_alpha_zero d) as [l | x] eqn:E.
    - destruct H. apply (proj1 (alpha_zero_total (d_slots d)) (ex_intro _ l E)). auto.
    - apply alpha_refused in E as [w ->]. cbn [bind]. eauto.
  Qed.
  Lemma first_stop : forall (P : animation -> Prop) (K : exn -> Prop), (forall s, In s (d_slots d) -> readable_color s) -> stops_at d P ->
    (forall alpha acc i a, get_slots_with_alpha_zero d = Ok alpha -> In (i, a) (d_animations d) -> P a ->
       let noatt := get_slots_not_visible_in_setup_pose d in
       let dv := set_diff (set_of (map slot_name (d_slots d))) (set_of (alpha ++ noatt)) in
       exists x, visit_animation d dv alpha noatt acc (i, a) = Err x /\ K x) ->
    exists x, get_unused_slots_and_attachments d = Err x /\ K x.
  Proof.
    intros P K C (before & i & a & after & E & Ha & Hb) V. unfold get_unused_slots_and_attachments. cbv zeta.
    destruct (proj2 (alpha_zero_total (d_slots d)) C) as [alpha Al]. unfold get_slots_with_alpha_zero at 1. rewrite Al. cbn [bind].
    fold (get_slots_with_alpha_zero d) in Al.
    set (dv := set_diff _ _). set (noatt := get_slots_not_visible_in_setup_pose d) in *. rewrite E, foldM_app.
    pose proof (visit_animations_ok d alpha Hs Al before ([], [])) as W. cbv zeta in W. fold noatt in W. fold dv in W.
    assert (X : exists r, foldM (visit_animation d dv alpha noatt) ([], []) before = Ok r).
    { apply W.
      - intros j b I. apply Ht. exists j. rewrite E. apply in_app_iff. auto.
      - intros j b I. destruct (Hb j b I) as [N1 N2]. destruct (stray_dec d b) as [S | S]; [ | contradiction]. split; auto.
        destruct (an_slots b) as [ | x l] eqn:L; [ | right; discriminate]. left.
        assert (G : exists r, foldM (visit_animation d dv alpha noatt) ([], []) [(j, b)] = Ok r \/ forall s, In s (d_slots d) -> ~ visible_in_setup s).
        { destruct (foldM (visit_animation d dv alpha noatt) ([], []) [(j, b)]) as [r | x] eqn:Ef; [exists r; auto | ]. exists ([], []). right. intros s I' Vs.
          pose proof (visit_animations_ok d alpha Hs Al [(j, b)] ([], [])) as W2. cbv zeta in W2. fold noatt in W2. fold dv in W2. rewrite Ef in W2.
          destruct (proj2 (W2 ltac:(intros j' b' [Q | []]; injection Q as <- <-; rewrite L; constructor))) as [r Hr]; [ | discriminate].
          intros j' b' [Q | []]. injection Q as <- <-. split; [rewrite L; intros n t [] | left; eauto]. }
        destruct G as [r [G | G]]; [ | destruct N2; split; auto].
        pose proof (visit_animations_ok d alpha Hs Al [(j, b)] ([], [])) as W2. cbv zeta in W2. fold noatt in W2. fold dv in W2.
        destruct (proj1 (W2 ltac:(intros j' b' [Q | []]; injection Q as <- <-; rewrite L; constructor)) (ex_intro _ r G) j b (or_introl eq_refl)) as [_ [Z | Z]]; auto. congruence. }
    destruct X as [r Er]. rewrite Er. cbn [bind foldM].
    destruct (V alpha r i a Al) as (x & Ex & Kx); auto; [rewrite E; apply in_app_iff; right; left; auto | ]. fold noatt in Ex. fold dv in Ex. rewrite Ex. cbn [bind]. eauto.
  Qed.
  Lemma stray_key : (forall s, In s (d_slots d) -> readable_color s) -> stops_at d (stray_timeline d) -> exists k, get_unused_slots_and_attachments d = Err (EKey k).
  Proof.
    intros C S. destruct (first_stop (stray_timeline d) (fun x => exists k, x = EKey k) C S) as (x & E & k & ->); [ | eauto].
    intros alpha acc i a Al I (n & t & It & Hn). cbv zeta. unfold visit_animation, get_visible_slots_and_attachments. cbn [snd].
    match goal with |- context [foldM (visit_timeline ?sd ?al ?no) ?st _] => destruct (stray_stops sd al no (an_slots a) st) as [k ->] end; [ | cbn [bind]; eauto].
    exists n, t. split; auto. apply slots_dict_none; auto.
  Qed.
  Lemma nothing_type : (forall s, In s (d_slots d) -> readable_color s) -> stops_at d (nothing_shown d) -> exists w, get_unused_slots_and_attachments d = Err (EType w).
  Proof.
    intros C S. destruct (first_stop (nothing_shown d) (fun x => exists w, x = EType w) C S) as (x & E & k & ->); [ | eauto].
    intros alpha acc i a Al I (En & Hn). cbv zeta.
    pose proof (visit_animations_ok d alpha Hs Al [(i, a)] acc) as W. cbv zeta in W.
    destruct (visit_animation _ _ _ _ acc (i, a)) as [r | x] eqn:Ev.
    - exfalso. cbn [foldM] in W. rewrite Ev in W. cbn [bind] in W.
      destruct (proj1 (W ltac:(intros j' b' [Q | []]; injection Q as <- <-; rewrite En; constructor)) (ex_intro _ r eq_refl) i a (or_introl eq_refl)) as [_ [(s & Is & Vs) | Z]]; [ | congruence].
      apply (Hn s); auto.
    - exists x. split; auto. unfold visit_animation, get_visible_slots_and_attachments in Ev. cbn [snd] in Ev. rewrite En in Ev. cbn [foldM bind] in Ev.
      unfold reduce_union in Ev. destruct (dvals _); cbn [bind] in Ev; [injection Ev as <-; eauto | discriminate].
  Qed.
  Lemma anim_cases : forall alpha i a, get_slots_with_alpha_zero d = Ok alpha -> In (i, a) (d_animations d) ->
    (~ stray_timeline d a /\ ~ nothing_shown d a) \/ stray_timeline d a \/ nothing_shown d a.
  Proof.
    intros alpha i a Al I. destruct (stray_dec d a) as [S | S]; auto.
    assert (NS : ~ stray_timeline d a).
    { intros (n & t & It & [-> | Hn]); destruct (S _ _ It) as [S1 (s & Is & E)]; [congruence | exact (Hn s Is E)]. }
    destruct (an_slots a) as [ | x l] eqn:L; [ | left; split; auto; intros [E _]; congruence].
    pose proof (visit_animations_ok d alpha Hs Al [(i, a)] ([], [])) as W. cbv zeta in W.
    specialize (W ltac:(intros j' b' [Q | []]; injection Q as <- <-; rewrite L; constructor)).
    match type of W with context [foldM ?f ?y [(i, a)]] => destruct (foldM f y [(i, a)]) as [r | x] end.
    - left. split; auto. intros [_ N]. destruct (proj1 W (ex_intro _ r eq_refl) i a (or_introl eq_refl)) as [_ [(s & Is & Vs) | Z]]; [exact (N s Is Vs) | congruence].
    - right. right. split; auto. intros s Is Vs. destruct (proj2 W) as [r Hr]; [ | discriminate]. intros j b [Q | []]. injection Q as <- <-. split; [rewrite L; intros n t [] | left; eauto].
  Qed.
  Lemma all_cases : analysable d \/ (exists s, In s (d_slots d) /\ ~ readable_color s) \/
    ((forall s, In s (d_slots d) -> readable_color s) /\ (stops_at d (stray_timeline d) \/ stops_at d (nothing_shown d))).
  Proof.
    destruct (get_slots_with_alpha_zero d) as [alpha | x] eqn:Al.
    - assert (C := proj1 (alpha_zero_total (d_slots d)) (ex_intro _ alpha Al)).
      assert (K : (forall i a, In (i, a) (d_animations d) -> ~ stray_timeline d a /\ ~ nothing_shown d a) \/ stops_at d (stray_timeline d) \/ stops_at d (nothing_shown d)).
      { unfold stops_at. assert (T := fun i a => anim_cases alpha i a Al). revert T. generalize (d_animations d) as l.
        induction l as [ | [i a] l IH]; intros T; [left; intros i a [] | ].
        destruct (T i a (or_introl eq_refl)) as [N | [S | S]].
        - destruct (IH (fun j b I => T j b (or_intror I))) as [IH' | [(b & j & c & f & -> & H & Hb) | (b & j & c & f & -> & H & Hb)]].
          + left. intros j b [Q | I]; [injection Q as <- <-; auto | eauto].
          + right. left. exists ((i, a) :: b), j, c, f. split; auto. split; auto. intros j' b' [Q | I]; [injection Q as <- <-; auto | eauto].
          + right. right. exists ((i, a) :: b), j, c, f. split; auto. split; auto. intros j' b' [Q | I]; [injection Q as <- <-; auto | eauto].
        - right. left. exists [], i, a, l. split; [reflexivity | split; [exact S | intros j b []]].
        - right. right. exists [], i, a, l. split; [reflexivity | split; [exact S | intros j b []]]. }
      destruct K as [K | K]; auto. destruct (proj1 (unused_total d Hs Ht)) as [A1 A2]; [ | left; split; auto].
      unfold get_unused_slots_and_attachments. cbv zeta. rewrite Al. cbn [bind].
      pose proof (visit_animations_ok d alpha Hs Al (d_animations d) ([], [])) as W. cbv zeta in W.
      destruct (proj2 (W ltac:(intros i a I; apply Ht; exists i; auto))) as [[v u] Hr]; [ | rewrite Hr; cbn [bind]; eauto].
      intros i a I. destruct (K i a I) as [N1 N2]. destruct (stray_dec d a) as [S | S]; [ | contradiction]. split; auto.
      destruct (an_slots a) as [ | x l] eqn:L; [ | right; discriminate]. left.
      pose proof (visit_animations_ok d alpha Hs Al [(i, a)] ([], [])) as W2. cbv zeta in W2.
      specialize (W2 ltac:(intros j' b' [Q | []]; injection Q as <- <-; rewrite L; constructor)).
      match type of W2 with context [foldM ?f ?y [(i, a)]] => destruct (foldM f y [(i, a)]) as [r | x] end.
      + destruct (proj1 W2 (ex_intro _ r eq_refl) i a (or_introl eq_refl)) as [_ [Z | Z]]; auto. congruence.
      + destruct N2. split; auto. intros s Is Vs. destruct (proj2 W2) as [r Hr]; [ | discriminate]. intros j b [Q | []]. injection Q as <- <-. split; [rewrite L; intros n t [] | left; eauto].
    - right. left. assert (K : ~ forall s, In s (d_slots d) -> readable_color s).
      { intros C. destruct (proj2 (alpha_zero_total (d_slots d)) C) as [al E]. unfold get_slots_with_alpha_zero in Al. congruence. }
      clear - K. induction (d_slots d) as [ | s l IH]; [destruct K; intros s [] | ].
      destruct (slot_alpha_zero s) as [b | x] eqn:E.
      + destruct IH as (s' & I & N); [ | exists s'; simpl; auto]. intros C. apply K. intros s' [<- | I]; auto. apply slot_alpha_zero_total. eauto.
      + exists s. split; [left; auto | ]. intros R. apply slot_alpha_zero_total in R as [b Eb]. congruence.
  Qed.
End Analysis.
