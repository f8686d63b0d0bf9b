(** Proofs about images_references: the entry of every image, on loading and later. *)
From Verif Require Import PyBase PyFacts PyNum Json Version Graph SpecGraph Classes ClassFacts DocFacts SpineGraph SpecSpine SpineFacts BuildFacts
  DrawOrder AnimData Editor SpecAnim AnimFacts SkinFacts ScaleFacts SpecEditor EditorGraph EditorData EditorBuild EditorClean EditorOut EditorHist EditorFacts EditorKeep EditorImages EditorScale SpecErase EditorErase.
From Coq Require ListDec.
Open Scope string_scope.

Lemma starts_slash : forall b, starts_with_slash b = true <-> exists b', b = "/" ++ b'.
Proof.
  intros b. unfold starts_with_slash. destruct b as [ | c b]; cbn [chars list_ascii_of_string].
  - split; [discriminate | intros [b' E]; discriminate].
  - rewrite Ascii.eqb_eq. split; [intros ->; exists b; auto | intros [b' E]; injection E; auto].
Qed.
Lemma ends_slash : forall a, ends_with_slash a = true <-> exists a', a = a' ++ "/".
Proof.
  intros a. unfold ends_with_slash. split.
  - destruct (rev (chars a)) as [ | c l] eqn:E; [discriminate | ]. intros H. apply Ascii.eqb_eq in H. subst c.
    apply (f_equal (@rev ascii)) in E. rewrite rev_involutive in E. cbn [rev] in E. exists (unchars (rev l)). apply chars_inj. rewrite chars_app, chars_unchars. exact E.
  - intros [a' ->]. rewrite chars_app, rev_app_distr. cbn. auto.
Qed.
Lemma joined_iff : forall a b p, joined a b p <-> p = path_join a b.
Proof.
  intros a b p. unfold path_join. split.
  - intros [a0 b0 | a0 b0 N | b0 N | a0 b0 N N1 N2].
    + replace (starts_with_slash ("/" ++ b0)) with true; auto.
    + replace (starts_with_slash b0) with false by (symmetry; apply not_true_is_false; rewrite starts_slash; intros [b' E]; eapply N; eauto).
      replace (ends_with_slash (a0 ++ "/")) with true by (symmetry; apply ends_slash; eauto). rewrite orb_true_r.
      apply chars_inj. rewrite !chars_app, <- app_assoc. auto.
    + replace (starts_with_slash b0) with false by (symmetry; apply not_true_is_false; rewrite starts_slash; intros [b' E]; eapply N; eauto). auto.
    + replace (starts_with_slash b0) with false by (symmetry; apply not_true_is_false; rewrite starts_slash; intros [b' E]; eapply N; eauto).
      replace (ends_with_slash a0) with false by (symmetry; apply not_true_is_false; rewrite ends_slash; intros [b' E]; eapply N2; eauto).
      apply seqb_neq in N1. unfold seqb. rewrite N1. auto.
  - intros ->. destruct (starts_with_slash b) eqn:Eb.
    + apply starts_slash in Eb as [b' ->]. constructor.
    + assert (N : forall b', b <> "/" ++ b') by (intros b' E; assert (starts_with_slash b = true) by (apply starts_slash; eauto); congruence).
      destruct (seqb a "") eqn:Ea; [apply seqb_eq in Ea; subst a; apply join_empty; auto | ]. cbn [orb].
      destruct (ends_with_slash a) eqn:Es.
      * apply ends_slash in Es as [a' ->]. replace ((a' ++ "/") ++ b) with (a' ++ "/" ++ b); [apply join_slash; auto | ]. apply chars_inj. rewrite !chars_app, <- app_assoc. auto.
      * apply join_plain; auto. { apply seqb_neq. auto. } intros a' E. assert (ends_with_slash a = true) by (apply ends_slash; eauto). congruence.
Qed.

(** ** On loading *)
Section Entries.
  Variables (d : anim_data) (v : val).
  Definition entry_at (sl i : string) (r : imgref) : Prop :=
    exists f x, v = VStr f /\ im_path r = path_join f i /\ get_slot_custom_scale d (get_slot d sl) = Ok x /\ im_scale r = if feqb x f_one then None else Some x.
  Definition last_in (us : list (string * (string * obj))) (i sl : string) : Prop :=
    exists l1 ko l2, us = (l1 ++ (sl, ko) :: l2)%list /\ uses_image i (sl, ko) /\ forall u, In u l2 -> ~ uses_image i u.
  Definition entries (us : list (string * (string * obj))) (paths : dict imgref) : Prop :=
    forall i r, dget i paths = Some r <-> exists sl, last_in us i sl /\ entry_at sl i r.

  Lemma last_in_snoc : forall us u i sl, last_in (us ++ [u])%list i sl <-> (uses_image i u /\ sl = fst u) \/ (~ uses_image i u /\ last_in us i sl).
  Proof.
    intros us u i sl. split.
    - intros (l1 & ko & l2 & E & H1 & H2). assert (K : l2 = [] \/ exists l3 w, l2 = (l3 ++ [w])%list) by (destruct l2 as [ | y l2]; [auto | right; destruct (exists_last (l := y :: l2)) as (l3 & w & K); [discriminate | eauto]]).
      destruct K as [-> | (l3 & w & ->)].
      + apply app_inj_tail in E as [-> ->]. left. auto.
      + rewrite app_comm_cons, app_assoc in E. apply app_inj_tail in E as [-> <-]. right. split.
        * apply H2. apply in_app_iff. right. left. auto.
        * exists l1, ko, l3. repeat (split; auto). intros w Hw. apply H2. apply in_app_iff. auto.
    - intros [[H ->] | [N (l1 & ko & l2 & -> & H1 & H2)]].
      + destruct u as [sl ko]. exists us, ko, []. repeat (split; auto).
      + exists l1, ko, (l2 ++ [u])%list. split; [rewrite <- app_assoc; auto | ]. split; auto. intros w Hw. apply in_app_iff in Hw as [Hw | [<- | []]]; auto.
  Qed.
  Lemma add_image_ok : forall x paths k o r, add_image v x paths (k, o) = Ok r ->
    (o_cls o = CSkinPath /\ r = paths) \/
    (o_cls o <> CSkinPath /\ exists f, v = VStr f /\ r = dset (att_image k o) (mkImg (path_join f (att_image k o)) (if feqb x f_one then None else Some x)) paths).
  Proof.
    intros x paths k o r E. unfold add_image in E. rewrite relative_path in E.
    destruct (o_cls o); try (left; split; [auto | congruence]); right; (split; [discriminate | ]);
      (destruct (negb _); [discriminate | ]); (destruct v as [ | | | | s | | ]; try discriminate); exists s; split; auto; congruence.
  Qed.
  Lemma entry_step : forall us paths sl k o x r, get_slot_custom_scale d (get_slot d sl) = Ok x -> add_image v x paths (k, o) = Ok r ->
    entries us paths -> entries (us ++ [(sl, (k, o))])%list r.
  Proof.
    intros us paths sl k o x r Ex E I i q. apply add_image_ok in E as [[Ec ->] | (Ec & f & Ev & ->)].
    - rewrite (I i q). split; intros (s & L & En); exists s; (split; [ | auto]).
      + apply last_in_snoc. right. split; [intros [C _]; contradiction | auto].
      + apply last_in_snoc in L as [[[C _] _] | [_ L]]; [contradiction | auto].
    - rewrite dget_dset. destruct (String.eqb i (att_image k o)) eqn:Ei.
      + apply String.eqb_eq in Ei. assert (U : uses_image i (sl, (k, o))) by (split; auto). split.
        * intros Eq. injection Eq as <-. exists sl. split; [apply last_in_snoc; auto | ]. exists f, x. subst i. auto.
        * intros (s & L & f' & x' & Ev' & E1 & E2 & E3). apply last_in_snoc in L as [[_ ->] | [N _]]; [ | contradiction]. cbn [fst] in E2.
          assert (x' = x) as -> by congruence. assert (f' = f) as -> by congruence. destruct q as [p sc]. cbn [im_path im_scale] in E1, E3. subst p sc i. auto.
      + apply String.eqb_neq in Ei. rewrite (I i q). split; intros (s & L & En); exists s; (split; [ | auto]).
        * apply last_in_snoc. right. split; auto. intros [_ C]. cbn [fst snd] in C. congruence.
        * apply last_in_snoc in L as [[[_ C] _] | [_ L]]; auto. cbn [fst snd] in C. congruence.
  Qed.
  Lemma entries_fold : forall A (f : dict imgref -> A -> res (dict imgref)) (g : A -> list (string * (string * obj))) l us acc r,
    (forall us acc x r, f acc x = Ok r -> entries us acc -> entries (us ++ g x)%list r) ->
    foldM f acc l = Ok r -> entries us acc -> entries (us ++ flat_map g l)%list r.
  Proof.
    intros A f g l. induction l as [ | x l IH]; intros us acc r H E I; cbn [foldM flat_map] in *.
    - injection E as <-. rewrite app_nil_r. auto.
    - apply bind_ok in E as (acc' & E1 & E2). rewrite app_assoc. eapply IH; eauto.
  Qed.
End Entries.
Lemma entries_loaded : forall x l, get_images_references x = Ok l ->
  entries (doc_data x) (match dget "images" (doc_skeleton x) with Some v => v | None => VStr "./images/" end) (uses (doc_data x)) l.
Proof.
  intros x l E. unfold get_images_references in E. unfold uses. set (v := match dget "images" _ with Some v => v | None => _ end) in *. clearbody v.
  change (flat_map _ (d_skins (doc_data x))) with ([] ++ flat_map (fun s => flat_map (fun kv => map (fun ko => (fst kv, ko)) (snd kv)) (sk_atts s)) (d_skins (doc_data x)))%list.
  eapply entries_fold; [ | exact E | ].
  - clear E. intros us acc s r E I. destruct (ver_ge _ _); [ | discriminate]. eapply entries_fold; [ | exact E | exact I].
    clear. intros us acc [sl m] r E I. cbn [fst snd]. unfold add_slot_images in E. cbn [fst snd] in E. apply bind_ok in E as (sc & Ex & E).
    assert (Em : map (fun ko => (sl, ko)) m = flat_map (fun ko => [(sl, ko)]) m) by (clear; induction m as [ | ko m IH]; cbn; [auto | rewrite IH; auto]).
    rewrite Em. eapply entries_fold; [ | exact E | exact I]. clear - Ex. intros us acc [k o] r E I. eapply entry_step; eauto.
  - intros i r. cbn. split; [discriminate | ]. intros (s & (l1 & ko & l2 & C & _) & _). destruct l1; discriminate.
Qed.
Theorem entry_loaded : forall e i r, loaded e -> (dget i (e_images e) = Some r <-> exists sl, last_use (e_data e) i sl /\ entry_of e i sl r).
Proof.
  intros e i r (j & _ & Hj). apply mk_editor_inv in Hj as (_ & Hj & _). apply entries_loaded in Hj. rewrite (Hj i r).
  split; intros (sl & L & H); exists sl; (split; [exact L | ]); unfold entry_of, entry_at, images_folder, e_data in *.
  - destruct H as (f & x & Ev & Ep & Ex & Es). destruct (get_slot (doc_data (e_doc e)) sl) as [s | ] eqn:Eg; [ | discriminate].
    exists f, s, x. split; [ | split; [apply joined_iff; auto | split; [apply first_named_find; auto | split; [apply slot_scale; auto | auto]]]].
    destruct (dget "images" _); [left; congruence | right; split; [auto | congruence]].
  - destruct H as (f & s & x & Ev & Ep & Es & Ex & E). apply first_named_find in Es. exists f, x. split; [ | split; [apply joined_iff; auto | split; [ | auto]]].
    + destruct Ev as [-> | [-> ->]]; auto.
    + unfold get_slot. rewrite Es. apply slot_scale. auto.
Qed.

(** ** Later *)
Theorem entries_kept : forall e0 ops e, history e0 ops e -> exists keep, e_images e = filter (fun kv => keep (fst kv)) (e_images e0).
Proof.
  intros e0 ops e H. destruct (last_built_ex _ _ _ H) as [eb B].
  apply (history_all e0 (fun e _ _ _ => exists keep, e_images e = filter (fun kv => keep (fst kv)) (e_images e0))) in B as (ss & S & I & K); auto.
  - intros _. exists (fun _ => true). clear. induction (e_images e0) as [ | x l IH]; cbn; [auto | rewrite <- IH; auto].
  - clear. intros e bs ss is o e1 bs1 ss1 is1 e2 ss2 S I K Q S1 I1 M.
    assert (K1 : exists keep, e_images e1 = filter (fun kv => keep (fst kv)) (e_images e0)) by (destruct Q; exact K).
    assert (K2 : exists keep, e_images e2 = filter (fun kv => keep (fst kv)) (e_images e0)).
    { destruct M as [ | enum e2 inv atts leafs orphans imgs rem Oo C]; auto. rewrite (co_images _ _ _ _ _ _ _ _ _ _ _ _ C). destruct K1 as [keep ->].
      unfold drop_images. exists (fun n => keep n && negb (omem (Some n) (map Some (map img_base imgs))))%bool. rewrite filter_filter. reflexivity. }
    destruct o as [l | ]; cbn [post]; auto. destruct K2 as [keep K2]. unfold without_images. cbn [e_images]. rewrite K2.
    exists (fun n => keep n && negb (omem (Some n) l))%bool. rewrite filter_filter. reflexivity.
Qed.
Lemma dget_filter_key : forall A (keep : string -> bool) (l : dict A) i, dget i (filter (fun kv => keep (fst kv)) l) = if keep i then dget i l else None.
Proof.
  intros A keep l i. induction l as [ | [k x] l IH]; cbn [filter fst]; [destruct (keep i); auto | ].
  destruct (keep k) eqn:Ek; cbn [dget].
  - destruct (String.eqb i k) eqn:E; [apply String.eqb_eq in E; subst k; rewrite Ek; auto | auto].
  - destruct (String.eqb i k) eqn:E; [apply String.eqb_eq in E; subst k; rewrite Ek in *; auto | auto].
Qed.
(** The entry of an image never changes. *)
Theorem entry_later : forall e0 ops e i r, history e0 ops e -> dget i (e_images e) = Some r ->
  exists sl, last_use (e_data e0) i sl /\ entry_of e0 i sl r.
Proof.
  intros e0 ops e i r H E. destruct (entries_kept _ _ _ H) as [keep K]. rewrite K, dget_filter_key in E. destruct (keep i); [ | discriminate].
  apply entry_loaded; auto. clear - H. induction H; auto.
Qed.
(** In a tidy document: exactly the entries of the images in use, as on loading. *)
Theorem entry_tidy : forall e0 ops e i r, tidy (e_data e0) -> history e0 ops e ->
  (dget i (e_images e) = Some r <-> image_in_use (e_data e) i /\ exists sl, last_use (e_data e0) i sl /\ entry_of e0 i sl r).
Proof.
  intros e0 ops e i r T H. rewrite <- (images_exact _ _ _ T H). assert (L : loaded e0) by (clear - H; induction H; auto). rewrite <- entry_loaded by auto.
  destruct (entries_kept _ _ _ H) as [keep K]. rewrite K at 1. rewrite dget_filter_key. split.
  - intros E. destruct (keep i) eqn:Ek; [ | discriminate]. split; auto. apply (dget_in_keys i (e_images e) r). rewrite K, dget_filter_key, Ek. auto.
  - intros [Hi E]. rewrite K in Hi. unfold dkeys in Hi. apply in_map_iff in Hi as ([k x] & <- & Hx). apply filter_In in Hx as [_ Hx]. cbn [fst] in *. rewrite Hx. auto.
Qed.

(** ** The outcome of a safe erase_skins, for any result *)
Theorem safe_outcome : forall e0 ops e enum l e' r, history e0 ops e -> erase_skins enum l true e = (e', r) ->
  doc_skeleton (e_doc e') = doc_skeleton (e_doc e) /\ e_ver e' = e_ver e /\
  ((exists ss imgs, r = Ok (([], []), imgs) /\ erased l (e_data e) (e_data e') ss /\
      (forall x, In x imgs <-> (exists s, In s ss /\ image_of_skin s x) /\ ~ image_left (e_data e') (shown_image x)) /\
      exists keep, e_images e' = filter (fun kv => keep (fst kv)) (e_images e) /\ forall i, keep i = true <-> ~ In (Some i) imgs) \/
   (exists l1 n l2 d1 ss, l = (l1 ++ n :: l2)%list /\ erased l1 (e_data e) d1 ss /\ e_images e' = e_images e /\
      (((forall s, In s (d_skins d1) -> sk_name s <> Some n) /\ e_data e' = d1 /\ exists w, r = Err (EEditor w)) \/
       (exists s k, first_skin d1 n s /\ ~ has_source d1 n s /\ r = Err (EKey k))))).
Proof.
  intros e0 ops e enum l e' r H E.
  destruct (erase_safe _ _ _ enum l H) as [(d' & ss & g & imgs & R & Eq & Hx) | (l1 & n & l2 & d1 & ss & El & R & [(N & w & Eq) | (s & d2 & k & F & S & Eq)])];
    rewrite Eq in E; injection E as <- <-; (split; [reflexivity | split; [reflexivity | ]]).
  - left. exists ss, imgs. split; [auto | ]. split; [exact R | ]. split; [exact Hx | ]. exists (fun i => negb (omem (Some i) imgs)). split; [reflexivity | ].
    intros i. rewrite negb_true_iff, <- not_true_iff_false, omem_in. reflexivity.
  - right. exists l1, n, l2, d1, ss. split; [auto | ]. split; [auto | ]. split; [reflexivity | ]. left. split; [auto | ]. split; [reflexivity | eauto].
  - right. exists l1, n, l2, d1, ss. split; [auto | ]. split; [auto | ]. split; [reflexivity | ]. right. exists s, k. auto.
Qed.
Theorem unlinked_outcome : forall e0 ops e enum l e' r, history e0 ops e -> no_links l (e_data e) -> erase_skins enum l true e = (e', r) ->
  ((exists imgs, r = Ok (([], []), imgs)) <-> NoDup l /\ forall n, In n l -> In (Some n) (map sk_name (d_skins (e_data e)))) /\
  (forall rep, r = Ok rep -> same_rest (e_data e) (e_data e') /\
     d_skins (e_data e') = filter (fun s => negb (named_in l s)) (d_skins (e_data e)) /\
     Forall2 (fun x y => fst y = fst x /\
       an_ik (snd y) = an_ik (snd x) /\ an_drawOrder (snd y) = an_drawOrder (snd x) /\ an_bones (snd y) = an_bones (snd x) /\
       an_slots (snd y) = an_slots (snd x) /\ an_events (snd y) = an_events (snd x) /\ an_transform (snd y) = an_transform (snd x) /\
       an_path (snd y) = an_path (snd x) /\ an_deform (snd y) = filter (fun kv => negb (smem (fst kv) l)) (an_deform (snd x)))
     (d_animations (e_data e)) (d_animations (e_data e'))) /\
  (forall x, r = Err x -> exists w, x = EEditor w).
Proof.
  intros e0 ops e enum l e' r H N E. destruct (erase_unlinked _ _ _ enum l H N) as [P Q].
  assert (D : NoDup l /\ (forall n, In n l -> In (Some n) (map sk_name (d_skins (e_data e)))) \/
              ~ (NoDup l /\ (forall n, In n l -> In (Some n) (map sk_name (d_skins (e_data e)))))).
  { assert (Os : forall a b : option string, {a = b} + {a <> b}) by (decide equality; apply string_dec).
    destruct (ListDec.NoDup_dec string_dec l) as [N1 | N1]; [ | tauto].
    destruct (Forall_dec (fun n => In (Some n) (map sk_name (d_skins (e_data e)))) (fun n => in_dec Os (Some n) _) l) as [F | F]; rewrite Forall_forall in F; tauto. }
  destruct D as [D | D].
  - destruct (P D) as (d' & imgs & g & Eq & R1 & R2 & R3). rewrite Eq in E. injection E as <- <-. split; [split; eauto | ]. split; [ | discriminate].
    intros rep _. split; [exact R1 | ]. split; [exact R2 | exact R3].
  - destruct (Q D) as (e1 & w & Eq). rewrite Eq in E. injection E as <- <-. split; [split; [intros [imgs C]; discriminate | tauto] | ].
    split; [discriminate | ]. intros x C. injection C as <-. eauto.
Qed.
