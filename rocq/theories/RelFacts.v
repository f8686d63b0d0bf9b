(** Proofs about calls made in another order, in parts, or with nothing to do. *)
From Verif Require Import PyBase PyFacts Json Version Graph SpecGraph Classes ClassFacts DocFacts SpineGraph SpecSpine SpineFacts BuildFacts BuildTotal
  DrawOrder AnimData AnimFacts Editor SpecAnim SkinFacts SpecEditor EditorGraph EditorData EditorBuild EditorClean EditorOut EditorHist EditorFacts EditorKeep EditorScale
  SpecErase EditorErase EditorImages EditorRemoved EditorOrder EditorEntries SpecReload EditorReload SpecDoc.
Open Scope string_scope.

(** ** Fewer animations *)
Definition fewer (d d' : anim_data) : Prop :=
  d_slots d' = d_slots d /\ d_skins d' = d_skins d /\ forall a, in_animations d' a -> in_animations d a.
Lemma fewer_used_slot : forall d d' s, fewer d d' -> used_slot d' s -> used_slot d s.
Proof. intros d d' s (_ & _ & H) (a & Ha & V). exists a. auto. Qed.
Lemma fewer_used_att : forall d d' n, fewer d d' -> used_attachment d' n -> used_attachment d n.
Proof. intros d d' n (E & _ & H) (a & s & Ha & Hs & V). rewrite E in Hs. exists a, s. auto. Qed.
Lemma fewer_att : forall d d' sl k o, fewer d d' -> (skin_attachment d' sl k o <-> skin_attachment d sl k o).
Proof. intros d d' sl k o (_ & E & _). unfold skin_attachment. rewrite E. reflexivity. Qed.
Lemma fewer_analysable : forall d d', fewer d d' -> analysable d -> analysable d'.
Proof.
  intros d d' (E & _ & H) [A B]. unfold analysable. rewrite E. split; [auto | ]. intros a Ha. apply B. auto.
Qed.
Lemma fewer_not_erased : forall l d, fewer d (not_erased l d).
Proof. intros l d. split; [reflexivity | ]. split; [reflexivity | ]. intros a [i Ha]. cbn in Ha. apply filter_In in Ha as [Ha _]. exists i. auto. Qed.
Lemma erase_animations_safe : forall enum l strict e e' r, erase_animations enum l strict true e = (e', r) ->
  e' = put_data e (not_erased l (e_data e)).
Proof.
  intros enum l strict e e' r H. unfold erase_animations, mbind, on_data, mret, mget in H.
  destruct (erase_raw_animations_data l strict (e_data e)) as [d x] eqn:E. apply erase_raw_data in E. subst d. fold (not_erased l (e_data e)) in H.
  destruct x as [u | x]; injection H as <- _; reflexivity.
Qed.
Lemma history_distinct : forall e0 ops e, history e0 ops e -> distinct_slots (e_data e) /\ distinct_timelines (e_data e).
Proof.
  intros e0 ops e H. destruct (last_built_ex _ _ _ H) as [eb B]. destruct (history_state _ _ _ _ B) as (ss & [D S]).
  split; [eapply sync_distinct_slots; eauto | eapply dinv_timelines; eauto].
Qed.
Lemma distinct_not_erased : forall l d, distinct_slots d -> distinct_timelines d -> distinct_slots (not_erased l d) /\ distinct_timelines (not_erased l d).
Proof. intros l d A B. split; [exact A | ]. intros a Ha. apply B. apply (fewer_not_erased l d). auto. Qed.
Theorem erase_grows : forall e0 ops e enum l strict e' r slots atts, history e0 ops e -> erase_animations enum l strict true e = (e', r) ->
  get_unused_slots_and_attachments (e_data e) = Ok (slots, atts) ->
  exists slots' atts', get_unused_slots_and_attachments (e_data e') = Ok (slots', atts') /\ incl slots slots' /\ incl atts atts'.
Proof.
  intros e0 ops e enum l strict e' r slots atts H E U. apply erase_animations_safe in E. subst e'. cbn [e_data e_doc put_data with_data doc_data].
  destruct (history_distinct _ _ _ H) as [D1 D2]. destruct (distinct_not_erased l _ D1 D2) as [D3 D4]. pose proof (fewer_not_erased l (e_data e)) as F.
  assert (A : analysable (e_data e)) by (apply unused_total; eauto).
  destruct (proj2 (unused_total _ D3 D4) (fewer_analysable _ _ F A)) as [[slots' atts'] U']. exists slots', atts'. split; [auto | ].
  destruct (unused_spec _ _ _ D1 D2 U) as [S1 S2]. destruct (unused_spec _ _ _ D3 D4 U') as [S3 S4].
  assert (I : incl slots slots').
  { intros n Hn. apply S1 in Hn as (s & Hs & En & N). apply S3. exists s. split; [exact Hs | ]. split; [auto | ]. intros C. apply N. eapply fewer_used_slot; eauto. }
  split; [auto | ]. intros n Hn. apply S2 in Hn as (N & sl & o & Ho & M). apply S4. split; [intros C; apply N; eapply fewer_used_att; eauto | ].
  exists sl, o. split; [apply (fewer_att _ _ _ _ _ F); auto | ]. auto.
Qed.
Theorem clean_grows : forall e0 ops e enum enum' l strict e1 rem atts e2 j rem' atts', plain_slots (e_data e0) -> history e0 ops e -> order_ok enum -> order_ok enum' ->
  clean_animation enum e = (e1, Ok (rem, atts)) -> erase_animations enum' l strict false e = (e2, Ok (j, (rem', atts'))) ->
  incl rem rem' /\ incl atts atts'.
Proof.
  intros e0 ops e enum enum' l strict e1 rem atts e2 j rem' atts' Pl H O O' C E. pose proof (animations_then_clean e enum' l strict) as X.
  destruct (erase_animations enum' l strict true e) as [em [q | x]] eqn:Em; [ | rewrite X in E; discriminate].
  destruct (clean_animation enum' em) as [e3 [rep | x]] eqn:C'; rewrite X in E; [ | discriminate]. injection E as -> _ ->.
  assert (Hm : history e0 (EoEraseAnimations enum' l strict true :: ops) em) by (econstructor; eauto; cbn [estep]; rewrite Em; auto).
  destruct (clean_removed _ _ _ _ _ _ _ Pl H O C) as [R1 R2]. destruct (clean_removed _ _ _ _ _ _ _ Pl Hm O' C') as [R3 R4].
  destruct (clean_removed_attachments _ _ _ _ _ _ _ H O C) as [A1 _]. destruct (clean_removed_attachments _ _ _ _ _ _ _ Hm O' C') as [A3 _].
  apply erase_animations_safe in Em. subst em. cbn [e_data e_doc put_data with_data doc_data] in *. pose proof (fewer_not_erased l (e_data e)) as F.
  assert (I : incl atts atts').
  { intros n Hn. apply A1 in Hn as (N & sl & o & Ho & M). apply A3. split; [intros X1; apply N; eapply fewer_used_att; eauto | ].
    exists sl, o. split; [apply (fewer_att _ _ _ _ _ F); auto | ]. intros X1. destruct (M X1) as (s & Hs & En & Nu). exists s. split; [exact Hs | ]. split; [auto | ].
    intros U. apply Nu. eapply fewer_used_slot; eauto. }
  split; [ | auto]. intros n Hn. pose proof (R2 n Hn) as Hi. apply in_map_iff in Hi as (s & <- & Hs). apply (R1 s Hs) in Hn. apply (R3 s Hs).
  destruct Hn as [Hn | Hn]; [left; intros U; apply Hn; eapply fewer_used_slot; eauto | right]. intros k o Ho. apply I. apply (Hn k o). apply (fewer_att _ _ _ _ _ F). auto.
Qed.

(** ** No animations left *)
Lemma history_filed_atts : forall e0 ops e, history e0 ops e -> skins_ok (e_data e).
Proof.
  intros e0 ops e H. destruct (last_built_ex _ _ _ H) as [eb B]. destruct (history_state _ _ _ _ B) as (ss & [D S]). eapply sync_skins; eauto.
Qed.
Theorem no_animations : forall e0 ops e enum e' rem atts, plain_slots (e_data e0) -> history e0 ops e -> order_ok enum ->
  d_animations (e_data e) = [] -> clean_animation enum e = (e', Ok (rem, atts)) ->
  d_slots (e_data e') = [] /\ (forall sl k o, ~ skin_attachment (e_data e') sl k o) /\ exists x, mk_editor (editor_json e') = Err x.
Proof.
  intros e0 ops e enum e' rem atts Pl H O An C.
  assert (U : forall s, ~ used_slot (e_data e) s) by (intros s (a & [i Ha] & _); rewrite An in Ha; destruct Ha).
  assert (Ua : forall n, ~ used_attachment (e_data e) n) by (intros s (a & x & [i Ha] & _); rewrite An in Ha; destruct Ha).
  assert (Sl : d_slots (e_data e') = []).
  { pose proof (clean_slot_list _ _ _ _ _ _ _ Pl H O C) as E. destruct (clean_removed _ _ _ _ _ _ _ Pl H O C) as [R _].
    destruct (d_slots (e_data e')) as [ | s l] eqn:Es; [auto | ]. cbn [map] in E.
    assert (Hi : In (slot_name s) (without rem (map slot_name (d_slots (e_data e))))) by (rewrite <- E; left; auto).
    apply in_without in Hi as [Hi N]. apply in_map_iff in Hi as (s0 & E0 & H0). destruct N. rewrite <- E0. apply (R s0 H0). left. apply U. }
  split; [auto | ]. split.
  - destruct (clean_removed_attachments _ _ _ _ _ _ _ H O C) as [A B]. intros sl k o Ho. apply B in Ho as (Ho & _ & N). apply N. apply A. split; [apply Ua | ].
    exists sl, o. split; [auto | ]. intros _. pose proof (history_filed_atts _ _ _ H _ _ _ Ho) as Hs. apply in_map_iff in Hs as (s & Es & Hs). exists s. auto.
  - destruct (mk_editor (editor_json e')) as [e2 | x] eqn:M; [ | eauto]. exfalso.
    assert (H' : history e0 (EoClean enum :: ops) e') by (econstructor; eauto; cbn [estep]; rewrite C; auto).
    assert (R : can_reload (e_data e')) by (apply (reload_iff e0 _ e' H'); eauto). apply (cr_slots _ R). auto.
Qed.
Theorem all_erased : forall e0 ops e enum l strict e' r, plain_slots (e_data e0) -> history e0 ops e -> order_ok enum ->
  (forall n, In n (dkeys (d_animations (e_data e))) -> In n l) -> erase_animations enum l strict false e = (e', Ok r) ->
  d_slots (e_data e') = [] /\ (forall sl k o, ~ skin_attachment (e_data e') sl k o) /\ exists x, mk_editor (editor_json e') = Err x.
Proof.
  intros e0 ops e enum l strict e' r Pl H O K E. pose proof (animations_then_clean e enum l strict) as X.
  destruct (erase_animations enum l strict true e) as [em [q | x]] eqn:Em; [ | rewrite X in E; discriminate].
  destruct (clean_animation enum em) as [e3 [rep | x]] eqn:C'; rewrite X in E; [ | discriminate]. injection E as -> _. destruct rep as [rem atts].
  assert (Hm : history e0 (EoEraseAnimations enum l strict true :: ops) em) by (econstructor; eauto; cbn [estep]; rewrite Em; auto).
  eapply no_animations; eauto. apply erase_animations_safe in Em. subst em. cbn. apply filter_none. intros [k a] Ha. cbn [fst].
  apply negb_false_iff. apply smem_in. apply K. apply (in_map fst) in Ha. exact Ha.
Qed.

(** ** What the graph is built from *)
Lemma mforeach_ext : forall S A B (f g : A -> M S B) l, (forall x s, f x s = g x s) -> forall s, mforeach f l s = mforeach g l s.
Proof.
  intros S A B f g l H. induction l as [ | x l IH]; intros s; cbn [mforeach]; [auto | ]. unfold mbind. rewrite H. destruct (g x s) as [s1 [y | e]]; [ | auto]. rewrite IH. auto.
Qed.
Lemma build_ext : forall d d', dget "bones" d' = dget "bones" d -> dget "slots" d' = dget "slots" d -> dget "skins" d' = dget "skins" d -> dget "ik" d' = dget "ik" d ->
  create_from_json_data (VDict d') = create_from_json_data (VDict d).
Proof.
  intros d d' E1 E2 E3 E4. unfold create_from_json_data. assert (X : build_graph_m d' new_graph = build_graph_m d new_graph); [ | rewrite X; auto].
  assert (F : forall x s, add_slot_and_attachments d' x s = add_slot_and_attachments d x s).
  { intros [i v] s. unfold add_slot_and_attachments, dget_err. rewrite E3. reflexivity. }
  unfold build_graph_m, dget_err. rewrite E1, E2, E4. unfold mbind.
  repeat (match goal with |- (let '(_, _) := ?X in _) = (let '(_, _) := ?X in _) => destruct X as [? [? | ?]]; [ | reflexivity] end).
  rewrite (mforeach_ext _ _ _ _ _ _ F). auto.
Qed.
Lemma dget_data : forall x k, k <> "skeleton" -> dget k (doc_dict x) =
  match dget k (data_attrs (doc_version x) (doc_data x)) with
  | Some v => if exported (default_values CAnimData (doc_version x)) k v then Some v else None
  | None => None end.
Proof.
  intros x k H. rewrite get_data_json by auto. unfold data_json. rewrite dget_export by apply data_attrs_NoDup.
  destruct (dget k _) as [v | ]; auto.
Qed.
Lemma graph_ext : forall x x', doc_version x' = doc_version x -> d_bones (doc_data x') = d_bones (doc_data x) -> d_slots (doc_data x') = d_slots (doc_data x) ->
  d_skins (doc_data x') = d_skins (doc_data x) -> d_ik (doc_data x') = d_ik (doc_data x) ->
  create_from_json_data (document_json x') = create_from_json_data (document_json x).
Proof.
  intros x x' Ev E1 E2 E3 E4. rewrite !document_json_dict. apply build_ext; rewrite !dget_data by discriminate; rewrite Ev; cbn [data_attrs dget String.eqb Ascii.eqb Bool.eqb];
    rewrite ?E1, ?E2, ?E3, ?E4; reflexivity.
Qed.

(** ** Erasing animations and erasing skins *)
Lemma remove_skin_not_erased : forall a n d, remove_skin n (not_erased a d) = (not_erased a (fst (remove_skin n d)), snd (remove_skin n d)).
Proof.
  intros a n d. unfold remove_skin. change (get_skin (not_erased a d) n) with (get_skin d n). change (d_skins (not_erased a d)) with (d_skins d).
  destruct (get_skin d n) as [s | ]; [ | reflexivity]. destruct (mapM_inplace (relink_skin n (sk_atts s)) (d_skins d)) as [skins [u | x]]; [ | reflexivity].
  cbn [fst snd]. f_equal. unfold not_erased, set_skins, set_animations. cbn. f_equal.
  unfold dmap. induction (d_animations d) as [ | [k x] l IH]; [reflexivity | ]. cbn [filter map fst snd]. destruct (negb (smem k a)); cbn [map fst snd]; rewrite IH; reflexivity.
Qed.
Definition strip (a : list string) (e : editor) : editor := put_data e (not_erased a (e_data e)).
Lemma foreach_strip : forall a l e, mforeach (fun n => on_data (remove_skin n)) l (strip a e) =
  (strip a (fst (mforeach (fun n => on_data (remove_skin n)) l e)), snd (mforeach (fun n => on_data (remove_skin n)) l e)).
Proof.
  intros a l. induction l as [ | n l IH]; intros e; [reflexivity | ]. cbn [mforeach]. unfold mbind.
  assert (X : on_data (remove_skin n) (strip a e) = (strip a (fst (on_data (remove_skin n) e)), snd (on_data (remove_skin n) e))).
  { unfold on_data. change (e_data (strip a e)) with (not_erased a (e_data e)). rewrite remove_skin_not_erased. destruct (remove_skin n (e_data e)) as [d r]. reflexivity. }
  rewrite X. destruct (on_data (remove_skin n) e) as [e1 [y | x]]; cbn [fst snd]; [ | auto]. rewrite IH.
  destruct (mforeach _ l e1) as [e2 [ys | x]]; reflexivity.
Qed.
Lemma erase_skins_strip : forall enum a l e, erase_skins enum l true (strip a e) = (strip a (fst (erase_skins enum l true e)), snd (erase_skins enum l true e)).
Proof.
  intros enum a l e. unfold erase_skins, mbind. rewrite foreach_strip. destruct (mforeach _ l e) as [e1 [rs | x]]; cbn [fst snd]; [ | auto].
  unfold mget, mlift. assert (G : create_from_json_data (document_json (e_doc (strip a e1))) = create_from_json_data (document_json (e_doc e1))) by (apply graph_ext; reflexivity).
  rewrite G. destruct (create_from_json_data (document_json (e_doc e1))) as [g | x]; reflexivity.
Qed.
Lemma raw_fold_keys : forall l (a a' : dict animation) nf, dkeys a' = dkeys a ->
  let f := fun acc n => let '(a, nf) := acc in if dmem n a then (ddel n a, nf) else (a, (nf ++ [n])%list) in
  snd (fold_left f l (a', nf)) = snd (fold_left f l (a, nf)) .
Proof.
  intros l. induction l as [ | n l IH]; intros a a' nf E f; [reflexivity | ]. cbn [fold_left].
  assert (M : dmem n a' = dmem n a).
  { destruct (dmem n a) eqn:Ea; destruct (dmem n a') eqn:Eb; auto; [apply dmem_in in Ea | apply dmem_in in Eb];
      [rewrite <- E in Ea; apply dmem_in in Ea | rewrite E in Eb; apply dmem_in in Eb]; congruence. }
  unfold f at 2 4. rewrite M. destruct (dmem n a); apply IH; auto. unfold ddel. clear - E. revert a E. unfold dkeys.
  induction a' as [ | [k x] a' IHa]; intros [ | [k' x'] a] E; try discriminate; auto. cbn in E. injection E as -> E. cbn. destruct (negb _); cbn; [f_equal | ]; auto.
Qed.
Lemma erase_raw_same : forall l strict d d2, dkeys (d_animations d2) = dkeys (d_animations d) ->
  snd (erase_raw_animations_data l strict d2) = snd (erase_raw_animations_data l strict d).
Proof.
  intros l strict d d2 E. unfold erase_raw_animations_data. pose proof (raw_fold_keys l _ _ [] E) as X. cbv zeta in X.
  destruct (fold_left _ l (d_animations d2, [])) as [a2 n2]. destruct (fold_left _ l (d_animations d, [])) as [a1 n1]. cbn [snd] in *. subst n2. reflexivity.
Qed.
Lemma erase_animations_run : forall enum l strict e, erase_animations enum l strict true e =
  (strip l e, let! _ := snd (erase_raw_animations_data l strict (e_data e)) in Ok (editor_json (strip l e), ([], []))).
Proof.
  intros enum l strict e. unfold erase_animations, mbind, on_data, mret, mget.
  destruct (erase_raw_animations_data l strict (e_data e)) as [d x] eqn:E. apply erase_raw_data in E. subst d. destruct x; reflexivity.
Qed.
Lemma foreach_keys : forall l e, dkeys (d_animations (e_data (fst (mforeach (fun n => on_data (remove_skin n)) l e)))) = dkeys (d_animations (e_data e)).
Proof.
  assert (X : forall n d, dkeys (d_animations (fst (remove_skin n d))) = dkeys (d_animations d)).
  { intros n d. unfold remove_skin. destruct (get_skin d n) as [s | ]; [ | auto]. destruct (mapM_inplace _ (d_skins d)) as [skins [u | x]]; [ | auto]. cbn. apply dkeys_dmap. }
  induction l as [ | n l IH]; intros e; [reflexivity | ]. cbn [mforeach]. unfold mbind. unfold on_data at 1. specialize (X n (e_data e)).
  destruct (remove_skin n (e_data e)) as [d [y | x]]; cbn [fst] in *; [ | exact X].
  match goal with |- context [mforeach ?f l ?e1] => specialize (IH e1); destruct (mforeach f l e1) as [e2 [ys | x]] end; cbn [fst mret] in *; rewrite IH; exact X.
Qed.
Lemma erase_skins_keys : forall enum l e, dkeys (d_animations (e_data (fst (erase_skins enum l true e)))) = dkeys (d_animations (e_data e)).
Proof.
  intros enum l e. pose proof (foreach_keys l e) as K. unfold erase_skins, mbind. destruct (mforeach _ l e) as [e1 [rs | x]]; cbn [fst] in *; [ | auto].
  unfold mget, mlift. destruct (create_from_json_data _); exact K.
Qed.
(** In either order: the same editor and the same reports, or the same error. *)
Theorem erase_commute : forall enum enum' l a strict e e1 r1 e2 r2,
  erase_animations enum a strict true e = (e1, r1) -> erase_skins enum' l true e = (e2, r2) ->
  exists e3 r3, erase_skins enum' l true e1 = (e3, r2) /\ erase_animations enum a strict true e2 = (e3, r3) /\
    (forall j, r1 = Ok (j, ([], [])) -> r3 = Ok (editor_json e3, ([], []))) /\ (forall x, r1 = Err x <-> r3 = Err x).
Proof.
  intros enum enum' l a strict e e1 r1 e2 r2 E1 E2. rewrite erase_animations_run in E1. injection E1 as <- <-.
  pose proof (erase_skins_keys enum' l e) as K. rewrite E2 in K. cbn [fst] in K. pose proof (erase_skins_strip enum' a l e) as S. rewrite E2 in S. cbn [fst snd] in S.
  exists (strip a e2). eexists. split; [exact S | ]. split; [apply erase_animations_run | ]. rewrite (erase_raw_same a strict _ _ K).
  destruct (snd (erase_raw_animations_data a strict (e_data e))) as [u | x]; cbn; split; intros; try discriminate; auto; split; intros; congruence.
Qed.

(** ** In one call or in two *)
Lemma raw_fold_nf : forall l (a : dict animation) nf, let f := fun acc n => let '(a, nf) := acc in if dmem n a then (ddel n a, nf) else (a, (nf ++ [n])%list) in
  fold_left f l (a, nf) = (fst (fold_left f l (a, [])), (nf ++ snd (fold_left f l (a, [])))%list).
Proof.
  intros l. induction l as [ | n l IH]; intros a nf f; [cbn; rewrite app_nil_r; auto | ]. cbn [fold_left]. unfold f at 2 4 6.
  destruct (dmem n a); [apply IH | ]. pose proof (IH a (nf ++ [n])%list) as X. pose proof (IH a ([] ++ [n])%list) as Y. cbv zeta in X, Y. fold f in X, Y.
  rewrite X. rewrite Y. cbn [fst snd app]. rewrite <- app_assoc. reflexivity.
Qed.
Lemma erase_raw_app : forall l1 l2 strict d, erase_raw_animations_data (l1 ++ l2) strict d =
  (not_erased l2 (not_erased l1 d), let! _ := snd (erase_raw_animations_data l1 strict d) in snd (erase_raw_animations_data l2 strict (not_erased l1 d))).
Proof.
  intros l1 l2 strict d. destruct (erase_raw_animations_data (l1 ++ l2) strict d) as [d' r] eqn:E. pose proof (erase_raw_data _ _ _ _ _ E) as Ed. f_equal.
  - rewrite Ed. unfold not_erased, set_animations. cbn. f_equal. rewrite EditorErase.filter_filter. apply filter_ext. intros x. rewrite smem_app, negb_orb. reflexivity.
  - clear Ed. unfold erase_raw_animations_data in *. rewrite fold_left_app in E. cbn [d_animations not_erased set_animations].
    destruct (fold_left _ l1 (d_animations d, [])) as [a1 n1] eqn:F1. apply erase_raw_fold in F1 as A1. rewrite raw_fold_nf in E. rewrite <- A1. cbn [snd].
    destruct (fold_left _ l2 (a1, [])) as [a2 n2] eqn:F2. cbn [fst snd] in E. injection E as <- <-. destruct n1 as [ | x n1]; cbn [app]; [reflexivity | ]. destruct strict; [reflexivity | ]. destruct n2; reflexivity.
Qed.
Lemma strip_strip : forall l1 l2 e, strip l2 (strip l1 e) = strip (l1 ++ l2) e.
Proof.
  intros l1 l2 e. unfold strip, put_data. cbn. f_equal. unfold with_data. cbn. f_equal. unfold not_erased, set_animations. cbn. f_equal.
  rewrite EditorErase.filter_filter. apply filter_ext. intros x. rewrite smem_app, negb_orb. reflexivity.
Qed.
Theorem animations_in_parts : forall enum enum1 enum2 l1 l2 strict e e' r, erase_animations enum (l1 ++ l2) strict true e = (e', Ok r) <->
  exists e1 r1, erase_animations enum1 l1 strict true e = (e1, Ok r1) /\ erase_animations enum2 l2 strict true e1 = (e', Ok r).
Proof.
  intros enum enum1 enum2 l1 l2 strict e e' r. rewrite !erase_animations_run, erase_raw_app. cbn [snd].
  change (not_erased l1 (e_data e)) with (e_data (strip l1 e)). split.
  - intros E. destruct (snd (erase_raw_animations_data l1 strict (e_data e))) as [u | x]; [ | discriminate]. cbn [bind] in *. eexists _, _. split; [reflexivity | ].
    rewrite erase_animations_run, strip_strip. exact E.
  - intros (e1 & r1 & E1 & E2). destruct (snd (erase_raw_animations_data l1 strict (e_data e))) as [u | x]; [ | discriminate]. cbn [bind] in *. injection E1 as <- _.
    rewrite erase_animations_run, strip_strip in E2. exact E2.
Qed.
Lemma removal_app : forall l1 l2 d d2 rs, removal (l1 ++ l2) d d2 rs <->
  exists d1 rs1 rs2, removal l1 d d1 rs1 /\ removal l2 d1 d2 rs2 /\ rs = (rs1 ++ rs2)%list.
Proof.
  intros l1 l2. induction l1 as [ | n l1 IH]; intros d d2 rs; cbn [app].
  - split; [intros H; exists d, [], rs; split; [constructor | auto] | ]. intros (d1 & rs1 & rs2 & R1 & R2 & ->). inversion R1; subst. exact R2.
  - split.
    + intros H. inversion H as [ | ? ? ? da ? r rs' E R]; subst. apply IH in R as (d1 & rs1 & rs2 & R1 & R2 & ->). exists d1, (r :: rs1), rs2. split; [econstructor; eauto | auto].
    + intros (d1 & rs1 & rs2 & R1 & R2 & ->). inversion R1 as [ | ? ? ? da ? r rs' E R]; subst. cbn [app]. econstructor; [eauto | ]. apply IH. eauto 6.
Qed.
Lemma removal_foreach : forall l e d rs, removal l (e_data e) d rs -> mforeach (fun n => on_data (remove_skin n)) l e = (put_data e d, Ok rs).
Proof.
  intros l. induction l as [ | n l IH]; intros e d rs R; inversion R as [ | ? ? ? da ? r rs' E R']; subst; cbn [mforeach].
  - unfold put_data. rewrite with_data_same. destruct e; reflexivity.
  - unfold mbind. unfold on_data at 1. rewrite E. change (mkEditor _ (e_images e) (e_graph e)) with (put_data e da). rewrite (IH (put_data e da) d rs') by exact R'. reflexivity.
Qed.
Lemma image_left_desc : forall d d' i, desc d d' -> image_left d' i -> image_left d i.
Proof.
  intros d d' i H (sl & k & o & Ho & <-). destruct (H sl k o Ho) as (o0 & A & P & N & _). exists sl, k, o0. split; auto. apply att_image_same; congruence.
Qed.
(** What a safe erase of skins leaves *)
Lemma erase_skins_run : forall e0 ops e enum l d rs, history e0 ops e -> removal l (e_data e) d rs ->
  exists g imgs, create_from_json_data (document_json (with_data e d)) = Ok g /\
    erase_skins enum l true e = (mkEditor (with_data e d) (dropped imgs (e_images e)) g, Ok (([], []), imgs)) /\ desc (e_data e) d /\
    forall x, In x imgs <-> In x (erased_images rs) /\ ~ image_left d (shown_image x).
Proof.
  intros e0 ops e enum l d rs H R. destruct (erase_safe_run _ _ _ enum _ _ _ H R (removal_foreach _ _ _ _ R)) as (g & imgs & Eg & Ei & Run & _).
  destruct (last_built_ex _ _ _ H) as [eb B]. destruct (history_state _ _ _ _ B) as (ss0 & S). destruct (removal_facts _ _ _ _ _ R (proj1 S)) as (D1 & De & Sr & _).
  exists g, imgs. split; [auto | ]. split; [auto | ]. split; [auto | ]. intros x. subst imgs.
  unfold images_to_drop. rewrite filter_In.
  pose proof (st_rebuild _ _ _ _ _ _ _ _ S R Eg) as St.
  assert (Im : forall i, has g T_IMAGE i -> image_left d i).
  { intros i Hi. destruct (built_imgs (with_data e d) g i D1 Eg Hi) as (sl & k & o & Ho & ->). exists sl, k, o. auto. }
  pose proof (images_spec (mkEditor (with_data e d) (e_images e) g) g _ _ _ x St eq_refl Im) as Sp. unfold shown_image in *. rewrite Sp. reflexivity.
Qed.
Lemma erased_images_app : forall a b x, In x (erased_images (a ++ b)) <-> In x (erased_images a) \/ In x (erased_images b).
Proof. intros a b x. unfold erased_images. rewrite !flat_map_app, !in_app_iff. tauto. Qed.
Lemma dropped_incl : forall l1 l2 i, incl l1 l2 -> dropped l2 (dropped l1 i) = dropped l2 i.
Proof.
  intros l1 l2 i H. rewrite dropped_app. unfold dropped. apply filter_ext. intros [k x]. cbn [fst]. f_equal. rewrite omem_app.
  destruct (omem (Some k) l1) eqn:E; cbn; [ | auto]. apply omem_in in E. apply H in E. apply omem_in in E. auto.
Qed.
Lemma skins_step : forall e0 ops e enum l e' r, history e0 ops e -> order_ok enum -> erase_skins enum l true e = (e', Ok r) ->
  history e0 (EoEraseSkins enum l true :: ops) e'.
Proof. intros e0 ops e enum l e' r H O E. econstructor; eauto. cbn [estep]. rewrite E. auto. Qed.
Theorem skins_in_parts : forall e0 ops e enum enum1 enum2 l1 l2, history e0 ops e -> order_ok enum1 ->
  (forall e' r, erase_skins enum (l1 ++ l2) true e = (e', Ok r) ->
     exists e1 r1 e2 r2, erase_skins enum1 l1 true e = (e1, Ok r1) /\ erase_skins enum2 l2 true e1 = (e2, Ok r2) /\
       e_doc e2 = e_doc e' /\ e_graph e2 = e_graph e' /\ exists imgs, e_images e' = filter (fun kv => negb (smem (fst kv) imgs)) (e_images e2)) /\
  (forall e1 r1 e2 r2, erase_skins enum1 l1 true e = (e1, Ok r1) -> erase_skins enum2 l2 true e1 = (e2, Ok r2) ->
     exists e' r, erase_skins enum (l1 ++ l2) true e = (e', Ok r)).
Proof.
  intros e0 ops e enum enum1 enum2 l1 l2 H O1. split.
  - intros e' [[rem atts] imgs] E. pose proof E as E0. apply erase_skins_inv in E as (d2 & rs & g & e3 & R & _). apply removal_app in R as (d1 & rs1 & rs2 & R1 & R2 & Ers).
    destruct (erase_skins_run _ _ _ enum1 _ _ _ H R1) as (g1 & im1 & G1 & Run1 & De1 & I1).
    pose proof (skins_step _ _ _ _ _ _ _ H O1 Run1) as H1. eassert (R2' : removal l2 (e_data _) d2 rs2); [ | destruct (erase_skins_run _ _ _ enum2 _ _ _ H1 R2') as (g2 & im2 & G2 & Run2 & De2 & I2)]; [exact R2 | ].
    assert (R : removal (l1 ++ l2) (e_data e) d2 rs) by (apply removal_app; eauto 6).
    destruct (erase_skins_run _ _ _ enum _ _ _ H R) as (g3 & im3 & G3 & Run3 & De3 & I3). rewrite Run3 in E0. injection E0 as <- _ _ _.
    eexists _, _, _, _. split; [exact Run1 | ]. split; [exact Run2 | ]. cbn [e_doc e_graph e_images with_data] in *.
    assert (Eg : g2 = g3). { change (with_data _ d2) with (with_data e d2) in G2. congruence. }
    split; [reflexivity | ]. split; [auto | ].
    assert (Inc : incl (im1 ++ im2) im3).
    { intros x Hx. apply I3. rewrite Ers, erased_images_app. apply in_app_iff in Hx as [Hx | Hx].
      - apply I1 in Hx as [Hx N]. split; [auto | ]. intros L. apply N. eapply image_left_desc; [exact De2 | exact L].
      - apply I2 in Hx as [Hx N]. auto. }
    exists (flat_map (fun x => match x with Some i => [i] | None => [] end) im3). rewrite dropped_app.
    rewrite <- (dropped_incl _ _ (e_images e) Inc). unfold dropped at 1. apply filter_ext. intros [k x]. cbn [fst]. f_equal. apply eq_true_iff_eq. rewrite omem_in, smem_in, in_flat_map.
    split; [intros Hk; exists (Some k); split; [auto | left; auto] | ]. intros ([y | ] & Hy & Hk); [ | destruct Hk]. destruct Hk as [-> | []]. auto.
  - intros e1 [[rem1 atts1] im1] e2 [[rem2 atts2] im2] E1 E2. apply erase_skins_inv in E1 as X1. destruct X1 as (d1 & rs1 & g1 & e3 & R1 & _ & _ & -> & [(_ & -> & _) | (C & _)]); [ | discriminate].
    apply erase_skins_inv in E2 as (d2 & rs2 & g2 & e4 & R2 & _). cbn in R2.
    assert (R : removal (l1 ++ l2) (e_data e) d2 (rs1 ++ rs2)) by (apply removal_app; eauto 6). destruct (erase_skins_run _ _ _ enum _ _ _ H R) as (g3 & im3 & _ & Run & _). eauto.
Qed.

(** In a tidy document the images are the same too. *)
Theorem skins_in_parts_tidy : forall e0 ops e enum enum1 enum2 l1 l2 e' r e1 r1 e2 r2, tidy (e_data e0) -> history e0 ops e -> order_ok enum -> order_ok enum1 -> order_ok enum2 ->
  erase_skins enum (l1 ++ l2) true e = (e', Ok r) -> erase_skins enum1 l1 true e = (e1, Ok r1) -> erase_skins enum2 l2 true e1 = (e2, Ok r2) -> e2 = e'.
Proof.
  intros e0 ops e enum enum1 enum2 l1 l2 e' r e1 r1 e2 r2 T H O O1 O2 E E1 E2.
  destruct (skins_in_parts _ _ _ enum enum1 enum2 l1 l2 H O1) as [P _]. destruct (P _ _ E) as (f1 & s1 & f2 & s2 & F1 & F2 & D & G & imgs & I). rewrite E1 in F1. injection F1 as <- <-. rewrite E2 in F2. injection F2 as <- <-.
  pose proof (skins_step _ _ _ _ _ _ _ H O E) as H'. pose proof (skins_step _ _ _ _ _ _ _ (skins_step _ _ _ _ _ _ _ H O1 E1) O2 E2) as H2.
  assert (Ei : e_images e2 = e_images e').
  { rewrite I. symmetry. apply filter_all. intros [k x] Hk. cbn [fst].
    assert (Hk' : In k (dkeys (e_images e'))). { apply (images_exact _ _ _ T H'). unfold e_data. rewrite <- D. apply (images_exact _ _ _ T H2). apply in_map_iff. exists (k, x). auto. }
    rewrite I in Hk'. apply in_map_iff in Hk' as ([k' x'] & <- & Hf). apply filter_In in Hf as [_ Hf]. exact Hf. }
  destruct e2, e'. cbn in *. congruence.
Qed.

(** ** Erasing nothing *)
Lemma filter_yes : forall {A} (l : list A), filter (fun _ => true) l = l.
Proof. intros A l. induction l as [ | x l IH]; [reflexivity | ]. cbn. rewrite IH. reflexivity. Qed.
Theorem no_names : forall enum strict e, erase_animations enum [] strict true e = (e, Ok (editor_json e, ([], []))).
Proof.
  intros enum strict e. rewrite erase_animations_run. cbn. assert (X : strip [] e = e).
  { unfold strip, put_data, with_data, not_erased, set_animations. destruct e as [[sk v d] i g]. destruct d. cbn. rewrite filter_yes. reflexivity. }
  rewrite X. reflexivity.
Qed.
Theorem no_skin_names : forall e0 ops e enum, history e0 ops e -> exists g, create_from_json_data (editor_json e) = Ok g /\
  erase_skins enum [] true e = (mkEditor (e_doc e) (e_images e) g, Ok (([], []), [])) /\
  forall e', mk_editor (editor_json e) = Ok e' -> no_null_time (e_data e) \/ ver_ge (e_ver e) SPINE_3_8 = true -> e_graph e' = g.
Proof.
  intros e0 ops e enum H. assert (R : removal [] (e_data e) (e_data e) []) by constructor. destruct (erase_skins_run _ _ _ enum _ _ _ H R) as (g & imgs & G & Run & _ & I).
  rewrite with_data_same in *. assert (imgs = []) by (destruct imgs as [ | x imgs]; [auto | destruct (proj1 (I x) (or_introl eq_refl)) as [[] _]]). subst imgs.
  exists g. split; [exact G | ]. split. { rewrite Run. unfold dropped. cbn. rewrite filter_yes. reflexivity. }
  intros e' E D. destruct (reload_kept _ _ _ H e' E D) as (_ & _ & _ & J). unfold mk_editor in E. destruct (load_document (editor_json e)) as [x | ]; [ | discriminate]. cbn [bind] in E. destruct (get_images_references x) as [i | ]; [ | discriminate]. cbn [bind] in E.
  destruct (create_from_json_data (document_json x)) as [g' | ] eqn:G'; [ | discriminate]. injection E as <-. change (document_json x = editor_json e) in J. unfold editor_json in *. cbn [e_graph] in *. congruence.
Qed.

(** ** Scaling and erasing *)
Theorem scale_erase_animations : forall enum l strict sx sy e e1 r1 e2 r2,
  scale_animation sx sy e = (e1, r1) -> erase_animations enum l strict true e = (e2, r2) ->
  exists e3 r3, scale_animation sx sy e2 = (e3, r1) /\ erase_animations enum l strict true e1 = (e3, r3) /\
    (forall j, r2 = Ok (j, ([], [])) -> r3 = Ok (editor_json e3, ([], []))) /\ (forall x, r2 = Err x <-> r3 = Err x).
Proof.
  intros enum l strict sx sy e e1 r1 e2 r2 E1 E2. rewrite erase_animations_run in E2. injection E2 as <- <-.
  exists (strip l e1). unfold scale_animation, on_data in *. change (d_bones (e_data (strip l e))) with (d_bones (e_data e)). destruct (scale_bones sx sy (d_bones (e_data e))) as [bs rb]. injection E1 as <- <-.
  eexists. split; [reflexivity | ]. split; [apply erase_animations_run | ].
  match goal with |- context [erase_raw_animations_data l strict (e_data ?e')] => rewrite (erase_raw_same l strict (e_data e) (e_data e') eq_refl) end.
  destruct (snd (erase_raw_animations_data l strict (e_data e))) as [u | x]; cbn; split; intros; try discriminate; auto; split; intros; congruence.
Qed.
Lemma remove_skin_bones : forall b n d, remove_skin n (set_bones d b) = (set_bones (fst (remove_skin n d)) b, snd (remove_skin n d)).
Proof.
  intros b n d. unfold remove_skin. change (get_skin (set_bones d b) n) with (get_skin d n). change (d_skins (set_bones d b)) with (d_skins d).
  destruct (get_skin d n) as [s | ]; [ | reflexivity]. destruct (mapM_inplace (relink_skin n (sk_atts s)) (d_skins d)) as [skins [u | x]]; reflexivity.
Qed.
Lemma removal_bones : forall l d d' rs b, removal l d d' rs -> removal l (set_bones d b) (set_bones d' b) rs /\ d_bones d' = d_bones d.
Proof.
  intros l d d' rs b R. induction R as [d | n l d d1 d' r rs E R IH]; [split; [constructor | auto] | ]. split.
  - econstructor; [ | exact (proj1 IH)]. rewrite remove_skin_bones, E. reflexivity.
  - rewrite (proj2 IH). clear - E. unfold remove_skin in E. destruct (get_skin d n) as [s | ]; [ | discriminate]. destruct (mapM_inplace (relink_skin n (sk_atts s)) (d_skins d)) as [skins [u | x]]; [ | discriminate]. injection E as <- _. reflexivity.
Qed.
Lemma dropped_same : forall l l' i, (forall x, In x l <-> In x l') -> dropped l i = dropped l' i.
Proof. intros l l' i H. unfold dropped. apply filter_ext. intros [k x]. f_equal. apply eq_true_iff_eq. rewrite !omem_in. apply H. Qed.
Theorem scale_erase_skins : forall e0 ops e enum l sx sy e1 e2 r2, history e0 ops e -> order_ok enum ->
  scale_animation sx sy e = (e1, Ok tt) -> erase_skins enum l true e = (e2, Ok r2) ->
  exists f1 s1 f2, erase_skins enum l true e1 = (f1, Ok s1) /\ scale_animation sx sy e2 = (f2, Ok tt) /\
    e_doc f1 = e_doc f2 /\ e_images f1 = e_images f2 /\ forall x, In x (snd r2) <-> In x (snd s1).
Proof.
  intros e0 ops e enum l sx sy e1 e2 [[rem atts] im] H O E1 E2. pose proof E2 as X. apply erase_skins_inv in X as (d & rs & _ & _ & R & _).
  destruct (erase_skins_run _ _ _ enum _ _ _ H R) as (g & imgs & G & Run & De & I). rewrite Run in E2. injection E2 as <- <- <- <-.
  assert (H1 : history e0 (EoScale sx sy :: ops) e1). { apply (history_step e0 ops e (EoScale sx sy) e1 H); [exact Logic.I | ]. cbn [estep]. rewrite E1. auto. }
  unfold scale_animation, on_data in *. destruct (scale_bones sx sy (d_bones (e_data e))) as [bs rb] eqn:Eb. injection E1 as <- ->.
  destruct (removal_bones _ _ _ _ bs R) as [R1 B]. eassert (R1' : removal l (e_data _) (set_bones d bs) rs); [ | destruct (erase_skins_run _ _ _ enum _ _ _ H1 R1') as (g1 & imgs1 & G1 & Run1 & De1 & I1)]; [exact R1 | ].
  assert (Q : forall x, In x imgs <-> In x imgs1) by (intros x; rewrite I, I1; reflexivity).
  eexists _, _, _. split; [exact Run1 | ]. change (e_data (mkEditor (with_data e d) (dropped imgs (e_images e)) g)) with d. rewrite B, Eb. split; [reflexivity | ]. cbn. split; [reflexivity | ]. split; [ | exact Q].
  symmetry. apply dropped_same. auto.
Qed.
