(** A second clean-up, after saving and loading. *)
From Verif Require Import PyBase PyFacts PyNum Json Version Classes ClassFacts DocFacts ReloadFacts SpecDoc Graph SpineGraph DrawOrder SpecDraw AnimData Editor SpecAnim SpecEditor SpecReload
  SpecFail SpecAny AnimFacts EditorFacts EditorData EditorBuild EditorImages EditorReload EditorHist EditorOut EditorClean EditorRemoved EditorKeep EditorOrder EditorFail EditorAny EditorRepair ReloadImages AlikeFacts ReloadClean ReloadOut.
Open Scope string_scope.

Lemma history_calls : forall e0 ops e, history e0 ops e -> any_calls e0 ops e.
Proof. intros e0 ops e H. induction H; econstructor; eauto. Qed.
Lemma keep_all : forall L ss, map slot_name (filter (keep L) ss) = map slot_name ss -> filter (keep L) ss = ss.
Proof.
  intros L ss E. rewrite (keep_same L [] ss); [apply filter_all; auto | ]. rewrite E. f_equal. symmetry. apply filter_all. auto.
Qed.
Lemma empty_list : forall l : list string, (forall x, ~ In x l) -> l = [].
Proof. intros [ | x l] N; [reflexivity | ]. destruct (N x). left. reflexivity. Qed.

Section Again.
  Variables (e0 : editor) (ops : list eop) (e e' : editor) (enum : order).
  Hypotheses (H : history e0 ops e) (Pl : plain_slots (e_data e0)) (O : order_ok enum).
  Hypothesis R : mk_editor (editor_json e) = Ok e'.
  Hypothesis T : no_null_time (e_data e) \/ ver_ge (e_ver e) SPINE_3_8 = true.
  Hypothesis C : clean_animation enum e = (e, Ok ([], [])).

  Theorem settled_again : forall enum', order_ok enum' -> exists e2, clean_animation enum' e' = (e2, Ok ([], [])) /\ editor_json e2 = editor_json e.
  Proof.
    intros enum' O'. pose proof (history_calls _ _ _ H) as Ac. destruct (history_in_step _ _ _ H Pl) as (bs & ss & is & S). pose proof (reloaded_in_step e0 ops e e' Ac R T Pl) as S'.
    pose proof (reloaded_alike e0 ops e e' Ac R T) as Al. pose proof (alike_sym _ _ Al) as La. pose proof (reloaded_twin e0 ops e e' Ac R T) as Tw. destruct (any_reloaded _ _ _ Ac e' R T) as (Sk & V & _ & _).
    destruct (proj1 (step_iff _ _ _ _ _ S O)) as [A So]; [eauto | ].
    destruct (proj2 (step_iff _ _ _ _ _ S' O')) as (e2 & [rem' atts'] & C'); [split; [eapply alike_analysable; eauto | eapply alike_sound; eauto] | ].
    destruct (step_removed _ _ _ _ _ _ _ _ S O C) as (R1 & R2 & R3 & _). destruct (step_removed _ _ _ _ _ _ _ _ S' O' C') as (Q1 & Q2 & Q3 & _).
    assert (Er : rem' = []).
    { apply empty_list. intros n Hn. apply Q1 in Hn as (s & Hs & _ & G). destruct (alike_slot _ _ _ La Hs) as (s' & Hs' & Sa). destruct (proj2 (R1 (slot_name s'))). exists s'. split; [exact Hs' | ]. split; [reflexivity | eapply alike_slot_goes; eauto]. }
    assert (Ea : atts' = []) by (apply empty_list; intros k Hk; apply Q2 in Hk; destruct (proj2 (R2 k)); eapply alike_goes; eauto).
    subst rem' atts'. exists e2. split; [exact C' | ].
    destruct S as [[D Sy] _ _ _], S' as [[D' Sy'] _ _ _].
    destruct (clean_success _ _ _ _ _ _ _ _ D Sy O C) as (inv & leafs & orphans & imgs & K). destruct (clean_success _ _ _ _ _ _ _ _ D' Sy' O' C') as (inv' & leafs' & orphans' & imgs' & K').
    pose proof (co_data _ _ _ _ _ _ _ _ _ _ _ _ K) as Cl. pose proof (co_data _ _ _ _ _ _ _ _ _ _ _ _ K') as Cl'. rewrite V in Cl'. rewrite (dt_slots _ _ _ Tw) in Cl'.
    assert (Un : forall l, map (unset_slot []) l = l).
    { intros l. rewrite <- (map_id l) at 2. apply map_ext. intros s. unfold unset_slot. destruct (ostr s "attachment"); reflexivity. }
    assert (F1 : filter (keep (inv ++ leafs)) ss = d_slots (e_data e)) by (rewrite (cl_slots _ _ _ _ _ _ _ _ Cl) at 1; rewrite Un; reflexivity).
    assert (F2 : filter (keep (inv' ++ leafs')) (d_slots (e_data e)) = d_slots (e_data e)).
    { apply keep_all. rewrite (cl_slots _ _ _ _ _ _ _ _ Cl'), Un in Q3. rewrite Q3, (dt_slots _ _ _ Tw). apply filter_all. auto. }
    rewrite F1 in Cl. rewrite F2 in Cl'.
    assert (Rl : forall c l l', Forall (loaded_obj (e_ver e) c) l -> Forall2 (fun o o' => obj_json (e_ver e) (reload (e_ver e) o') = obj_json (e_ver e) (reload (e_ver e) o)) l l' ->
      jlist (obj_json (e_ver e)) (map (reload (e_ver e)) l') = jlist (obj_json (e_ver e)) l).
    { intros c l l' L F. rewrite (jlist_twice _ _ _ F). unfold jlist. f_equal. rewrite map_map. apply map_ext_in. intros o Ho. rewrite Forall_forall in L. destruct (L o Ho) as [W _]. eapply reload_json; exact W. }
    assert (J : data_json (e_ver e) (e_data e2) = data_json (e_ver e) (e_data e)).
    { apply (cleaned_json _ _ _ _ _ _ _ _ _ _ _ _ _ _ _ Tw (fun n => iff_refl _) (fun k => iff_refl _) Cl Cl').
      - rewrite <- (cl_bones _ _ _ _ _ _ _ _ Cl). apply (Rl CBone); [exact (di_bones _ _ D) | exact (dt_bones _ _ _ Tw)].
      - rewrite <- (cl_ik _ _ _ _ _ _ _ _ Cl). apply (Rl CIk); [exact (di_ik _ _ D) | exact (dt_ik _ _ _ Tw)]. }
    unfold editor_json, document_json. fold (e_ver e) (e_ver e2) (e_data e) (e_data e2).
    rewrite (co_skeleton _ _ _ _ _ _ _ _ _ _ _ _ K'), (co_ver _ _ _ _ _ _ _ _ _ _ _ _ K'), V, Sk, J. reflexivity.
  Qed.
End Again.

Theorem clean_saved_again : forall e0 ops e enum enum' e1 rem atts e2, plain_slots (e_data e0) -> plain_setup (e_data e0) -> history e0 ops e -> order_ok enum -> order_ok enum' ->
  clean_animation enum e = (e1, Ok (rem, atts)) -> (forall s, In s (d_slots (e_data e)) -> In (slot_name s) rem -> ~ used_slot (e_data e) s) ->
  mk_editor (editor_json e1) = Ok e2 -> no_null_time (e_data e1) \/ ver_ge (e_ver e1) SPINE_3_8 = true ->
  (analysable (e_data e1) -> exists e3, clean_animation enum' e2 = (e3, Ok ([], [])) /\ editor_json e3 = editor_json e1) /\
  (~ analysable (e_data e1) -> exists x, clean_animation enum' e2 = (e2, Err x)).
Proof.
  intros e0 ops e enum enum' e1 rem atts e2 Pl Ps H O O' E U R T.
  assert (H1 : history e0 (EoClean enum :: ops) e1) by (econstructor; eauto; cbn [estep]; rewrite E; auto). split; intros A.
  - destruct (clean_again _ _ _ _ enum _ _ _ Pl Ps H O O E U) as [Q _]. exact (settled_again e0 (EoClean enum :: ops) e1 e2 enum H1 Pl O R T (Q A) enum' O').
  - pose proof (history_calls _ _ _ H1) as Ac. destruct (reloaded_in_step _ _ _ _ Ac R T Pl) as [[D S] _ _ _]. destruct (get_unused_slots_and_attachments (e_data e2)) as [r | x] eqn:Un; [ | exists x; apply clean_fails; exact Un].
    destruct A. eapply alike_analysable; [apply alike_sym; exact (reloaded_alike _ _ _ _ Ac R T) | ]. apply unused_total; eauto using dinv_timelines. eapply sync_distinct_slots; eauto.
Qed.
Print Assumptions clean_saved_again.
