(** Running the editor on concrete documents, for the examples and counterexamples. *)
From Verif Require Import PyBase PyFacts Json Version Classes Graph SpineGraph DrawOrder AnimData Editor SpecAnim SpecEditor.
From Coq Require Import Permutation.
Open Scope string_scope.

(** ** Concrete JSON is proper *)
Fixpoint nodupb (l : list string) : bool := match l with [] => true | x :: l' => negb (smem x l') && nodupb l' end.
Fixpoint properb (v : val) : bool :=
  match v with
  | VList l => forallb properb l
  | VDict d => nodupb (dkeys d) && forallb (fun kv => properb (snd kv)) d
  | _ => true
  end.
Lemma nodupb_ok : forall l, nodupb l = true -> NoDup l.
Proof.
  induction l as [ | x l IH]; cbn [nodupb]; intros H; constructor; apply andb_prop in H as [H1 H2]; auto.
  apply smem_nin. destruct (smem x l); [discriminate | auto].
Qed.
Lemma properb_ok : forall v, properb v = true -> proper v.
Proof.
  induction v as [ | b | z | f | s | l IH | d IH] using val_ind'; intros H; try (constructor; fail).
  - constructor. rewrite Forall_forall in *. cbn [properb] in H. rewrite forallb_forall in H. auto.
  - cbn [properb] in H. apply andb_prop in H as [H1 H2]. constructor; [apply nodupb_ok; auto | ]. intros k v Hv.
    rewrite Forall_forall in IH. rewrite forallb_forall in H2. apply (IH (k, v) Hv). apply (H2 (k, v) Hv).
Qed.

(** ** Runs *)
Definition no_editor : editor := mkEditor (mkDoc [] SPINE_3_8 (mkData [] [] [] [] [] [] [] [])) [] new_graph.
Definition ed (j : val) : editor := match mk_editor j with Ok e => e | Err _ => no_editor end.
Definition loads (j : val) : bool := match mk_editor j with Ok _ => properb j | Err _ => false end.
Lemma loads_ok : forall j, loads j = true -> loaded (ed j).
Proof.
  intros j H. unfold loads in H. exists j. unfold ed. destruct (mk_editor j); [ | discriminate]. split; auto. apply properb_ok. auto.
Qed.
(** The editor after some calls (first call first), if all succeed *)
Definition run1 (s : option editor) (op : eop) : option editor :=
  match s with
  | Some e => match estep e op with (e', Ok _) => Some e' | _ => None end
  | None => None
  end.
Definition run (e : editor) (ops : list eop) : option editor := fold_left run1 ops (Some e).
Lemma run_history : forall j ops e, loads j = true -> Forall eop_ok ops -> run (ed j) ops = Some e -> history (ed j) (rev ops) e.
Proof.
  intros j ops e L. revert e. induction ops as [ | op ops IH] using rev_ind; intros e O R.
  - injection R as <-. constructor. apply loads_ok. auto.
  - apply Forall_app in O as [O1 O2]. inversion O2; subst. unfold run in R. rewrite fold_left_app in R. cbn [fold_left] in R. fold (run (ed j) ops) in R.
    rewrite rev_app_distr. cbn [rev app]. destruct (run (ed j) ops) as [e1 | ]; [ | discriminate]. unfold run1 in R.
    destruct (estep e1 op) as [e2 [[] | ]] eqn:E; [ | discriminate]. injection R as <-. econstructor; eauto.
Qed.
(** The editor after a run that succeeds *)
Definition after (j : val) (ops : list eop) : editor := match run (ed j) ops with Some e => e | None => no_editor end.
Definition runs (j : val) (ops : list eop) : bool := loads j && match run (ed j) ops with Some _ => true | None => false end.
Lemma runs_ok : forall j ops, Forall eop_ok ops -> runs j ops = true -> history (ed j) (rev ops) (after j ops).
Proof.
  intros j ops O R. unfold runs in R. apply andb_prop in R as [L R]. unfold after. destruct (run (ed j) ops) as [e | ] eqn:E; [ | discriminate].
  apply run_history; auto.
Qed.
(** An iteration order *)
Definition in_order : order := fun _ l => l.
Lemma in_order_ok : order_ok in_order.
Proof. intros i l. apply Permutation_refl. Qed.
Lemma rev_order_ok : order_ok (fun _ l => rev l).
Proof. intros i l. apply Permutation_sym, Permutation_rev. Qed.
(** The report of a clean-up *)
Definition cleans (e : editor) : option (list string * list string) :=
  match clean_animation in_order e with (_, Ok r) => Some r | _ => None end.
Lemma cleans_ok : forall e r, cleans e = Some r -> exists e', clean_animation in_order e = (e', Ok r).
Proof. intros e r H. unfold cleans in H. destruct (clean_animation in_order e) as [e' [r' | ]]; [ | discriminate]. injection H as ->. eauto. Qed.
Definition cleaned_up (e : editor) : editor := fst (clean_animation in_order e).

(** ** Documents *)
Definition bone (n : string) (l : dict val) : val := VDict (("name", VStr n) :: l).
Definition slot (n : string) (l : dict val) : val := VDict (("name", VStr n) :: ("bone", VStr "root") :: l).
Definition shows (a : string) : dict val := [("attachment", VStr a)].
Definition skin_doc (n : string) (l : dict val) : val := VDict [("name", VStr n); ("attachments", VDict l)].
Definition region (image : string) : val := VDict [("path", VStr image)].
Definition mesh_of (image : string) : val := VDict [("type", VStr "mesh"); ("path", VStr image)].
(** A slot timeline with one attachment keyframe *)
Definition frame (a : val) : val := VDict [("attachment", VList [VDict [("time", VInt 1); ("name", a)]])].
Definition timelines (l : dict val) : val := VDict [("slots", VDict l)].
Definition json (spine : string) (bones slots iks skins : list val) (anims : dict val) : val :=
  VDict [("skeleton", VDict [("spine", VStr spine)]); ("bones", VList bones); ("slots", VList slots); ("ik", VList iks);
         ("skins", VList skins); ("animations", VDict anims)].

(** ** Concrete names *)
Fixpoint textb (s x : string) : bool :=
  (String.prefix x s || match s with EmptyString => false | String _ s' => textb s' x end)%bool.
Lemma prefix_app : forall x b, String.prefix x (x ++ b) = true.
Proof. induction x as [ | c x IH]; intros b; [destruct b; reflexivity | ]. cbn. destruct (ascii_dec c c); [apply IH | congruence]. Qed.
Lemma textb_false : forall s x, textb s x = false -> ~ has_text s x.
Proof.
  intros s x H (a & b & E). revert s H E. induction a as [ | c a IH]; intros s H E; subst s.
  - change ("" ++ x ++ b) with (x ++ b) in H. unfold textb in H. destruct (x ++ b) eqn:Ex; rewrite <- Ex, prefix_app in H; discriminate.
  - cbn [append textb] in H. apply orb_false_elim in H as [_ H]. eapply IH; eauto.
Qed.
(** All attachments of the skins: (slot, name, attachment) *)
Definition all_attachments (d : anim_data) : list (string * string * obj) :=
  flat_map (fun s => flat_map (fun x => map (fun y => (fst x, fst y, snd y)) (snd x)) (sk_atts s)) (d_skins d).
Lemma all_attachments_in : forall d sl k o, skin_attachment d sl k o <-> In (sl, k, o) (all_attachments d).
Proof.
  intros d sl k o. unfold all_attachments. rewrite in_flat_map. split.
  - intros (s & m & Hs & Hm & Ho). exists s. split; auto. apply in_flat_map. exists (sl, m). split; auto. apply in_map_iff. exists (k, o). auto.
  - intros (s & Hs & H). apply in_flat_map in H as ([sl' m] & Hm & H). apply in_map_iff in H as ([k' o'] & E & Ho). cbn in E. injection E as -> -> ->. exists s, m. auto.
Qed.
Definition plain_slotsb (d : anim_data) : bool := forallb (fun s => negb (textb (slot_name s) "_SLOT")) (d_slots d).
Definition plain_imagesb (d : anim_data) : bool := forallb (fun x => negb (textb (att_image (snd (fst x)) (snd x)) "_IMAGE")) (all_attachments d).
Definition plain_setupb (d : anim_data) : bool := forallb (fun x => negb (textb (snd (fst x)) "_ATTACHMENT")) (all_attachments d).
Lemma plain_slotsb_ok : forall d, plain_slotsb d = true -> plain_slots d.
Proof.
  intros d H s Hs. unfold plain_slotsb in H. rewrite forallb_forall in H. apply textb_false. specialize (H s Hs). destruct (textb (slot_name s) "_SLOT"); [discriminate | auto].
Qed.
Lemma plain_imagesb_ok : forall d, plain_imagesb d = true -> plain_images d.
Proof.
  intros d H sl k o Ho. apply all_attachments_in in Ho. unfold plain_imagesb in H. rewrite forallb_forall in H. specialize (H _ Ho). cbn [fst snd] in H.
  apply textb_false. destruct (textb (att_image k o) "_IMAGE"); [discriminate | auto].
Qed.
Lemma plain_setupb_ok : forall d, plain_setupb d = true -> plain_setup d.
Proof.
  intros d H s a sl k o Hs Ha Ho ->. apply all_attachments_in in Ho. unfold plain_setupb in H. rewrite forallb_forall in H. specialize (H _ Ho). cbn [fst snd] in H.
  apply negb_true_iff in H. apply textb_false in H. apply H. exists a, "". reflexivity.
Qed.

(** Computing closed lists in goals and hypotheses *)
Ltac find_in :=
  match goal with |- In _ ?L => let L' := eval vm_compute in L in let E := fresh "E" in
    assert (E : L = L') by (vm_compute; reflexivity); rewrite E; clear E end.
Ltac list_in H :=
  match type of H with In _ ?L => let L' := eval vm_compute in L in let E := fresh "E" in
    assert (E : L = L') by (vm_compute; reflexivity); rewrite E in H; clear E end.
