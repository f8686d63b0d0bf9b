(** Erasing animations in safe mode, before and after saving and loading. *)
From Verif Require Import PyBase PyFacts PyNum Tags Json Version Classes ClassFacts DocFacts ReloadFacts SpecDoc Graph SpineGraph DrawOrder SpecDraw AnimData Editor SpecAnim SpecEditor SpecReload
  SpecFail SpecAny AnimFacts EditorFacts EditorData EditorBuild EditorReload EditorAny EditorRepair ReloadOut ReloadClean.
Open Scope string_scope.

Definition drop_step {A} (acc : dict A * list string) (n : string) : dict A * list string :=
  let '(a, nf) := acc in if dmem n a then (ddel n a, nf) else (a, (nf ++ [n])%list).
Definition drop_names {A} (ns : list string) (a : dict A) : dict A * list string := fold_left drop_step ns (a, []).

Lemma dmem_dmap : forall A B (f : A -> B) n d, dmem n (dmap f d) = dmem n d.
Proof. intros. unfold dmem. induction d as [ | [k v] d IH]; [reflexivity | ]. cbn [dmap map dget fst snd]. cbn. destruct (String.eqb n k) eqn:E; rewrite ?E; auto. Qed.
Lemma ddel_dmap : forall A B (f : A -> B) n d, ddel n (dmap f d) = dmap f (ddel n d).
Proof. intros. induction d as [ | [k v] d IH]; [reflexivity | ]. cbn. destruct (String.eqb n k) eqn:E; cbn; rewrite ?E; cbn; f_equal; auto. Qed.
Lemma drop_dmap : forall A B (f : A -> B) ns a nf,
  fold_left drop_step ns (dmap f a, nf) = (dmap f (fst (fold_left drop_step ns (a, nf))), snd (fold_left drop_step ns (a, nf))).
Proof.
  intros A B f ns. induction ns as [ | n ns IH]; intros a nf; [reflexivity | ]. cbn [fold_left]. unfold drop_step at 2 4 6. rewrite dmem_dmap.
  destruct (dmem n a); [rewrite ddel_dmap | ]; apply IH.
Qed.
Lemma drop_sub : forall A ns (a : dict A) nf k v, In (k, v) (fst (fold_left drop_step ns (a, nf))) -> In (k, v) a.
Proof.
  intros A ns. induction ns as [ | n ns IH]; intros a nf k v Hi; [exact Hi | ]. cbn [fold_left] in Hi. unfold drop_step at 2 in Hi.
  destruct (dmem n a); apply IH in Hi; [ | exact Hi]. unfold ddel in Hi. apply filter_In in Hi. tauto.
Qed.
Definition erase_result {A} (strict : bool) (nf : list A) : res unit :=
  match nf with
  | _ :: _ => if strict then Err (EValue "Animations could not be found inside the spine file") else Ok tt
  | [] => Ok tt
  end.
Definition erased (ns : list string) (e : editor) : editor :=
  mkEditor (mkDoc (doc_skeleton (e_doc e)) (doc_version (e_doc e)) (set_animations (e_data e) (fst (drop_names ns (d_animations (e_data e))))))
    (e_images e) (e_graph e).
Lemma erase_step : forall e enum ns strict,
  estep e (EoEraseAnimations enum ns strict true) = (erased ns e, erase_result strict (snd (drop_names ns (d_animations (e_data e))))).
Proof.
  intros. cbn [estep]. unfold erase_animations, mbind, on_data, erase_raw_animations_data, erased, drop_names.
  change (fold_left _ ns (d_animations (e_data e), [])) with (fold_left drop_step ns (d_animations (e_data e), [])).
  destruct (fold_left drop_step ns (d_animations (e_data e), [])) as [a [ | m nf]]; cbn; [reflexivity | ]. destruct strict; reflexivity.
Qed.

(** The graph and the table of images do not look at the animations. *)
Lemma fold_ext : forall A B (f g : B -> A -> res B) l b, (forall b x, f b x = g b x) -> foldM f b l = foldM g b l.
Proof. intros A B f g l. induction l as [ | x l IH]; intros b E; [reflexivity | ]. cbn [foldM]. rewrite E. destruct (g b x); [apply IH; exact E | reflexivity]. Qed.
Lemma loop_set : forall d a n x b, bone_scale_loop n (set_animations d a) x b = bone_scale_loop n d x b.
Proof.
  intros d a n. induction n as [ | n IH]; intros x [b | ]; try reflexivity. cbn [bone_scale_loop]. destruct (String.eqb (bone_name b) "root"); [reflexivity | ].
  destruct (scale_in_name (bone_name b)); [apply IH | reflexivity].
Qed.
Lemma slot_scale_set : forall d a s, get_slot_custom_scale (set_animations d a) s = get_slot_custom_scale d s.
Proof. intros d a [s | ]; [ | reflexivity]. unfold get_slot_custom_scale, get_bone_custom_scale_recursive. rewrite loop_set. reflexivity. Qed.
Lemma images_set : forall sk v d a, get_images_references (mkDoc sk v (set_animations d a)) = get_images_references (mkDoc sk v d).
Proof.
  intros. unfold get_images_references. cbn [doc_data doc_version doc_skeleton]. apply fold_ext. intros b s. destruct (ver_ge v SPINE_3_8); [ | reflexivity].
  apply fold_ext. intros p kv. unfold add_slot_images. rewrite slot_scale_set. reflexivity.
Qed.
Lemma data_json_get : forall ver d a k, k <> "animations" -> dget k (data_json ver (set_animations d a)) = dget k (data_json ver d).
Proof.
  intros ver d a k Hk. unfold data_json. rewrite !dget_export by (apply (attrs_nodup CAnimData); reflexivity).
  replace (dget k (data_attrs ver (set_animations d a))) with (dget k (data_attrs ver d)); [reflexivity | ].
  unfold data_attrs. cbn. repeat (match goal with |- context [String.eqb k ?s] => destruct (String.eqb k s) eqn:? end; [try reflexivity | ]); try reflexivity.
  exfalso. apply Hk. apply String.eqb_eq. assumption.
Qed.
Lemma build_same : forall j j', (forall k, In k ["bones"; "slots"; "skins"; "ik"] -> dget k j = dget k j') -> forall g, build_graph_m j g = build_graph_m j' g.
Proof.
  intros j j' E g. unfold build_graph_m. unfold dget_err. rewrite (E "bones") by (simpl; tauto). rewrite (E "slots") by (simpl; tauto). rewrite (E "ik") by (simpl; tauto).
  replace (add_slot_and_attachments j) with (add_slot_and_attachments j'); [reflexivity | ].
  unfold add_slot_and_attachments. unfold dget_err. rewrite (E "skins") by (simpl; tauto). reflexivity.
Qed.
Lemma graph_set : forall sk v d a, create_from_json_data (document_json (mkDoc sk v (set_animations d a))) = create_from_json_data (document_json (mkDoc sk v d)).
Proof.
  intros. unfold create_from_json_data, document_json. cbn [doc_skeleton doc_version doc_data]. erewrite build_same; [reflexivity | ].
  intros k Hk. rewrite !dget_dset_other by (simpl in Hk; intuition (subst; discriminate)). apply data_json_get. simpl in Hk; intuition (subst; discriminate).
Qed.

Lemma reloaded_doc : forall e0 ops e e', any_calls e0 ops e -> mk_editor (editor_json e) = Ok e' ->
  e_doc e' = mkDoc (doc_skeleton (e_doc e)) (e_ver e) (reload_data (e_ver e) (trim_data (e_data e))).
Proof.
  intros e0 ops e e' H R. pose proof (calls_from _ _ _ H) as C. apply mk_editor_inv in R as (E & _ & _). pose proof (own_needed e0 e C _ E) as Ow. rewrite <- (x_json e0 e C Ow) in E.
  apply load_unique in E; [ | exact (x_loaded e0 e C) | exact (x_ver e0 e C)]. exact E.
Qed.

Section Erased.
  Variables (e0 : editor) (ops : list eop) (e e' : editor).
  Hypothesis H : any_calls e0 ops e.
  Hypothesis R : mk_editor (editor_json e) = Ok e'.
  Variables (ns : list string) (enum : order).
  Hypothesis O : order_ok enum.

  Lemma erased_calls : any_calls e0 (EoEraseAnimations enum ns false true :: ops) (erased ns e).
  Proof. econstructor; [exact H | exact O | apply erase_step]. Qed.
  Lemma erased_loads : exists e1, mk_editor (editor_json (erased ns e)) = Ok e1.
  Proof.
    apply (any_reload _ _ _ erased_calls). assert (K : can_reload (e_data e)) by (apply (any_reload _ _ _ H); eauto). destruct K as [K1 [K2 K3] K4 K5].
    constructor; [exact K1 | split; [exact K2 | ] | exact K4 | exact K5].
    intros n a dr o Hi. apply (K3 n a dr o). unfold erased, e_data in Hi. cbn in Hi. eapply drop_sub. exact Hi.
  Qed.
  Lemma erased_reload : mk_editor (editor_json (erased ns e)) = Ok (erased ns e').
  Proof.
    destruct erased_loads as [e1 E]. rewrite E. f_equal. pose proof (reloaded_doc _ _ _ _ H R) as X. pose proof (reloaded_doc _ _ _ _ erased_calls E) as X1.
    apply mk_editor_inv in R as (_ & I & G). apply mk_editor_inv in E as (_ & I1 & G1).
    assert (Y : e_doc e1 = e_doc (erased ns e')).
    { rewrite X1. unfold erased. unfold e_data. rewrite X. unfold e_data, e_ver. cbn [e_doc doc_skeleton doc_version doc_data]. f_equal.
      unfold reload_data, data_defaults, data_raw, trim_data, set_skins, set_animations. cbn [d_bones d_slots d_skins d_events d_ik d_transform d_path d_animations].
      unfold drop_names. rewrite !drop_dmap. reflexivity. }
    rewrite Y in I1, G1. unfold erased in I1, G1. cbn [e_doc] in I1, G1. rewrite images_set in I1. rewrite graph_set in G1.
    unfold e_data in I1, G1. destruct (e_doc e') as [sk v d] eqn:Ed. cbn [doc_skeleton doc_version doc_data] in I1, G1. rewrite I in I1. rewrite G in G1.
    injection I1 as I1. injection G1 as G1. clear X1. destruct e1 as [x1 i1 g1]. cbn [e_doc e_images e_graph] in Y, I1, G1. subst i1 g1. rewrite Y. reflexivity.
  Qed.
  Theorem erase_commutes : forall strict e1 r e1' r', estep e (EoEraseAnimations enum ns strict true) = (e1, r) ->
    estep e' (EoEraseAnimations enum ns strict true) = (e1', r') -> r' = r /\ mk_editor (editor_json e1) = Ok e1'.
  Proof.
    intros strict e1 r e1' r' S S'. rewrite erase_step in S, S'. injection S as <- <-. injection S' as <- <-. split; [ | exact erased_reload].
    f_equal. pose proof (reloaded_doc _ _ _ _ H R) as X. unfold e_data at 1. rewrite X. cbn [doc_data].
    unfold reload_data, data_defaults, data_raw, trim_data, set_skins. cbn [d_animations]. unfold drop_names. rewrite !drop_dmap. reflexivity.
  Qed.
End Erased.

Lemma no_null_time_erased : forall ns e, no_null_time (e_data e) -> no_null_time (e_data (erased ns e)).
Proof. intros ns e T n a dr Hi. apply (T n a dr). unfold erased, e_data in Hi. cbn in Hi. eapply drop_sub. exact Hi. Qed.
Theorem erase_export : forall e0 ops e e' enum ns strict e1 r e1' r', any_calls e0 ops e -> mk_editor (editor_json e) = Ok e' ->
  no_null_time (e_data e) \/ ver_ge (e_ver e) SPINE_3_8 = true -> order_ok enum ->
  estep e (EoEraseAnimations enum ns strict true) = (e1, r) -> estep e' (EoEraseAnimations enum ns strict true) = (e1', r') -> editor_json e1' = editor_json e1.
Proof.
  intros e0 ops e e' enum ns strict e1 r e1' r' H R T O S S'. destruct (erase_commutes _ _ _ _ H R ns enum O _ _ _ _ _ S S') as [_ L].
  assert (H1 : any_calls e0 (EoEraseAnimations enum ns strict true :: ops) e1) by (econstructor; eauto).
  destruct (any_reloaded _ _ _ H1 _ L) as (_ & _ & _ & J); [ | exact J].
  rewrite erase_step in S. injection S as <- _. destruct T as [T | T]; [left; apply no_null_time_erased; exact T | right; exact T].
Qed.
Theorem erase_clean_export : forall e0 ops e e' enum enum' enum1 ns strict e1 e2, any_calls e0 ops e -> mk_editor (editor_json e) = Ok e' ->
  no_null_time (e_data e) \/ ver_ge (e_ver e) SPINE_3_8 = true -> plain_slots (e_data e0) -> order_ok enum -> order_ok enum' ->
  estep e (EoEraseAnimations enum ns strict true) = (e1, Ok tt) -> estep e1 (EoEraseSkins enum1 [] true) = (e2, Ok tt) ->
  forall e3 rem atts e3' x, clean_animation enum e2 = (e3, Ok (rem, atts)) -> erase_animations enum' ns strict false e' = (e3', Ok x) -> editor_json e3' = editor_json e3.
Proof.
  intros e0 ops e e' enum enum' enum1 ns strict e1 e2 H R T Pl O O' S B e3 rem atts e3' x C E.
  assert (H1 : any_calls e0 (EoEraseAnimations enum ns strict true :: ops) e1) by (econstructor; eauto).
  pose proof (erased_reload _ _ _ _ H R ns enum O) as L.
  assert (C' : exists rem' atts', clean_animation enum' (erased ns e') = (e3', Ok (rem', atts'))).
  { pose proof (erase_step e' enum' ns strict) as Q. cbn [estep] in Q. unfold erase_animations, mbind in E, Q.
    destruct (on_data (erase_raw_animations_data ns strict) e') as [e4 [ u | y ]] eqn:D; [ | discriminate E]. cbn in Q. injection Q as -> _.
    destruct (clean_animation enum' (erased ns e')) as [e5 [ [rem' atts'] | y ]]; cbn in E; [ | discriminate E]. injection E as <- _. eauto. }
  destruct C' as (rem' & atts' & C').
  rewrite erase_step in S. injection S as <- _.
  refine (reload_export _ _ _ _ _ _ _ _ H1 L _ Pl O O' B _ _ _ _ _ _ C C').
  destruct T as [T | T]; [left; apply no_null_time_erased; exact T | right; exact T].
Qed.
