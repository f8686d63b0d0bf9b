(** Scaling before and after saving and loading. *)
From Coq Require Import SpecFloat QArith.
From Verif Require Import PyBase PyFacts PyNum Json Version Classes ClassFacts DocFacts ReloadFacts SpecDoc Graph SpineGraph DrawOrder AnimData Editor SpecAnim SpecEditor SpecReload
  SpecFail SpecAny SpecText SpecRescale EditorFacts EditorData EditorBuild EditorReload EditorAny EditorRepair ReloadClean ReloadOut ReloadErase.
Open Scope string_scope.

Lemma oget_set : forall o k k' v, oget (oset o k' v) k = if String.eqb k k' then v else oget o k.
Proof. intros. unfold oget, oset. cbn [o_attrs]. rewrite dget_dset. destruct (String.eqb k k'); reflexivity. Qed.

(** ** Two bones that scale alike *)
Section Scale.
  Variables (ver : version) (ok : val -> Prop).
  Record bone_twin (b b' : obj) : Prop := {
    bw_twin : twin ver b b';
    bw_name : oget b' "name" = oget b "name";
    bw_transform : ostr b' "transform" = ostr b "transform";
    bw_scale : forall k s, scale_attribute k -> ok s -> py_mul (oget b' k) s = py_mul (oget b k) s }.
  Lemma twin_set : forall b b' k v, scale_attribute k -> bone_twin b b' -> bone_twin (oset b k v) (oset b' k v).
  Proof.
    intros b b' k v K [T N Tr X]. constructor; [apply twin_oset; exact T | | | ].
    - rewrite !oget_set. destruct K as [-> | ->]; exact N.
    - unfold ostr in *. rewrite !oget_set. destruct K as [-> | ->]; exact Tr.
    - intros j s J P. rewrite !oget_set. destruct (String.eqb j k); [reflexivity | apply X; auto].
  Qed.
  Variables (sx sy : val).
  Hypotheses (Ox : ok sx) (Oy : ok sy).
  Lemma twin_scale : forall b b', bone_twin b b' -> bone_twin (fst (bone_scale sx sy b)) (fst (bone_scale sx sy b')) /\ snd (bone_scale sx sy b') = snd (bone_scale sx sy b).
  Proof.
    intros b b' W. unfold bone_scale. rewrite (bw_scale _ _ W "scaleX" sx (or_introl eq_refl) Ox). destruct (py_mul (oget b "scaleX") sx) as [x | er]; [ | auto].
    assert (W1 : bone_twin (oset b "scaleX" x) (oset b' "scaleX" x)) by (apply twin_set; [left; reflexivity | exact W]).
    rewrite (bw_scale _ _ W1 "scaleY" sy (or_intror eq_refl) Oy). destruct (py_mul (oget (oset b "scaleX" x) "scaleY") sy) as [y | er]; cbn [fst snd]; [ | auto].
    split; [apply twin_set; [right; reflexivity | exact W1] | reflexivity].
  Qed.
  Lemma twin_independent : forall l l', Forall2 bone_twin l l' ->
    let f := fun b => if scale_independent b then bone_scale sx sy b else (b, Ok tt) in
    Forall2 bone_twin (fst (mapM_inplace f l)) (fst (mapM_inplace f l')) /\ snd (mapM_inplace f l') = snd (mapM_inplace f l).
  Proof.
    intros l l' F f. induction F as [ | b b' l l' W F [IH1 IH2]]; [split; [constructor | reflexivity] | ]. cbn [mapM_inplace].
    assert (G : bone_twin (fst (f b)) (fst (f b')) /\ snd (f b') = snd (f b)).
    { unfold f. unfold scale_independent. rewrite (bw_transform _ _ W). destruct (match ostr b "transform" with Some t => smem t _ | None => false end); [apply twin_scale; exact W | auto]. }
    destruct (f b) as [b1 r1], (f b') as [b2 r2]. cbn [fst snd] in G. destruct G as [G1 ->]. destruct r1 as [u | er]; [ | split; [constructor; auto | reflexivity]].
    destruct (mapM_inplace f l) as [m1 s1], (mapM_inplace f l') as [m2 s2]. cbn [fst snd] in *. split; [constructor; auto | exact IH2].
  Qed.
  Lemma twin_root : forall l l', Forall2 bone_twin l l' -> Forall2 bone_twin (fst (scale_root sx sy l)) (fst (scale_root sx sy l')) /\ snd (scale_root sx sy l') = snd (scale_root sx sy l).
  Proof.
    intros l l' F. induction F as [ | b b' l l' W F [IH1 IH2]]; [split; [constructor | reflexivity] | ]. cbn [scale_root]. unfold bone_name, ostr. rewrite (bw_name _ _ W).
    destruct (String.eqb _ "root").
    - pose proof (twin_scale _ _ W) as [G1 G2]. destruct (bone_scale sx sy b) as [b1 r1], (bone_scale sx sy b') as [b2 r2]. cbn [fst snd] in *. split; [constructor; auto | exact G2].
    - destruct (scale_root sx sy l) as [m1 s1], (scale_root sx sy l') as [m2 s2]. cbn [fst snd] in *. split; [constructor; auto | exact IH2].
  Qed.
  Lemma twin_bones : forall l l', Forall2 bone_twin l l' -> Forall2 bone_twin (fst (scale_bones sx sy l)) (fst (scale_bones sx sy l')) /\ snd (scale_bones sx sy l') = snd (scale_bones sx sy l).
  Proof.
    intros l l' F. unfold scale_bones. pose proof (twin_independent _ _ F) as G. cbn zeta in G. set (f := fun b => if scale_independent b then bone_scale sx sy b else (b, Ok tt)) in *.
    destruct (mapM_inplace f l) as [m1 s1], (mapM_inplace f l') as [m2 s2]. cbn [fst snd] in G. destruct G as [G1 ->]. destruct s1; [apply twin_root; exact G1 | auto].
  Qed.
  Lemma twin_bones_json : forall l l', Forall2 bone_twin l l' -> jlist (obj_json ver) l' = jlist (obj_json ver) l.
  Proof. intros l l' F. unfold jlist. f_equal. induction F as [ | b b' l l' W F IH]; [reflexivity | ]. cbn [map]. rewrite (twin_json _ _ _ (bw_twin _ _ W)), IH. reflexivity. Qed.
End Scale.

(** ** Documents that differ in what is not exported *)
Definition other_attrs (ver : version) (d : anim_data) : dict val :=
  [("slots", jlist (obj_json ver) (d_slots d)); ("skins", jlist (skin_json ver) (d_skins d)); ("events", jdict (obj_json ver) (d_events d));
   ("ik", jlist (obj_json ver) (d_ik d)); ("transform", jlist (obj_json ver) (d_transform d)); ("path", jlist (obj_json ver) (d_path d))].
Lemma data_json_parts : forall ver d, data_json ver d = (export_attrs (default_values CAnimData ver) [("bones", jlist (obj_json ver) (d_bones d))] ++
  export_attrs (default_values CAnimData ver) (other_attrs ver d) ++ export_attrs (default_values CAnimData ver) [("animations", jdict (animation_json ver) (d_animations d))])%list.
Proof. intros. unfold data_json, data_attrs, other_attrs, export_attrs. rewrite <- !filter_app. reflexivity. Qed.
Record saved (ok : val -> Prop) (e e' : editor) : Prop := {
  sv_skeleton : doc_skeleton (e_doc e') = doc_skeleton (e_doc e);
  sv_ver : e_ver e' = e_ver e;
  sv_bones : Forall2 (bone_twin (e_ver e) ok) (d_bones (e_data e)) (d_bones (e_data e'));
  sv_anims : drel (anim_twin (e_ver e)) (d_animations (e_data e)) (d_animations (e_data e'));
  sv_other : export_attrs (default_values CAnimData (e_ver e)) (other_attrs (e_ver e) (e_data e')) = export_attrs (default_values CAnimData (e_ver e)) (other_attrs (e_ver e) (e_data e)) }.
Lemma anims_json : forall ver d d', drel (anim_twin ver) d d' -> jdict (animation_json ver) d' = jdict (animation_json ver) d.
Proof.
  intros ver d d' F. apply drel_json. unfold drel in *. eapply Forall2_impl; [ | exact F]. intros [k a] [k' a'] [E A]. split; [exact E | ]. apply anim_twin_json. exact A.
Qed.
Lemma saved_export : forall ok e e', saved ok e e' -> editor_json e' = editor_json e.
Proof.
  intros ok e e' [S V B A O]. unfold editor_json, document_json. fold (e_ver e) (e_ver e') (e_data e) (e_data e'). rewrite S, V, !data_json_parts.
  rewrite (twin_bones_json _ _ _ _ B), (anims_json _ _ _ A), O. reflexivity.
Qed.

Lemma drop_drel : forall A (R : A -> A -> Prop) ns d d' nf, drel R d d' ->
  drel R (fst (fold_left drop_step ns (d, nf))) (fst (fold_left drop_step ns (d', nf))) /\ snd (fold_left drop_step ns (d', nf)) = snd (fold_left drop_step ns (d, nf)).
Proof.
  intros A R ns. induction ns as [ | n ns IH]; intros d d' nf F; [split; [exact F | reflexivity] | ]. cbn [fold_left]. unfold drop_step at 2 4 6 8.
  assert (M : dmem n d' = dmem n d).
  { unfold dmem. clear IH. induction F as [ | [k v] [k' v'] d d' [E _] F IH]; [reflexivity | ]. cbn [fst] in E. subst k'. cbn [dget]. destruct (String.eqb n k); [reflexivity | exact IH]. }
  rewrite M. destruct (dmem n d); apply IH; [ | exact F]. clear M IH.
  induction F as [ | [k v] [k' v'] d d' [E Q] F IH]; [constructor | ]. cbn [fst snd] in E, Q. subst k'. unfold drel in *. cbn [ddel filter fst]. destruct (negb (String.eqb n k)); [constructor; auto | exact IH].
Qed.
Lemma saved_step : forall ok e e' op e1 r e1' r', saved ok e e' -> light_call ok op -> estep e op = (e1, r) -> estep e' op = (e1', r') -> r' = r /\ saved ok e1 e1'.
Proof.
  intros ok e e' [ | enum ns strict safe | | sx sy] e1 r e1' r' [S V B A O] L E E'; cbn [light_call] in L; try contradiction.
  - subst safe. rewrite erase_step in E, E'. injection E as <- <-. injection E' as <- <-. destruct (drop_drel _ _ ns _ _ [] A) as [G1 G2].
    split; [unfold drop_names; rewrite G2; reflexivity | ]. constructor; [exact S | exact V | exact B | exact G1 | exact O].
  - destruct L as [Lx Ly]. cbn [estep] in E, E'. unfold scale_animation, on_data in E, E'. destruct (twin_bones _ _ _ _ Lx Ly _ _ B) as [G1 G2].
    destruct (scale_bones sx sy (d_bones (e_data e))) as [l s], (scale_bones sx sy (d_bones (e_data e'))) as [l' s']. cbn [fst snd] in *. injection E as <- <-. injection E' as <- <-.
    split; [exact G2 | ]. constructor; [exact S | exact V | exact G1 | exact A | exact O].
Qed.
Lemma saved_run : forall ok ops e e' e1 rs e1' rs', saved ok e e' -> Forall (light_call ok) ops -> run_calls e ops = (e1, rs) -> run_calls e' ops = (e1', rs') -> rs' = rs /\ saved ok e1 e1'.
Proof.
  intros ok ops. induction ops as [ | op ops IH]; intros e e' e1 rs e1' rs' Sv L E E'; cbn [run_calls] in E, E'.
  - injection E as <- <-. injection E' as <- <-. auto.
  - inversion L as [ | ? ? L1 L2]; subst. destruct (estep e op) as [f r] eqn:F, (estep e' op) as [f' r'] eqn:F'. destruct (saved_step _ _ _ _ _ _ _ _ Sv L1 F F') as [-> Sv1].
    destruct (run_calls f ops) as [g gs] eqn:G, (run_calls f' ops) as [g' gs'] eqn:G'. injection E as <- <-. injection E' as <- <-. destruct (IH _ _ _ _ _ _ Sv1 L2 G G') as [-> Sv2]. auto.
Qed.

(** ** Bones as they come back *)
Lemma py_eq_text : forall v s, py_eq v (VStr s) = true -> v = VStr s.
Proof. intros [ | | | | t | | ] s E; cbn in E; try discriminate E. apply String.eqb_eq in E. subst. reflexivity. Qed.
Lemma bone_reload : forall ver b (ok : val -> Prop), loaded_obj ver CBone b ->
  (forall k s, scale_attribute k -> ok s -> py_mul (oget (reload ver b) k) s = py_mul (oget b k) s) -> bone_twin ver ok b (reload ver b).
Proof.
  intros ver b ok [W F] X. constructor; [eapply twin_reload; exact W | | | exact X].
  - apply (reload_exact ver CBone); [exact W | simpl; tauto | ]. unfold default_values. destruct (ver_ge ver SPINE_3_8); reflexivity.
  - unfold ostr. rewrite (oget_reload ver CBone) by (auto; simpl; tauto). destruct (exported (default_values CBone ver) "transform" (oget b "transform")) eqn:E; [reflexivity | ].
    assert (D : get_or_none "transform" (default_values CBone ver) = VStr "normal") by (unfold default_values; destruct (ver_ge ver SPINE_3_8); reflexivity).
    assert (Dg : dget "transform" (default_values CBone ver) = Some (VStr "normal")) by (unfold default_values; destruct (ver_ge ver SPINE_3_8); reflexivity).
    unfold exported in E. destruct (oget b "transform") eqn:Eo; cbn [is_none] in E;
      [exfalso; pose proof W as (Ec & _); specialize (F "transform" (VStr "normal")); rewrite Ec in F; specialize (F ltac:(simpl; tauto) Dg Eo); discriminate F | .. ];
      apply Bool.negb_false_iff in E; rewrite D in E; apply py_eq_text in E; rewrite E, D; reflexivity.
Qed.
Lemma scale_reload : forall ver b k, loaded_obj ver CBone b -> scale_attribute k -> (oget (reload ver b) k = oget b k /\ py_eq (oget b k) (VFloat f_one) = false) \/
  (oget (reload ver b) k = VFloat f_one /\ py_eq (oget b k) (VFloat f_one) = true).
Proof.
  intros ver b k [W F] K. assert (I : In k (attrs_of CBone)) by (destruct K as [-> | ->]; simpl; tauto). rewrite (oget_reload ver CBone) by auto.
  assert (Dg : dget k (default_values CBone ver) = Some (VFloat f_one)) by (destruct K as [-> | ->]; unfold default_values; destruct (ver_ge ver SPINE_3_8); reflexivity).
  assert (N : oget b k <> VNone) by (intros N; pose proof W as (Ec & _); specialize (F k (VFloat f_one)); rewrite Ec in F; specialize (F I Dg N); discriminate F).
  unfold exported, get_or_none. rewrite Dg. destruct (is_none (oget b k)) eqn:En; [destruct (oget b k); try discriminate En; congruence | ].
  destruct (py_eq (oget b k) (VFloat f_one)); cbn [negb]; auto.
Qed.


Lemma reload_saved : forall (ok : val -> Prop) e0 ops e e', any_calls e0 ops e -> mk_editor (editor_json e) = Ok e' -> no_null_time (e_data e) \/ ver_ge (e_ver e) SPINE_3_8 = true ->
  (forall b k s, In b (d_bones (e_data e)) -> scale_attribute k -> ok s -> py_eq (oget b k) (VFloat f_one) = true -> py_mul (VFloat f_one) s = py_mul (oget b k) s) -> saved ok e e'.
Proof.
  intros ok e0 ops e e' H R T K. pose proof (calls_from _ _ _ H) as C. pose proof (cf_dinv _ _ C) as D. destruct (any_reloaded _ _ _ H e' R T) as (Sk & V & _ & J).
  pose proof (reloaded_data _ _ _ _ H R) as X. pose proof (dt_anims _ _ _ (reloaded_twin _ _ _ _ H R T)) as A. set (ver := e_ver e) in *.
  assert (Xb : d_bones (e_data e') = map (reload ver) (d_bones (e_data e))) by (rewrite X; unfold reload_data, data_defaults, data_raw, trim_data, set_skins; cbn [d_bones]; apply map_reload).
  assert (Tw : Forall2 (bone_twin ver ok) (d_bones (e_data e)) (d_bones (e_data e'))).
  { rewrite Xb. apply Forall2_of_map with (P := fun b => In b (d_bones (e_data e)) /\ loaded_obj ver CBone b).
    - intros b [Hb L]. apply bone_reload; [exact L | ]. intros k s Hk Ho. destruct (scale_reload ver b k L Hk) as [[E _] | [E Q]]; rewrite E; [reflexivity | ]. apply K; auto.
    - apply Forall_forall. intros b Hb. split; [exact Hb | ]. pose proof (di_bones _ _ D) as F. rewrite Forall_forall in F. auto. }
  constructor; [exact Sk | exact V | exact Tw | exact A | ]. fold ver.
  unfold editor_json, document_json in J. fold (e_ver e) (e_ver e') (e_data e) (e_data e') in J. rewrite V, Sk in J. fold ver in J. injection J as J. apply (f_equal (ddel "skeleton")) in J. rewrite !ddel_skeleton, !data_json_parts in J.
  rewrite (twin_bones_json _ _ _ _ Tw), (anims_json _ _ _ A) in J. apply app_inv_head, app_inv_tail in J. exact J.
Qed.
Theorem calls_after_reload : forall e0 ops e e' l e1 rs e1' rs', any_calls e0 ops e -> mk_editor (editor_json e) = Ok e' ->
  no_null_time (e_data e) \/ ver_ge (e_ver e) SPINE_3_8 = true -> ones_are_floats (e_data e) -> Forall (light_call (fun _ => True)) l ->
  run_calls e l = (e1, rs) -> run_calls e' l = (e1', rs') -> rs' = rs /\ editor_json e1' = editor_json e1.
Proof.
  intros e0 ops e e' l e1 rs e1' rs' H R T O L E E'. assert (Sv : saved (fun _ => True) e e').
  { apply (reload_saved _ e0 ops); auto. intros b k s Hb Hk _ Q. rewrite (O b k Hb Hk Q). reflexivity. }
  destruct (saved_run _ _ _ _ _ _ _ _ Sv L E E') as [Er S1]. split; [exact Er | exact (saved_export _ _ _ S1)].
Qed.

(** ** Scaling by floats: 1, True and 1.0 have the same products *)
Lemma one_int : forall z, zfeqb z f_one = true -> z = 1%Z.
Proof. intros z E. unfold zfeqb in E. cbn in E. unfold dyadic_eqb in E. cbn [fst snd] in E. apply Z.eqb_eq in E. cbn in E. lia. Qed.
Lemma one_float : forall f, is_float f -> feqb f f_one = true -> f = f_one.
Proof.
  intros [s | s | | s m x] V E; try discriminate E; try (destruct s; discriminate E).
  cbn [feqb f_one dyadic] in E. unfold dyadic_eqb in E. cbn [fst snd cond_Zopp] in E. apply Z.eqb_eq in E.
  unfold is_float, valid_binary, bounded, canonical_mantissa in V. apply Bool.andb_true_iff in V as [V _]. apply Zeq_bool_eq in V. unfold fexp, emin in V.
  pose proof (FloatFacts.digits_pos m) as P.
  destruct s.
  - exfalso. cbn [cond_Zopp] in E. assert (0 < 2 ^ (x - Z.min x (-52)))%Z by (apply Z.pow_pos_nonneg; lia). assert (0 < 2 ^ (-52 - Z.min x (-52)))%Z by (apply Z.pow_pos_nonneg; lia). nia.
  - cbn [cond_Zopp] in E. set (n := Zpos (digits2_pos m)) in *.
    destruct (Z.le_gt_cases x (-52)) as [L | L].
    + rewrite Z.min_l in E by lia. rewrite Z.sub_diag in E. change (2 ^ 0)%Z with 1%Z in E. rewrite Z.mul_1_r in E.
      assert (Em : Zpos m = (2 ^ (- x))%Z) by (rewrite E; change 4503599627370496%Z with (2 ^ 52)%Z; rewrite <- Z.pow_add_r by lia; f_equal; lia).
      rewrite Em in P. destruct P as [P1 P2]. apply Z.pow_le_mono_r_iff in P1; [ | lia | lia]. apply Z.pow_lt_mono_r_iff in P2; [ | lia | lia].
      assert (x = -52)%Z by lia. subst x. change (2 ^ (- (-52)))%Z with 4503599627370496%Z in Em. injection Em as ->. reflexivity.
    + rewrite Z.min_r in E by lia. exfalso. assert (Y : (Zpos m * 2 ^ (x + 52) = 2 ^ 52)%Z) by (replace (x + 52)%Z with (x - -52)%Z by lia; exact E).
      assert (0 <= 2 ^ (n - 1))%Z by (apply Z.pow_nonneg; lia).
      assert (Q : (2 ^ (n - 1 + (x + 52)) <= 2 ^ 52)%Z) by (rewrite Z.pow_add_r by lia; rewrite <- Y; apply Z.mul_le_mono_nonneg_r; [apply Z.pow_nonneg; lia | lia]).
      apply Z.pow_le_mono_r_iff in Q; lia.
Qed.
Theorem float_calls_after_reload : forall e0 ops e e' l e1 rs e1' rs', any_calls e0 ops e -> mk_editor (editor_json e) = Ok e' ->
  no_null_time (e_data e) \/ ver_ge (e_ver e) SPINE_3_8 = true -> scales_binary64 (e_data e) -> Forall (light_call (fun s => exists f, s = VFloat f)) l ->
  run_calls e l = (e1, rs) -> run_calls e' l = (e1', rs') -> rs' = rs /\ editor_json e1' = editor_json e1.
Proof.
  intros e0 ops e e' l e1 rs e1' rs' H R T B L E E'. assert (Sv : saved (fun s => exists f, s = VFloat f) e e').
  { apply (reload_saved _ e0 ops); auto. intros b k s Hb Hk [f ->] Q.
    destruct (oget b k) as [ | t | z | x | t | t | t] eqn:Eo; cbn in Q; try discriminate Q.
    - destruct t; [reflexivity | discriminate Q].
    - apply one_int in Q. subst z. reflexivity.
    - rewrite (one_float x); [reflexivity | | exact Q]. apply (B b k x Hb Hk Eo). }
  destruct (saved_run _ _ _ _ _ _ _ _ Sv L E E') as [Er S1]. split; [exact Er | exact (saved_export _ _ _ S1)].
Qed.

(** ** One scaling *)
Lemma run_one : forall e sx sy e1 r, scale_animation sx sy e = (e1, r) -> run_calls e [EoScale sx sy] = (e1, [r]).
Proof. intros. cbn [run_calls estep]. rewrite H. reflexivity. Qed.
Theorem scale_after_reload : forall e0 ops e e' sx sy e1 r e1' r', any_calls e0 ops e -> mk_editor (editor_json e) = Ok e' ->
  no_null_time (e_data e) \/ ver_ge (e_ver e) SPINE_3_8 = true -> ones_are_floats (e_data e) ->
  scale_animation sx sy e = (e1, r) -> scale_animation sx sy e' = (e1', r') -> r' = r /\ editor_json e1' = editor_json e1.
Proof.
  intros e0 ops e e' sx sy e1 r e1' r' H R T O S S'. assert (L : Forall (light_call (fun _ => True)) [EoScale sx sy]) by (constructor; [split; exact I | constructor]).
  destruct (calls_after_reload _ _ _ _ _ _ _ _ _ H R T O L (run_one _ _ _ _ _ S) (run_one _ _ _ _ _ S')) as [E J].
  injection E as E. auto.
Qed.
Theorem scale_floats_after_reload : forall e0 ops e e' fx fy e1 r e1' r', any_calls e0 ops e -> mk_editor (editor_json e) = Ok e' ->
  no_null_time (e_data e) \/ ver_ge (e_ver e) SPINE_3_8 = true -> scales_binary64 (e_data e) ->
  scale_animation (VFloat fx) (VFloat fy) e = (e1, r) -> scale_animation (VFloat fx) (VFloat fy) e' = (e1', r') -> r' = r /\ editor_json e1' = editor_json e1.
Proof.
  intros e0 ops e e' fx fy e1 r e1' r' H R T O S S'. assert (L : Forall (light_call (fun s => exists f, s = VFloat f)) [EoScale (VFloat fx) (VFloat fy)]) by (constructor; [split; eexists; reflexivity | constructor]).
  destruct (float_calls_after_reload _ _ _ _ _ _ _ _ _ H R T O L (run_one _ _ _ _ _ S) (run_one _ _ _ _ _ S')) as [E J].
  injection E as E. auto.
Qed.
