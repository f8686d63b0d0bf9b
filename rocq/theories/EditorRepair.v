(** Proofs: an editor whose calls failed can be repaired, saved and loaded again. *)
From Verif Require Import PyBase PyFacts Json Version Graph SpecGraph GraphFacts GraphRemove IdFacts Classes ClassFacts DocFacts ReloadFacts SpecDoc SpineGraph SpecSpine
  SpineFacts BuildFacts BuildTotal SpineRemove DrawOrder SpecDraw DrawFacts DrawAny AnimData AnimFacts AnimErr Editor SpecAnim SkinFacts SpecEditor SpecFail SpecAny SpecReload EditorGraph EditorData EditorBuild EditorClean EditorOut EditorHist EditorFacts
  EditorRemoved EditorOrder EditorScale EditorErase EditorEntries EditorFail EditorAgain EditorReload EditorAny.
From Coq Require Import Sorting.Sorted Permutation.
Open Scope string_scope.
Open Scope list_scope.

(** ** The data after the slots and attachments are gone *)
Lemma drop_none : forall A (l : dict A), drop_keys [] l = l.
Proof. intros A l. unfold drop_keys. apply filter_all. reflexivity. Qed.
Lemma clean_skin_slots : forall rem s, clean_skin rem [] s = mkSkin (sk_name s) (Some (drop_keys rem (sk_atts s))).
Proof.
  intros rem s. unfold clean_skin. do 2 f_equal. unfold dmap. erewrite map_ext; [apply map_id | ]. intros [k m]. cbn [fst snd]. rewrite drop_none. reflexivity.
Qed.
Lemma fold_keys : forall atts sk l n a, In (n, a) (fold_left (fun an s => dmap (remove_deforms_with_attachments_on_skin atts (sk_name s)) an) sk l) ->
  exists a1, In (n, a1) l /\ an_drawOrder a = an_drawOrder a1.
Proof.
  intros atts sk. induction sk as [ | s sk IH]; intros l n a H; cbn [fold_left] in H; [eauto | ].
  destruct (IH _ _ _ H) as (a1 & H1 & E1). apply in_dmap in H1 as (a2 & H2 & ->). exists a2. split; [exact H2 | ]. rewrite E1.
  unfold remove_deforms_with_attachments_on_skin. destruct (sk_name s) as [i | ]; [ | reflexivity]. destruct (dget i (an_deform a2)); reflexivity.
Qed.
Lemma clean_data_view : forall rem atts names bs ss is d d' r, clean_data rem atts names bs ss is d = (d', r) ->
  map slot_name (d_slots d') = map slot_name ss /\
  d_skins d' = map (clean_skin rem (match r with Ok _ => atts | Err _ => [] end)) (d_skins d) /\
  (forall n a k, In (n, a) (d_animations d') -> In k (an_drawOrder a) -> exists a0 k0, In (n, a0) (d_animations d) /\ In k0 (an_drawOrder a0) /\
     (k = k0 \/ remove_offsets_with_ids rem names k0 = (k, Ok tt))).
Proof.
  intros rem atts names bs ss is d d' r E. unfold clean_data in E.
  set (dd := clean_slots_in_animations rem (clean_slots_in_skins rem (set_ik (set_slots (set_bones d bs) ss) is))) in *.
  unfold clean_draw_order_refs in E. destruct (dmapM_inplace _ (d_animations dd)) as [l u] eqn:El.
  assert (Ks : d_skins dd = map (clean_skin rem []) (d_skins d)).
  { unfold dd, clean_slots_in_animations, clean_slots_in_skins. cbn [d_skins set_animations set_skins set_ik set_slots set_bones]. apply map_ext. intros s. rewrite clean_skin_slots. reflexivity. }
  assert (Ka : forall n a k, In (n, a) l -> In k (an_drawOrder a) -> exists a0 k0, In (n, a0) (d_animations d) /\ In k0 (an_drawOrder a0) /\ (k = k0 \/ remove_offsets_with_ids rem names k0 = (k, Ok tt))).
  { intros n a k Ha Hk.
    assert (B : exists a1 k0, In (n, a1) (d_animations dd) /\ In k0 (an_drawOrder a1) /\ (k = k0 \/ remove_offsets_with_ids rem names k0 = (k, Ok tt))).
    { unfold dmapM_inplace in El. destruct (inplace_in _ _ _ _ _ _ El Ha) as [K | ([n1 a1] & v & K & Ef)]; [exists a, k; auto | ]. cbn [fst snd] in Ef.
      unfold remove_draw_order_with_ids in Ef. destruct (mapM_inplace (remove_offsets_with_ids rem names) (an_drawOrder a1)) as [l1 u1] eqn:E1. injection Ef as -> <- _. cbn [an_drawOrder] in Hk.
      exists a1. destruct (inplace_in _ _ _ _ _ _ E1 Hk) as [Q | (k0 & w & Q & Ek)]; [exists k; auto | ]. exists k0. split; [exact K | ]. split; [exact Q | ].
      destruct w as [[] | w]; [right; exact Ek | left]. unfold remove_offsets_with_ids in Ek. cbv zeta in Ek. match type of Ek with context [match ?t with Ok _ => _ | Err _ => _ end] => destruct t end; [discriminate | ]. injection Ek as <- _. reflexivity. }
    destruct B as (a1 & k0 & Ha1 & Hk0 & Q). unfold dd, clean_slots_in_animations in Ha1. cbn [d_animations set_animations] in Ha1. apply in_dmap in Ha1 as (a0 & Ha0 & ->).
    exists a0, k0. auto. }
  destruct u as [u | x]; injection E as <- <-.
  - cbn [clean_attachments_in_slots clean_attachments_in_skins set_slots set_skins set_animations d_slots d_skins d_animations]. split; [ | split].
    + rewrite map_map. change (d_slots dd) with ss. apply map_ext. intros s. destruct (ostr s "attachment"); auto. destruct (smem _ atts); auto. unfold slot_name, ostr. rewrite !oget_oset. reflexivity.
    + rewrite Ks, map_map. apply map_ext. intros s. rewrite clean_skin_slots. reflexivity.
    + intros n a k Ha Hk. destruct (fold_keys _ _ _ _ _ Ha) as (a1 & H1 & E1). rewrite E1 in Hk. eauto.
  - split; [reflexivity | ]. split; [exact Ks | exact Ka].
Qed.

(** Properties that every change keeps *)
Section Changes.
  Variables (e0 : editor) (P : editor -> Prop).
  Let S := sound e0.
  Hypothesis L : loaded e0.
  Hypothesis P_start : P e0.
  Hypothesis P_skin : forall n e d r, S e -> P e -> remove_skin n (e_data e) = (d, r) -> P (put_data e d).
  Hypothesis P_erase : forall l e, S e -> P e -> P (put_data e (set_animations (e_data e) (filter (fun kv => negb (smem (fst kv) l)) (d_animations (e_data e))))).
  Hypothesis P_scale : forall sx sy e l r, S e -> P e -> scale_bones sx sy (d_bones (e_data e)) = (l, r) -> P (put_data e (set_bones (e_data e) l)).
  Hypothesis P_build : forall e g, S e -> P e -> create_from_json_data (document_json (e_doc e)) = Ok g -> P (mkEditor (e_doc e) (e_images e) g).
  Hypothesis P_images : forall e i, P e -> P (mkEditor (e_doc e) i (e_graph e)).
  Hypothesis P_clean : forall enum e e' r, order_ok enum -> S e -> P e -> clean_animation enum e = (e', r) -> P e'.

  Lemma P_skins : forall l e e' r, S e -> P e -> mforeach (fun n => on_data (remove_skin n)) l e = (e', r) -> P e'.
  Proof.
    induction l as [ | n l IH]; intros e e' r Se Pe E; cbn [mforeach] in E; [injection E as <- _; auto | ].
    unfold mbind at 1 in E. unfold on_data at 1 in E. destruct (remove_skin n (e_data e)) as [d1 [r1 | x]] eqn:E1.
    - assert (S1 : S (put_data e d1)). { destruct Se as (V & D & G). split; [exact V | ]. split; [eapply wdata_skin; eauto | exact G]. }
      unfold mbind at 1 in E. destruct (mforeach (fun n => on_data (remove_skin n)) l _) as [e2 [r2 | x2]] eqn:E2; injection E as <- _; (eapply IH; [ | | exact E2]); eauto; exact (P_skin _ _ _ _ Se Pe E1).
    - injection E as <- _. exact (P_skin _ _ _ _ Se Pe E1).
  Qed.
  Lemma P_step : forall op e e' r, eop_ok op -> S e -> P e -> estep e op = (e', r) -> P e'.
  Proof.
    intros [enum l safe | enum l strict safe | enum | sx sy] e e' r O Se Pe E; cbn [estep eop_ok] in *.
    - destruct (erase_skins enum l safe e) as [e9 u] eqn:Es. injection E as <- _. unfold erase_skins in Es. unfold mbind at 1 in Es.
      destruct (mforeach (fun n => on_data (remove_skin n)) l e) as [e1 [rs | x]] eqn:E1; pose proof (sound_skins e0 _ _ _ _ Se E1) as S1; pose proof (P_skins _ _ _ _ Se Pe E1) as P1; [ | injection Es as <- _; exact P1].
      unfold mbind at 1 in Es. unfold mget at 1 in Es. cbv beta iota in Es. pose proof S1 as (V1 & D1 & G1).
      destruct (rebuild_any e0 L (e_doc e1) V1 D1) as [g Eg]. unfold mbind at 1 in Es. unfold mlift at 1 in Es. rewrite Eg in Es. cbv beta iota in Es.
      unfold mbind at 1 in Es. unfold on_graph at 1, mput at 1 in Es. cbv beta iota in Es.
      pose proof (P_build _ _ S1 P1 Eg) as P2. pose proof (built_any e0 (e_doc e1) g V1 D1 Eg) as W.
      assert (S2 : S (mkEditor (e_doc e1) (e_images e1) g)) by (split; [exact V1 | split; [exact D1 | eauto]]).
      unfold mbind at 1 in Es. destruct safe.
      + unfold mret at 1 in Es. cbv beta iota in Es. unfold mbind at 1, clean_images_references at 1 in Es. unfold mret in Es. injection Es as <- _. apply (P_images _ _ P2).
      + destruct (clean_animation enum _) as [e2 [rep | x]] eqn:Ec; pose proof (P_clean _ _ _ _ O S2 P2 Ec) as P3.
        * unfold mbind at 1, clean_images_references at 1 in Es. unfold mret in Es. injection Es as <- _. apply (P_images _ _ P3).
        * injection Es as <- _. exact P3.
    - destruct (erase_animations enum l strict safe e) as [e9 v] eqn:Es. injection E as <- _. unfold erase_animations in Es. unfold mbind at 1 in Es. unfold on_data at 1 in Es.
      destruct (erase_raw_animations_data l strict (e_data e)) as [d1 u] eqn:E1.
      assert (S1 : S (put_data e d1)).
      { destruct Se as (V & D & G). split; [exact V | ]. split; [ | exact G]. pose proof (erase_raw_anims _ _ _ _ _ _ (wd_inv _ _ D) E1) as Di. apply erase_raw_data in E1 as ->. destruct D. constructor; auto. }
      assert (P1 : P (put_data e d1)) by (apply erase_raw_data in E1 as ->; auto).
      change (mkEditor (mkDoc (doc_skeleton (e_doc e)) (doc_version (e_doc e)) d1) (e_images e) (e_graph e)) with (put_data e d1) in Es.
      destruct u as [u | x]; [ | injection Es as <- _; exact P1].
      unfold mbind at 1 in Es. destruct safe.
      + unfold mret at 1 in Es. cbv beta iota in Es. unfold mbind, mget, mret in Es. injection Es as <- _. exact P1.
      + destruct (clean_animation enum _) as [e2 [rep | x]] eqn:Ec; pose proof (P_clean _ _ _ _ O S1 P1 Ec) as P3.
        * unfold mbind, mget, mret in Es. injection Es as <- _. exact P3.
        * injection Es as <- _. exact P3.
    - destruct (clean_animation enum e) as [e1 u] eqn:Ec. injection E as <- _. eapply P_clean; eauto.
    - unfold scale_animation, on_data in E. destruct (scale_bones sx sy (d_bones (e_data e))) as [l u] eqn:El. injection E as <- _. exact (P_scale _ _ _ _ _ Se Pe El).
  Qed.
  Lemma changes_all : forall ops e, any_calls e0 ops e -> P e.
  Proof.
    intros ops e H. induction H as [ | ops e op e' r H IH O E]; auto. destruct (calls_sound _ _ _ H) as [_ Se]. eapply P_step; eauto.
  Qed.
End Changes.
Section Calls.
  Variables (e0 : editor) (P : editor -> Prop).
  Let S := sound e0.
  Hypothesis L : loaded e0.
  Hypothesis P_start : P e0.
  Hypothesis P_skin : forall n e d r, S e -> P e -> remove_skin n (e_data e) = (d, r) -> P (put_data e d).
  Hypothesis P_erase : forall l e, S e -> P e -> P (put_data e (set_animations (e_data e) (filter (fun kv => negb (smem (fst kv) l)) (d_animations (e_data e))))).
  Hypothesis P_scale : forall sx sy e l r, S e -> P e -> scale_bones sx sy (d_bones (e_data e)) = (l, r) -> P (put_data e (set_bones (e_data e) l)).
  Hypothesis P_build : forall e g, S e -> P e -> create_from_json_data (document_json (e_doc e)) = Ok g -> P (mkEditor (e_doc e) (e_images e) g).
  Hypothesis P_images : forall e i, P e -> P (mkEditor (e_doc e) i (e_graph e)).
  Hypothesis P_early : forall enum e e' x, order_ok enum -> S e -> P e -> clean_early e0 enum e e' x -> P e'.
  Hypothesis P_late : forall enum e e' inv atts leafs bs ss is r, order_ok enum -> S e -> P e -> clean_late e0 enum e e' inv atts leafs bs ss is r -> P e'.

  Lemma P_clean : forall enum e e' r, order_ok enum -> S e -> P e -> clean_animation enum e = (e', r) -> P e'.
  Proof.
    intros enum e e' r O Se Pe E. destruct (clean_ways e0 L _ _ _ _ Se E) as [(x & _ & C) | (inv & atts & leafs & bs & ss & is & u & C & _)]; eauto.
  Qed.
  Lemma calls_step : forall op e e' r, eop_ok op -> S e -> P e -> estep e op = (e', r) -> P e'.
  Proof. exact (P_step e0 P L P_skin P_erase P_scale P_build P_images P_clean). Qed.
  Lemma calls_all : forall ops e, any_calls e0 ops e -> P e.
  Proof. exact (changes_all e0 P L P_start P_skin P_erase P_scale P_build P_images P_clean). Qed.
End Calls.


(** ** Slots that are used are in the graph, and skins file attachments under slots of the document *)
Definition linked (e : editor) : Prop := filed_under_slots (e_data e) /\
  forall s, In s (d_slots (e_data e)) -> has (e_graph e) T_SLOT (slot_name s) \/ ~ used_slot (e_data e) s.
Lemma used_fewer : forall d d' s, (forall n a', In (n, a') (d_animations d') -> exists m a, In (m, a) (d_animations d) /\ an_slots a' = an_slots a) -> used_slot d' s -> used_slot d s.
Proof.
  intros d d' s K (a' & [n Ha] & V). destruct (K n a' Ha) as (m & a & Hm & E). exists a. split; [exists m; exact Hm | ].
  unfold visible_in, has_timeline, timeline in *. rewrite E in V. exact V.
Qed.
Lemma remove_skin_anims : forall n d d' r i a', remove_skin n d = (d', r) -> In (i, a') (d_animations d') ->
  exists a, In (i, a) (d_animations d) /\ an_slots a' = an_slots a /\ an_drawOrder a' = an_drawOrder a.
Proof.
  intros n d d' r i a' E H. unfold remove_skin in E. destruct (get_skin d n) as [source | ]; [ | injection E as <- _; eauto].
  destruct (mapM_inplace _ (d_skins d)) as [skins u]. destruct u as [u | y]; injection E as <- _; cbn [d_animations set_skins set_animations] in H; [ | eauto].
  apply in_dmap in H as (a & Ha & ->). exists a. split; [exact Ha | ]. unfold drop_deform. split; reflexivity.
Qed.
Lemma linked_calls : forall e0 ops e, plain_slots (e_data e0) -> any_calls e0 ops e -> linked e.
Proof.
  intros e0 ops e Pl H. destruct (calls_sound _ _ _ H) as [L _]. revert ops e H. apply (calls_all e0 linked L).
  - destruct (loaded_sync e0 L) as (D0 & K0 & S0). split; [apply loaded_filed; exact L | ]. intros s Hs. left.
    eapply sync_has; [exact S0 | ]. apply in_map. exact Hs.
  - intros n e d r Se [F K] E. destruct (remove_skin_kept _ _ _ _ E) as (_ & Es & _). split.
    + apply filed_walk. cbn [put_data e_data e_doc with_data doc_data]. rewrite Es. eapply walk_remove; [ | | exact E]; [auto | apply filed_walk; exact F].
    + cbn [put_data e_data e_doc e_graph with_data doc_data]. rewrite Es. intros s Hs. destruct (K s Hs) as [Q | Q]; [left; exact Q | right]. intros U. apply Q. eapply used_fewer; [ | exact U].
      intros i a' Ha. destruct (remove_skin_anims _ _ _ _ _ _ E Ha) as (a & Ha' & Ea & _). eauto.
  - intros l e Se [F K]. split; [exact F | ]. intros s Hs. destruct (K s Hs) as [Q | Q]; [left; exact Q | right]. intros U. apply Q. eapply used_fewer; [ | exact U].
    intros i a' Ha. cbn [put_data e_data e_doc with_data doc_data set_animations d_animations] in Ha. apply filter_In in Ha as [Ha _]. eauto.
  - intros sx sy e l r Se [F K] _. split; [exact F | exact K].
  - intros e g (V & D & _) [F K] G. split; [exact F | ]. intros s Hs. left. apply (wg_has _ _ _ _ _ _ (built_any e0 (e_doc e) g V D G)). apply in_map. exact Hs.
  - intros e i K. exact K.
  - intros enum e e' x O (V & D & _) [F K] [C1 C2 C3 C4 C5]. unfold linked, e_data. rewrite C1. split; [exact F | ]. intros s Hs.
    destruct (K s Hs) as [Q | Q]; [ | right; exact Q]. destruct (C5 _ Q) as [Z | (inv & atts & U & Z)]; [left; exact Z | right].
    rewrite in_order in Z by exact O. pose proof (wd_names _ _ D) as Ds. destruct (unused_spec _ _ _ Ds (dinv_timelines _ _ (wd_inv _ _ D)) U) as [Ui _].
    apply Ui in Z as (s' & Hs' & En & Nu). rewrite <- (unique_name _ _ _ Ds Hs' Hs En). exact Nu.
  - intros enum e e' inv atts leafs bs ss is r O (V & D & _) [F K] [C1 C2 C3 C4 C5 C6 C7 C8 C9]. destruct (clean_data_view _ _ _ _ _ _ _ _ _ C4) as (En & Ek & _).
    pose proof (wd_names _ _ D) as Ds. destruct (unused_spec _ _ _ Ds (dinv_timelines _ _ (wd_inv _ _ D)) C1) as [Ui _]. split.
    + intros s sl m Hs Hm. rewrite Ek in Hs. apply in_map_iff in Hs as (s1 & <- & Hs). unfold clean_skin, sk_atts at 1 in Hm. cbn [sk_attachments] in Hm.
      apply in_dmap in Hm as (m1 & Hm & _). apply in_drop_keys in Hm as [Hm Nr]. rewrite En. pose proof (F s1 sl m1 Hs Hm) as Hn. apply in_map_iff in Hn as (so & Eso & Hso).
      assert (Hg : has (e_graph e) T_SLOT sl).
      { destruct (K so Hso) as [Q | Q]; [rewrite <- Eso; exact Q | ]. apply C2. apply in_order; [exact O | ]. apply Ui. eauto. }
      rewrite in_order in Nr by exact O. rewrite in_set_union in Nr. destruct (C8 _ Hg) as [Q | [Q | Q]]; [exact Q | rewrite in_order in Q by exact O; tauto | ].
      destruct Nr. right. change (In (slot_base sl) leafs) in Q. rewrite plain_base in Q; [exact Q | ]. pose proof (wd_slots _ _ D) as Fr. rewrite Forall_forall in Fr.
      destruct (EditorFacts.from_name _ _ (Fr so Hso)) as (s0 & H0 & E0). rewrite <- Eso, <- E0. apply Pl. exact H0.
    + intros s Hs. left. apply (in_map slot_name) in Hs. rewrite En in Hs. apply in_map_iff in Hs as (s1 & <- & Hs). auto.
Qed.

(** ** Building the graph again *)
Lemma rebuilt_in_step : forall e0 ops e g, plain_slots (e_data e0) -> any_calls e0 ops e -> create_from_json_data (editor_json e) = Ok g ->
  in_step (mkEditor (e_doc e) (e_images e) g) (d_bones (e_data e)) (d_slots (e_data e)) (d_ik (e_data e)).
Proof.
  intros e0 ops e g Pl H G. destruct (linked_calls _ _ _ Pl H) as [F _]. destruct (calls_sound _ _ _ H) as [L (V & D & _)]. pose proof (wd_inv _ _ D) as Di. rewrite <- V in Di.
  assert (Sk : skins_ok (e_data e)). { intros sl k o (s & m & Hs & Hm & _). exact (F s sl m Hs Hm). }
  pose proof (build_sync (e_doc e) g Di Sk G) as Sy. pose proof (built_filed (e_doc e) g (e_images e) Di G) as Fi. constructor.
  - split; [exact Di | exact Sy].
  - exact Fi.
  - intros s Hs. pose proof (wd_slots _ _ D) as Fr. rewrite Forall_forall in Fr. destruct (EditorFacts.from_name _ _ (Fr s Hs)) as (s0 & H0 & E0). apply plain_base. rewrite <- E0. apply Pl. exact H0.
  - intros inv atts leafs Hl. rewrite Forall_forall. intros s Hs. apply filter_In in Hs as [Hs Hk]. unfold keep in Hk. apply negb_true_iff, smem_nin in Hk. rewrite in_app_iff in Hk.
    pose proof (wd_slots _ _ D) as Fr. rewrite Forall_forall in Fr. intros N. apply Hk. right. apply Hl. split; [ | split; [tauto | ]].
    + eapply sync_has; [exact Sy | ]. apply in_map. exact Hs.
    + intros k Hk'. destruct (Fi _ _ Hk') as [o Ho]. destruct (worn_boned e0 L s (Fr s Hs)); [ | exact N]. eapply wd_skins; eauto.
Qed.
Lemma step_removed : forall e bs ss is enum e' rem atts, in_step e bs ss is -> order_ok enum -> clean_animation enum e = (e', Ok (rem, atts)) ->
  (forall n, In n rem <-> exists s, In s (d_slots (e_data e)) /\ slot_name s = n /\ slot_goes (e_data e) s) /\
  (forall k, In k atts <-> goes (e_data e) k) /\
  map slot_name (d_slots (e_data e')) = without rem (map slot_name (d_slots (e_data e))) /\
  (forall sl k o, skin_attachment (e_data e') sl k o <-> skin_attachment (e_data e) sl k o /\ ~ In sl rem /\ ~ In k atts).
Proof.
  intros e bs ss is enum e' rem atts [[D S] F Pl Bo] O E. destruct (clean_success _ _ _ _ _ _ _ _ D S O E) as (inv & leafs & orphans & imgs & K).
  pose proof (sync_distinct_slots _ _ _ _ _ _ S) as Ds. destruct (unused_spec _ _ _ Ds (dinv_timelines _ _ D) (co_unused _ _ _ _ _ _ _ _ _ _ _ _ K)) as [Ui Ua].
  pose proof (co_choice _ _ _ _ _ _ _ _ _ _ _ _ K) as Ch.
  assert (Lb : forall s, In s leafs -> slot_base s = s).
  { intros s Hs. apply (leaf_name _ _ _ _ _ _ _ _ _ _ _ _ _ (conj D S) K) in Hs. apply in_map_iff in Hs as (o & <- & Ho). auto. }
  assert (R : forall x, In x rem <-> In x (inv ++ leafs)).
  { intros x. rewrite (co_rem_in _ _ _ _ _ _ _ _ _ _ _ _ K), in_app_iff. split; (intros [Q | Q]; [auto | right]).
    - destruct Q as (s & Hs & ->). rewrite Lb; auto.
    - exists x. rewrite Lb; auto. }
  assert (Ga : forall k, In k atts <-> goes (e_data e) k).
  { intros k. unfold goes. rewrite Ua. split; intros (N & sl & o & Ho & Hm); (split; [auto | exists sl, o; split; auto]); intros Hc; apply Ui; auto. }
  split; [ | split; [exact Ga | split]].
  - intros n. rewrite R, in_app_iff. split.
    + intros [Hi | Hl]; [apply Ui in Hi as (s & Hs & <- & N); exists s; unfold slot_goes; auto | ].
      pose proof (leaf_name _ _ _ _ _ _ _ _ _ _ _ _ _ (conj D S) K Hl) as Hn. apply in_map_iff in Hn as (s & <- & Hs). exists s. split; [exact Hs | ]. split; [reflexivity | ]. right.
      intros k o Ho. apply Ga. apply (ch_leafs _ _ _ _ _ _ Ch) in Hl as (_ & _ & Hl). apply Hl. apply (sy_atts _ _ _ _ _ _ S _ _ _ Ho).
    + intros (s & Hs & <- & Q).
      assert (Hu : In (slot_name s) inv <-> ~ used_slot (e_data e) s).
      { rewrite Ui. split; [intros (s' & Hs' & En & N); rewrite <- (unique_name _ _ _ Ds Hs' Hs En); auto | eauto]. }
      destruct Q as [Q | Q]; [left; apply Hu; auto | ]. destruct (in_dec string_dec (slot_name s) inv) as [Hi | Hi]; [left; auto | right].
      apply (ch_leafs _ _ _ _ _ _ Ch). split; [ | split; auto].
      * assert (Hn : In (slot_name s) (map slot_name ss)) by (rewrite <- (sy_names _ _ _ _ _ _ S); apply in_map; auto). eapply sync_has; eauto.
      * intros k Hk. destruct (F _ _ Hk) as [o Ho]. apply Ga. eauto.
  - rewrite (clean_names _ _ _ _ _ _ _ _ _ _ _ _ (conj D S) K). symmetry. apply without_same. exact R.
  - exact (cleaned_att _ _ _ _ _ _ _ _ (co_data _ _ _ _ _ _ _ _ _ _ _ _ K)).
Qed.

Section Repaired.
  Variables (e0 : editor) (ops : list eop) (e e1 : editor) (enum enum1 : order).
  Hypotheses (H : any_calls e0 ops e) (Pl : plain_slots (e_data e0)) (O : order_ok enum) (E1 : estep e (EoEraseSkins enum1 [] true) = (e1, Ok tt)).
  Let names := map slot_name (d_slots (e_data e1)).
  Lemma repaired : e_doc e1 = e_doc e /\ e_images e1 = e_images e /\ in_step e1 (d_bones (e_data e)) (d_slots (e_data e)) (d_ik (e_data e)).
  Proof.
    destruct (any_rebuilt _ _ _ enum1 H) as (g & G & E). rewrite E in E1. injection E1 as <-. do 2 (split; [reflexivity | ]). eapply rebuilt_in_step; eauto.
  Qed.
  Theorem repair_kept : e_doc e1 = e_doc e /\ e_images e1 = e_images e.
  Proof. destruct (any_rebuilt _ _ _ enum1 H) as (g & G & E). rewrite E in E1. injection E1 as <-. split; reflexivity. Qed.
  Theorem repair_works : analysable (e_data e1) -> (forall k, In k (draw_keys (e_data e1)) -> sound_key names k) -> exists e' r, clean_animation enum e1 = (e', Ok r).
  Proof. intros A. destruct repaired as (_ & _ & S). exact (step_draw_works _ _ _ _ enum S O A). Qed.
  Theorem repair_fails : analysable (e_data e1) -> forall before k after, first_unsound (e_data e1) before k after ->
    exists e' x gone, clean_animation enum e1 = (e', Err x) /\ half_cleaned rewritten e1 e' before (k :: after) gone /\
      (not_by_int names (do_offsets k) -> exists w, x = EType w) /\ (~ not_by_int names (do_offsets k) -> exists w, x = EValue w).
  Proof. intros A. destruct repaired as (_ & _ & S). exact (step_draw_fails _ _ _ _ enum S O A). Qed.
  Theorem repair_refuses : ~ analysable (e_data e1) -> exists x, clean_animation enum e1 = (e1, Err x).
  Proof.
    intros A. destruct repaired as (_ & _ & [[D S] _ _ _]).
    destruct (get_unused_slots_and_attachments (e_data e1)) as [r | x] eqn:U; [ | exists x; apply clean_fails; auto].
    destruct A. apply unused_total; eauto using dinv_timelines. eapply sync_distinct_slots; eauto.
  Qed.
  Theorem repair_cases : (forall k, In k (draw_keys (e_data e1)) -> sound_key names k) \/ exists before k after, first_unsound (e_data e1) before k after.
  Proof. destruct repaired as (_ & _ & [[D S] _ _ _]). apply sound_or_not. exact (sync_distinct_slots _ _ _ _ _ _ S). Qed.
  Theorem repair_removes : forall e' rem atts, clean_animation enum e1 = (e', Ok (rem, atts)) ->
    (forall n, In n rem <-> exists s, In s (d_slots (e_data e1)) /\ slot_name s = n /\ slot_goes (e_data e1) s) /\
    (forall k, In k atts <-> goes (e_data e1) k) /\
    map slot_name (d_slots (e_data e')) = without rem (map slot_name (d_slots (e_data e1))) /\
    (forall sl k o, skin_attachment (e_data e') sl k o <-> skin_attachment (e_data e1) sl k o /\ ~ In sl rem /\ ~ In k atts).
  Proof. intros e' rem atts E. destruct repaired as (_ & _ & S). eapply step_removed; eauto. Qed.
End Repaired.

(** ** Saving and loading again *)
Section Walks.
  Variables (e0 : editor) (B : Prop) (Psl : string -> Prop) (P : obj -> Prop).
  Hypothesis Pcopy : forall src o, P src -> P o -> o_cls o = CSkinLinkedMesh -> P (copy_mesh src o).
  Lemma walk_calls : forall ops e, any_calls e0 ops e -> walk B Psl P (e_data e0) -> walk B Psl P (e_data e).
  Proof.
    intros ops e H W. destruct (calls_sound _ _ _ H) as [L _]. revert ops e H. apply (calls_all e0 (fun e => walk B Psl P (e_data e)) L); auto.
    - intros n e d r _ We E. eapply walk_remove; eauto.
    - intros enum e e' x _ _ We C. unfold e_data. rewrite (ce_doc _ _ _ _ _ C). exact We.
    - intros enum e e' inv atts leafs bs ss is r _ _ We C. destruct (clean_data_view _ _ _ _ _ _ _ _ _ (ct_data _ _ _ _ _ _ _ _ _ _ _ C)) as (_ & K & _).
      unfold walk. rewrite K. apply walk_clean. exact We.
  Qed.
End Walks.
Lemma skeleton_calls : forall e0 ops e, any_calls e0 ops e -> doc_skeleton (e_doc e) = doc_skeleton (e_doc e0).
Proof.
  intros e0 ops e H. destruct (calls_sound _ _ _ H) as [L _]. revert ops e H. apply (calls_all e0 (fun e => doc_skeleton (e_doc e) = doc_skeleton (e_doc e0)) L); auto.
  - intros enum e e' x _ _ We C. rewrite (ce_doc _ _ _ _ _ C). exact We.
  - intros enum e e' inv atts leafs bs ss is r _ _ We C. destruct (ct_doc _ _ _ _ _ _ _ _ _ _ _ C) as [K _]. congruence.
Qed.
Theorem calls_from : forall e0 ops e, any_calls e0 ops e -> comes_from e0 e.
Proof.
  intros e0 ops e H. pose proof (calls_sound _ _ _ H) as [L (V & D & _)]. pose proof (wd_inv _ _ D) as Di. constructor.
  - exact L.
  - rewrite V. exact Di.
  - rewrite V. apply atts_inv_walk. eapply walk_calls; [ | exact H | apply loaded_walk; exact L]. intros src o Hs Ho _. apply att_inv_copy; auto.
  - exact (skeleton_calls _ _ _ H).
  - exact V.
  - pose proof (wd_heads _ _ D) as Hh. revert Hh. generalize (d_bones (e_data e)) as l, (d_bones (e_data e0)) as l0. clear.
    intros l l0. revert l. induction l0 as [ | b0 l0 IH]; intros [ | b l] E; try discriminate; [constructor | ]. cbn [map] in E. injection E as E1 E2 E. constructor; [ | auto].
    unfold same_head, bone_head, bone_name, ostr. rewrite E1, E2. reflexivity.
  - exact (wd_slots _ _ D).
  - destruct L as (j & _ & E). apply mk_editor_inv in E as (_ & E & _). eapply walk_calls; [ | exact H | eapply images_walk_loaded; eauto]. intros src o Hs _ _. exact Hs.
  - destruct (rebuild_any e0 L (e_doc e) V D) as [g G]. exists g. exact G.
Qed.
Theorem any_reload : forall e0 ops e, any_calls e0 ops e -> ((exists e', mk_editor (editor_json e) = Ok e') <-> can_reload (e_data e)).
Proof. intros e0 ops e H. exact (from_iff e0 e (calls_from _ _ _ H)). Qed.
Theorem any_reloaded : forall e0 ops e, any_calls e0 ops e -> forall e', mk_editor (editor_json e) = Ok e' -> no_null_time (e_data e) \/ ver_ge (e_ver e) SPINE_3_8 = true ->
  doc_skeleton (e_doc e') = doc_skeleton (e_doc e) /\ e_ver e' = e_ver e /\ same_data (e_data e) (e_data e') /\ editor_json e' = editor_json e.
Proof. intros e0 ops e H. exact (from_kept e0 e (calls_from _ _ _ H)). Qed.
Definition offsets_given (d : anim_data) : Prop :=
  forall n a dr o, In (n, a) (d_animations d) -> In dr (an_drawOrder a) -> In o (do_offsets dr) -> oget o "offset" <> VNone.
Lemma required_calls : forall e0 ops e, no_null_required (e_data e0) -> any_calls e0 ops e -> no_null_required (e_data e).
Proof.
  intros e0 ops e [R1 R2] H. pose proof (calls_sound _ _ _ H) as [L (V & D & _)]. split.
  { intros s Hs. pose proof (wd_slots _ _ D) as F. rewrite Forall_forall in F. destruct (F s Hs) as (s0 & H0 & [-> | [-> _]]); auto. rewrite oget_oset. cbn. auto. }
  clear V D. change (offsets_given (e_data e)). change (offsets_given (e_data e0)) in R2. revert ops e H. apply (calls_all e0 (fun e => offsets_given (e_data e)) L); auto.
  - intros n e d r _ K E i a dr o Ha Hd. destruct (remove_skin_anims _ _ _ _ _ _ E Ha) as (a0 & H0 & _ & Ed). rewrite Ed in Hd. eauto.
  - intros l e _ K i a dr o Ha. cbn [put_data e_data e_doc with_data doc_data set_animations d_animations] in Ha. apply filter_In in Ha as [Ha _]. eauto.
  - intros enum e e' x _ _ K C. unfold e_data. rewrite (ce_doc _ _ _ _ _ C). exact K.
  - intros enum e e' inv atts leafs bs ss is r _ (_ & D & _) K C i a dr o Ha Hd Ho.
    destruct (clean_data_view _ _ _ _ _ _ _ _ _ (ct_data _ _ _ _ _ _ _ _ _ _ _ C)) as (_ & _ & Q). destruct (Q _ _ _ Ha Hd) as (a0 & k0 & H0 & Hk & [-> | E]); [eauto | ].
    apply remove_offsets_in_range in E as (_ & ms & Mo & _ & _); [ | exact (wd_names _ _ D)]. destruct (Forall2_fwd _ _ _ _ _ Mo o Ho) as (m & _ & Om). eapply offset_some; eauto.
Qed.
Lemma own_calls : forall e0 ops e, (forall sl k o, skin_attachment (e_data e0) sl k o -> o_cls o <> CSkinPath) -> any_calls e0 ops e ->
  forall sl k o, skin_attachment (e_data e) sl k o -> own_attributes o.
Proof.
  intros e0 ops e Np H. destruct (calls_sound _ _ _ H) as [L _]. apply own_walk. eapply walk_calls; [exact own_copy | exact H | exact (own_start _ Np L)].
Qed.
Theorem any_reload_plain : forall e0 ops e, plain_slots (e_data e0) -> (forall sl k o, skin_attachment (e_data e0) sl k o -> o_cls o <> CSkinPath) ->
  (exists e1, mk_editor (editor_json e0) = Ok e1) -> any_calls e0 ops e ->
  ((exists e', mk_editor (editor_json e) = Ok e') <-> d_slots (e_data e) <> []).
Proof.
  intros e0 ops e Pl Np R H. destruct (calls_sound _ _ _ H) as [L _]. apply (reload_fresh e0 L) in R as [_ R]. rewrite (any_reload _ _ _ H). split; [intros [C1 _ _ _]; auto | ].
  intros C1. constructor; auto; [eapply required_calls; eauto | eapply own_calls; eauto | apply (linked_calls _ _ _ Pl H)].
Qed.
