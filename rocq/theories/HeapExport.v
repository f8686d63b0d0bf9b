(** Proofs about the content of what export and to_json_data return. *)
From Verif Require Import PyBase PyFacts PyNum Json Heap SpecHeap HeapFacts.
Open Scope string_scope.

Scheme exported_ind' := Induction for exported Sort Prop
with exported_items_ind' := Induction for exported_items Sort Prop.
Combined Scheme exported_both from exported_ind', exported_items_ind'.

Lemma items_grow : forall h h' l ts, sound_heap h -> (forall v, In v (map snd l) -> points_into (length h) v) -> grows h h' -> denotes_items h l ts -> denotes_items h' l ts.
Proof.
  intros h h' l ts S V G D. apply denotes_items_each in D. apply denotes_items_each. induction D as [ | x y l ts [E D] F IH]; constructor.
  - split; auto. eapply denotes_grows; eauto. apply V. left. auto.
  - apply IH. intros v Hv. apply V. right. auto.
Qed.
Lemma fresh_points : forall h h' l, fresh h h' l -> forall v, In v l -> points_into (length h') v.
Proof. intros h h' l F v Hv. destruct v; cbn; auto. apply (fr_values _ _ _ F). auto. Qed.
Section Content.
  Variable keep : heap -> nat -> string * hval -> bool.
  Variable h0 : heap.
  Hypothesis K : looks_back keep.
  Definition writes (v : hval) (t : val) : Prop := exists n, forall fuel h, n <= fuel -> grows h0 h -> sound_heap h ->
    exists h2 v2, export keep fuel h v = Some (h2, v2) /\ denotes h2 v2 t.
  Definition writes_items (items : list (string * hval)) (l : list (string * val)) : Prop := exists n, forall fuel h, n <= fuel -> grows h0 h -> sound_heap h ->
    exists h2 l2, export_items (export keep fuel) h items = Some (h2, l2) /\ denotes_items h2 l2 l.
  Lemma constant_writes : forall v t, (forall a, v <> HRef a) -> (forall h, denotes h v t) -> writes v t.
  Proof. intros v t N D. exists 0. intros fuel h _ _ _. exists h, v. split; auto. destruct v, fuel; try reflexivity; exfalso; eapply N; reflexivity. Qed.
  Lemma cell_writes : forall a k items l t, hget h0 a = Some (mkCell k items) ->
    writes_items (match k with KObj _ => filter (keep h0 a) items | _ => items end) l ->
    (forall h b its, hget h b = Some (mkCell (match k with KList => KList | _ => KDict end) its) -> denotes_items h its l -> denotes h (HRef b) t) -> writes (HRef a) t.
  Proof.
    intros a k items l t E [n W] D. exists (S n). intros fuel h L G S. destruct fuel as [ | fuel]; [lia | ]. cbn [export]. rewrite (grows_get _ _ _ _ G E). cbn [c_kind c_items].
    replace (match k with KObj _ => filter (keep h a) items | _ => items end) with (match k with KObj _ => filter (keep h0 a) items | _ => items end).
    2: { destruct k; auto. apply filter_ext. intros i. symmetry. apply K; try apply G. eapply hget_lt; eauto. }
    destruct (W fuel h ltac:(lia) G S) as (h1 & l1 & Ei & Di). rewrite Ei. eexists _, _. split; [reflexivity | ].
    pose proof (export_items_fresh _ (export_fresh keep fuel) _ _ _ _ Ei) as F. pose proof (fresh_sound _ _ _ S F) as S1.
    apply (D _ _ l1); [rewrite hget_app, Nat.eqb_refl; reflexivity | ]. eapply items_grow; [exact S1 | apply (fresh_points _ _ _ F) | apply grows_app | exact Di].
  Qed.
  Lemma export_writes : (forall v t, exported keep h0 v t -> writes v t) /\ (forall items l, exported_items keep h0 items l -> writes_items items l).
  Proof.
    apply (exported_both keep h0 (fun v t _ => writes v t) (fun items l _ => writes_items items l));
      try (intros; apply constant_writes; [discriminate | constructor]).
    - intros a items l E _ W. eapply (cell_writes a KList); eauto. intros h b its Eb D. econstructor; eauto.
    - intros a items l E _ W. eapply (cell_writes a KDict); eauto. intros h b its Eb D. econstructor; eauto.
    - intros a c items l E _ W. eapply (cell_writes a (KObj c)); eauto. intros h b its Eb D. econstructor; eauto.
    - exists 0. intros fuel h _ _ _. exists h, []. split; [reflexivity | constructor].
    - intros k v l t ts _ [n W] _ [m W']. exists (max n m). intros fuel h L G S. destruct (W fuel h ltac:(lia) G S) as (h1 & v1 & E1 & D1).
      pose proof (export_fresh _ _ _ _ _ _ E1) as F. pose proof (fresh_sound _ _ _ S F) as S1.
      destruct (W' fuel h1 ltac:(lia) (grows_trans _ _ _ G (fr_grows _ _ _ F)) S1) as (h2 & l2 & E2 & D2). cbn [export_items]. rewrite E1, E2. eexists _, _. split; [reflexivity | ].
      constructor; auto. eapply denotes_grows; [exact S1 | | | exact D1]; [apply (fresh_points _ _ _ F); left; auto | ]. apply (fr_grows _ _ _ (export_items_fresh _ (export_fresh keep fuel) _ _ _ _ E2)).
  Qed.
End Content.
Theorem export_content : forall keep h v t, looks_back keep -> sound_heap h -> exported keep h v t ->
  exists n, forall fuel, n <= fuel -> exists h' v', export keep fuel h v = Some (h', v') /\ denotes h' v' t.
Proof. intros keep h v t K S X. destruct (proj1 (export_writes keep h K) v t X) as [n W]. exists n. intros fuel L. apply W; auto using grows_refl. Qed.
Lemma denotes_dset : forall h h' k x s l ts, (forall y v t, In (y, v) l -> denotes h v t -> denotes h' v t) -> denotes h' x s -> denotes_items h l ts ->
  denotes_items h' (dset k x l) (dset k s ts).
Proof.
  intros h h' k x s l ts H D Di. induction Di as [ | y v l t ts Dv Di IH]; cbn [dset]; [repeat constructor; auto | ].
  destruct (String.eqb k y).
  - constructor; auto. apply denotes_items_each in Di. apply denotes_items_each. clear - H Di. induction Di as [ | a b l ts [E D] F IH]; constructor; [split; auto | ].
    + eapply (H (fst a)); [right; left; destruct a; reflexivity | auto].
    + apply IH. intros z v0 t0 Hz. apply (H z). destruct Hz as [Hz | Hz]; [left; auto | right; right; auto].
  - constructor; [eapply (H y); [left; auto | auto] | ]. apply IH. intros z v0 t0 Hz. apply (H z). right. auto.
Qed.
Theorem json_content : forall keep h sk s v l, looks_back keep -> sound_heap h -> points_into (length h) sk -> denotes h sk s -> exported keep h v (VDict l) ->
  exists n, forall fuel, n <= fuel -> exists h' v', to_json_data keep fuel h sk v = Some (h', v') /\ denotes h' v' (VDict (dset "skeleton" s l)).
Proof.
  intros keep h sk s v l K S Vs Ds X. destruct (export_content _ _ _ _ K S X) as [n W]. exists n. intros fuel L. destruct (W fuel L) as (h1 & v1 & E1 & D1).
  unfold to_json_data. rewrite E1. pose proof (export_fresh _ _ _ _ _ _ E1) as F1. pose proof (fresh_sound _ _ _ S F1) as S1.
  pose proof (points_grow _ _ _ (fr_grows _ _ _ F1) Vs) as Vs1. destruct (deepcopy_total h1 sk S1 Vs1) as (h2 & sk2 & E2). rewrite E2.
  pose proof (denotes_grows _ _ _ _ S Vs (fr_grows _ _ _ F1) Ds) as Ds1. pose proof (deepcopy_denotes _ _ _ _ _ S1 Vs1 E2 Ds1) as D2. pose proof (deepcopy_fresh _ _ _ _ S1 Vs1 E2) as F2.
  eexists _, _. split; [reflexivity | ]. inversion D1 as [ | | | | | | b items l0 Eb Db]; subst. pose proof (grows_get _ _ _ _ (fr_grows _ _ _ F2) Eb) as Eb2. cbn [setitem]. rewrite Eb2. cbn [c_kind c_items].
  assert (Lb : b < length h1) by (eapply hget_lt; eauto).
  assert (Fx : forall x, b <> x -> hget (hset h2 b (mkCell KDict (dset "skeleton" sk2 items))) x = hget h2 x) by (intros x N; rewrite hget_hset; destruct (Nat.eqb_spec x b); [congruence | auto]).
  apply (denotes_dict _ b (dset "skeleton" sk2 items)); [rewrite hget_hset, Nat.eqb_refl, Eb2; reflexivity | ].
  apply (denotes_dset h2).
  - intros y w t Hw Dw. eapply denotes_same; [exact Dw | ]. intros x R. apply Fx. intros <-. assert (Db2 : denotes_items h2 items l).
    { eapply items_grow; [exact S1 | | apply F2 | exact Db]. intros u Hu. apply in_map_iff in Hu as ([y' u'] & <- & Hu). eapply S1; eauto. }
    eapply denotes_acyclic; eauto.
  - eapply denotes_same; [exact D2 | ]. intros x R. apply Fx. intros <-. eapply fresh_reaches in R; [ | exact F2 | left; reflexivity]. lia.
  - eapply items_grow; [exact S1 | | apply F2 | exact Db]. intros u Hu. apply in_map_iff in Hu as ([y' u'] & <- & Hu). eapply S1; eauto.
Qed.
