(** Proofs about objects with identity. *)
From Verif Require Import PyBase PyFacts PyNum Json Heap SpecHeap.
Open Scope string_scope.

(** ** The heap *)
Lemma hset_length : forall h a c, length (hset h a c) = length h.
Proof. induction h as [ | x h IH]; intros [ | a] c; cbn; auto. Qed.
Lemma hget_hset : forall h a c b, hget (hset h a c) b = if Nat.eqb b a then match hget h a with Some _ => Some c | None => None end else hget h b.
Proof.
  unfold hget. induction h as [ | x h IH]; intros a c b; [destruct a, b; cbn; try reflexivity; destruct (Nat.eqb b a); auto | ].
  destruct a as [ | a], b as [ | b]; cbn; auto.
Qed.
Lemma hget_lt : forall h a c, hget h a = Some c -> a < length h.
Proof. intros h a c E. apply nth_error_Some. unfold hget in E. congruence. Qed.
Lemma hget_ge : forall h a, length h <= a -> hget h a = None.
Proof. intros. apply nth_error_None. auto. Qed.
Lemma hget_some : forall h a, a < length h -> exists c, hget h a = Some c.
Proof. intros h a L. unfold hget. destruct (nth_error h a) eqn:E; eauto. apply nth_error_None in E. lia. Qed.
Lemma hget_app : forall h c a, hget (h ++ [c])%list a = if Nat.eqb a (length h) then Some c else hget h a.
Proof.
  intros h c a. unfold hget. destruct (Nat.eqb_spec a (length h)) as [-> | N].
  - rewrite nth_error_app2, Nat.sub_diag by lia. auto.
  - destruct (Nat.lt_ge_cases a (length h)).
    + apply nth_error_app1. auto.
    + rewrite !(proj2 (nth_error_None _ _)); auto. rewrite app_length. cbn. lia.
Qed.
(** [h'] has the cells of [h], and perhaps more. *)
Definition grows (h h' : heap) : Prop := length h <= length h' /\ forall a, a < length h -> hget h' a = hget h a.
Lemma grows_refl : forall h, grows h h.
Proof. split; auto. Qed.
Lemma grows_trans : forall a b c, grows a b -> grows b c -> grows a c.
Proof. intros a b c [L1 H1] [L2 H2]. split; [lia | ]. intros x Hx. rewrite H2, H1 by lia. auto. Qed.
Lemma grows_app : forall h c, grows h (h ++ [c])%list.
Proof. intros h c. split; [rewrite app_length; cbn; lia | ]. intros a Ha. rewrite hget_app. replace (Nat.eqb a (length h)) with false; auto. symmetry. apply Nat.eqb_neq. lia. Qed.
Lemma grows_set : forall h0 h a c, grows h0 h -> length h0 <= a -> grows h0 (hset h a c).
Proof.
  intros h0 h a c [L H] Ha. split; [rewrite hset_length; auto | ]. intros x Hx. rewrite hget_hset. replace (Nat.eqb x a) with false; auto. symmetry. apply Nat.eqb_neq. lia.
Qed.
Lemma grows_get : forall h h' a c, grows h h' -> hget h a = Some c -> hget h' a = Some c.
Proof. intros h h' a c [L H] E. rewrite H; auto. eapply hget_lt; eauto. Qed.

(** ** deepcopy *)
(** The image of a value under the memo *)
Definition image (m : memo) (v v' : hval) : Prop :=
  match v, v' with
  | HRef a, HRef b => mfind m a = Some b
  | HRef _, _ => False
  | _, _ => v' = v
  end.
Definition image_item (m : memo) (x y : string * hval) : Prop := fst y = fst x /\ image m (snd x) (snd y).
Definition image_cell (m : memo) (c c' : cell) : Prop := c_kind c' = c_kind c /\ Forall2 (image_item m) (c_items c) (c_items c').
Definition mincl (m m' : memo) : Prop := forall a b, mfind m a = Some b -> mfind m' a = Some b.
Lemma image_mono : forall m m' v v', mincl m m' -> image m v v' -> image m' v v'.
Proof. intros m m' v v' I H. destruct v, v'; cbn in *; auto. Qed.
Lemma image_item_mono : forall m m' l l', mincl m m' -> Forall2 (image_item m) l l' -> Forall2 (image_item m') l l'.
Proof. intros m m' l l' I H. induction H as [ | x y l l' [E H] F IH]; constructor; auto. split; auto. eapply image_mono; eauto. Qed.

Section Copy.
  (** The heap before the copy *)
  Variable h0 : heap.
  Hypothesis Hs : sound_heap h0.

  (** From state (h, m) to (h', m'): the new pairs of the memo are finished copies, and all
      new cells are copies. *)
  Record copied (h : heap) (m : memo) (h' : heap) (m' : memo) : Prop := {
    cp_grows : grows h h';
    cp_memo : mincl m m';
    cp_pairs : forall a b, mfind m' a = Some b -> mfind m a = Some b \/
      (length h <= b < length h' /\ a < length h0 /\ exists c c', hget h0 a = Some c /\ hget h' b = Some c' /\ image_cell m' c c');
    cp_cells : forall b, length h <= b < length h' -> exists a, mfind m' a = Some b /\ mfind m a = None }.
  Lemma copied_refl : forall h m, copied h m h m.
  Proof. intros h m. constructor; [apply grows_refl | intros a b; auto | auto | intros b; lia]. Qed.
  Lemma copied_trans : forall h m h1 m1 h2 m2, copied h m h1 m1 -> copied h1 m1 h2 m2 -> copied h m h2 m2.
  Proof.
    intros h m h1 m1 h2 m2 [G1 M1 P1 C1] [G2 M2 P2 C2]. destruct (grows_trans _ _ _ G1 G2) as [L G]. constructor.
    - split; auto.
    - intros a b H. auto.
    - intros a b H. destruct (P2 a b H) as [H1 | (Lb & La & c & c' & E1 & E2 & E3)].
      + destruct (P1 a b H1) as [H2 | (Lb & La & c & c' & E1 & E2 & E3)]; auto. right. destruct G2 as [L2 G2]. split; [lia | ]. split; auto.
        exists c, c'. split; auto. split; [rewrite G2; auto; lia | ]. destruct E3 as [E3 E4]. split; auto. eapply image_item_mono; eauto.
      + right. destruct G1 as [L1 G1]. split; [lia | ]. split; auto. exists c, c'. auto.
    - intros b Lb. destruct (Nat.lt_ge_cases b (length h1)) as [Lt | Ge].
      + destruct (C1 b) as (a & A1 & A2); [lia | ]. exists a. auto.
      + destruct (C2 b) as (a & A1 & A2); [lia | ]. exists a. split; auto. destruct (mfind m a) eqn:E; auto. apply M1 in E. congruence.
  Qed.

  Lemma items_sound : forall a c k v, hget h0 a = Some c -> In (k, v) (c_items c) -> points_into (length h0) v.
  Proof. intros. eapply Hs; eauto. Qed.

  (** Filling the cell [b] *)
  Lemma fill_get : forall b k y h c, hget h b = Some c -> forall x,
    hget (fill b k y h) x = if Nat.eqb x b then Some (mkCell (c_kind c) (c_items c ++ [(k, y)])) else hget h x.
  Proof. intros b k y h c E x. unfold fill. rewrite E, hget_hset, E. auto. Qed.
  Lemma fill_length : forall b k y h, length (fill b k y h) = length h.
  Proof. intros. unfold fill. destruct (hget h b); auto. apply hset_length. Qed.

  Definition copies (f : heap * memo -> hval -> option (heap * memo * hval)) : Prop := forall h m v h' m' v', grows h0 h -> points_into (length h0) v ->
    f (h, m) v = Some (h', m', v') -> copied h m h' m' /\ image m' v v'.
  (** The loop that fills the copy at [b] of a cell of kind [k]: state (h1, m1) at the
      beginning, (h, m) after the items [l]. *)
  Record filled_upto (b : nat) (k : kind) (h1 : heap) (m1 : memo) (l : list (string * hval)) (h : heap) (m : memo) : Prop := {
    fu_length : length h1 <= length h;
    fu_old : forall x, x < length h1 -> x <> b -> hget h x = hget h1 x;
    fu_memo : mincl m1 m;
    fu_pairs : forall a' b', mfind m a' = Some b' -> mfind m1 a' = Some b' \/
      (length h1 <= b' < length h /\ a' < length h0 /\ exists c c', hget h0 a' = Some c /\ hget h b' = Some c' /\ image_cell m c c');
    fu_cells : forall b', length h1 <= b' < length h -> exists a', mfind m a' = Some b' /\ mfind m1 a' = None;
    fu_cell : exists l', hget h b = Some (mkCell k l') /\ Forall2 (image_item m) l l' }.
  Lemma fill_items : forall f b k h1 m1, copies f -> b < length h1 -> length h0 <= b -> forall l done h m h' m',
    grows h0 h -> filled_upto b k h1 m1 done h m -> (forall x v, In (x, v) l -> points_into (length h0) v) ->
    copy_items f b (h, m) l = Some (h', m') -> grows h0 h' /\ filled_upto b k h1 m1 (done ++ l)%list h' m'.
  Proof.
    intros f b k h1 m1 Hf Hb Hb0. induction l as [ | [x v] l IH]; intros done h m h' m' G F V E; cbn [copy_items] in E.
    - injection E as <- <-. rewrite app_nil_r. auto.
    - destruct (f (h, m) v) as [[[h2 m2] y] | ] eqn:Ef; [ | discriminate]. apply Hf in Ef as [C I]; auto; [ | apply (V x); left; auto].
      destruct F as [F1 F2 F3 F4 F5 (l' & F6 & F7)]. destruct C as [C1 C2 C3 C4]. pose proof C1 as C0. destruct C1 as [C1 C1'].
      assert (E2 : hget h2 b = Some (mkCell k l')) by (rewrite C1'; auto; lia).
      replace (done ++ (x, v) :: l)%list with ((done ++ [(x, v)]) ++ l)%list by (rewrite <- app_assoc; auto).
      eapply IH; [ | | | exact E].
      + assert (G2 : grows h0 h2) by (eapply grows_trans; [exact G | exact C0]). unfold fill. rewrite E2. apply grows_set; auto.
      + constructor.
        * rewrite fill_length. lia.
        * intros z Hz N. rewrite (fill_get _ _ _ _ _ E2). apply Nat.eqb_neq in N. rewrite N. apply Nat.eqb_neq in N. rewrite C1' by lia. auto.
        * intros p q H. auto.
        * intros p q H. rewrite fill_length. destruct (C3 p q H) as [H1 | (L1 & L2 & c & c' & A1 & A2 & A3)].
          -- destruct (F4 p q H1) as [H2 | (L1 & L2 & c & c' & A1 & A2 & A3)]; auto. right. split; [lia | ]. split; auto. exists c, c'. split; auto.
             rewrite (fill_get _ _ _ _ _ E2). replace (Nat.eqb q b) with false by (symmetry; apply Nat.eqb_neq; lia). split; [rewrite C1'; auto; lia | ].
             destruct A3 as [A3 A4]. split; auto. eapply image_item_mono; eauto.
          -- right. split; [lia | ]. split; auto. exists c, c'. split; auto. rewrite (fill_get _ _ _ _ _ E2).
             replace (Nat.eqb q b) with false by (symmetry; apply Nat.eqb_neq; lia). auto.
        * intros q Hq. rewrite fill_length in Hq. destruct (Nat.lt_ge_cases q (length h)) as [Lt | Ge].
          -- destruct (F5 q) as (p & P1 & P2); [lia | ]. exists p. auto.
          -- destruct (C4 q) as (p & P1 & P2); [lia | ]. exists p. split; auto. destruct (mfind m1 p) eqn:Em; auto. apply F3 in Em. congruence.
        * exists (l' ++ [(x, y)])%list. split; [rewrite (fill_get _ _ _ _ _ E2), Nat.eqb_refl; auto | ]. apply Forall2_app; [eapply image_item_mono; eauto | ].
          constructor; [split; auto | constructor].
      + intros z w Hz. apply (V z). right. auto.
  Qed.
  Lemma copy_value_ok : forall fuel, copies (copy_value fuel).
  Proof.
    induction fuel as [ | fuel IH]; intros h m v h' m' v' G V E.
    - destruct v as [ | | | | | a]; cbn in E; try (injection E as <- <- <-; split; [apply copied_refl | reflexivity]).
      destruct (mfind m a) eqn:Em; [ | discriminate]. injection E as <- <- <-. split; [apply copied_refl | exact Em].
    - destruct v as [ | | | | | a]; cbn [copy_value fst snd] in E; try (injection E as <- <- <-; split; [apply copied_refl | reflexivity]).
      destruct (mfind m a) eqn:Em; [injection E as <- <- <-; split; [apply copied_refl | exact Em] | ].
      destruct (hget h a) as [c | ] eqn:Ec; [ | discriminate]. destruct (copy_items _ _ _ _) as [[h2 m2] | ] eqn:El; [ | discriminate]. injection E as <- <- <-.
      cbn [points_into] in V. assert (Ec0 : hget h0 a = Some c) by (destruct G as [_ G]; rewrite <- G; auto). pose proof G as [GL _].
      set (h1 := (h ++ [mkCell (c_kind c) []])%list) in *. assert (L1 : length h1 = S (length h)) by (unfold h1; rewrite app_length; cbn; lia).
      destruct (fill_items (copy_value fuel) (length h) (c_kind c) h1 ((a, length h) :: m)) with (7 := El) (done := @nil (string * hval)) as [G2 [F1 F2 F3 F4 F5 (l' & F6 & F7)]]; auto; try lia.
      { eapply grows_trans; [exact G | apply grows_app]. }
      { constructor; [auto | auto | intros p q; auto | intros; left; auto | intros b'; lia | exists []; split; [unfold h1; rewrite hget_app, Nat.eqb_refl; auto | constructor]]. }
      { intros x v. apply (items_sound a). auto. }
      cbn [app] in F7. assert (Ma : mfind m2 a = Some (length h)) by (apply F3; cbn; rewrite Nat.eqb_refl; auto).
      assert (M1 : mincl m m2). { intros p q H. apply F3. cbn. destruct (Nat.eqb_spec p a) as [-> | N]; auto. congruence. }
      split; [ | exact Ma]. constructor; auto.
      + split; [lia | ]. intros x Hx. rewrite F2 by lia. apply grows_app. auto.
      + intros p q H. destruct (F4 p q H) as [H1 | (A1 & A2 & A3)]; [ | right; split; [lia | auto]]. cbn in H1. destruct (Nat.eqb_spec p a) as [-> | N]; auto.
        injection H1 as <-. right. split; [lia | ]. split; auto. exists c, (mkCell (c_kind c) l'). split; auto. split; auto. split; auto.
      + intros q Hq. destruct (Nat.eq_dec q (length h)) as [-> | N]; [exists a; auto | ]. destruct (F5 q) as (p & P1 & P2); [lia | ]. exists p. split; auto.
        cbn in P2. destruct (Nat.eqb p a); [discriminate | auto].
  Qed.

  (** Enough fuel *)
  Definition unknown (m : memo) : list nat := filter (fun a => match mfind m a with None => true | Some _ => false end) (seq 0 (length h0)).
  Lemma filter_le : forall A (f g : A -> bool) l, (forall x, f x = true -> g x = true) -> length (filter f l) <= length (filter g l).
  Proof.
    intros A f g l H. induction l as [ | x l IH]; cbn [filter]; auto. pose proof (H x). destruct (f x), (g x); cbn [length]; try (specialize (H0 eq_refl); discriminate); lia.
  Qed.
  Lemma filter_lt : forall A (f g : A -> bool) l y, (forall x, f x = true -> g x = true) -> In y l -> f y = false -> g y = true -> length (filter f l) < length (filter g l).
  Proof.
    intros A f g l y H. induction l as [ | x l IH]; intros Hy Ef Eg; [destruct Hy | ]. destruct Hy as [-> | Hy]; cbn [filter].
    - rewrite Ef, Eg. cbn [length]. pose proof (filter_le _ _ _ l H). lia.
    - specialize (IH Hy Ef Eg). pose proof (H x) as Hx. destruct (f x), (g x); cbn [length]; try (specialize (Hx eq_refl); discriminate); lia.
  Qed.
  Lemma unknown_incl : forall m m', mincl m m' -> length (unknown m') <= length (unknown m).
  Proof.
    intros m m' I. apply filter_le. intros a. destruct (mfind m' a) eqn:E; [discriminate | ]. intros _. destruct (mfind m a) eqn:E2; auto. apply I in E2. congruence.
  Qed.
  Lemma unknown_add : forall m a b, a < length h0 -> mfind m a = None -> length (unknown ((a, b) :: m)) < length (unknown m).
  Proof.
    intros m a b L E. apply (filter_lt _ _ _ _ a).
    - intros x. cbn [mfind]. destruct (Nat.eqb x a); [discriminate | auto].
    - apply in_seq. lia.
    - cbn [mfind]. rewrite Nat.eqb_refl. auto.
    - rewrite E. auto.
  Qed.
  Lemma items_total : forall n b l h m, (forall h m v, grows h0 h -> points_into (length h0) v -> length (unknown m) <= n -> exists r, copy_value n (h, m) v = Some r) ->
    grows h0 h -> length h0 <= b -> (forall x v, In (x, v) l -> points_into (length h0) v) -> length (unknown m) <= n ->
    exists r, copy_items (copy_value n) b (h, m) l = Some r.
  Proof.
    intros n b l. induction l as [ | [x v] l IH]; intros h m T G Hb V U; cbn [copy_items]; eauto.
    destruct (T h m v G) as [[[h1 m1] y] E]; auto; [apply (V x); left; auto | ]. rewrite E. apply copy_value_ok in E as [C _]; auto; [ | apply (V x); left; auto].
    apply IH; auto.
    - pose proof (grows_trans _ _ _ G (cp_grows _ _ _ _ C)) as G1. unfold fill. destruct (hget h1 b); auto. apply grows_set; auto.
    - intros z w Hz. apply (V z). right. auto.
    - pose proof (unknown_incl _ _ (cp_memo _ _ _ _ C)). lia.
  Qed.
  Lemma copy_total : forall fuel h m v, grows h0 h -> points_into (length h0) v -> length (unknown m) <= fuel -> exists r, copy_value fuel (h, m) v = Some r.
  Proof.
    induction fuel as [ | fuel IH]; intros h m v G V U.
    - destruct v as [ | | | | | a]; cbn; eauto. destruct (mfind m a) eqn:Em; eauto. cbn in V. pose proof (unknown_add m a 0 V Em). lia.
    - destruct v as [ | | | | | a]; cbn [copy_value fst snd]; eauto. destruct (mfind m a) eqn:Em; eauto. cbn in V.
      destruct (hget_some h0 a V) as [c Ec]. rewrite (grows_get _ _ _ _ G Ec). pose proof (unknown_add m a (length h) V Em) as U2.
      destruct (items_total fuel (length h) (c_items c) (h ++ [mkCell (c_kind c) []])%list ((a, length h) :: m)) as [[h2 m2] E]; auto.
      + eapply grows_trans; [exact G | apply grows_app].
      + apply G.
      + intros x v. apply (items_sound a). auto.
      + lia.
      + match goal with |- context [copy_items ?f ?b ?s ?l] => replace (copy_items f b s l) with (Some (h2, m2)) by (symmetry; exact E) end. eauto.
  Qed.
End Copy.

(** The copy is new, refers only to new objects, and looks like the original. *)
Record copy_of (h : heap) (v : hval) (h' : heap) (v' : hval) (m : memo) : Prop := {
  co_grows : grows h h';
  co_value : image m v v';
  co_pairs : forall a b, mfind m a = Some b -> length h <= b < length h' /\ exists c c', hget h a = Some c /\ hget h' b = Some c' /\ image_cell m c c';
  co_cells : forall b, length h <= b < length h' -> exists a, mfind m a = Some b }.
Theorem deepcopy_ok : forall h v h' v', sound_heap h -> points_into (length h) v -> deepcopy h v = Some (h', v') -> exists m, copy_of h v h' v' m.
Proof.
  intros h v h' v' S V E. unfold deepcopy in E. destruct (copy_value _ _ _) as [[[h1 m] v1] | ] eqn:Ec; [ | discriminate]. injection E as -> ->.
  apply (copy_value_ok h S) in Ec as [[C1 C2 C3 C4] I]; auto; [ | apply grows_refl]. exists m. constructor; auto.
  - intros a b H. destruct (C3 a b H) as [C | (L & _ & D)]; [discriminate | auto].
  - intros b H. destruct (C4 b H) as (a & Ha & _). eauto.
Qed.
Theorem deepcopy_total : forall h v, sound_heap h -> points_into (length h) v -> exists h' v', deepcopy h v = Some (h', v').
Proof.
  intros h v S V. unfold deepcopy. destruct (copy_total h S (length h) h [] v) as [[[h' m] v'] E]; auto; [apply grows_refl | | match goal with |- context [copy_value ?n ?s ?w] => replace (copy_value n s w) with (Some (h', m, v')) by (symmetry; exact E) end; eauto].
  unfold unknown. rewrite <- (seq_length (length h) 0) at 2. generalize (seq 0 (length h)). intros l. induction l as [ | x l IH]; cbn [filter length]; [lia | ]. destruct (mfind [] x); cbn [length]; lia.
Qed.

(** [h'] is [h] and some new cells that refer to new cells only; the values are new. *)
Record fresh (h : heap) (h' : heap) (l : list hval) : Prop := {
  fr_grows : grows h h';
  fr_values : forall a, In (HRef a) l -> length h <= a < length h';
  fr_cells : forall a c k b, length h <= a -> hget h' a = Some c -> In (k, HRef b) (c_items c) -> length h <= b < length h' }.
Lemma image_in : forall m l l' k b, Forall2 (image_item m) l l' -> In (k, HRef b) l' -> exists a, mfind m a = Some b.
Proof.
  intros m l l' k b H. induction H as [ | [k1 x] [k2 y] l l' [E H] F IH]; intros Hi; [destruct Hi | destruct Hi as [Hi | Hi]; auto].
  injection Hi as -> ->. cbn in H. destruct x; try discriminate. eauto.
Qed.
Lemma copy_fresh : forall h v h' v' m, copy_of h v h' v' m -> fresh h h' [v'].
Proof.
  intros h v h' v' m [C1 C2 C3 C4]. constructor; auto.
  - intros a [-> | []]. destruct v; cbn in C2; try discriminate. apply (C3 _ _ C2).
  - intros a c k b L E H. destruct (C4 a) as [x Hx]; [split; auto; eapply hget_lt; eauto | ]. destruct (C3 _ _ Hx) as (_ & c0 & c' & E1 & E2 & _ & F).
    assert (c' = c) as -> by congruence. destruct (image_in _ _ _ _ _ F H) as [y Hy]. apply (C3 _ _ Hy).
Qed.
Lemma fresh_trans : forall h h1 h2 l l', fresh h h1 l -> fresh h1 h2 l' -> fresh h h2 (l ++ l')%list.
Proof.
  intros h h1 h2 l l' [G1 V1 C1] [G2 V2 C2]. pose proof G1 as [L1 _]. pose proof G2 as [L2 E2]. constructor.
  - eapply grows_trans; eauto.
  - intros a H. apply in_app_iff in H as [H | H]; [apply V1 in H | apply V2 in H]; lia.
  - intros a c k b L E H. destruct (Nat.lt_ge_cases a (length h1)) as [Lt | Ge].
    + rewrite E2 in E by auto. pose proof (C1 a c k b L E H). lia.
    + pose proof (C2 a c k b Ge E H). lia.
Qed.
Lemma fresh_sound : forall h h' l, sound_heap h -> fresh h h' l -> sound_heap h'.
Proof.
  intros h h' l S [[L G] V C] a c k v E H. destruct v as [ | | | | | b]; cbn; auto. destruct (Nat.lt_ge_cases a (length h)) as [Lt | Ge].
  - rewrite G in E by auto. pose proof (S a c k _ E H) as P. cbn in P. lia.
  - apply (C a c k b Ge E H).
Qed.
(** Changing a new cell *)
Lemma fresh_set : forall h h' l a c, fresh h h' l -> length h <= a ->
  (forall k b, In (k, HRef b) (c_items c) -> length h <= b < length h') -> fresh h (hset h' a c) l.
Proof.
  intros h h' l a c [G V C] La H. constructor.
  - apply grows_set; auto.
  - intros b Hb. rewrite hset_length. auto.
  - intros x d k b L E Hb. rewrite hset_length. rewrite hget_hset in E. destruct (Nat.eqb_spec x a) as [-> | N]; [ | eapply C; eauto].
    destruct (hget h' a); [injection E as <- | discriminate]. eapply H; eauto.
Qed.
Lemma fresh_incl : forall h h' l l', fresh h h' l -> (forall a, In (HRef a) l' -> In (HRef a) l) -> fresh h h' l'.
Proof. intros h h' l l' [G V C] I. constructor; auto. Qed.
Lemma fresh_nil : forall h, fresh h h [].
Proof. intros h. constructor; [apply grows_refl | intros a [] | ]. intros a c k b L E. apply hget_lt in E. lia. Qed.

Theorem deepcopy_fresh : forall h v h' v', sound_heap h -> points_into (length h) v -> deepcopy h v = Some (h', v') -> fresh h h' [v'].
Proof. intros h v h' v' S V E. apply deepcopy_ok in E as [m C]; auto. eapply copy_fresh; eauto. Qed.
Lemma points_grow : forall h h' v, grows h h' -> points_into (length h) v -> points_into (length h') v.
Proof. intros h h' v [L _]. destruct v; cbn; lia. Qed.

(** ** Export *)
Lemma fresh_alloc : forall h h' k l, fresh h h' (map snd l) -> fresh h (h' ++ [mkCell k l])%list [HRef (length h')].
Proof.
  intros h h' k l [G V C]. pose proof G as [L _]. constructor.
  - eapply grows_trans; [exact G | apply grows_app].
  - intros a [E | []]. injection E as <-. rewrite app_length. cbn. lia.
  - intros a c x b La E H. rewrite app_length. cbn. rewrite hget_app in E. destruct (Nat.eqb a (length h')).
    + injection E as <-. cbn in H. apply (in_map snd) in H. apply V in H. lia.
    + pose proof (C a c x b La E H). lia.
Qed.
Lemma export_items_fresh : forall f, (forall h v h' v', f h v = Some (h', v') -> fresh h h' [v']) -> forall l h h' l',
  export_items f h l = Some (h', l') -> fresh h h' (map snd l').
Proof.
  intros f Hf. induction l as [ | [k x] l IH]; intros h h' l' E; cbn [export_items] in E.
  - injection E as <- <-. apply fresh_nil.
  - destruct (f h x) as [[h1 y] | ] eqn:E1; [ | discriminate]. destruct (export_items f h1 l) as [[h2 l2] | ] eqn:E2; [ | discriminate]. injection E as <- <-.
    cbn [map snd]. change (y :: map snd l2) with ([y] ++ map snd l2)%list. eapply fresh_trans; eauto.
Qed.
Lemma export_fresh : forall keep fuel h v h' v', export keep fuel h v = Some (h', v') -> fresh h h' [v'].
Proof.
  intros keep. induction fuel as [ | fuel IH]; intros h v h' v' E.
  - destruct v; cbn in E; try discriminate; injection E as <- <-; (eapply fresh_incl; [apply fresh_nil | ]); intros a [C | []]; discriminate.
  - destruct v as [ | | | | | a]; cbn [export] in E; try (injection E as <- <-; (eapply fresh_incl; [apply fresh_nil | ]); intros x [C | []]; discriminate).
    destruct (hget h a) as [c | ]; [ | discriminate]. destruct (export_items _ _ _) as [[h1 l] | ] eqn:El; [ | discriminate]. injection E as <- <-.
    apply fresh_alloc. eapply export_items_fresh; eauto.
Qed.
Lemma in_dset_val : forall A (d : dict A) k0 v k w, In (k, w) (dset k0 v d) -> In (k, w) d \/ w = v.
Proof.
  intros A d k0 v k w. induction d as [ | [x y] d IH]; cbn [dset].
  - intros [H | []]. right. congruence.
  - destruct (String.eqb k0 x); intros [H | H].
    + right. congruence.
    + left. right. auto.
    + left. left. auto.
    + destruct (IH H); [left; right | right]; auto.
Qed.
Theorem json_fresh : forall keep fuel h sk v h' v', sound_heap h -> points_into (length h) sk -> to_json_data keep fuel h sk v = Some (h', v') -> fresh h h' [v'].
Proof.
  intros keep fuel h sk v h' v' S V E. unfold to_json_data in E. destruct (export _ _ _ _) as [[h1 j] | ] eqn:E1; [ | discriminate].
  apply export_fresh in E1 as F1. destruct (deepcopy h1 sk) as [[h2 sk'] | ] eqn:E2; [ | discriminate]. injection E as <- <-.
  apply deepcopy_fresh in E2 as F2; [ | eapply fresh_sound; eauto | eapply points_grow; [apply F1 | auto]].
  pose proof (fresh_trans _ _ _ _ _ F1 F2) as F. cbn [app] in F. unfold setitem. destruct j as [ | | | | | a]; try (eapply fresh_incl; [exact F | intros x [C | []]; discriminate]).
  assert (F' : fresh h h2 [HRef a]) by (eapply fresh_incl; [exact F | intros b [E | []]; left; auto]).
  destruct (hget h2 a) as [c | ] eqn:Ec; auto. apply fresh_set; auto.
  - apply (fr_values _ _ _ F'). left. auto.
  - intros k b H. cbn [c_items] in H. apply in_dset_val in H as D. destruct D as [D | D].
    + eapply (fr_cells _ _ _ F); [ | exact Ec | exact D]. apply (fr_values _ _ _ F'). left. auto.
    + apply (fr_values _ _ _ F). right. left. congruence.
Qed.

(** ** Loading *)
Lemma subscript_points : forall h v k x, sound_heap h -> subscript h v k = Ok x -> points_into (length h) x.
Proof.
  intros h v k x S E. unfold subscript in E. destruct v as [ | | | | | a]; try discriminate. destruct (hget h a) as [[[ | | ] items] | ] eqn:Ec; try discriminate.
  destruct (dget k items) eqn:Ek; [ | discriminate]. injection E as ->. apply dget_some_in in Ek. eapply S; eauto.
Qed.
Theorem load_fresh : forall h v h' r, sound_heap h -> points_into (length h) v -> load h v = (h', r) ->
  fresh h h' (match r with Ok l => l | Err _ => [] end).
Proof.
  intros h v h' r S V E. unfold load in E. destruct (subscript _ _ _) as [sk | ] eqn:E0; [ | injection E as <- <-; apply fresh_nil].
  destruct (deepcopy h sk) as [[h1 skeleton] | ] eqn:E1; [ | injection E as <- <-; apply fresh_nil].
  apply deepcopy_fresh in E1 as F1; auto; [ | eapply subscript_points; eauto].
  destruct (deepcopy h1 v) as [[h2 d] | ] eqn:E2; [ | injection E as <- <-; eapply fresh_incl; [exact F1 | intros a []]]. injection E as <- <-.
  apply deepcopy_fresh in E2 as F2; [ | eapply fresh_sound; eauto | eapply points_grow; [apply F1 | auto]].
  pose proof (fresh_trans _ _ _ _ _ F1 F2) as F. cbn [app] in F. unfold delitem. destruct d as [ | | | | | a]; auto. destruct (hget h2 a) as [c | ] eqn:Ec; auto.
  assert (La : length h <= a) by (apply (fr_values _ _ _ F); right; left; auto). apply fresh_set; auto.
  intros k b H. cbn [c_items] in H. unfold ddel in H. apply filter_In in H as [H _]. eapply (fr_cells _ _ _ F); eauto.
Qed.

(** ** Parties *)
(** [O p a]: the object at [a] belongs to party [p]. *)
Record owned (O : nat -> nat -> Prop) (w : world) : Prop := {
  ow_sound : sound w;
  ow_one : forall p q a, O p a -> O q a -> p = q;
  ow_vars : forall p a, In (HRef a) (w_vars w p) -> O p a;
  ow_items : forall p a c k b, O p a -> hget (w_heap w) a = Some c -> In (k, HRef b) (c_items c) -> O p b;
  ow_lt : forall p a, O p a -> a < length (w_heap w) }.
Lemma reaches_lt : forall h v a, sound_heap h -> points_into (length h) v -> reaches h v a -> a < length h.
Proof. intros h v a S V R. induction R as [a | a c k v b E H R IH]; auto. apply IH. eapply S; eauto. Qed.
Lemma reaches_item : forall h v a c k b, reaches h v a -> hget h a = Some c -> In (k, HRef b) (c_items c) -> reaches h v b.
Proof.
  intros h v a c k b R E H. induction R as [a | a c1 k1 v1 b1 E1 H1 R IH].
  - econstructor; eauto. constructor.
  - econstructor; eauto.
Qed.
Lemma owned_start : forall w, sound w -> separate w -> owned (holds w) w.
Proof.
  intros w S P. constructor; auto.
  - intros p a H. exists (HRef a). split; auto. constructor.
  - intros p a c k b (v & Hv & R) E H. exists v. split; auto. eapply reaches_item; eauto.
  - intros p a (v & Hv & R). destruct S as [S1 S2]. eapply reaches_lt; eauto.
Qed.
Lemma owned_holds : forall O w p a, owned O w -> holds w p a -> O p a.
Proof.
  intros O w p a H (v & Hv & R). assert (Hr : forall v a, reaches (w_heap w) v a -> (forall b, v = HRef b -> O p b) -> O p a).
  { clear v a Hv R. intros v a R. induction R as [a | a c k v b E Hi R IH]; intros Hv; auto. apply IH. intros b' ->. eapply (ow_items _ _ H); eauto. }
  apply (Hr _ _ R). intros b ->. apply (ow_vars _ _ H). auto.
Qed.
Lemma owned_separate : forall O w, owned O w -> separate w.
Proof. intros O w H p q a Hp Hq. eapply (ow_one _ _ H); eapply owned_holds; eauto. Qed.

Definition keeps (O : nat -> nat -> Prop) (w w' : world) (o : option nat) : Prop :=
  exists O', owned O' w' /\ (forall p a, O p a -> O' p a) /\ forall p a, O p a -> o <> Some p -> hget (w_heap w') a = hget (w_heap w) a.
Lemma gains_vars : forall w h q l p v, In v (w_vars (gains w h q l) p) -> (p = q /\ In v l) \/ In v (w_vars w p).
Proof.
  intros w h q l p v H. cbn [gains w_vars] in H. destruct (Nat.eqb_spec p q) as [-> | N]; auto. apply in_app_iff in H as [H | H]; auto.
Qed.
Lemma fresh_move : forall O w h' q l, owned O w -> fresh (w_heap w) h' l -> keeps O w (gains w h' q l) None.
Proof.
  intros O w h' q l [S O1 O2 O3 O4] F. destruct S as [S1 S2]. pose proof (fresh_sound _ _ _ S1 F) as S3. destruct F as [[L G] V C].
  exists (fun p a => O p a \/ (p = q /\ length (w_heap w) <= a < length h')). split; [ | split; auto; intros p a H _; cbn [gains w_heap]; apply G; eauto].
  constructor; cbn [gains w_heap].
  - split; auto. cbn [gains w_heap]. intros p v H. apply gains_vars in H as [[-> H] | H].
    + destruct v; cbn; auto. apply V in H. lia.
    + apply S2 in H. eapply points_grow; [split; eauto | auto].
  - intros p p' a [H | [-> H]] [H' | [-> H']]; eauto; [apply O4 in H | apply O4 in H']; lia.
  - intros p a H. apply gains_vars in H as [[-> H] | H]; auto.
  - intros p a c k b [H | [-> H]] E Hb.
    + left. rewrite G in E by eauto. eauto.
    + right. split; auto. apply (C a c k b); auto. lia.
  - intros p a [H | [_ H]]; [apply O4 in H | ]; lia.
Qed.
Lemma available_owned : forall O w p b, owned O w -> available w p (HRef b) -> O p b.
Proof. intros O w p b H A. apply (ow_vars _ _ H). auto. Qed.
Lemma move_keeps : forall O w o w', owned O w -> move w o w' -> keeps O w w' o.
Proof.
  intros O w o w' H M. pose proof H as [[S1 S2] O1 O2 O3 O4].
  destruct M as [p k items A | p a c k v Hv E Hk | p a c k items Hv E A | p q v h' v' Hv E | p q v h' r Hv E | p q keep fuel v h' v' Hv E | p q keep fuel sk v h' v' Hs Hv E].
  - exists (fun q a => O q a \/ (q = p /\ a = length (w_heap w))). pose proof (grows_app (w_heap w) (mkCell k items)) as G. pose proof G as [L G'].
    split; [ | split; auto; intros q a Ha _; cbn [gains w_heap]; apply G'; eauto]. constructor; cbn [gains w_heap].
    + split; cbn [gains w_heap].
      * intros a c x v Ea Hx. rewrite hget_app in Ea. destruct (Nat.eqb a (length (w_heap w))).
        -- injection Ea as <-. cbn in Hx. apply A in Hx. destruct v; cbn in *; auto. apply S2 in Hx. cbn in Hx. lia.
        -- eapply points_grow; [exact G | eapply S1; eauto].
      * intros q v Hv. apply gains_vars in Hv as [[-> [<- | []]] | Hv]; [cbn; rewrite app_length; cbn; lia | ]. eapply points_grow; [exact G | eauto].
    + intros q q' a [Ha | [-> Ha]] [Ha' | [-> Ha']]; eauto; subst; [apply O4 in Ha | apply O4 in Ha']; lia.
    + intros q a Ha. apply gains_vars in Ha as [[-> [Ha | []]] | Ha]; auto. injection Ha as <-. auto.
    + intros q a c x b [Ha | [-> ->]] Ea Hb.
      * rewrite G' in Ea by eauto. eauto.
      * rewrite hget_app, Nat.eqb_refl in Ea. injection Ea as <-. cbn in Hb. left. apply (available_owned O w); eauto.
    + intros q a [Ha | [_ ->]]; rewrite app_length; cbn; [apply O4 in Ha | ]; lia.
  - exists O. split; [ | split; auto]. constructor; cbn [gains w_heap]; eauto.
    + split; auto. intros q x Hx. apply gains_vars in Hx as [[-> [<- | []]] | Hx]; [eapply S1; eauto | eauto].
    + intros q x Hx. apply gains_vars in Hx as [[-> [-> | []]] | Hx]; eauto.
  - exists O. assert (Oa : O p a) by auto. split; [ | split; auto].
    + constructor; cbn [gains w_heap]; eauto.
      * split; cbn [gains w_heap].
        -- intros x d y v Ex Hy. rewrite hset_length. rewrite hget_hset in Ex. destruct (Nat.eqb_spec x a) as [-> | N]; [ | eapply S1; eauto].
           rewrite E in Ex. injection Ex as <-. cbn in Hy. apply A in Hy as [Hy | Hy]; [eapply S1; eauto | ]. destruct v; cbn in *; auto. apply S2 in Hy. auto.
        -- intros q v Hq. rewrite hset_length. apply gains_vars in Hq as [[_ []] | Hq]. eauto.
      * intros q x Hx. apply gains_vars in Hx as [[_ []] | Hx]. auto.
      * intros q x d y b Ox Ex Hb. rewrite hget_hset in Ex. destruct (Nat.eqb_spec x a) as [-> | N]; [ | eauto]. rewrite E in Ex. injection Ex as <-.
        cbn in Hb. assert (q = p) as -> by eauto. apply A in Hb as [Hb | Hb]; [eauto | ]. apply (available_owned O w); auto.
      * intros q x Hx. rewrite hset_length. eauto.
    + intros q x Hx N. cbn [gains w_heap]. rewrite hget_hset. destruct (Nat.eqb_spec x a) as [-> | N']; auto. exfalso. apply N. f_equal. eauto.
  - apply fresh_move; auto. eapply deepcopy_fresh; eauto.
  - apply fresh_move; auto. eapply load_fresh; eauto.
  - apply fresh_move; auto. eapply export_fresh; eauto.
  - apply fresh_move; auto. eapply json_fresh; [ | | eauto]; eauto.
Qed.
Lemma moves_keep : forall w l w', moves w l w' -> forall O, owned O w -> exists O', owned O' w' /\ (forall p a, O p a -> O' p a) /\
  forall p a, O p a -> ~ In (Some p) l -> hget (w_heap w') a = hget (w_heap w) a.
Proof.
  intros w l w' M. induction M as [w | w o w1 l w2 M1 M2 IH]; intros O H; [exists O; auto | ].
  destruct (move_keeps _ _ _ _ H M1) as (O1 & H1 & I1 & K1). destruct (IH _ H1) as (O2 & H2 & I2 & K2). exists O2. split; auto. split; auto.
  intros p a Ha N. rewrite (K2 p); auto; [ | intros C; apply N; right; auto]. apply (K1 p); auto. intros ->. apply N. left. auto.
Qed.
Theorem moves_separate : forall w l w', sound w -> separate w -> moves w l w' -> sound w' /\ separate w'.
Proof.
  intros w l w' S P M. destruct (moves_keep _ _ _ M _ (owned_start _ S P)) as (O & H & _). split; [apply H | eapply owned_separate; eauto].
Qed.
Theorem moves_untouched : forall w l w' p, sound w -> separate w -> moves w l w' -> ~ In (Some p) l ->
  forall a, holds w p a -> hget (w_heap w') a = hget (w_heap w) a.
Proof. intros w l w' p S P M N a H. destruct (moves_keep _ _ _ M _ (owned_start _ S P)) as (O & _ & _ & K). eauto. Qed.

(** ** Values *)
Scheme denotes_mut := Induction for denotes Sort Prop with denotes_items_mut := Induction for denotes_items Sort Prop.
Lemma denotes_same : forall h h', forall v t, denotes h v t -> (forall a, reaches h v a -> hget h' a = hget h a) -> denotes h' v t.
Proof.
  intros h h'. apply (denotes_mut h (fun v t _ => (forall a, reaches h v a -> hget h' a = hget h a) -> denotes h' v t)
    (fun l ts _ => (forall k v a, In (k, v) l -> reaches h v a -> hget h' a = hget h a) -> denotes_items h' l ts)); try (intros; constructor; auto; fail).
  - intros a items l E D IH H. econstructor; [rewrite H; [exact E | constructor] | ]. apply IH. intros k v b Hv R. apply H. econstructor; eauto.
  - intros a items l E D IH H. econstructor; [rewrite H; [exact E | constructor] | ]. apply IH. intros k v b Hv R. apply H. econstructor; eauto.
  - intros k v l t ts D IH1 D' IH2 H. constructor; [apply IH1; intros a R; apply (H k v); [left; auto | auto] | ]. apply IH2. intros k' v' a Hv R. apply (H k' v'); [right; auto | auto].
Qed.
Theorem moves_denote : forall w l w' p v t, sound w -> separate w -> moves w l w' -> ~ In (Some p) l -> In v (w_vars w p) ->
  denotes (w_heap w) v t -> denotes (w_heap w') v t.
Proof.
  intros w l w' p v t S P M N Hv D. eapply denotes_same; [exact D | ]. intros a R. eapply moves_untouched; eauto. exists v. auto.
Qed.
(** A copy has the value of the original. *)
Lemma image_denotes : forall h h' m, (forall a b, mfind m a = Some b -> exists c c', hget h a = Some c /\ hget h' b = Some c' /\ image_cell m c c') ->
  forall v t, denotes h v t -> forall v', image m v v' -> denotes h' v' t.
Proof.
  intros h h' m P. apply (denotes_mut h (fun v t _ => forall v', image m v v' -> denotes h' v' t)
    (fun l ts _ => forall l', Forall2 (image_item m) l l' -> denotes_items h' l' ts)).
  - intros v' ->. constructor.
  - intros b v' ->. constructor.
  - intros z v' ->. constructor.
  - intros f v' ->. constructor.
  - intros s v' ->. constructor.
  - intros a items l E D IH v' H. destruct v' as [ | | | | | b]; try contradiction. destruct (P _ _ H) as (c & [k' i'] & E1 & E2 & K & F). assert (c = mkCell KList items) as -> by congruence.
    cbn in K, F. subst k'. econstructor; eauto.
  - intros a items l E D IH v' H. destruct v' as [ | | | | | b]; try contradiction. destruct (P _ _ H) as (c & [k' i'] & E1 & E2 & K & F). assert (c = mkCell KDict items) as -> by congruence.
    cbn in K, F. subst k'. econstructor; eauto.
  - intros l' F. inversion F. constructor.
  - intros k v l t ts D IH1 D' IH2 l' F. inversion F as [ | x [k' v'] l1 l2 [E H] F2]; subst. cbn in E, H. subst k'. constructor; auto.
Qed.
Theorem deepcopy_denotes : forall h v h' v' t, sound_heap h -> points_into (length h) v -> deepcopy h v = Some (h', v') -> denotes h v t -> denotes h' v' t.
Proof. intros h v h' v' t S V E D. apply deepcopy_ok in E as [m C]; auto. eapply image_denotes; [ | exact D | apply C]. intros a b H. apply (co_pairs _ _ _ _ _ C) in H. tauto. Qed.

(** ** What loading takes *)
Fixpoint vsize (t : val) : nat :=
  match t with
  | VList l => S (list_sum (map vsize l))
  | VDict d => S (list_sum (map (fun kv => vsize (snd kv)) d))
  | _ => 1
  end.
Definition items_size (l : list (string * val)) : nat := list_sum (map (fun kv => vsize (snd kv)) l).
Lemma vsize_list : forall l, vsize (VList (map snd l)) = S (items_size l).
Proof. intros l. cbn. unfold items_size. rewrite map_map. auto. Qed.
Lemma items_size_cons : forall k t ts, items_size ((k, t) :: ts) = vsize t + items_size ts.
Proof. reflexivity. Qed.
Lemma denotes_fun : forall h v t, denotes h v t -> forall t', denotes h v t' -> t = t'.
Proof.
  intros h. apply (denotes_mut h (fun v t _ => forall t', denotes h v t' -> t = t') (fun l ts _ => forall ts', denotes_items h l ts' -> ts = ts'));
    try (intros; match goal with H : denotes _ _ _ |- _ => inversion H; auto; fail end).
  - intros a items l E D IH t' H. inversion H as [ | | | | | a' i' l' E' D' | a' i' l' E' D']; subst; rewrite E in E'; try discriminate E'; injection E' as <-. f_equal. f_equal. auto.
  - intros a items l E D IH t' H. inversion H as [ | | | | | a' i' l' E' D' | a' i' l' E' D']; subst; rewrite E in E'; try discriminate E'; injection E' as <-. f_equal. auto.
  - intros ts' H. inversion H. auto.
  - intros k v l t ts D IH1 D' IH2 ts' H. inversion H; subst. f_equal; [f_equal; auto | auto].
Qed.
Lemma denotes_below : forall h v t, denotes h v t -> forall b, reaches h v b -> exists t', denotes h (HRef b) t' /\ vsize t' <= vsize t.
Proof.
  intros h. apply (denotes_mut h (fun v t _ => forall b, reaches h v b -> exists t', denotes h (HRef b) t' /\ vsize t' <= vsize t)
    (fun l ts _ => forall k v b, In (k, v) l -> reaches h v b -> exists t', denotes h (HRef b) t' /\ vsize t' <= items_size ts)); try (intros; match goal with H : reaches _ _ _ |- _ => inversion H; fail end).
  - intros a items l E D IH b R. inversion R as [a' | a' c k v b' E' H R']; subst; [eexists; split; [econstructor; eauto | auto] | ].
    rewrite E in E'. injection E' as <-. destruct (IH _ _ _ H R') as (t' & D1 & L). exists t'. rewrite vsize_list. auto.
  - intros a items l E D IH b R. inversion R as [a' | a' c k v b' E' H R']; subst; [eexists; split; [eapply denotes_dict; eauto | auto] | ].
    rewrite E in E'. injection E' as <-. destruct (IH _ _ _ H R') as (t' & D1 & L). exists t'. change (vsize (VDict l)) with (S (items_size l)). auto.
  - intros k v b [].
  - intros k v l t ts D IH1 D' IH2 k' v' b [H | H] R.
    + injection H as <- <-. destruct (IH1 _ R) as (t' & D1 & L). exists t'. split; auto. rewrite items_size_cons. lia.
    + destruct (IH2 _ _ _ H R) as (t' & D1 & L). exists t'. split; auto. rewrite items_size_cons. lia.
Qed.
Lemma items_size_in : forall h l ts k v, denotes_items h l ts -> In (k, v) l -> exists t, denotes h v t /\ vsize t <= items_size ts.
Proof.
  intros h l ts k v D. induction D as [ | k' v' l t ts D D' IH]; intros H; [destruct H | destruct H as [H | H]].
  - injection H as <- <-. exists t. split; auto. rewrite items_size_cons. lia.
  - destruct (IH H) as (t' & D1 & L). exists t'. split; auto. rewrite items_size_cons. lia.
Qed.
(** No cycles *)
Lemma denotes_acyclic : forall h a items l k v, hget h a = Some (mkCell KDict items) -> denotes_items h items l -> In (k, v) items -> ~ reaches h v a.
Proof.
  intros h a items l k v E D H R. destruct (items_size_in _ _ _ _ _ D H) as (t & D1 & L). destruct (denotes_below _ _ _ D1 _ R) as (t' & D2 & L2).
  assert (t' = VDict l) as -> by (eapply denotes_fun; [exact D2 | econstructor; eauto]). change (vsize (VDict l)) with (S (items_size l)) in L2. lia.
Qed.
Lemma denotes_dget : forall h items l k, denotes_items h items l ->
  match dget k l with Some t => exists v, dget k items = Some v /\ denotes h v t | None => dget k items = None end.
Proof.
  intros h items l k D. induction D as [ | k' v l t ts D D' IH]; cbn [dget]; auto. destruct (String.eqb k k'); eauto.
Qed.
Lemma denotes_items_each : forall h l ts, denotes_items h l ts <-> Forall2 (fun x y => fst x = fst y /\ denotes h (snd x) (snd y)) l ts.
Proof.
  intros h l ts. split.
  - intros H. induction H; constructor; auto.
  - intros H. induction H as [ | [k v] [k' t] l ts [E H] F IH]; [constructor | ]. cbn in E, H. subst k'. constructor; auto.
Qed.
Lemma denotes_grows : forall h h' v t, sound_heap h -> points_into (length h) v -> grows h h' -> denotes h v t -> denotes h' v t.
Proof. intros h h' v t S V [_ G] D. eapply denotes_same; [exact D | ]. intros a R. apply G. eapply reaches_lt; eauto. Qed.
Lemma denotes_ddel : forall h h' k l ts, (forall x v t, In (x, v) l -> denotes h v t -> denotes h' v t) -> denotes_items h l ts ->
  denotes_items h' (ddel k l) (ddel k ts).
Proof.
  intros h h' k l ts H D. unfold ddel. induction D as [ | x v l t ts D D' IH]; cbn [filter fst]; [constructor | ].
  destruct (negb (String.eqb k x)).
  - constructor; [eapply (H x); [left; auto | auto] | ]. apply IH. intros. eapply H; [right; eauto | auto].
  - apply IH. intros. eapply H; [right; eauto | auto].
Qed.
Theorem load_denotes : forall h v l sk, sound_heap h -> points_into (length h) v -> denotes h v (VDict l) -> dget "skeleton" l = Some sk ->
  exists h' s d, load h v = (h', Ok [s; d]) /\ denotes h' s sk /\ denotes h' d (VDict (ddel "skeleton" l)).
Proof.
  intros h v l sk S V D K. inversion D as [ | | | | | | a items l0 E Di]; subst. pose proof (denotes_dget _ _ _ "skeleton" Di) as P. rewrite K in P. destruct P as (s0 & P1 & P2).
  assert (E0 : subscript h (HRef a) "skeleton" = Ok s0) by (cbn; rewrite E, P1; auto).
  unfold load. rewrite E0. pose proof (subscript_points _ _ _ _ S E0) as V0. destruct (deepcopy_total h s0 S V0) as (h1 & s & E1). rewrite E1.
  pose proof (deepcopy_fresh _ _ _ _ S V0 E1) as F1. pose proof (fresh_sound _ _ _ S F1) as S1. pose proof (points_grow _ _ _ (fr_grows _ _ _ F1) V) as V1.
  destruct (deepcopy_total h1 (HRef a) S1 V1) as (h2 & d & E2). rewrite E2. exists (delitem h2 d "skeleton"), s, d. split; [auto | ].
  pose proof (deepcopy_fresh _ _ _ _ S1 V1 E2) as F2. pose proof (deepcopy_denotes _ _ _ _ _ S V0 E1 P2) as D1.
  assert (Vs : points_into (length h1) s) by (destruct s; cbn; auto; apply (fr_values _ _ _ F1); left; auto).
  pose proof (denotes_grows _ _ _ _ S V (fr_grows _ _ _ F1) D) as Dv. pose proof (deepcopy_denotes _ _ _ _ _ S1 V1 E2 Dv) as D2.
  inversion D2 as [ | | | | | | b items2 l2 Eb Db]; subst. cbn [delitem]. rewrite Eb. cbn [c_kind c_items].
  pose proof (fr_values _ _ _ F2 b (or_introl eq_refl)) as Lb. set (h3 := hset h2 b (mkCell KDict (ddel "skeleton" items2))).
  assert (G3 : grows h1 h3) by (apply grows_set; [apply F2 | lia]). split.
  - apply (denotes_grows _ _ _ _ S1 Vs G3 D1).
  - apply (denotes_dict _ b (ddel "skeleton" items2)); [unfold h3; rewrite hget_hset, Nat.eqb_refl, Eb; auto | ].
    eapply denotes_ddel; [ | exact Db]. intros x w t Hw Dw. eapply denotes_same; [exact Dw | ]. intros y R. unfold h3. rewrite hget_hset.
    destruct (Nat.eqb_spec y b) as [-> | N]; auto. exfalso. eapply denotes_acyclic; eauto.
Qed.
Theorem load_refuses : forall h v t, denotes h v t -> (forall l sk, t = VDict l -> dget "skeleton" l <> Some sk) ->
  exists e, load h v = (h, Err e) /\ ((exists l, t = VDict l) -> e = EKey "skeleton") /\ ((forall l, t <> VDict l) -> exists w, e = EType w).
Proof.
  intros h v t D N. unfold load. destruct D as [ | b | z | f | s | a items l E Di | a items l E Di]; cbn [subscript]; rewrite ?E; cbv iota.
  1-6 : eexists; split; [reflexivity | split; [intros [l' X]; discriminate | intros _; eauto]].
  pose proof (denotes_dget _ _ _ "skeleton" Di) as P. destruct (dget "skeleton" l) as [sk | ] eqn:K; [exfalso; eapply N; eauto | ]. rewrite P.
  eexists. split; [reflexivity | split; auto]. intros X. exfalso. eapply X. reflexivity.
Qed.

(** ** New results *)
Lemma fresh_reaches : forall h h' l, fresh h h' l -> forall v b, In v l -> reaches h' v b -> length h <= b < length h'.
Proof.
  intros h h' l F v b Hv R. assert (Hr : forall v b, reaches h' v b -> (forall a, v = HRef a -> length h <= a < length h') -> length h <= b < length h').
  { clear v b Hv R. intros v b R. induction R as [a | a c k v b E Hi R IH]; intros Ha; auto. apply IH. intros x ->. apply (fr_cells _ _ _ F a c k x); auto. apply (Ha a). auto. }
  apply (Hr _ _ R). intros a ->. apply (fr_values _ _ _ F). auto.
Qed.
Theorem load_new : forall h v h' r, sound_heap h -> points_into (length h) v -> load h v = (h', r) ->
  (forall a, a < length h -> hget h' a = hget h a) /\
  (forall l x b, r = Ok l -> In x l -> reaches h' x b -> length h <= b).
Proof.
  intros h v h' r S V E. apply load_fresh in E as F; auto. split; [apply F | ]. intros l x b -> Hx R. eapply fresh_reaches in R; eauto. lia.
Qed.
Theorem json_new : forall keep fuel h sk v h' v', sound_heap h -> points_into (length h) sk -> to_json_data keep fuel h sk v = Some (h', v') ->
  (forall a, a < length h -> hget h' a = hget h a) /\ forall b, reaches h' v' b -> length h <= b.
Proof.
  intros keep fuel h sk v h' v' S V E. apply json_fresh in E as F; auto. split; [apply F | ]. intros b R. eapply fresh_reaches in R; eauto; [lia | left; auto].
Qed.
Theorem deepcopy_new : forall h v, sound_heap h -> points_into (length h) v -> exists h' v', deepcopy h v = Some (h', v') /\
  (forall a, a < length h -> hget h' a = hget h a) /\ (forall b, reaches h' v' b -> length h <= b) /\ forall t, denotes h v t -> denotes h' v' t.
Proof.
  intros h v S V. destruct (deepcopy_total h v S V) as (h' & v' & E). exists h', v'. split; auto. apply deepcopy_fresh in E as F; auto. split; [apply F | ]. split.
  - intros b R. eapply fresh_reaches in R; eauto; [lia | left; auto].
  - intros t D. eapply deepcopy_denotes; eauto.
Qed.
