(** Proofs about the analysis of unused slots and attachments. *)
From Verif Require Import PyBase PyNum Unicode SpecUnicode UnicodeFacts Json Version Tags Classes SpineGraph DrawOrder AnimData PyFacts SpecNums SpecAnim.
From Verif Require NumFacts.
Open Scope string_scope.

(** ** Hexadecimal colors *)
Lemma hex_digit_val : forall c, hex_digit c ->
  exists v, hex_val c = Some v /\ (v < 16)%N /\ (v = 0%N <-> c = "0"%char) /\ is_blank c = false /\ c <> "_"%char.
Proof.
  unfold hex_digit. intros c H. cbn in H.
  repeat (destruct H as [<- | H];
          [eexists; split; [vm_compute; reflexivity | ];
           split; [lia | split; [split; [intros E; try discriminate E; reflexivity | intros E; try discriminate E; reflexivity]
                  | split; [reflexivity | discriminate]]] | ]).
  contradiction.
Qed.

Lemma digits_hex : forall l acc b, Forall hex_digit l -> (l <> [] \/ b = true) ->
  exists n, digits_val hex_val 16 acc b l = Some n.
Proof.
  induction l as [ | c l IH]; intros acc b H Hb; cbn [digits_val].
  - destruct Hb as [Hb | Hb]; [congruence | subst]. eauto.
  - inversion H; subst. destruct (hex_digit_val _ H2) as (v & E & _). rewrite E. apply IH; auto.
Qed.

Lemma digits_two : forall l c e acc b, Forall hex_digit l -> hex_digit c -> hex_digit e ->
  exists n v w, digits_val hex_val 16 acc b (l ++ [c; e])%list = Some (n * 256 + (v * 16 + w))%N /\
              hex_val c = Some v /\ hex_val e = Some w.
Proof.
  induction l as [ | x l IH]; intros c e acc b H Hc He.
  - destruct (hex_digit_val _ Hc) as (v & E & _). destruct (hex_digit_val _ He) as (w & E' & _).
    exists acc, v, w. split; auto. cbn [app digits_val]. rewrite E, E'. f_equal. lia.
  - inversion H; subst. cbn [app digits_val]. destruct (hex_digit_val _ H2) as (v & E & _). rewrite E.
    apply IH; auto.
Qed.

Lemma lstrip_id : forall l, (forall c l', l = c :: l' -> is_blank c = false) -> lstrip is_blank l = l.
Proof. intros [ | c l] H; auto. cbn. rewrite (H c l); auto. Qed.

Lemma py_int_0x_hex : forall l, Forall hex_digit l -> py_int_0x l = digits_val hex_val 16 0 false l.
Proof.
  intros l H. unfold py_int_0x. rewrite lstrip_id.
  - rewrite rev_involutive. destruct l as [ | c l]; auto. inversion H; subst.
    destruct (hex_digit_val _ H2) as (v & _ & _ & _ & _ & N).
    destruct c as [[] [] [] [] [] [] [] []]; try reflexivity. exfalso. apply N. reflexivity.
  - intros c l' E. assert (Hc : In c (rev l)) by (rewrite E; left; auto).
    apply in_rev in Hc. rewrite Forall_forall in H. apply H in Hc.
    destruct (hex_digit_val _ Hc) as (v & _ & _ & _ & S & _). exact S.
Qed.

Lemma hex_readable : forall l, Forall hex_digit l -> l <> [] -> exists n, py_int_0x l = Some n.
Proof. intros l H Hn. rewrite py_int_0x_hex by auto. apply digits_hex; auto. Qed.

Lemma hex_low_byte : forall l c e, Forall hex_digit (l ++ [c; e])%list ->
  exists n, py_int_0x (l ++ [c; e])%list = Some n /\
            (N.modulo n 256 = 0%N <-> c = "0"%char /\ e = "0"%char).
Proof.
  intros l c e H. rewrite py_int_0x_hex by auto. apply Forall_app in H as [Hl H2].
  apply Forall_cons_iff in H2 as [H3 H2]. apply Forall_cons_iff in H2 as [H5 _].
  destruct (digits_two l c e 0%N false Hl H3 H5) as (n & v & w & E & Ev & Ew). rewrite E.
  eexists; split; [reflexivity | ].
  destruct (hex_digit_val _ H3) as (v' & Ev' & Bv & Zv & _). destruct (hex_digit_val _ H5) as (w' & Ew' & Bw & Zw & _).
  rewrite Ev in Ev'. injection Ev' as <-. rewrite Ew in Ew'. injection Ew' as <-.
  rewrite N.add_comm, N.mod_add, N.mod_small by lia. rewrite <- Zv, <- Zw. lia.
Qed.

Lemma land_255 : forall n, N.land n 255 = N.modulo n 256.
Proof. intros n. change 255%N with (N.ones 8). rewrite N.land_ones. reflexivity. Qed.

Lemma slot_alpha_zero_spec : forall s b, slot_alpha_zero s = Ok b -> (b = true <-> transparent s).
Proof.
  unfold slot_alpha_zero, transparent. intros s b H. destruct (ostr s "color") as [c | ] eqn:E.
  - destruct (py_int_0x (folded c)) as [n | ] eqn:F; try discriminate. injection H as <-.
    rewrite N.eqb_eq, land_255. split.
    + intros M. exists c, n. rewrite <- NumFacts.color_iff. auto.
    + intros (c' & n' & E1 & E2 & E3). injection E1 as <-. apply NumFacts.color_iff in E2. rewrite F in E2. injection E2 as <-. auto.
  - injection H as <-. split; [discriminate | ]. intros (c & n & H & _). discriminate.
Qed.
Lemma slot_alpha_zero_total : forall s, readable_color s <-> exists b, slot_alpha_zero s = Ok b.
Proof.
  unfold slot_alpha_zero, readable_color. intros s. destruct (ostr s "color") as [c | ] eqn:E.
  - split.
    + intros H. destruct (H c eq_refl) as [n F]. apply NumFacts.color_iff in F. rewrite F. eauto.
    + intros [b H] c' E'. injection E' as <-. destruct (py_int_0x (folded c)) as [n | ] eqn:F; [ | discriminate]. exists n. apply NumFacts.color_iff. auto.
  - split; [eauto | discriminate].
Qed.

Lemma alpha_zero_in : forall l r, alpha_zero l = Ok r ->
  forall n, In n r <-> exists s, In s l /\ slot_name s = n /\ transparent s.
Proof.
  induction l as [ | s l IH]; cbn [alpha_zero]; intros r H n.
  - injection H as <-. split; [contradiction | ]. intros (s & [] & _).
  - apply bind_ok in H as (b & Hb & H). apply bind_ok in H as (r' & Hr & H). injection H as <-.
    pose proof (slot_alpha_zero_spec _ _ Hb) as S. specialize (IH _ Hr n). destruct b; cbn [In].
    + rewrite IH. split.
      * intros [<- | (x & X1 & X2)]; [exists s | exists x]; intuition.
      * intros (x & [<- | X1] & X2 & X3); [left; auto | right; exists x; auto].
    + rewrite IH. split.
      * intros (x & X1 & X2). exists x; intuition.
      * intros (x & [<- | X1] & X2 & X3); [apply S in X3; discriminate | exists x; auto].
Qed.
Lemma alpha_zero_total : forall l,
  (exists r, alpha_zero l = Ok r) <-> forall s, In s l -> readable_color s.
Proof.
  induction l as [ | s l IH]; cbn [alpha_zero].
  - split; [intros _ s [] | eauto].
  - split.
    + intros [r H]. apply bind_ok in H as (b & Hb & H). apply bind_ok in H as (r' & Hr & H).
      intros x [<- | Hx]; [apply slot_alpha_zero_total; eauto | apply IH; eauto].
    + intros H. destruct (proj1 (slot_alpha_zero_total s)) as [b Hb]; [apply H; left; auto | ].
      destruct (proj2 IH) as [r Hr]; [intros; apply H; right; auto | ].
      rewrite Hb, Hr. cbn. eauto.
Qed.
Lemma alpha_zero_list : forall l r, alpha_zero l = Ok r ->
  exists f, (forall s, In s l -> f s = true <-> transparent s) /\ r = map slot_name (filter f l).
Proof.
  intros l r H.
  exists (fun s => match slot_alpha_zero s with Ok b => b | Err _ => false end). revert r H.
  induction l as [ | s l IH]; cbn [alpha_zero]; intros r H.
  - injection H as <-. split; [intros s [] | reflexivity].
  - apply bind_ok in H as (b & Hb & H). apply bind_ok in H as (r' & Hr & H). injection H as <-.
    destruct (IH _ Hr) as [I1 I2]. split.
    + intros x [<- | Hx]; auto. rewrite Hb. apply slot_alpha_zero_spec. auto.
    + cbn [filter]. rewrite Hb. destruct b; cbn [map]; congruence.
Qed.

(** ** Keyframes and timelines *)
Lemma kf_is_empty_spec : forall k, kf_is_empty k = true <-> forall n, ~ keyframe_shows k n.
Proof.
  unfold kf_is_empty, keyframe_shows. intros k. destruct (ostr k "name") as [n | ].
  - rewrite seqb_eq. split.
    + intros -> m [H N]. congruence.
    + intros H. destruct (string_dec n "None") as [E | E]; auto. exfalso. apply (H n). auto.
  - split; auto. intros _ n [H _]. discriminate.
Qed.
Lemma has_color_spec : forall t, has_color t = true <-> colored t.
Proof.
  unfold has_color, colored. intros [a [ | c l] [ | w l']]; cbn; split; intros H; try discriminate; auto;
    try (left; discriminate); try (right; discriminate). destruct H; congruence.
Qed.
Lemma st_is_empty_spec : forall t, st_is_empty t = true <-> empty_timeline t.
Proof.
  intros t. unfold st_is_empty, empty_timeline.
  assert (C : (Nat.eqb (length (st_color t)) 0 && Nat.eqb (length (st_twoColor t)) 0)%bool = negb (has_color t)).
  { unfold has_color. rewrite negb_involutive. auto. }
  rewrite andb_true_iff, C. rewrite negb_true_iff, <- not_true_iff_false, has_color_spec.
  apply and_iff_compat_l. destruct (st_attachment t) as [ | k [ | k' l]].
  - split; auto.
  - rewrite andb_true_iff, kf_is_empty_spec. split.
    + intros [H1 H2]. right. exists k. auto.
    + intros [H | (k' & H & H1 & H2)]; [discriminate | ]. injection H as <-. auto.
  - split; [discriminate | ]. intros [H | (k2 & H & _)]; discriminate.
Qed.
Lemma in_used_attachments : forall t n, In n (used_attachments t) <-> timeline_shows t n.
Proof.
  unfold used_attachments, timeline_shows. intros t n. rewrite in_flat_map. split.
  - intros (k & Hk & H). exists k. split; auto. destruct (kf_is_empty k) eqn:E; [contradiction | ].
    unfold kf_is_empty in E. unfold keyframe_shows. destruct (ostr k "name") as [m | ]; [ | contradiction].
    destruct H as [<- | []]. apply seqb_neq in E. auto.
  - intros (k & Hk & H). exists k. split; auto. destruct (kf_is_empty k) eqn:E.
    + apply kf_is_empty_spec with (n := n) in E. contradiction.
    + destruct H as [-> _]. left. auto.
Qed.
Lemma not_visible_spec : forall s, not_visible_in_setup s = true <-> bare s.
Proof.
  unfold not_visible_in_setup, bare. intros s. rewrite !andb_true_iff.
  destruct (oget s "attachment"), (oget s "dark"), (oget s "blend"), (oget s "color"); cbn;
    intuition congruence.
Qed.
Lemma in_not_visible : forall d n, In n (get_slots_not_visible_in_setup_pose d) <->
  exists s, In s (d_slots d) /\ slot_name s = n /\ bare s.
Proof.
  intros d n. unfold get_slots_not_visible_in_setup_pose. rewrite in_map_iff. split.
  - intros (s & E & H). apply filter_In in H as [H1 H2]. apply not_visible_spec in H2. eauto.
  - intros (s & H1 & H2 & H3). exists s. split; auto. apply filter_In. split; auto.
    apply not_visible_spec. auto.
Qed.

Lemma unique_name : forall l s s', NoDup (map slot_name l) -> In s l -> In s' l ->
  slot_name s = slot_name s' -> s = s'.
Proof.
  induction l as [ | x l IH]; cbn [map In]; intros s s' N H H' E; [contradiction | ].
  inversion N; subst. destruct H as [<- | H], H' as [<- | H']; auto.
  - exfalso. apply H2. rewrite E. apply in_map. auto.
  - exfalso. apply H2. rewrite <- E. apply in_map. auto.
Qed.

Lemma slots_dict_get : forall l acc n, NoDup (map slot_name l) ->
  dget n (fold_left (fun acc s => if String.eqb (slot_name s) "" then acc else dset (slot_name s) s acc) l acc) =
  match find (fun s => String.eqb (slot_name s) n && negb (String.eqb n ""))%bool l with
  | Some s => Some s
  | None => dget n acc
  end.
Proof.
  induction l as [ | s l IH]; intros acc n N; auto. cbn [fold_left find].
  cbn [map] in N. inversion N; subst. rewrite IH by auto.
  assert (F : slot_name s = n -> find (fun s0 => (String.eqb (slot_name s0) n && negb (String.eqb n ""))%bool) l = None).
  { intros <-. destruct (find _ l) as [x | ] eqn:E; auto. apply find_some in E as [E1 E2].
    apply andb_true_iff in E2 as [E2 _]. apply seqb_eq in E2. exfalso. apply H1. rewrite <- E2. apply in_map. auto. }
  eqb_cases (slot_name s) n; cbn [andb].
  - rewrite F by auto. destruct (String.eqb (slot_name s) "") eqn:E1; rewrite <- E in *; rewrite ?E1; cbn [negb].
    + auto.
    + rewrite dget_dset_same. auto.
  - destruct (find _ l); auto. destruct (String.eqb (slot_name s) ""); auto.
    rewrite dget_dset_other; auto.
Qed.
Lemma slots_dict_spec : forall l n s, NoDup (map slot_name l) ->
  (dget n (slots_dict_of l) = Some s <-> In s l /\ slot_name s = n /\ n <> "").
Proof.
  intros l n s N. unfold slots_dict_of. rewrite slots_dict_get by auto.
  destruct (find _ l) as [x | ] eqn:E.
  - apply find_some in E as [E1 E2]. apply andb_true_iff in E2 as [E2 E3]. apply seqb_eq in E2.
    rewrite negb_true_iff, seqb_neq in E3. split.
    + intros H. injection H as <-. auto.
    + intros (H1 & H2 & H3). f_equal. eapply unique_name; eauto. congruence.
  - split; [discriminate | ]. intros (H1 & H2 & H3). exfalso.
    pose proof (find_none _ _ E s H1) as F. cbn in F. rewrite H2, seqb_refl in F.
    apply seqb_neq in H3. rewrite H3 in F. discriminate.
Qed.

(** ** The loop over the timelines of one animation *)
Definition uses (s : obj) (t : slot_timeline) : list string :=
  (used_attachments t ++ match ostr s "attachment" with Some a => [a] | None => [] end)%list.
Definition hides (alpha noatt : list string) (n : string) (s : obj) (t : slot_timeline) : bool :=
  (st_is_empty t || (smem n alpha && negb (has_color t)) ||
   (smem n noatt && Nat.eqb (length (uses s t)) 0))%bool.

Lemma visit_timelines : forall sd alpha noatt l st st',
  NoDup (dkeys l) -> foldM (visit_timeline sd alpha noatt) st l = Ok st' ->
  (forall n t, In (n, t) l -> exists s, dget n sd = Some s) /\
  (forall n, In n (vi_slots st') <->
     (exists t s, In (n, t) l /\ dget n sd = Some s /\ hides alpha noatt n s t = false) \/
     (~ In n (dkeys l) /\ In n (vi_slots st))) /\
  (forall n, dget n (vi_used st') =
     match dget n l, dget n sd with
     | Some t, Some s => Some (if hides alpha noatt n s t then [] else map Some (uses s t))
     | _, _ => dget n (vi_used st)
     end) /\
  (NoDup (dkeys (vi_used st)) -> NoDup (dkeys (vi_used st'))).
Proof.
  induction l as [ | [k t] l IH]; intros st st' N H; cbn [foldM] in H.
  - injection H as <-. repeat split; auto; try contradiction.
    intros [(t & s & [] & _) | [_ H]]; auto.
  - apply bind_ok in H as (st1 & H1 & H). inversion N; subst.
    destruct (IH _ _ H4 H) as (I1 & I2 & I3 & I4). clear IH.
    unfold visit_timeline in H1. apply bind_ok in H1 as (s & Hs & H1).
    unfold dget_err in Hs. destruct (dget k sd) as [s' | ] eqn:Es; [ | discriminate]. injection Hs as ->.
    cbv zeta in H1. fold (uses s t) in H1. fold (hides alpha noatt k s t) in H1.
    assert (K : dget k l = None) by (apply dget_none; auto).
    split; [ | split; [ | split]].
    + intros n t' [E | Hin]; [injection E as <- <-; eauto | eauto].
    + intros n. rewrite I2. cbn [dkeys map fst In].
      destruct (hides alpha noatt k s t) eqn:Hh; injection H1 as <-; cbn [vi_slots].
      * rewrite filter_In, negb_true_iff, seqb_neq. split.
        -- intros [(t' & s' & A & B & C) | (A & B & C)]; [left; exists t', s'; auto | right].
           split; auto. intros [D | D]; auto.
        -- intros [(t' & s' & [A | A] & B & C) | (A & B)].
           ++ injection A as <- <-. rewrite Es in B. injection B as <-. congruence.
           ++ left. exists t', s'. auto.
           ++ right. split; [intros D; apply A; auto | split; auto].
      * rewrite in_set_union. cbn [In]. split.
        -- intros [(t' & s' & A & B & C) | (A & [B | [B | []]])].
           ++ left; exists t', s'; auto.
           ++ destruct (string_dec k n) as [<- | D].
              ** left. exists t, s. auto.
              ** right. split; auto. intros [D' | D']; auto.
           ++ subst n. left. exists t, s. auto.
        -- intros [(t' & s' & [A | A] & B & C) | (A & B)].
           ++ injection A as <- <-. right. split; auto.
           ++ left. exists t', s'. auto.
           ++ right. split; auto.
    + intros n. rewrite I3. cbn [dget]. eqb_cases n k.
      * subst n. rewrite K, Es. destruct (hides alpha noatt k s t) eqn:Hh; injection H1 as <-; cbn [vi_used];
          rewrite dget_dset_same; auto.
      * destruct (hides alpha noatt k s t) eqn:Hh; injection H1 as <-; cbn [vi_used];
          rewrite dget_dset_other by auto; auto.
    + intros Hn. apply I4. destruct (hides alpha noatt k s t); injection H1 as <-; cbn [vi_used];
        apply NoDup_dset; auto.
Qed.

Lemma visit_timelines_total : forall sd alpha noatt l st,
  (forall n t, In (n, t) l -> exists s, dget n sd = Some s) ->
  exists st', foldM (visit_timeline sd alpha noatt) st l = Ok st'.
Proof.
  induction l as [ | [k t] l IH]; intros st H; cbn [foldM]; eauto.
  destruct (H k t) as [s Hs]; [left; auto | ].
  assert (E : exists st1, visit_timeline sd alpha noatt st (k, t) = Ok st1).
  { unfold visit_timeline, dget_err. rewrite Hs. cbn [bind]. cbv zeta. destruct (_ || _)%bool; eauto. }
  destruct E as [st1 ->]. cbn [bind]. apply IH. intros n t' Hin. apply (H n t'). right; auto.
Qed.

(** The setup attachments of the slots visible by default. *)
Lemma used0_get : forall l vis acc n, NoDup (map slot_name l) ->
  dget n (fold_left (fun acc s => if smem (slot_name s) vis then dset (slot_name s) [ostr s "attachment"] acc
                                  else acc) l acc) =
  match find (fun s => String.eqb (slot_name s) n && smem n vis)%bool l with
  | Some s => Some [ostr s "attachment"]
  | None => dget n acc
  end.
Proof.
  induction l as [ | s l IH]; intros vis acc n N; auto. cbn [fold_left find].
  cbn [map] in N. inversion N; subst. rewrite IH by auto.
  assert (F : slot_name s = n -> find (fun s0 => (String.eqb (slot_name s0) n && smem n vis)%bool) l = None).
  { intros <-. destruct (find _ l) as [x | ] eqn:E; auto. apply find_some in E as [E1 E2].
    apply andb_true_iff in E2 as [E2 _]. apply seqb_eq in E2. exfalso. apply H1. rewrite <- E2. apply in_map. auto. }
  eqb_cases (slot_name s) n; cbn [andb].
  - rewrite F by auto. subst n. destruct (smem (slot_name s) vis); auto. rewrite dget_dset_same. auto.
  - destruct (find _ l); auto. destruct (smem (slot_name s) vis); auto.
    rewrite dget_dset_other; auto.
Qed.
Lemma used0_NoDup : forall l vis acc, NoDup (dkeys acc) ->
  NoDup (dkeys (fold_left (fun acc s => if smem (slot_name s) vis then dset (slot_name s) [ostr s "attachment"] acc
                                  else acc) l acc)).
Proof.
  induction l as [ | s l IH]; intros vis acc N; auto. cbn [fold_left]. apply IH.
  destruct (smem (slot_name s) vis); auto. apply NoDup_dset; auto.
Qed.

Lemma in_concat_dvals : forall A (d : dict (list A)) x, NoDup (dkeys d) ->
  (In x (concat (dvals d)) <-> exists n v, dget n d = Some v /\ In x v).
Proof.
  intros A d x N. rewrite in_concat. unfold dvals. split.
  - intros (v & Hv & Hx). apply in_map_iff in Hv as ([k v'] & <- & Hk). exists k, v'. split; auto.
    apply in_dget; auto.
  - intros (n & v & Hn & Hx). exists v. split; auto. apply dget_some_in in Hn.
    apply in_map_iff. exists (n, v). auto.
Qed.

(** ** One animation *)
Section Analysis.
  Variable d : anim_data.
  Hypothesis Hslots : distinct_slots d.
  Variable alpha : list string.
  Hypothesis Halpha : get_slots_with_alpha_zero d = Ok alpha.
  Let noatt := get_slots_not_visible_in_setup_pose d.
  Let dv := set_diff (set_of (map slot_name (d_slots d))) (set_of (alpha ++ noatt)).

  Lemma alpha_slot : forall s, In s (d_slots d) -> (smem (slot_name s) alpha = true <-> transparent s).
  Proof.
    intros s Hs. rewrite smem_in, (alpha_zero_in _ _ Halpha). split.
    - intros (s' & H1 & H2 & H3). rewrite (unique_name _ s s' Hslots); auto.
    - eauto.
  Qed.
  Lemma noatt_slot : forall s, In s (d_slots d) -> (smem (slot_name s) noatt = true <-> bare s).
  Proof.
    intros s Hs. unfold noatt. rewrite smem_in, in_not_visible. split.
    - intros (s' & H1 & H2 & H3). rewrite (unique_name _ s s' Hslots); auto.
    - eauto.
  Qed.
  Lemma in_dv : forall n, In n dv <-> exists s, In s (d_slots d) /\ slot_name s = n /\ visible_in_setup s.
  Proof.
    intros n. unfold dv. rewrite in_set_diff, !in_set_of, in_app_iff, in_map_iff. split.
    - intros ((s & E & Hs) & H). exists s. split; auto. split; auto.
      split; intros C; apply H; subst n.
      + left. apply smem_in. apply alpha_slot; auto.
      + right. apply smem_in. apply noatt_slot; auto.
    - intros (s & Hs & <- & H1 & H2). split; [eauto | ].
      intros [C | C]; apply smem_in in C; [apply alpha_slot in C | apply noatt_slot in C]; auto.
  Qed.

  Lemma hides_spec : forall s t, In s (d_slots d) ->
    (hides alpha noatt (slot_name s) s t = true <-> timeline_hides s t).
  Proof.
    intros s t Hs. unfold hides, timeline_hides.
    rewrite !orb_true_iff, !andb_true_iff, st_is_empty_spec, alpha_slot, noatt_slot by auto.
    rewrite negb_true_iff, <- not_true_iff_false, has_color_spec, or_assoc.
    apply or_iff_compat_l, or_iff_compat_l. split; intros [B H]; split; auto.
    - intros n C. apply in_used_attachments in C. unfold uses in H.
      destruct (used_attachments t); [contradiction | discriminate].
    - unfold uses. destruct B as [B _]. unfold ostr. rewrite B. cbn [val_str].
      destruct (used_attachments t) as [ | n l] eqn:E; auto.
      exfalso. apply (H n). apply in_used_attachments. rewrite E. left. auto.
  Qed.

  Lemma known_slot : forall n s, dget n (slots_dict_of (d_slots d)) = Some s <->
    In s (d_slots d) /\ slot_name s = n /\ n <> "".
  Proof. intros. apply slots_dict_spec. auto. Qed.

  Lemma in_uses : forall s t n, In n (uses s t) <-> timeline_shows t n \/ ostr s "attachment" = Some n.
  Proof.
    intros. unfold uses. rewrite in_app_iff, in_used_attachments. destruct (ostr s "attachment"); cbn;
      intuition congruence.
  Qed.

  Lemma hides_dec : forall s t, In s (d_slots d) -> timeline_hides s t \/ ~ timeline_hides s t.
  Proof.
    intros s t Hs. rewrite <- hides_spec by auto. destruct (hides _ _ _ _ _); auto.
  Qed.

  Variable a : animation.
  Hypothesis Ha : NoDup (dkeys (an_slots a)).
  Let run := get_visible_slots_and_attachments d (an_slots a) dv alpha noatt.

  Lemma timeline_get : forall s t, timeline a s t <-> dget (slot_name s) (an_slots a) = Some t.
  Proof.
    intros. unfold timeline. split; [apply in_dget; auto | apply dget_some_in].
  Qed.
  Lemma has_timeline_key : forall s, has_timeline a s <-> In (slot_name s) (dkeys (an_slots a)).
  Proof.
    intros s. split.
    - intros [t H]. apply timeline_get in H. eapply dget_in_keys; eauto.
    - intros H. apply in_keys_dget in H as [t H]. exists t. apply timeline_get. auto.
  Qed.

  Lemma run_slots : forall v, run = Ok v ->
    forall n, In n (vi_slots v) <-> exists s, In s (d_slots d) /\ slot_name s = n /\ visible_in a s.
  Proof.
    intros v H n. unfold run, get_visible_slots_and_attachments in H.
    destruct (visit_timelines _ _ _ _ _ _ Ha H) as (_ & I & _). rewrite I. clear I. cbn [vi_slots].
    rewrite in_dv. split.
    - intros [(t & s & H1 & H2 & H3) | (H1 & s & H2 & <- & H3)].
      + apply known_slot in H2 as (H2 & <- & _). exists s. split; auto. split; auto. left. exists t.
        split; auto. rewrite <- hides_spec by auto. rewrite H3. discriminate.
      + exists s. split; auto. split; auto. right. rewrite has_timeline_key. auto.
    - intros (s & Hs & <- & [(t & T & Hh) | (Hn & Hv)]).
      + left. assert (K := proj1 (timeline_get s t) T). exists t, s. split; [exact T | ].
        rewrite <- hides_spec in Hh by auto. apply not_true_iff_false in Hh. split; auto.
        destruct (visit_timelines _ _ _ _ _ _ Ha H) as (I & _).
        destruct (I _ _ T) as [s' Hs']. rewrite Hs'. f_equal.
        apply known_slot in Hs' as (A & B & _). eapply unique_name; eauto.
      + right. rewrite <- has_timeline_key. split; auto. eauto.
  Qed.

  Lemma run_used : forall v, run = Ok v ->
    NoDup (dkeys (vi_used v)) /\
    forall n, In (Some n) (concat (dvals (vi_used v))) <-> exists s, In s (d_slots d) /\ shown_in a s n.
  Proof.
    intros v H. unfold run, get_visible_slots_and_attachments in H.
    destruct (visit_timelines _ _ _ _ _ _ Ha H) as (I0 & _ & I & N). cbn [vi_used] in N, I.
    assert (Nv : NoDup (dkeys (vi_used v))).
    { apply N. apply used0_NoDup. constructor. }
    split; auto. clear N. intros n. rewrite in_concat_dvals by auto. split.
    - intros (k & l & Hk & Hn). rewrite I in Hk.
      destruct (dget k (an_slots a)) as [t | ] eqn:Et.
      + destruct (I0 k t) as [s Hs]; [apply dget_some_in; auto | ]. rewrite Hs in Hk.
        apply known_slot in Hs as (Hs & <- & _). injection Hk as <-.
        destruct (hides _ _ _ _ _) eqn:Eh; [contradiction | ].
        exists s. split; auto. assert (T : timeline a s t) by (apply timeline_get; auto). split.
        * left. exists t. split; auto. rewrite <- hides_spec by auto. rewrite Eh. discriminate.
        * apply in_map_iff in Hn as (n' & E & Hn). injection E as ->. apply in_uses in Hn as [Hn | Hn]; eauto.
      + rewrite used0_get in Hk by auto.
        destruct (find _ (d_slots d)) as [s | ] eqn:F; [ | discriminate].
        injection Hk as <-. apply find_some in F as [Hs F]. apply andb_true_iff in F as [F1 F2].
        apply seqb_eq in F1. subst k. destruct Hn as [Hn | []].
        exists s. split; auto. split; [right | auto]. apply dget_none in Et.
        rewrite has_timeline_key. split; auto. apply smem_in, in_dv in F2 as (s' & A & B & C).
        rewrite (unique_name _ s s' Hslots); auto.
    - intros (s & Hs & [(t & T & Hh) | (Hnt & Hv)] & Hn).
      + assert (K := proj1 (timeline_get s t) T).
        destruct (I0 _ _ T) as [s' Hs']. assert (s' = s) as ->.
        { apply known_slot in Hs' as (A & B & _). eapply unique_name; eauto. }
        exists (slot_name s), (map Some (uses s t)). rewrite I, K, Hs'.
        rewrite <- hides_spec in Hh by auto. apply not_true_iff_false in Hh. rewrite Hh. split; auto.
        apply in_map. apply in_uses. destruct Hn as [Hn | (t' & T' & Hn)]; auto.
        apply timeline_get in T'. rewrite K in T'. injection T' as <-. auto.
      + assert (K : dget (slot_name s) (an_slots a) = None).
        { apply dget_none. rewrite <- has_timeline_key. auto. }
        exists (slot_name s), [ostr s "attachment"]. rewrite I, K, used0_get by auto.
        destruct (find _ (d_slots d)) as [x | ] eqn:F.
        * apply find_some in F as [Hx F]. apply andb_true_iff in F as [F1 F2]. apply seqb_eq in F1.
          rewrite (unique_name _ x s Hslots) by auto. split; auto. left.
          destruct Hn as [Hn | (t' & T' & _)]; auto. exfalso. apply Hnt. exists t'. auto.
        * exfalso. pose proof (find_none _ _ F s Hs) as G. cbn beta in G. rewrite seqb_refl in G.
          cbn [andb] in G. apply smem_nin in G. apply G. apply in_dv. eauto.
  Qed.

  Lemma run_ok : (exists v, run = Ok v) <->
    forall n t, In (n, t) (an_slots a) -> n <> "" /\ exists s, In s (d_slots d) /\ slot_name s = n.
  Proof.
    unfold run, get_visible_slots_and_attachments. split.
    - intros [v H] n t Hin. destruct (visit_timelines _ _ _ _ _ _ Ha H) as (I & _).
      destruct (I _ _ Hin) as [s Hs]. apply known_slot in Hs as (A & B & C). eauto.
    - intros H. apply visit_timelines_total. intros n t Hin. destruct (H _ _ Hin) as (Hn & s & Hs & E).
      exists s. apply known_slot. auto.
  Qed.

  Lemma run_nonempty : forall v, run = Ok v ->
    (dvals (vi_used v) <> [] <-> (exists s, In s (d_slots d) /\ visible_in_setup s) \/ an_slots a <> []).
  Proof.
    intros v H. unfold run, get_visible_slots_and_attachments in H.
    destruct (visit_timelines _ _ _ _ _ _ Ha H) as (I0 & _ & I & _). cbn [vi_used] in I.
    assert (E : dvals (vi_used v) <> [] <-> exists k l, dget k (vi_used v) = Some l).
    { destruct (vi_used v) as [ | [k l] r]; cbn [dvals map].
      - split; [congruence | ]. intros (k & l & G). discriminate.
      - split; [ | discriminate]. intros _. exists k, l. cbn [dget]. rewrite seqb_refl. auto. }
    rewrite E. clear E. split.
    - intros (k & l & Hk). rewrite I in Hk. destruct (dget k (an_slots a)) as [t | ] eqn:Et.
      + right. intros C. rewrite C in Et. discriminate.
      + rewrite used0_get in Hk by auto. destruct (find _ (d_slots d)) as [s | ] eqn:F; [ | discriminate].
        apply find_some in F as [Hs F]. apply andb_true_iff in F as [F1 F2].
        apply smem_in, in_dv in F2 as (s' & A & B & C). eauto.
    - intros [(s & Hs & Hv) | Hn].
      + destruct (dget (slot_name s) (an_slots a)) as [t | ] eqn:Et.
        * destruct (I0 (slot_name s) t) as [s' Hs']; [apply dget_some_in; auto | ].
          exists (slot_name s). rewrite I, Et, Hs'. eauto.
        * exists (slot_name s). rewrite I, Et, used0_get by auto.
          destruct (find _ (d_slots d)) as [x | ] eqn:F; [eauto | ].
          exfalso. pose proof (find_none _ _ F s Hs) as G. cbn beta in G. rewrite seqb_refl in G.
          cbn [andb] in G. apply smem_nin in G. apply G. apply in_dv. eauto.
      + destruct (an_slots a) as [ | [k t] r]; [congruence | ].
        destruct (I0 k t) as [s' Hs']; [left; auto | ].
        exists k. rewrite I. cbn [dget]. rewrite seqb_refl, Hs'. eauto.
  Qed.
End Analysis.

Lemma omem_in : forall x l, omem x l = true <-> In x l.
Proof.
  intros x l. unfold omem. rewrite existsb_exists. split.
  - intros (y & Hy & E). destruct x, y; cbn in E; try discriminate; auto. apply seqb_eq in E. congruence.
  - intros H. exists x. split; auto. destruct x; cbn; auto. apply seqb_refl.
Qed.

(** ** All animations *)
Lemma reduce_union_ok : forall l u, reduce_union l = Ok u <-> l <> [] /\ u = concat l.
Proof.
  intros [ | x l] u; cbn [reduce_union]; split; try discriminate.
  - intros [H _]. congruence.
  - intros H. injection H as <-. split; [discriminate | auto].
  - intros [_ ->]. auto.
Qed.

Lemma visit_animations : forall d alpha, distinct_slots d -> get_slots_with_alpha_zero d = Ok alpha ->
  let noatt := get_slots_not_visible_in_setup_pose d in
  let dv := set_diff (set_of (map slot_name (d_slots d))) (set_of (alpha ++ noatt)) in
  forall l acc r, (forall i a, In (i, a) l -> NoDup (dkeys (an_slots a))) ->
  foldM (visit_animation d dv alpha noatt) acc l = Ok r ->
  (forall n, In n (fst r) <-> In n (fst acc) \/
     exists i a s, In (i, a) l /\ In s (d_slots d) /\ slot_name s = n /\ visible_in a s) /\
  (forall n, In (Some n) (snd r) <-> In (Some n) (snd acc) \/
     exists i a s, In (i, a) l /\ In s (d_slots d) /\ shown_in a s n).
Proof.
  intros d alpha Hs Ha noatt dv. induction l as [ | [i a] l IH]; intros acc r Hn H; cbn [foldM] in H.
  - injection H as <-. split; intros n; split; auto; intros [C | (i & a & s & [] & _)]; auto.
  - apply bind_ok in H as (acc' & H1 & H).
    destruct (IH _ _ (fun i' a' X => Hn i' a' (or_intror X)) H) as [I1 I2]. clear IH.
    unfold visit_animation in H1. cbn [snd] in H1. apply bind_ok in H1 as (v & Hv & H1).
    apply bind_ok in H1 as (u & Hu & H1). apply reduce_union_ok in Hu as [_ ->]. injection H1 as <-.
    assert (Na : NoDup (dkeys (an_slots a))) by (eapply Hn; left; auto).
    pose proof (run_slots d Hs alpha Ha a Na v Hv) as R1.
    destruct (run_used d Hs alpha Ha a Na v Hv) as [_ R2].
    split; intros n.
    + rewrite I1. cbn [fst]. rewrite in_set_union, R1. split.
      * intros [[C | (s & C)] | (i' & a' & s & C & C')]; auto; right.
        -- exists i, a, s. split; [left; auto | auto].
        -- exists i', a', s. split; [right; auto | auto].
      * intros [C | (i' & a' & s & [C | C] & C')]; auto.
        -- injection C as <- <-. left. right. eauto.
        -- right. eauto.
    + rewrite I2. cbn [snd]. rewrite in_app_iff, R2. split.
      * intros [[C | (s & C)] | (i' & a' & s & C & C')]; auto; right.
        -- exists i, a, s. split; [left; auto | auto].
        -- exists i', a', s. split; [right; auto | auto].
      * intros [C | (i' & a' & s & [C | C] & C')]; auto.
        -- injection C as <- <-. left. right. eauto.
        -- right. eauto.
Qed.

Lemma visit_animations_ok : forall d alpha, distinct_slots d -> get_slots_with_alpha_zero d = Ok alpha ->
  let noatt := get_slots_not_visible_in_setup_pose d in
  let dv := set_diff (set_of (map slot_name (d_slots d))) (set_of (alpha ++ noatt)) in
  forall l acc, (forall i a, In (i, a) l -> NoDup (dkeys (an_slots a))) ->
  ((exists r, foldM (visit_animation d dv alpha noatt) acc l = Ok r) <->
   forall i a, In (i, a) l ->
    (forall n t, In (n, t) (an_slots a) -> n <> "" /\ exists s, In s (d_slots d) /\ slot_name s = n) /\
    ((exists s, In s (d_slots d) /\ visible_in_setup s) \/ an_slots a <> [])).
Proof.
  intros d alpha Hs Ha noatt dv. induction l as [ | [i a] l IH]; intros acc Hn; cbn [foldM].
  - split; [intros _ i a [] | eauto].
  - assert (Na : NoDup (dkeys (an_slots a))) by (eapply Hn; left; auto).
    pose proof (run_ok d Hs alpha a Na) as R1.
    pose proof (run_nonempty d Hs alpha Ha a Na) as R2.
    assert (Hn' : forall i a, In (i, a) l -> NoDup (dkeys (an_slots a))) by (intros i' a' X; apply (Hn i' a'); right; auto).
    split.
    + intros [r H]. apply bind_ok in H as (acc' & H1 & H).
      unfold visit_animation in H1. cbn [snd] in H1. apply bind_ok in H1 as (v & Hv & H1).
      apply bind_ok in H1 as (u & Hu & H1). apply reduce_union_ok in Hu as [Hu _].
      intros i' a' [E | Hin].
      * injection E as <- <-. split; [apply R1; eauto | apply (R2 v Hv); auto].
      * apply (proj1 (IH acc' Hn') (ex_intro _ r H) i' a'). auto.
    + intros H. destruct (H i a) as [A B]; [left; auto | ].
      destruct (proj2 R1 A) as [v Hv].
      assert (E : exists acc', visit_animation d dv alpha noatt acc (i, a) = Ok acc').
      { unfold visit_animation. cbn [snd]. fold noatt in Hv. fold dv in Hv. rewrite Hv. cbn [bind].
        rewrite (proj2 (reduce_union_ok _ _) (conj (proj2 (R2 v Hv) B) eq_refl)). cbn [bind]. eauto. }
      destruct E as [acc' ->]. cbn [bind]. apply IH; auto. intros. apply (H i0 a0). right. auto.
Qed.

(** ** The whole analysis *)
Lemma in_attachments_to_remove : forall skins used inv n,
  In n (attachments_to_remove skins used inv) <->
  exists s m sl o, In s skins /\ In (sl, m) (sk_atts s) /\ In (n, o) m /\ ~ In (Some n) used /\
                   (o_cls o = CSkinMesh -> In sl inv).
Proof.
  intros skins used inv n. unfold attachments_to_remove. rewrite in_set_of, in_flat_map.
  assert (M : forall o sl, (is_mesh o && negb (smem sl inv))%bool = false <-> (o_cls o = CSkinMesh -> In sl inv)).
  { intros o sl. unfold is_mesh. rewrite <- smem_in.
    destruct (o_cls o), (smem sl inv); cbn; split; intros; try reflexivity; try discriminate; auto.
    symmetry; auto. }
  split.
  - intros (s & Hs & H). apply in_flat_map in H as ([sl m] & Hm & H). cbn [fst snd] in H.
    apply in_flat_map in H as ([k o] & Ho & H). cbn [fst snd] in H.
    destruct (omem (Some k) used) eqn:E; [contradiction | ].
    destruct (is_mesh o && negb (smem sl inv))%bool eqn:E2; [contradiction | ].
    destruct H as [<- | []]. exists s, m, sl, o. repeat (split; auto).
    + rewrite <- omem_in, E. discriminate.
    + apply M. auto.
  - intros (s & m & sl & o & Hs & Hm & Ho & Hu & Hi). exists s. split; auto. apply in_flat_map.
    exists (sl, m). split; auto. cbn [fst snd]. apply in_flat_map. exists (n, o). split; auto. cbn [fst snd].
    destruct (omem (Some n) used) eqn:E; [apply omem_in in E; contradiction | ].
    rewrite (proj2 (M o sl) Hi). left. auto.
Qed.

Theorem unused_spec : forall d slots atts, distinct_slots d -> distinct_timelines d ->
  get_unused_slots_and_attachments d = Ok (slots, atts) ->
  (forall n, In n slots <-> exists s, In s (d_slots d) /\ slot_name s = n /\ ~ used_slot d s) /\
  (forall n, In n atts <->
     ~ used_attachment d n /\
     exists sl o, skin_attachment d sl n o /\ (o_cls o = CSkinMesh -> In sl slots)).
Proof.
  intros d slots atts Hs Ht H. unfold get_unused_slots_and_attachments in H. cbv zeta in H.
  apply bind_ok in H as (alpha & Ha & H). apply bind_ok in H as ([vis used] & Hf & H). injection H as <- <-.
  assert (Hn : forall i a, In (i, a) (d_animations d) -> NoDup (dkeys (an_slots a))).
  { intros i a X. apply Ht. exists i. auto. }
  destruct (visit_animations d alpha Hs Ha (d_animations d) _ _ Hn Hf) as [V1 V2]. cbn [fst snd] in V1, V2.
  split; intros n.
  - rewrite in_set_diff, in_set_of, in_map_iff, V1. split.
    + intros ((s & E & Hin) & C). exists s. split; auto. split; auto. intros (a & (i & Hi) & Hv).
      apply C. right. exists i, a, s. auto.
    + intros (s & Hin & E & C). split; [eauto | ]. intros [[] | (i & a & s' & X1 & X2 & X3 & X4)].
      apply C. exists a. split; [exists i; auto | ]. rewrite (unique_name _ s s' Hs); auto. congruence.
  - rewrite in_attachments_to_remove.
    assert (U : In (Some n) used <-> used_attachment d n).
    { rewrite V2. split.
      - intros [[] | (i & a & s & A & B & C)]. exists a, s. split; [exists i; auto | auto].
      - intros (a & s & (i & A) & B & C). right. exists i, a, s. auto. }
    split.
    + intros (s & m & sl & o & A & B & C & D & E). split; [rewrite <- U; auto | ]. exists sl, o. split; auto. exists s, m. auto.
    + intros (D & sl & o & (s & m & A & B & C) & E). rewrite <- U in D. exists s, m, sl, o. auto.
Qed.

Theorem unused_total : forall d, distinct_slots d -> distinct_timelines d ->
  ((exists r, get_unused_slots_and_attachments d = Ok r) <-> analysable d).
Proof.
  intros d Hs Ht.
  assert (Hn : forall i a, In (i, a) (d_animations d) -> NoDup (dkeys (an_slots a))).
  { intros i a X. apply Ht. exists i. auto. }
  unfold analysable. split.
  - intros [r H]. unfold get_unused_slots_and_attachments in H. cbv zeta in H.
    apply bind_ok in H as (alpha & Ha & H). apply bind_ok in H as ([vis used] & Hf & H).
    split; [apply alpha_zero_total; eauto | ].
    intros a (i & Hi). apply (proj1 (visit_animations_ok d alpha Hs Ha _ _ Hn) (ex_intro _ _ Hf) i a Hi).
  - intros [H1 H2]. apply alpha_zero_total in H1 as [alpha Ha].
    destruct (proj2 (visit_animations_ok d alpha Hs Ha (d_animations d) ([], []) Hn)) as [[vis used] Hf].
    { intros i a Hi. apply H2. exists i. auto. }
    unfold get_unused_slots_and_attachments. cbv zeta. fold (get_slots_with_alpha_zero d) in Ha.
    rewrite Ha. cbn [bind]. rewrite Hf. cbn [bind]. eauto.
Qed.

(** ** Colors of slots *)
Lemma last_two : forall (l : list ascii), 2 <= length l -> exists k x y, l = (k ++ [x; y])%list.
Proof.
  intros l H. destruct (exists_last (l := l)) as (k & y & ->); [destruct l; cbn in H; [lia | discriminate] | ].
  rewrite app_length in H. cbn [length] in H.
  destruct (exists_last (l := k)) as (k' & x & ->); [destruct k; cbn in H; [lia | discriminate] | ].
  exists k', x, y. rewrite <- app_assoc. auto.
Qed.
Lemma hex_folded : forall c, hex_text c -> folded c = chars c.
Proof.
  intros c H. apply folded_ascii. intros x I. unfold hex_text in H. rewrite Forall_forall in H. apply H in I. unfold hex_digit in I. cbn in I.
  repeat (destruct I as [<- | I]; [reflexivity | ]). contradiction.
Qed.
Lemma hex_transparent : forall s c, ostr s "color" = Some c -> hex_text c -> 2 <= String.length c ->
  (transparent s <-> exists rgb, c = (rgb ++ "00")%string).
Proof.
  intros s c E H L. pose proof (hex_folded c H) as Hf. unfold hex_text in H. rewrite <- chars_length in L.
  destruct (last_two _ L) as (k & x & y & Ec). rewrite Ec in H.
  destruct (hex_low_byte _ _ _ H) as (n & Hn & Hz). unfold transparent. split.
  - intros (c' & n' & E1 & E2 & E3). assert (c' = c) as -> by congruence. apply NumFacts.color_iff in E2. rewrite Hf, Ec, Hn in E2. injection E2 as <-.
    apply Hz in E3 as [-> ->]. exists (unchars k). apply chars_inj. rewrite chars_app, chars_unchars. auto.
  - intros [rgb ->]. exists (rgb ++ "00")%string, n. split; auto. split; [apply NumFacts.color_iff; rewrite Hf, Ec; auto | ].
    apply Hz. rewrite chars_app in Ec. change (chars "00") with (["0"%char] ++ ["0"%char])%list in Ec.
    change [x; y] with ([x] ++ [y])%list in Ec. rewrite !app_assoc in Ec.
    apply app_inj_tail in Ec as [Ec <-]. apply app_inj_tail in Ec as [_ <-]. auto.
Qed.
Lemma hex_readable_color : forall s c, ostr s "color" = Some c -> hex_text c -> c <> "" -> readable_color s.
Proof.
  intros s c E H N c' E'. assert (c' = c) as -> by congruence. destruct (hex_readable (chars c)) as (n & Hn); auto; [ | exists n; apply NumFacts.color_iff; rewrite hex_folded; auto].
  destruct c; [congruence | discriminate].
Qed.
Lemma color_unique : forall c k k', color_value c k -> color_value c k' -> k = k'.
Proof. intros c k k' H H'. apply NumFacts.color_iff in H, H'. congruence. Qed.
Lemma listed_exactly : forall d l, get_slots_with_alpha_zero d = Ok l ->
  forall n, In n l <-> exists s c k, In s (d_slots d) /\ slot_name s = n /\ ostr s "color" = Some c /\ color_value c (256 * k).
Proof.
  intros d l H n. rewrite (alpha_zero_in _ _ H n). split.
  - intros (s & I & E & c & k & Ec & V & Z). exists s, c, (k / 256)%N. repeat split; auto.
    replace (256 * (k / 256))%N with k; auto. pose proof (N.div_mod k 256). lia.
  - intros (s & c & k & I & E & Ec & V). exists s. repeat split; auto. exists c, (256 * k)%N. repeat split; auto. rewrite N.mul_comm. apply N.mod_mul. lia.
Qed.
Lemma returns_exactly : forall d, (exists l, get_slots_with_alpha_zero d = Ok l) <->
  forall s c, In s (d_slots d) -> ostr s "color" = Some c -> exists k, color_value c k.
Proof. intros d. rewrite (alpha_zero_total (d_slots d)). unfold readable_color. split; intros H; [intros s c I E; eapply H; eauto | intros s I c E; eauto]. Qed.
Lemma alpha_refused : forall d x, get_slots_with_alpha_zero d = Err x -> exists w, x = EValue w.
Proof.
  intros d x. unfold get_slots_with_alpha_zero. induction (d_slots d) as [ | s l IH]; cbn [alpha_zero]; [discriminate | ].
  destruct (slot_alpha_zero s) as [b | y] eqn:E; cbn [bind].
  - destruct (alpha_zero l); cbn [bind]; [discriminate | intros X; injection X as <-; auto].
  - intros X. injection X as <-. unfold slot_alpha_zero in E. destruct (ostr s "color"); [ | discriminate]. destruct (py_int_0x _); [discriminate | ]. injection E as <-. eauto.
Qed.
Lemma listed_alpha : forall d l, distinct_slots d -> get_slots_with_alpha_zero d = Ok l ->
  forall s, In s (d_slots d) -> (In (slot_name s) l <-> transparent s).
Proof. intros d l Hs H s Hin. rewrite <- smem_in. apply (alpha_slot d Hs l H); auto. Qed.
