(** Properties C37, C38, C39, C62 (draw order). *)
From Verif Require Import PyBase Json Classes SpineGraph DrawOrder SpecDraw DrawFacts DrawAny.
Open Scope string_scope.
Open Scope list_scope.

(** An offset, and a draw order keyframe, as built from JSON. *)
Definition off (s : string) (z : Z) : obj := mkObj CDrawOffset [("slot", VStr s); ("offset", VInt z)].
Definition key (l : list obj) : draw_order := mkDrawOrder (VInt 0) l.

(** ** C37 *)
Theorem C37_in_range : forall removed names d d', NoDup names ->
  remove_offsets_with_ids removed names d = (d', Ok tt) ->
  do_time d' = do_time d /\
  exists ms, moves_of (do_offsets d') ms /\ valid_moves (survivors removed names) ms /\
    forall s z, In (s, z) ms -> In s names /\ ~ In s removed /\ z <> 0%Z.
Proof. exact remove_offsets_in_range. Qed.
Print Assumptions C37_in_range.

(** When it returns: all offsets must name a slot of the document or a removed one;
    otherwise ValueError and nothing is changed. *)
Theorem C37_when : forall removed names d, NoDup names ->
  (forall o, In o (do_offsets d) -> exists m, offset_of o m) ->
  ((exists d', remove_offsets_with_ids removed names d = (d', Ok tt)) <->
   (forall o s, In o (do_offsets d) -> oget o "slot" = VStr s -> In s names \/ In s removed)) /\
  (forall d' e, remove_offsets_with_ids removed names d = (d', Err e) -> d' = d /\ exists w, e = EValue w).
Proof. exact remove_offsets_when. Qed.
Print Assumptions C37_when.
(** Any offsets: TypeError if a slot that exists is moved by something that is not an int, else ValueError
    if an entry has no slot or the slot neither exists nor is removed, else success. *)
Theorem C37_any : forall removed names d, NoDup names ->
  (not_by_int names (do_offsets d) -> exists w, remove_offsets_with_ids removed names d = (d, Err (EType w))) /\
  (~ not_by_int names (do_offsets d) -> of_no_slot removed names (do_offsets d) -> exists w, remove_offsets_with_ids removed names d = (d, Err (EValue w))) /\
  (~ not_by_int names (do_offsets d) -> ~ of_no_slot removed names (do_offsets d) -> exists d', remove_offsets_with_ids removed names d = (d', Ok tt)).
Proof. exact remove_offsets_any. Qed.
Print Assumptions C37_any.
Definition unnamed : obj := mkObj CDrawOffset [("slot", VNone); ("offset", VInt 1)].
Example C37_any_example : of_no_slot ["r"] ["a"; "r"] [unnamed; off "a" 1] /\ remove_offsets_with_ids ["r"] ["a"; "r"] (key [unnamed; off "a" 1]) = (key [unnamed; off "a" 1], Err (EValue "None is not in list")) /\ remove_offsets_with_ids ["r"] ["a"; "r"] (key [unnamed; mkObj CDrawOffset [("slot", VStr "a"); ("offset", VStr "1")]]) =
    (key [unnamed; mkObj CDrawOffset [("slot", VStr "a"); ("offset", VStr "1")]], Err (EType "not an integer")).
Proof. split; [exists unnamed; split; [left; reflexivity | discriminate] | split; vm_compute; reflexivity]. Qed.

(** Offsets far out of range, and two with the same target, become valid. *)
Example C37_example : exists d', remove_offsets_with_ids ["r"] ["a"; "r"; "b"; "c"] (key [off "a" 9; off "r" 2; off "c" (-1)]) = (d', Ok tt) /\
  map (fun o => (oget o "slot", oget o "offset")) (do_offsets d') = [(VStr "a", VInt 2); (VStr "c", VInt (-1))].
Proof. eexists. split; [vm_compute; reflexivity | vm_compute; reflexivity]. Qed.

(** ** C38 *)
(** The new offsets are those of the survivors' new places, and they describe the old draw
    order without the removed slots exactly when the slots that are no longer listed keep
    their relative order.  Missing: they do not always (refuted below). *)
Theorem C38_order_partial : forall removed names d d' ms ms' l, NoDup names ->
  moves_of (do_offsets d) ms -> valid_moves names ms -> draw_order_of names ms l ->
  remove_offsets_with_ids removed names d = (d', Ok tt) -> moves_of (do_offsets d') ms' ->
  (forall s z, In (s, z) ms' <-> In s (map fst ms) /\ ~ In s removed /\ z <> 0%Z /\
     exists i j, nth_error (survivors removed names) i = Some s /\ nth_error (survivors removed l) j = Some s /\
       z = (Z.of_nat j - Z.of_nat i)%Z) /\
  (draw_order_of (survivors removed names) ms' (survivors removed l) <->
   filter (unlisted ms') (survivors removed l) = filter (unlisted ms') (survivors removed names)).
Proof. exact remove_offsets_order. Qed.
Print Assumptions C38_order_partial.

(** In particular the order is kept if no listed survivor ends in its original place. *)
Theorem C38_moved_partial : forall removed names d d' ms ms' l, NoDup names ->
  moves_of (do_offsets d) ms -> valid_moves names ms -> draw_order_of names ms l ->
  remove_offsets_with_ids removed names d = (d', Ok tt) -> moves_of (do_offsets d') ms' ->
  (forall s i, In s (map fst ms) -> nth_error (survivors removed names) i = Some s ->
     nth_error (survivors removed l) i <> Some s) ->
  draw_order_of (survivors removed names) ms' (survivors removed l).
Proof. exact remove_offsets_no_fixed. Qed.
Print Assumptions C38_moved_partial.

(** Slots a r z u drawn as u z r a.  Without r they are drawn as z u a instead of u z a:
    z now has offset 0, which is dropped. *)
Theorem C38_refuted : exists names removed d d' ms ms' l l', NoDup names /\
  moves_of (do_offsets d) ms /\ valid_moves names ms /\ (forall s z, In (s, z) ms -> z <> 0%Z) /\ draw_order_of names ms l /\
  remove_offsets_with_ids removed names d = (d', Ok tt) /\ moves_of (do_offsets d') ms' /\
  draw_order_of (survivors removed names) ms' l' /\ l' <> survivors removed l.
Proof.
  set (names := ["a"; "r"; "z"; "u"]). set (ms := [("a", 3%Z); ("r", 1%Z); ("z", (-1)%Z)]).
  set (d := key [off "a" 3; off "r" 1; off "z" (-1)]).
  exists names, ["r"], d, (key [off "a" 2]), ms, [("a", 2%Z)], ["u"; "z"; "r"; "a"], ["z"; "u"; "a"].
  assert (N : NoDup names) by (repeat constructor; simpl; intuition discriminate).
  assert (M : moves_of (do_offsets d) ms) by (repeat constructor; left; reflexivity).
  assert (V : valid_moves names ms).
  { split; [repeat constructor; simpl; intuition discriminate | split].
    - intros s z [E | [E | [E | []]]]; injection E as <- <-; [exists 0, 3 | exists 1, 2 | exists 2, 1]; repeat split; simpl; lia.
    - intros s z i s' z' i' H H' Hi Hi' E.
      destruct H as [Q | [Q | [Q | []]]]; destruct H' as [Q' | [Q' | [Q' | []]]]; injection Q as <- <-; injection Q' as <- <-; auto;
        do 5 try (destruct i as [ | i]; try discriminate); do 5 try (destruct i' as [ | i']; try discriminate); simpl in E; lia. }
  destruct (reorder_valid _ _ _ N M V) as (sl & r & E1 & E2 & E3 & D). vm_compute in E1. injection E1 as <-.
  vm_compute in E3. injection E3 as <-.
  split; [exact N | ]. split; [exact M | ]. split; [exact V | ].
  split; [intros s z [E | [E | [E | []]]]; injection E as <- <-; discriminate | ]. split; [exact D | ].
  split; [vm_compute; reflexivity | ]. split; [repeat constructor; left; reflexivity | ].
  split; [ | vm_compute; discriminate].
  assert (N' : NoDup (survivors ["r"] names)) by (vm_compute; repeat constructor; simpl; intuition discriminate).
  assert (M' : moves_of [off "a" 2] [("a", 2%Z)]) by (repeat constructor; left; reflexivity).
  assert (V' : valid_moves (survivors ["r"] names) [("a", 2%Z)]).
  { split; [repeat constructor; simpl; intuition discriminate | split].
    - intros s z [E | []]; injection E as <- <-. exists 0, 2. repeat split; simpl; lia.
    - intros s z i s' z' i' [Q | []] [Q' | []] _ _ _. congruence. }
  destruct (reorder_valid _ _ _ N' M' V') as (sl & r & E1 & _ & E3' & D'). vm_compute in E1. injection E1 as <-.
  vm_compute in E3'. injection E3' as <-. exact D'.
Qed.
Print Assumptions C38_refuted.

(** A case where C38_moved_partial applies: a b r c drawn as c a b r. *)
Example C38_example : exists d', remove_offsets_with_ids ["r"] ["a"; "b"; "r"; "c"] (key [off "c" (-3)]) = (d', Ok tt) /\
  do_offsets d' = [off "c" (-2)].
Proof. eexists. split; [vm_compute; reflexivity | vm_compute; reflexivity]. Qed.

(** ** C39 *)
Theorem C39_spine_rule : forall l ms names, NoDup names -> moves_of l ms -> valid_moves names ms ->
  exists d r, offsets_by_slot l = Ok d /\ reorder_slots_with_offset d names = Ok r /\ draw_order_of names ms r /\
    forall r', draw_order_of names ms r' -> r' = r.
Proof. exact reorder_spine_rule. Qed.
Print Assumptions C39_spine_rule.

Example C39_example : exists d, offsets_by_slot [off "d" (-3); off "a" 1] = Ok d /\
  reorder_slots_with_offset d ["a"; "b"; "c"; "d"] = Ok ["d"; "a"; "b"; "c"].
Proof. eexists. split; [vm_compute; reflexivity | vm_compute; reflexivity]. Qed.

(** ** C62 *)
Theorem C62_order_kept_iff : forall removed names d d' ms ms' l, NoDup names ->
  moves_of (do_offsets d) ms -> valid_moves names ms -> draw_order_of names ms l ->
  remove_offsets_with_ids removed names d = (d', Ok tt) -> moves_of (do_offsets d') ms' ->
  (draw_order_of (survivors removed names) ms' (survivors removed l) <->
   filter (unlisted ms') (survivors removed l) = filter (unlisted ms') (survivors removed names)).
Proof. exact remove_offsets_order_iff. Qed.
Print Assumptions C62_order_kept_iff.
Theorem C62_moved : forall removed names d d' ms ms' l, NoDup names ->
  moves_of (do_offsets d) ms -> valid_moves names ms -> draw_order_of names ms l ->
  remove_offsets_with_ids removed names d = (d', Ok tt) -> moves_of (do_offsets d') ms' ->
  (forall s i, In s (map fst ms) -> nth_error (survivors removed names) i = Some s ->
     nth_error (survivors removed l) i <> Some s) ->
  draw_order_of (survivors removed names) ms' (survivors removed l).
Proof. exact remove_offsets_no_fixed. Qed.
Print Assumptions C62_moved.
Example C62_example : exists d', remove_offsets_with_ids ["r"] ["a"; "r"; "z"; "u"] (key [off "a" 3; off "r" 1; off "z" (-1)]) = (d', Ok tt) /\
  do_offsets d' = [off "a" 2] /\
  filter (unlisted [("a", 2%Z)]) ["u"; "z"; "a"] <> filter (unlisted [("a", 2%Z)]) ["a"; "z"; "u"].
Proof. eexists. split; [vm_compute; reflexivity | ]. split; [vm_compute; reflexivity | vm_compute; discriminate]. Qed.
