(** Properties C82-C87 (erase_skins and the entries of images_references). *)
From Verif Require Import PyBase PyNum Json Version Classes Graph SpineGraph DrawOrder AnimData Editor SpecAnim SpecEditor SpecErase
  ScaleFacts EditorErase EditorEntries EditorRun PropEditor.
From Coq Require Import SpecFloat.
Open Scope string_scope.

(** ** C82: what a safe erase_skins does *)
Theorem C82_safe : forall e0 ops e enum l e' r, history e0 ops e -> erase_skins enum l true e = (e', r) ->
  doc_skeleton (e_doc e') = doc_skeleton (e_doc e) /\ e_ver e' = e_ver e /\
  ((exists ss imgs, r = Ok (([], []), imgs) /\ erased l (e_data e) (e_data e') ss /\
      (forall x, In x imgs <-> (exists s, In s ss /\ image_of_skin s x) /\ ~ image_left (e_data e') (shown_image x)) /\
      exists keep, e_images e' = filter (fun kv => keep (fst kv)) (e_images e) /\ forall i, keep i = true <-> ~ In (Some i) imgs) \/
   (exists l1 n l2 d1 ss, l = (l1 ++ n :: l2)%list /\ erased l1 (e_data e) d1 ss /\ e_images e' = e_images e /\
      (((forall s, In s (d_skins d1) -> sk_name s <> Some n) /\ e_data e' = d1 /\ exists w, r = Err (EEditor w)) \/
       (exists s k, first_skin d1 n s /\ ~ has_source d1 n s /\ r = Err (EKey k))))).
Proof. exact safe_outcome. Qed.
Print Assumptions C82_safe.
Theorem C82_unlinked : forall e0 ops e enum l e' r, history e0 ops e -> no_links l (e_data e) -> erase_skins enum l true e = (e', r) ->
  ((exists imgs, r = Ok (([], []), imgs)) <-> NoDup l /\ forall n, In n l -> In (Some n) (map sk_name (d_skins (e_data e)))) /\
  (forall rep, r = Ok rep -> (d_bones (e_data e') = d_bones (e_data e) /\ d_slots (e_data e') = d_slots (e_data e) /\ d_events (e_data e') = d_events (e_data e) /\
      d_ik (e_data e') = d_ik (e_data e) /\ d_transform (e_data e') = d_transform (e_data e) /\ d_path (e_data e') = d_path (e_data e)) /\
     d_skins (e_data e') = filter (fun s => negb (named_in l s)) (d_skins (e_data e)) /\
     Forall2 (fun x y => fst y = fst x /\
       an_ik (snd y) = an_ik (snd x) /\ an_drawOrder (snd y) = an_drawOrder (snd x) /\ an_bones (snd y) = an_bones (snd x) /\
       an_slots (snd y) = an_slots (snd x) /\ an_events (snd y) = an_events (snd x) /\ an_transform (snd y) = an_transform (snd x) /\
       an_path (snd y) = an_path (snd x) /\ an_deform (snd y) = filter (fun kv => negb (smem (fst kv) l)) (an_deform (snd x)))
     (d_animations (e_data e)) (d_animations (e_data e'))) /\
  (forall x, r = Err x -> exists w, x = EEditor w).
Proof. exact unlinked_outcome. Qed.
Print Assumptions C82_unlinked.
Theorem C82_names : forall e0 ops e enum l safe e' r, history e0 ops e -> order_ok enum -> erase_skins enum l safe e = (e', Ok r) ->
  map sk_name (d_skins (e_data e')) = map sk_name (filter (fun s => negb (named_in l s)) (d_skins (e_data e))).
Proof. exact erase_skin_names. Qed.
Print Assumptions C82_names.
(** The skin winter has an image of its own, ct, and shares b1 and h1. *)
Example C82_ex : no_links ["winter"] (e_data (ed jm)) /\
  (exists e', erase_skins in_order ["winter"] true (ed jm) = (e', Ok (([], []), [Some "ct"])) /\
    map sk_name (d_skins (e_data e')) = [Some "default"]) /\
  (exists e' w, erase_skins in_order ["winter"; "spring"] true (ed jm) = (e', Err (EEditor w)) /\
    map sk_name (d_skins (e_data e')) = [Some "default"]).
Proof.
  split; [ | split].
  - intros n sl k o [<- | []] Ho. apply all_attachments_in in Ho. list_in Ho.
    repeat (destruct Ho as [Ho | Ho]; [injection Ho as <- <- <-; intros [C _]; discriminate | ]). contradiction.
  - eexists. split; vm_compute; reflexivity.
  - eexists _, _. split; vm_compute; reflexivity.
Qed.

(** ** C83: erasing with a clean-up is erasing safely, and then cleaning up *)
Theorem C83_skins : forall e0 ops e enum l, history e0 ops e ->
  match erase_skins enum l true e with
  | (e1, Ok (_, imgs)) =>
      match clean_animation enum e1 with
      | (e2, Ok rep) => erase_skins enum l false e = (e2, Ok (rep, imgs))
      | (e2, Err x) => exists e2', erase_skins enum l false e = (e2', Err x) /\ e_doc e2' = e_doc e2
      end
  | (e1, Err x) => erase_skins enum l false e = (e1, Err x)
  end.
Proof. exact erase_then_clean. Qed.
Print Assumptions C83_skins.
Theorem C83_animations : forall e enum l strict,
  match erase_animations enum l strict true e with
  | (e1, Ok _) =>
      match clean_animation enum e1 with
      | (e2, Ok rep) => erase_animations enum l strict false e = (e2, Ok (editor_json e2, rep))
      | (e2, Err x) => erase_animations enum l strict false e = (e2, Err x)
      end
  | (e1, Err x) => erase_animations enum l strict false e = (e1, Err x)
  end.
Proof. exact animations_then_clean. Qed.
Print Assumptions C83_animations.
Example C83_ex : exists e1 e2, erase_skins in_order ["winter"] true (ed jm) = (e1, Ok (([], []), [Some "ct"])) /\
  clean_animation in_order e1 = (e2, Ok (["ghost"], ["body2"; "g"])) /\
  erase_skins in_order ["winter"] false (ed jm) = (e2, Ok ((["ghost"], ["body2"; "g"]), [Some "ct"])).
Proof. eexists _, _. split; [vm_compute; reflexivity | ]. split; vm_compute; reflexivity. Qed.

(** ** C84: a failed call changes nothing.  False: the skins before the unknown one are gone. *)
Theorem C84_refuted : exists e e' l x, loaded e /\ erase_skins in_order l true e = (e', Err x) /\
  map sk_name (d_skins (e_data e')) <> map sk_name (d_skins (e_data e)).
Proof.
  exists (ed jm). eexists _, ["winter"; "spring"], _. split; [apply loads_ok; vm_compute; reflexivity | ].
  split; [vm_compute; reflexivity | vm_compute; discriminate].
Qed.
Print Assumptions C84_refuted.

(** ** C85: the entries of images_references on loading, and later *)
Theorem C85_loaded : forall e i r, loaded e -> (dget i (e_images e) = Some r <-> exists sl, last_use (e_data e) i sl /\ entry_of e i sl r).
Proof. exact entry_loaded. Qed.
Print Assumptions C85_loaded.
(** No call adds or changes an entry, or changes the order of the entries. *)
Theorem C85_kept : forall e0 ops e, history e0 ops e -> exists keep, e_images e = filter (fun kv => keep (fst kv)) (e_images e0).
Proof. exact entries_kept. Qed.
Print Assumptions C85_kept.
Theorem C85_tidy : forall e0 ops e i r, tidy (e_data e0) -> history e0 ops e ->
  (dget i (e_images e) = Some r <-> image_in_use (e_data e) i /\ exists sl, last_use (e_data e0) i sl /\ entry_of e0 i sl r).
Proof. exact entry_tidy. Qed.
Print Assumptions C85_tidy.
(** An image used on a slot with a scale tag: first on a plain slot, and last on the scaled one *)
Definition j85 : val := json "3.8.99" [bone "root" []] [slot "s" (shows "k"); slot "t[scale:2]" (shows "m")] []
  [skin_doc "default" [("s", VDict [("k", region "p"); ("l", region "/q")])]; skin_doc "big" [("t[scale:2]", VDict [("m", region "p")])]]
  [("idle", timelines [])].
Example C85_ex : loaded (ed j85) /\
  e_images (ed j85) = [("p", mkImg "./images/p" (Some (S754_finite false 4503599627370496 (-51)))); ("/q", mkImg "/q" None)].
Proof. split; [apply loads_ok; vm_compute; reflexivity | vm_compute; reflexivity]. Qed.

(** ** C86: the entry of an image always has the scale of a slot that has the image.  False:
    entries are not recomputed when a skin is erased. *)
Theorem C86_refuted : exists e0 ops e i r, history e0 ops e /\ dget i (e_images e) = Some r /\
  forall sl k o s x, skin_attachment (e_data e) sl k o -> att_image k o = i -> first_named slot_name sl (d_slots (e_data e)) s ->
    slot_scale_is (e_data e) s x -> im_scale r <> if feqb x f_one then None else Some x.
Proof.
  exists (ed j85). set (ops := [EoEraseSkins in_order ["big"] true]). exists (rev ops), (after j85 ops), "p", (mkImg "./images/p" (Some (S754_finite false 4503599627370496 (-51)))).
  split; [apply runs_ok; [repeat constructor; exact in_order_ok | vm_compute; reflexivity] | ]. split; [vm_compute; reflexivity | ].
  intros sl k o s x Ho Ei Hs Hx. apply all_attachments_in in Ho. list_in Ho.
  destruct Ho as [Ho | [Ho | []]]; injection Ho as <- <- <-; [ | discriminate Ei].
  apply first_named_find in Hs. apply slot_scale in Hx. 
  assert (Es : Some s = find (fun s => String.eqb (slot_name s) "s") (d_slots (e_data (after j85 ops)))) by (symmetry; exact Hs).
  rewrite Es in Hx. clear Es Hs s.
  assert (E1 : get_slot_custom_scale (e_data (after j85 ops)) (find (fun s => String.eqb (slot_name s) "s") (d_slots (e_data (after j85 ops)))) = Ok f_one) by (vm_compute; reflexivity).
  rewrite E1 in Hx. injection Hx as <-. vm_compute. discriminate.
Qed.
Print Assumptions C86_refuted.
