(** Properties C126-C129 (calls that fail). *)
From Verif Require Import PyBase PyNum Json Version Classes Graph SpineGraph DrawOrder SpecDraw AnimData Editor SpecAnim SpecEditor SpecFail
  EditorHist EditorFail EditorKinds EditorRun SpecProduct.
From Verif Require NumFacts.
Open Scope string_scope.

(** ** C126: which exception stops the analysis; nothing has changed then *)
Theorem C126_color : forall e0 ops e enum, history e0 ops e -> (exists s, In s (d_slots (e_data e)) /\ ~ readable_color s) ->
  exists w, clean_animation enum e = (e, Err (EValue w)).
Proof. exact clean_color. Qed.
Print Assumptions C126_color.
Theorem C126_timeline : forall e0 ops e enum, history e0 ops e -> colors_ok (e_data e) ->
  stops_at (e_data e) (stray_timeline (e_data e)) -> exists k, clean_animation enum e = (e, Err (EKey k)).
Proof. exact clean_stray. Qed.
Print Assumptions C126_timeline.
Theorem C126_nothing : forall e0 ops e enum, history e0 ops e -> colors_ok (e_data e) ->
  stops_at (e_data e) (nothing_shown (e_data e)) -> exists w, clean_animation enum e = (e, Err (EType w)).
Proof. exact clean_nothing. Qed.
Print Assumptions C126_nothing.
(** There is no other case. *)
Theorem C126_cases : forall e0 ops e, history e0 ops e ->
  analysable (e_data e) \/ (exists s, In s (d_slots (e_data e)) /\ ~ readable_color s) \/
  (colors_ok (e_data e) /\ (stops_at (e_data e) (stray_timeline (e_data e)) \/ stops_at (e_data e) (nothing_shown (e_data e)))).
Proof. exact clean_cases. Qed.
Print Assumptions C126_cases.
(** A color that is no color; a second animation with a timeline of a slot there is not; and
    an animation without timelines when no slot shows anything, before one of a slot there is not. *)
Definition j126 (color : string) (anims : dict val) : val := json "3.8.99" [bone "root" []] [slot "s" (("color", VStr color) :: shows "m")] []
  [skin_doc "default" [("s", VDict [("m", region "p")])]] anims.
Lemma history_of : forall j, loads j = true -> history (ed j) [] (ed j).
Proof. intros j H. constructor. apply loads_ok. exact H. Qed.
Definition ja : val := j126 "red!" [].
Definition jb : val := j126 "ffffffff" [("walk", timelines []); ("run", timelines [("t", frame VNone)])].
Definition jc : val := j126 "ffffff00" [("walk", timelines []); ("run", timelines [("t", frame VNone)])].
Example C126_ex : (history (ed ja) [] (ed ja) /\ exists s, In s (d_slots (e_data (ed ja))) /\ ~ readable_color s) /\
  (history (ed jb) [] (ed jb) /\ colors_ok (e_data (ed jb)) /\ stops_at (e_data (ed jb)) (stray_timeline (e_data (ed jb)))) /\
  (history (ed jc) [] (ed jc) /\ colors_ok (e_data (ed jc)) /\ stops_at (e_data (ed jc)) (nothing_shown (e_data (ed jc)))).
Proof.
  split; [ | split].
  - split; [apply history_of; vm_compute; reflexivity | ]. eexists. split; [vm_compute; left; reflexivity | ].
    intros H. destruct (H "red!" eq_refl) as [n K]. apply NumFacts.color_iff in K. vm_compute in K. discriminate.
  - split; [apply history_of; vm_compute; reflexivity | ]. split.
    + intros s H c E. list_in H. repeat destruct H as [<- | H]; try contradiction H; try discriminate E; injection E as <-; eexists; apply NumFacts.color_iff; vm_compute; reflexivity.
    + eexists [_], _, _, []. split; [vm_compute; reflexivity | ]. split.
      * eexists "t", _. split; [left; reflexivity | ]. right. intros s H. list_in H. repeat destruct H as [<- | H]; try contradiction H; discriminate.
      * intros j b [E | []]. injection E as <- <-. split; [intros (n & t & [] & _) | ]. intros [_ N]. match eval vm_compute in (d_slots (e_data (ed jb))) with ?s :: _ => apply (N s); [vm_compute; left; reflexivity | ] end.
        split; [ | intros (Z & _); discriminate Z]. intros (c & n & Ec & Z & M). injection Ec as <-. apply NumFacts.color_iff in Z. vm_compute in Z. injection Z as <-. discriminate M.
  - split; [apply history_of; vm_compute; reflexivity | ]. split.
    + intros s H c E. list_in H. repeat destruct H as [<- | H]; try contradiction H; try discriminate E; injection E as <-; eexists; apply NumFacts.color_iff; vm_compute; reflexivity.
    + eexists [], _, _, [_]. split; [vm_compute; reflexivity | ]. split; [ | intros j b []].
      split; [reflexivity | ]. intros s H. list_in H. repeat destruct H as [<- | H]; try contradiction H. intros [V _]. apply V. eexists _, _. split; [reflexivity | ]. split; [apply NumFacts.color_iff; vm_compute; reflexivity | reflexivity].
Qed.

(** ** C127: a clean-up that fails in the draw orders leaves the document half cleaned *)
(** Slots without bone are no reason to fail: no slot with attachments is without bone, and the others go. *)
Theorem C127_boned : forall e0 ops e s k o, history e0 ops e -> In s (d_slots (e_data e)) -> skin_attachment (e_data e) (slot_name s) k o ->
  oget s "bone" <> VNone.
Proof. exact history_boned. Qed.
Print Assumptions C127_boned.
Theorem C127_fails : forall e0 ops e enum, history e0 ops e -> order_ok enum -> plain_slots (e_data e0) -> analysable (e_data e) ->
  forall before k after, first_unsound (e_data e) before k after ->
  exists e' x gone, clean_animation enum e = (e', Err x) /\ half_cleaned (fun gone names k k' => remove_offsets_with_ids gone names k = (k', Ok tt)) e e' before (k :: after) gone /\
    (not_by_int (map slot_name (d_slots (e_data e))) (do_offsets k) -> exists w, x = EType w) /\
    (~ not_by_int (map slot_name (d_slots (e_data e))) (do_offsets k) -> exists w, x = EValue w).
Proof. exact clean_draw_fails. Qed.
Print Assumptions C127_fails.
Theorem C127_works : forall e0 ops e enum, history e0 ops e -> order_ok enum -> plain_slots (e_data e0) -> analysable (e_data e) ->
  (forall k, In k (draw_keys (e_data e)) -> sound_key (map slot_name (d_slots (e_data e))) k) ->
  exists e' r, clean_animation enum e = (e', Ok r).
Proof. exact clean_draw_works. Qed.
Print Assumptions C127_works.
Theorem C127_cases : forall e0 ops e, history e0 ops e ->
  (forall k, In k (draw_keys (e_data e)) -> sound_key (map slot_name (d_slots (e_data e))) k) \/
  exists before k after, first_unsound (e_data e) before k after.
Proof. exact unsound_or_sound. Qed.
Print Assumptions C127_cases.
(** The second of three draw orders is of a slot there is not: the unused slot "t" is gone, its
    attachment and image and those of "s" are still there, and only the first draw order is rewritten. *)
Definition order_of (l : list (string * Z)) : val :=
  VDict [("time", VInt 0); ("offsets", VList (map (fun p => VDict [("slot", VStr (fst p)); ("offset", VInt (snd p))]) l))].
Definition j127 : val := json "3.8.99" [bone "root" []] [slot "s" (shows "m"); slot "t" (("color", VStr "ffffff00") :: shows "n"); slot "u" (shows "o")] []
  [skin_doc "default" [("s", VDict [("m", region "p"); ("m2", region "p2")]); ("t", VDict [("n", region "q")]); ("u", VDict [("o", region "r")])]]
  [("walk", VDict [("drawOrder", VList [order_of [("s", 1%Z)]; order_of [("x", 1%Z)]; order_of [("s", 2%Z); ("t", 1%Z)]])])].
Example C127_ex : loads j127 = true /\
  let '(e', r) := clean_animation in_order (ed j127) in
  r = Err (EValue "x not in list") /\ map slot_name (d_slots (e_data e')) = ["s"; "u"] /\
  map (fun k => map (fun o => (oget o "slot", oget o "offset")) (do_offsets k)) (draw_keys (e_data e')) =
    [[]; [(VStr "x", VInt 1)]; [(VStr "s", VInt 2); (VStr "t", VInt 1)]] /\
  dkeys (e_images e') = ["p"; "p2"; "q"; "r"] /\ flat_map (fun s => map (fun kv => (fst kv, dkeys (snd kv))) (sk_atts s)) (d_skins (e_data e')) = [("s", ["m"; "m2"]); ("u", ["o"])].
Proof. split; [vm_compute; reflexivity | vm_compute; repeat split]. Qed.
Example C127_hyps : plain_slots (e_data (ed j127)) /\ analysable (e_data (ed j127)) /\
  exists before k after, first_unsound (e_data (ed j127)) before k after /\ length before = 1 /\ length after = 1.
Proof.
  split; [ | split].
  - apply plain_slotsb_ok. vm_compute. reflexivity.
  - split.
    + intros s H c E. list_in H. repeat destruct H as [<- | H]; try contradiction H; try discriminate E; injection E as <-; eexists; apply NumFacts.color_iff; vm_compute; reflexivity.
    + intros a (i & H). list_in H. destruct H as [H | []]. injection H as <- <-. split; [intros n t [] | ]. left.
      match eval vm_compute in (d_slots (e_data (ed j127))) with ?s :: _ => exists s end. split; [vm_compute; left; reflexivity | ].
      split; [ | intros (Z & _); discriminate Z]. intros (c & n & Ec & Z & M). discriminate Ec.
  - eexists [_], _, [_]. split; [ | split; reflexivity]. split; [vm_compute; reflexivity | ]. split.
    + intros k [<- | []]. cbv zeta. split.
      * intros (n & o & Hn & (a & b & E & _) & K). destruct a as [ | x a]; [injection E as <- <- | destruct a; discriminate E]. apply (K 1%Z). vm_compute. left. reflexivity.
      * intros (o & [<- | []] & K). destruct (K "s" eq_refl) as [K1 _]. apply K1. vm_compute. left. reflexivity.
    + intros [_ N]. apply N. eexists. split; [left; reflexivity | ]. intros s E. injection E as <-. split; [ | intros []]. intros H. list_in H. repeat destruct H as [H | H]; try contradiction H; discriminate H.
Qed.
(** A document in which a slot with attachments has no bone does not load; without attachments the slot goes. *)
Definition j127n (atts : list (string * val)) : val := json "3.8.99" [bone "root" []] [slot "r" (shows "m"); VDict [("name", VStr "s"); ("bone", VNone)]] []
  [skin_doc "default" (("r", VDict [("m", region "p")]) :: atts)] [("walk", timelines [])].
Example C127_boned_ex : (exists w, mk_editor (j127n [("s", VDict [("m", region "p")])]) = Err (EAttr w)) /\ loads (j127n []) = true /\
  exists e', clean_animation in_order (ed (j127n [])) = (e', Ok (["s"], [])).
Proof. split; [eexists; vm_compute; reflexivity | ]. split; [vm_compute; reflexivity | ]. eexists. vm_compute. reflexivity. Qed.

(** ** C128: what a scaling that fails leaves behind *)
Theorem C128_scale : forall e0 ops e sx sy e' x, history e0 ops e -> scale_animation sx sy e = (e', Err x) ->
  exists l, e' = put_data e (set_bones (e_data e) l) /\ scale_stops sx sy x (d_bones (e_data e)) l.
Proof. exact scale_fails. Qed.
Print Assumptions C128_scale.
(** A list times a float fails: "arm" is scaled and of "leg" only scaleX. *)
Definition j128 : val := json "3.8.99"
  [bone "root" []; bone "arm" [("transform", VStr "noScale"); ("scaleX", VInt 2); ("scaleY", VInt 3)];
   bone "leg" [("transform", VStr "noScale"); ("scaleX", VInt 5); ("scaleY", VList [])];
   bone "foot" [("transform", VStr "noScale"); ("scaleX", VInt 7)]] [] [] [] [].
Example C128_ex : loads j128 = true /\ exists e' w, scale_animation (VInt 2) (VStr "a") (ed j128) = (e', Err (EType w)) /\
  map (fun b => (oget b "scaleX", oget b "scaleY")) (tl (d_bones (e_data e'))) =
    [(VInt 4, VStr "aaa"); (VInt 10, VList []); (VInt 7, VFloat (SpecFloat.S754_finite false 4503599627370496 (-52)))].
Proof. split; [vm_compute; reflexivity | ]. eexists _, _. split; vm_compute; reflexivity. Qed.

(** ** C129: the exceptions that the calls on an editor can raise *)
Theorem C129_exceptions : forall e0 ops e op e' x, history e0 ops e -> eop_ok op -> estep e op = (e', Err x) -> may_raise op x.
Proof. exact step_kind. Qed.
Print Assumptions C129_exceptions.
(** All of them occur. *)
Definition j129 : val := json "3.8.99" [bone "root" []] [slot "s" []] []
  [skin_doc "a" [("s", VDict [("m", VDict [("type", VStr "linkedmesh"); ("skin", VStr "b"); ("parent", VStr "x")])])]; skin_doc "b" [("s", VDict [("x", mesh_of "p")])]] [].
Example C129_ex :
  (exists w, snd (estep (ed ja) (EoClean in_order)) = Err (EValue w)) /\ (exists k, snd (estep (ed jb) (EoClean in_order)) = Err (EKey k)) /\
  (exists w, snd (estep (ed jc) (EoClean in_order)) = Err (EType w)) /\
  (exists w, snd (estep (ed jc) (EoEraseSkins in_order ["x"] true)) = Err (EEditor w)) /\
  (exists w, snd (estep (ed jc) (EoEraseAnimations in_order ["x"] true true)) = Err (EValue w)) /\
  (exists w, snd (estep (ed j128) (EoScale (VList []) (VInt 1))) = Err (EType w)) /\
  snd (estep (ed j128) (EoScale (VInt 1) (VInt (10 ^ 400)))) = Err EOverflow /\
  (exists w, snd (estep (ed (json "3.8.99" [bone "hip" []] [] [] [] [])) (EoScale (VInt 1) (VInt 1))) = Err (EAttr w)) /\
  (exists k, snd (estep (ed j129) (EoEraseSkins in_order ["b"] true)) = Err (EKey k)).
Proof. repeat split; try eexists; vm_compute; reflexivity. Qed.
