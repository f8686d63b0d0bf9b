(** Properties C53, C87 and C88 (which objects are shared). *)
From Verif Require Import PyBase PyNum Json Heap SpecHeap HeapFacts HeapExport.
Open Scope string_scope.

(** ** C53: the caller's JSON is never modified *)
(** Whatever the others do, a party that changes nothing itself finds all its objects as they
    were: the caller's documents, ... *)
Theorem C53_untouched : forall w l w' p, sound w -> separate w -> moves w l w' -> ~ In (Some p) l ->
  forall a, holds w p a -> hget (w_heap w') a = hget (w_heap w) a.
Proof. exact moves_untouched. Qed.
Print Assumptions C53_untouched.
(** ... and so their values. *)
Theorem C53_value : forall w l w' p v t, sound w -> separate w -> moves w l w' -> ~ In (Some p) l -> In v (w_vars w p) ->
  denotes (w_heap w) v t -> denotes (w_heap w') v t.
Proof. exact moves_denote. Qed.
Print Assumptions C53_value.
(** Parties never come to share an object, by loading, copying or exporting in any order. *)
Theorem C53_separate : forall w l w', sound w -> separate w -> moves w l w' -> sound w' /\ separate w'.
Proof. exact moves_separate. Qed.
Print Assumptions C53_separate.
(** Loading itself: nothing that exists is changed, whether it succeeds or not, and what the
    editor keeps is new ... *)
Theorem C53_load : forall h v h' r, sound_heap h -> points_into (length h) v -> load h v = (h', r) ->
  (forall a, a < length h -> hget h' a = hget h a) /\
  (forall l x b, r = Ok l -> In x l -> reaches h' x b -> length h <= b).
Proof. exact load_new. Qed.
Print Assumptions C53_load.
(** ... and has the values of the document. *)
Theorem C53_loaded : forall h v l sk, sound_heap h -> points_into (length h) v -> denotes h v (VDict l) -> dget "skeleton" l = Some sk ->
  exists h' s d, load h v = (h', Ok [s; d]) /\ denotes h' s sk /\ denotes h' d (VDict (ddel "skeleton" l)).
Proof. exact load_denotes. Qed.
Print Assumptions C53_loaded.
(** Without a skeleton: KeyError for a dict, TypeError for anything else, and not an object more *)
Theorem C53_refuses : forall h v t, denotes h v t -> (forall l sk, t = VDict l -> dget "skeleton" l <> Some sk) ->
  exists e, load h v = (h, Err e) /\ ((exists l, t = VDict l) -> e = EKey "skeleton") /\ ((forall l, t <> VDict l) -> exists w, e = EType w).
Proof. exact load_refuses. Qed.
Print Assumptions C53_refuses.
Example C53_refuses_ex : denotes [mkCell KDict []] (HRef 0) (VDict []) /\ denotes [mkCell KDict []] (HStr "skeleton") (VStr "skeleton").
Proof. split; [eapply denotes_dict; [reflexivity | constructor] | constructor]. Qed.
(** A caller (party 0) with a document, an editor (party 1) that loads it, empties its copy,
    and exports *)
Definition doc53 : heap :=
  [mkCell KDict [("skeleton", HRef 1); ("bones", HRef 2)]; mkCell KDict [("spine", HStr "3.8.99")]; mkCell KList [("", HRef 3)];
   mkCell KDict [("name", HStr "root")]].
Definition w53 : world := mkWorld doc53 (fun p => match p with O => [HRef 0] | _ => [] end).
Definition all_kept (h : heap) (a : nat) (kv : string * hval) : bool := true.
Example C53_ex : sound w53 /\ separate w53 /\
  (exists w, moves w53 [None; None; Some 1; None] w /\
     denotes (w_heap w) (HRef 0) (VDict [("skeleton", VDict [("spine", VStr "3.8.99")]); ("bones", VList [VDict [("name", VStr "root")]])]) /\
     exists a, In (HRef a) (w_vars w 0) /\
       denotes (w_heap w) (HRef a) (VDict [("bones", VList []); ("skeleton", VDict [("spine", VStr "3.8.99")])])).
Proof.
  assert (D : denotes doc53 (HRef 0) (VDict [("skeleton", VDict [("spine", VStr "3.8.99")]); ("bones", VList [VDict [("name", VStr "root")]])])).
  { eapply denotes_dict; [reflexivity | ]. constructor; [eapply denotes_dict; [reflexivity | repeat constructor] | ]. constructor; [ | constructor].
    change [VDict [("name", VStr "root")]] with (map snd [("", VDict [("name", VStr "root")])]). eapply denotes_list; [reflexivity | ].
    constructor; [ | constructor]. eapply denotes_dict; [reflexivity | repeat constructor]. }
  assert (S : sound w53).
  { split; [ | intros [ | p] v Hv; [destruct Hv as [<- | []]; cbn; lia | destruct Hv]].
    intros a c k v E H. do 4 (destruct a as [ | a]; [cbn in E; injection E as <-; cbn in H; repeat (destruct H as [H | H]; [injection H as <- <-; cbn; auto; lia | ]); contradiction | ]).
    destruct a; discriminate. }
  assert (P : separate w53) by (intros p q a (v & Hv & _) (v' & Hv' & _); destruct p, q; auto; contradiction).
  split; [exact S | ]. split; [exact P | ].
  assert (M : exists w, moves w53 [None; None; Some 1; None] w /\
    exists a items b, In (HRef a) (w_vars w 0) /\ hget (w_heap w) a = Some (mkCell KDict [("bones", HRef items); ("skeleton", HRef b)]) /\
      hget (w_heap w) items = Some (mkCell KList []) /\ hget (w_heap w) b = Some (mkCell KDict [("spine", HStr "3.8.99")])).
  { eexists. split.
    - econstructor; [eapply (move_load _ 0 1 (HRef 0)); [left; reflexivity | vm_compute; reflexivity] | ].
      econstructor; [eapply (move_read _ 1 5 _ "bones"); [right; left; reflexivity | reflexivity | left; reflexivity] | ].
      econstructor; [eapply (move_write _ 1 7 _ KList []); [left; reflexivity | reflexivity | intros x v []] | ].
      econstructor; [eapply (move_json _ 1 0 all_kept 9 (HRef 4) (HRef 5)); [right; left; reflexivity | right; right; left; reflexivity | vm_compute; reflexivity] | ].
      constructor.
    - eexists _, _, _. split; [left; reflexivity | ]. split; [vm_compute; reflexivity | ]. split; vm_compute; reflexivity. }
  destruct M as (w & M & a & i & b & Ha & E1 & E2 & E3). exists w. split; [exact M | ]. split.
  - apply (moves_denote w53 _ w 0 _ _ S P M); [ | left; reflexivity | exact D]. intros [C | [C | [C | [C | []]]]]; discriminate.
  - exists a. split; [exact Ha | ]. eapply denotes_dict; [exact E1 | ]. constructor.
    + change (VList []) with (VList (map snd (@nil (string * val)))). eapply denotes_list; [exact E2 | constructor].
    + constructor; [ | constructor]. eapply denotes_dict; [exact E3 | repeat constructor].
Qed.

(** ** C87: exported documents are new objects through and through *)
Theorem C87_new : forall keep fuel h sk v h' v', sound_heap h -> points_into (length h) sk -> to_json_data keep fuel h sk v = Some (h', v') ->
  (forall a, a < length h -> hget h' a = hget h a) /\ forall b, reaches h' v' b -> length h <= b.
Proof. exact json_new. Qed.
Print Assumptions C87_new.
Example C87_ex : exists h v, to_json_data all_kept 9 doc53 (HRef 1) (HRef 0) = Some (h, v) /\ v = HRef 7 /\ length h = 9.
Proof. eexists _, _. split; [vm_compute; reflexivity | ]. split; reflexivity. Qed.
(** ... and their value is that of the attributes kept, and the header. *)
Theorem C87_content : forall keep h sk s v l, looks_back keep -> sound_heap h -> points_into (length h) sk -> denotes h sk s -> exported keep h v (VDict l) ->
  exists n, forall fuel, n <= fuel -> exists h' v', to_json_data keep fuel h sk v = Some (h', v') /\ denotes h' v' (VDict (dset "skeleton" s l)).
Proof. exact json_content. Qed.
Print Assumptions C87_content.
(** A document with a bone, whose attribute x is a default *)
Definition doc87 : heap :=
  [mkCell (KObj "SpineAnimationData") [("bones", HRef 1)]; mkCell KList [("", HRef 2)]; mkCell (KObj "Bone") [("name", HStr "root"); ("x", HInt 0)];
   mkCell KDict [("spine", HStr "3.8.99")]].
Definition not_x (h : heap) (a : nat) (kv : string * hval) : bool := negb (seqb (fst kv) "x").
Example C87_content_ex : looks_back not_x /\ sound_heap doc87 /\ denotes doc87 (HRef 3) (VDict [("spine", VStr "3.8.99")]) /\
  exported not_x doc87 (HRef 0) (VDict [("bones", VList [VDict [("name", VStr "root")]])]).
Proof.
  split; [intros h h' a i _ _ _; reflexivity | ]. split.
  { intros a c k v E I. destruct a as [ | [ | [ | [ | a]]]]; cbn in E; try (injection E as <-; cbn in I; repeat (destruct I as [I | I]; [injection I as <- <-; cbn; auto; lia | ]); contradiction).
    destruct a; discriminate. }
  split; [eapply denotes_dict; [reflexivity | repeat constructor] | ].
  eapply exported_instance; [reflexivity | ]. cbn. constructor; [ | constructor].
  change (VList [VDict [("name", VStr "root")]]) with (VList (map snd [("", VDict [("name", VStr "root")])])). eapply exported_list; [reflexivity | ].
  constructor; [ | constructor]. eapply exported_instance; [reflexivity | ]. cbn. repeat constructor.
Qed.

(** ** C88: copy.deepcopy always ends, changes nothing, and gives a new object of the same
    value, even if objects are shared or contain themselves *)
Theorem C88_deepcopy : forall h v, sound_heap h -> points_into (length h) v -> exists h' v', deepcopy h v = Some (h', v') /\
  (forall a, a < length h -> hget h' a = hget h a) /\ (forall b, reaches h' v' b -> length h <= b) /\ forall t, denotes h v t -> denotes h' v' t.
Proof. exact deepcopy_new. Qed.
Print Assumptions C88_deepcopy.
(** A list that contains itself, and one dict twice *)
Example C88_ex : deepcopy [mkCell KList [("", HRef 0); ("", HRef 1); ("", HRef 1)]; mkCell KDict []] (HRef 0) =
  Some ([mkCell KList [("", HRef 0); ("", HRef 1); ("", HRef 1)]; mkCell KDict []; mkCell KList [("", HRef 2); ("", HRef 3); ("", HRef 3)]; mkCell KDict []], HRef 2).
Proof. vm_compute. reflexivity. Qed.
