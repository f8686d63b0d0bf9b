(** Properties C130 and C131 (which documents load). *)
From Verif Require Import PyBase PyNum Json Version Classes SpecTables TableFacts DrawOrder SpineGraph AnimData Editor SpecAnim SpecEditor SpecNums SpecLoad LoadFacts LoadEditor EditorRun.
Open Scope string_scope.

(** ** C130: the documents that load, and those an editor can be made of *)
Theorem C130_loads : forall v d sk ver, document_doc v d sk ver -> exists x, load_document v = Ok x /\ doc_skeleton x = sk /\ doc_version x = ver.
Proof. exact load_of_doc. Qed.
Print Assumptions C130_loads.
Theorem C130_only : forall v x, load_document v = Ok x -> exists d, document_doc v d (doc_skeleton x) (doc_version x).
Proof. exact load_fits. Qed.
Print Assumptions C130_only.
Theorem C130_editor : forall v x, proper v -> load_document v = Ok x -> ((exists e, mk_editor v = Ok e) <-> usable x).
Proof. exact editor_iff. Qed.
Print Assumptions C130_editor.
(** Elements may be null, false, 0 or empty where no attribute is required; empty texts and objects pass for empty lists. *)
Definition j130 : val := VDict [("skeleton", VDict [("spine", VStr "3.8 ")]); ("bones", VList [bone "root" []]); ("slots", VStr "");
  ("skins", VDict []); ("events", VDict [("hit", VNone)]); ("ik", VDict []); ("path", VList [VBool false; VInt 0; VDict []]); ("transform", VList [VNone]);
  ("animations", VDict [("walk", VStr ""); ("run", VDict [("slots", VList []); ("bones", VDict [("b", VList [])])])])].
Example C130_ex : (exists x, load_document j130 = Ok x) /\ exists e, mk_editor j130 = Ok e.
Proof. split; eexists; vm_compute; reflexivity. Qed.
(** Only null passes for an empty transform constraint; an ik without bones loads, but no editor can be made of it. *)
Example C130_ex_not : (exists e, load_document (VDict [("skeleton", VDict [("spine", VStr "3.8")]); ("bones", VList []); ("slots", VList []); ("skins", VList []); ("transform", VList [VBool false])]) = Err e) /\
  (exists x, load_document (json "3.8" [bone "root" []] [] [VDict [("name", VStr "aim")]] [] []) = Ok x /\ ~ usable x).
Proof.
  split; [eexists; vm_compute; reflexivity | ]. eexists. split; [vm_compute; reflexivity | ]. intros U.
  destruct (us_ik _ U _ (or_introl eq_refl)) as [_ [(a & l & E) | [[s E] | [d E]]]]; vm_compute in E; discriminate E.
Qed.

(** ** C131: documents of the expected JSON types are refused with the errors of the library *)
Theorem C131_errors : forall v e, typed_document v -> load_document v = Err e -> parsing_error e.
Proof. intros v e H. exact (load_raises v H e). Qed.
Print Assumptions C131_errors.
Definition j131 (spine : string) (b : dict val) (a : val) : val := json spine [VDict b] [slot "s" (shows "m")] [] [skin_doc "default" [("s", VDict [("m", a)])]] [("walk", timelines [("s", frame (VStr "m"))])].
Example C131_ex : forall spine b t, null_or_text (dget "parent" b) -> null_or_text (dget "transform" b) -> null_or_text (dget "name" b) -> dget "name" b <> Some VNone ->
  typed_document (j131 spine b (VDict [("type", t); ("path", VStr "p")])).
Proof.
  intros spine b t B1 B2 B3 B4. eexists _, _, spine. split; [reflexivity | ]. split; [reflexivity | ]. split; [reflexivity | ]. split.
  { intros k [<- | [<- | [<- | []]]]; discriminate. }
  eexists. split; [reflexivity | ]. intros k P H. cbn [In] in H.
  repeat match type of H with _ \/ _ => destruct H as [H | H] end; try (destruct H; fail); injection H as <- <-; cbn [dget String.eqb Ascii.eqb Bool.eqb may_be]; auto.
  - eexists. split; [reflexivity | ]. constructor; [ | constructor]. exists b. split; [auto | ]. split; [ | auto]. intros k [<- | [<- | [<- | []]]]; auto.
  - eexists. split; [reflexivity | ]. constructor; [ | constructor]. eexists. split; [reflexivity | ]. split; [ | discriminate]. intros k [<- | [<- | [<- | [<- | []]]]]; exact I.
  - eexists. split; [reflexivity | ]. constructor; [ | constructor]. eexists. split; [reflexivity | ]. split; [exact I | ]. right. cbn.
    eexists. split; [reflexivity | ]. constructor; [ | constructor]. eexists. split; [reflexivity | ]. constructor; [ | constructor]. eexists. split; [reflexivity | ].
    intros k [<- | [<- | [<- | []]]]; exact I.
  - eexists. split; [reflexivity | constructor].
  - eexists. split; [reflexivity | ]. constructor; [ | constructor]. eexists. split; [reflexivity | ]. intros k P H. cbn [In] in H.
    repeat match type of H with _ \/ _ => destruct H as [H | H] end; try (destruct H; fail); injection H as <- <-; cbn; auto.
    eexists. split; [reflexivity | ]. constructor; [ | constructor]. eexists. split; [reflexivity | ]. intros k P H. cbn [In] in H.
    repeat match type of H with _ \/ _ => destruct H as [H | H] end; try (destruct H; fail); injection H as <- <-; cbn; auto.
    eexists. split; [reflexivity | ]. constructor; [ | constructor]. eexists. split; [reflexivity | ]. split; [ | intros [C | C]; discriminate C]. intros k [<- | []]. exact I.
Qed.
(** A version that is none, a bone without a name, one with an unknown field, an attachment of an unknown type; the same document loads otherwise. *)
Example C131_ex_each :
  (exists w, load_document (j131 "x" [("name", VStr "root")] (VDict [])) = Err (EValue w)) /\
  load_document (j131 "3.8" [] (VDict [])) = Err (ERequired ["name"]) /\
  load_document (j131 "3.8" [("name", VStr "root"); ("size", VInt 1)] (VDict [])) = Err (EUnsupported ["size"]) /\
  (exists w, load_document (j131 "3.8" [("name", VStr "root")] (VDict [("type", VStr "cube")])) = Err (EValue w)) /\
  (exists x, load_document (j131 "3.8" [("name", VStr "root")] (VDict [])) = Ok x).
Proof. repeat split; try (eexists; vm_compute; reflexivity); vm_compute; reflexivity. Qed.
