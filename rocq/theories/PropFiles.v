(** Properties C97 to C103: the calls on files. *)
From Verif Require Import PyBase PyNum Json JsonText Version Classes Graph SpineGraph AnimData Editor Files SpecText SpecFiles SpecEditor
  TextFacts WriteFacts JsonInv FileFacts SaveFacts EditorRun PropEditor.
Open Scope string_scope.

(** A file system with a directory "d", a file "x" and a file "d/old" *)
Definition disk : fs := fun p =>
  match p with
  | [] => Some Dir
  | [a] => if seqb a "d" then Some Dir else if seqb a "x" then Some (File (chars "1")) else None
  | [a; b] => if (seqb a "d" && seqb b "old")%bool then Some (File (chars "[1")) else None
  | _ => None
  end.
Lemma disk_ok : fs_ok disk.
Proof.
  split; [reflexivity | ]. intros d n H. destruct d as [ | a [ | b [ | c d]]]; cbn in *; auto; try congruence.
  destruct (seqb a "d"); cbn in H; [auto | congruence].
Qed.
Definition jm_read : json_value jm.
Proof. apply (json_text_value (json_dumps None jm)). apply loads_iff. vm_compute. reflexivity. Qed.
Lemma jm_used : used (ed jm).
Proof. eapply used_load; [exact jm_read | ]. vm_compute. reflexivity. Qed.
(** after a scaling and a call that raises *)
Definition em : editor := fst (estep (fst (estep (ed jm) (EoScale (VInt 2) (VFloat f_one)))) (EoEraseSkins in_order ["winter"; "nobody"] false)).
Lemma em_used : used em.
Proof. apply used_call; [apply used_call; [exact jm_used | ] | exact I]. split; constructor. reflexivity. Qed.
Lemma em_raised : exists w, snd (erase_skins in_order ["winter"; "nobody"] false (fst (estep (ed jm) (EoScale (VInt 2) (VFloat f_one))))) = Err (EEditor w).
Proof. vm_compute. eexists. reflexivity. Qed.

(** ** C97: a saved document is read back *)
Theorem C97_read_back : forall cwd p e f g, used e -> fs_ok f -> f cwd = Some Dir ->
  to_json cwd p e f = (g, Ok tt) -> load_file cwd p g = Ok (editor_json e) /\ from_json_file cwd p g = mk_editor (editor_json e).
Proof. exact to_json_read. Qed.
Print Assumptions C97_read_back.
(** The text is JSON of the exported document, in ASCII. *)
Theorem C97_text : forall e, used e ->
  json_text (json_dumps (Some 4%nat) (editor_json e)) (editor_json e) /\ Forall is_ascii (json_dumps (Some 4%nat) (editor_json e)).
Proof. exact export_text. Qed.
Print Assumptions C97_text.
Example C97_ex : exists g, used em /\ fs_ok disk /\ to_json [] "d/new/out.json" em disk = (g, Ok tt) /\
  exists e', from_json_file [] "d/new/out.json" g = Ok e'.
Proof.
  pose proof em_used as U. pose proof disk_ok as K. destruct (to_json [] "d/new/out.json" em disk) as [g r] eqn:E.
  assert (R : r = Ok tt) by (replace r with (snd (to_json [] "d/new/out.json" em disk)) by (rewrite E; auto); vm_compute; reflexivity). subst r.
  exists g. repeat split; auto; try apply K. destruct (C97_read_back [] "d/new/out.json" em disk g U K eq_refl E) as [_ ->]. vm_compute. eexists. reflexivity.
Qed.

(** ** C98: saving touches nothing but the file and missing directories *)
Theorem C98_document : forall cwd p e f g r, fs_ok f -> f cwd = Some Dir -> to_json cwd p e f = (g, r) ->
  fs_ok g /\
  match r with
  | Ok _ => exists t, file_written t (json_dumps (Some 4%nat) (editor_json e)) f g
  | Err x => new_dirs f g /\ ((exists o, x = EOs o) \/ x = EValue "embedded null byte")
  end.
Proof. exact to_json_effect. Qed.
Print Assumptions C98_document.
Theorem C98_images : forall cwd p e f g r, fs_ok f -> f cwd = Some Dir -> save_images_json cwd p e f = (g, r) ->
  fs_ok g /\
  match r with
  | Ok _ => exists t, file_written t (json_dumps None (saved_images (e_images e))) f g
  | Err x => new_dirs f g /\ ((exists o, x = EOs o) \/ x = EValue "embedded null byte")
  end.
Proof. exact save_images_effect. Qed.
Print Assumptions C98_images.
(** A path with ".." to a directory that does not exist yet: the call fails although the file
    could be written, and leaves the directory behind. *)
Example C98_ex : let '(g, r) := to_json [] "new/../y.json" em disk in r = Err (EOs FileExists) /\ g ["new"] = Some Dir /\ disk ["new"] = None.
Proof. vm_compute. repeat split; reflexivity. Qed.

(** ** C99: saving to a file in the current directory works -- false *)
(** [os.path.dirname] of a bare file name is "", which [os.makedirs] refuses. *)
Theorem C99_refuted : exists n e f, plain_name n /\ used e /\ fs_ok f /\ f [] = Some Dir /\ f [n] = None /\
  to_json [] n e f = (f, Err (EOs FileNotFound)).
Proof.
  exists "out.json", em, disk. split; [repeat split; try discriminate; cbn; intros H; repeat destruct H as [H | H]; try discriminate; exact H | ].
  split; [exact em_used | ]. split; [exact disk_ok | ]. repeat split.
Qed.
Print Assumptions C99_refuted.
Theorem C99_never : forall cwd n e f, plain_name n -> to_json cwd n e f = (f, Err (EOs FileNotFound)) /\ save_images_json cwd n e f = (f, Err (EOs FileNotFound)).
Proof. exact save_bare_name. Qed.
Print Assumptions C99_never.

(** ** C100: exactly what saving does, for paths made of names only *)
(** [absolute]: the path starts at the root, else at the current directory *)
Theorem C100_document : forall absolute cwd l n e f, Forall plain_name l -> plain_name n -> fs_ok f -> f cwd = Some Dir -> absolute = true \/ l <> [] ->
  let p := path_to absolute (l ++ [n])%list in
  let parent := place_of absolute cwd l in
  let t := place_of absolute cwd (l ++ [n])%list in
  (is_file f parent -> to_json cwd p e f = (f, Err (EOs FileExists))) /\
  ((exists q, above q parent /\ is_file f q) -> to_json cwd p e f = (f, Err (EOs NotADirectory))) /\
  (f t = Some Dir -> to_json cwd p e f = (f, Err (EOs IsADirectory))) /\
  ((forall q, above q t -> ~ is_file f q) -> f t <> Some Dir ->
     exists g, to_json cwd p e f = (g, Ok tt) /\ g t = Some (File (json_dumps (Some 4%nat) (editor_json e))) /\
       (forall q, above q t -> g q = Some Dir) /\ (forall q, q <> t -> ~ above q t -> g q = f q)).
Proof. exact to_json_plain. Qed.
Print Assumptions C100_document.
Theorem C100_images : forall absolute cwd l n e f, Forall plain_name l -> plain_name n -> fs_ok f -> f cwd = Some Dir -> absolute = true \/ l <> [] ->
  let p := path_to absolute (l ++ [n])%list in
  let parent := place_of absolute cwd l in
  let t := place_of absolute cwd (l ++ [n])%list in
  (is_file f parent -> save_images_json cwd p e f = (f, Err (EOs FileExists))) /\
  ((exists q, above q parent /\ is_file f q) -> save_images_json cwd p e f = (f, Err (EOs NotADirectory))) /\
  (f t = Some Dir -> save_images_json cwd p e f = (f, Err (EOs IsADirectory))) /\
  ((forall q, above q t -> ~ is_file f q) -> f t <> Some Dir ->
     exists g, save_images_json cwd p e f = (g, Ok tt) /\ g t = Some (File (json_dumps None (saved_images (e_images e)))) /\
       (forall q, above q t -> g q = Some Dir) /\ (forall q, q <> t -> ~ above q t -> g q = f q)).
Proof. exact save_images_plain. Qed.
Print Assumptions C100_images.
Example C100_ex : path_to false ["d"; "e"; "f.json"] = "d/e/f.json" /\ path_to true ["x"; "f"] = "/x/f" /\
  snd (to_json [] "x/f" em disk) = Err (EOs FileExists) /\ snd (to_json [] "/x/y/f" em disk) = Err (EOs NotADirectory) /\
  snd (to_json [] "/d" em disk) = Err (EOs IsADirectory) /\ snd (to_json ["d"] "e/f/g" em disk) = Ok tt.
Proof. repeat split; vm_compute; reflexivity. Qed.

(** ** C101: exactly what reading does *)
Theorem C101_exact : forall cwd p f v, load_file cwd p f = Ok v <-> exists t, read_file cwd p f = Ok t /\ json_text t v.
Proof. exact load_file_iff. Qed.
Print Assumptions C101_exact.
Theorem C101_editor : forall cwd p f e, from_json_file cwd p f = Ok e <-> exists t v, read_file cwd p f = Ok t /\ json_text t v /\ mk_editor v = Ok e.
Proof. exact from_json_file_iff. Qed.
Print Assumptions C101_editor.
Theorem C101_plain : forall absolute cwd l n f, Forall plain_name l -> plain_name n -> fs_ok f -> f cwd = Some Dir ->
  let p := path_to absolute (l ++ [n])%list in
  let t := place_of absolute cwd (l ++ [n])%list in
  (forall x, f t = Some (File x) -> read_file cwd p f = Ok x) /\
  (f t = Some Dir -> read_file cwd p f = Err (EOs IsADirectory)) /\
  ((exists q, above q t /\ is_file f q) -> read_file cwd p f = Err (EOs NotADirectory)) /\
  (f t = None -> (forall q, above q t -> ~ is_file f q) -> read_file cwd p f = Err (EOs FileNotFound)).
Proof. exact read_plain. Qed.
Print Assumptions C101_plain.
Example C101_ex : load_file ["d"] "/x" disk = Ok (VInt 1) /\ load_file ["d"] "old" disk = Err (EValue "JSONDecodeError") /\
  load_file [] "x/y" disk = Err (EOs NotADirectory) /\ load_file [] "y" disk = Err (EOs FileNotFound) /\ load_file [] "d" disk = Err (EOs IsADirectory).
Proof. repeat split; vm_compute; reflexivity. Qed.

(** ** C102: the saved image references are read back *)
Theorem C102_read_back : forall cwd p e f g, used e -> fs_ok f -> f cwd = Some Dir ->
  save_images_json cwd p e f = (g, Ok tt) -> load_file cwd p g = Ok (saved_images (e_images e)).
Proof. exact images_read. Qed.
Print Assumptions C102_read_back.
Example C102_ex : exists g, save_images_json [] "d/images.json" em disk = (g, Ok tt) /\
  dget "b1" (match load_file [] "d/images.json" g with Ok (VDict d) => d | _ => [] end) = Some (VDict [("path", VStr "./images/b1")]).
Proof. eexists. split; [reflexivity | vm_compute; reflexivity]. Qed.

(** ** C103: the text of a graph is read back as its bones, slots and ik constraints *)
Theorem C103_read_back : forall e t, used e -> graph_text (e_graph e) = Ok t ->
  exists o, graph_to_json (e_graph e) = Ok o /\ json_loads t = Ok (saved_graph o).
Proof. exact graph_text_read. Qed.
Print Assumptions C103_read_back.
Example C103_ex : exists t, graph_text (e_graph em) = Ok t.
Proof. eexists. vm_compute. reflexivity. Qed.
