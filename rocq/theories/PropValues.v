(** Properties C117 (layout of the texts written) and C118 (Python's == on JSON values). *)
From Verif Require Import PyBase PyNum Json JsonText Version Classes Graph SpineGraph AnimData Editor Files SpecText SpecFiles SpecEditor SpecLayout SpecEqual
  FileFacts SaveFacts LayoutFacts LayoutOne EqualFacts WriteFacts EditorRun PropEditor PropFiles.
From Coq Require Import SpecFloat QArith.
Open Scope string_scope.

(** ** C117: the texts written, line by line *)
Theorem C117_document : forall cwd p e f g, used e -> fs_ok f -> f cwd = Some Dir -> to_json cwd p e f = (g, Ok tt) ->
  exists ls, lines_of (editor_json e) ls /\ read_file cwd p g = Ok (joined_lines 4 ls).
Proof. exact to_json_lines. Qed.
Print Assumptions C117_document.
Theorem C117_images : forall cwd p e f g, used e -> fs_ok f -> f cwd = Some Dir -> save_images_json cwd p e f = (g, Ok tt) ->
  exists ls, lines_of (saved_images (e_images e)) ls /\ read_file cwd p g = Ok (one_line ls).
Proof. exact images_line. Qed.
Print Assumptions C117_images.
Theorem C117_graph : forall e t, used e -> graph_text (e_graph e) = Ok t ->
  exists o ls, graph_to_json (e_graph e) = Ok o /\ lines_of (saved_graph o) ls /\ t = one_line ls.
Proof. exact graph_line. Qed.
Print Assumptions C117_graph.
(** A value has one layout, so that these are the texts. *)
Theorem C117_one : forall v ls ls', json_value v -> lines_of v ls -> lines_of v ls' -> ls = ls'.
Proof. exact layout_one. Qed.
Print Assumptions C117_one.
Theorem C117_exact : forall n v t, json_value v -> (json_dumps (Some n) v = t <-> exists ls, lines_of v ls /\ t = joined_lines n ls).
Proof. exact layout_exact. Qed.
Print Assumptions C117_exact.
Theorem C117_exact_line : forall v t, json_value v -> (json_dumps None v = t <-> exists ls, lines_of v ls /\ t = one_line ls).
Proof. exact layout_one_line. Qed.
Print Assumptions C117_exact_line.
Example C117_ex : json_dumps (Some 4%nat) (VDict [("b", VList []); ("a", VList [VInt (-7); VStr (String "u" (String "195" (String "136" (String "009" EmptyString))))])]) =
    chars ("{" ++ String "010" ("    ""b"": []," ++ String "010" ("    ""a"": [" ++ String "010" ("        -7," ++ String "010" ("        ""u\u00c8\t""" ++ String "010" ("    ]" ++ String "010" "}")))))) /\
  json_dumps None (VDict [("b", VList []); ("a", VList [VInt (-7); VNone])]) = chars "{""b"": [], ""a"": [-7, null]}".
Proof. split; vm_compute; reflexivity. Qed.

Example C117_document_ex : exists g ls, to_json [] "d/new/out.json" em disk = (g, Ok tt) /\ lines_of (editor_json em) ls /\
  read_file [] "d/new/out.json" g = Ok (joined_lines 4 ls).
Proof.
  destruct C97_ex as (g & _ & K & E & _). destruct (C117_document _ _ _ _ _ em_used K (eq_refl : disk [] = Some Dir) E) as (ls & L & R). exists g, ls. auto.
Qed.
Example C117_images_ex : exists g ls, save_images_json [] "d/images.json" em disk = (g, Ok tt) /\ lines_of (saved_images (e_images em)) ls /\
  read_file [] "d/images.json" g = Ok (one_line ls).
Proof.
  destruct C102_ex as (g & E & _). destruct (C117_images _ _ _ _ _ em_used disk_ok (eq_refl : disk [] = Some Dir) E) as (ls & L & R). exists g, ls. auto.
Qed.

(** ** C118: == compares numbers by value, and everything else part by part *)
Theorem C118_exact : forall v w, proper v -> proper w -> (py_eq v w = true <-> equal v w).
Proof. exact py_eq_equal. Qed.
Print Assumptions C118_exact.
Theorem C118_self : forall v, proper v -> (py_eq v v = true <-> no_nan v).
Proof. exact py_eq_self. Qed.
Print Assumptions C118_self.
Theorem C118_symmetric : forall v w, proper v -> proper w -> py_eq v w = py_eq w v.
Proof. exact py_eq_sym. Qed.
Print Assumptions C118_symmetric.
Theorem C118_transitive : forall u v w, proper u -> proper v -> proper w -> py_eq u v = true -> py_eq v w = true -> py_eq u w = true.
Proof. exact py_eq_trans. Qed.
Print Assumptions C118_transitive.
(** True, 1 and 1.0 are equal, and 0 and -0.0; 2^53 + 1 is not equal to the float 2^53. *)
Example C118_ex : py_eq (VDict [("a", VBool true); ("b", VInt 0)]) (VDict [("b", VFloat (S754_zero true)); ("a", VFloat f_one)]) = true /\
  py_eq (VInt 9007199254740993) (VFloat (S754_finite false 4503599627370496 1)) = false /\ py_eq (VList [VFloat S754_nan]) (VList [VFloat S754_nan]) = false.
Proof. repeat split; vm_compute; reflexivity. Qed.
