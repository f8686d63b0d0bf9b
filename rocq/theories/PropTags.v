(** Properties C04, C05 (tags in names). *)
From Verif Require Import PyBase PyNum Tags SpecUnicode UnicodeFacts SpecTags TagFacts.
From Coq Require Import SpecFloat.
Open Scope string_scope.
Open Scope list_scope.

(** ** C04 *)
(** A scale tag, with any blanks inside the brackets, between texts that contain no tag. *)
Theorem C04_scale_tag : forall s pre b1 b2 b3 x b4 post f,
  all_in is_space b1 -> all_in is_space b2 -> all_in is_space b3 -> all_in is_space b4 ->
  all_in is_value_char x ->
  (exists c l, x = c :: l /\ is_space c = false) -> (exists c l, x = l ++ [c] /\ is_space c = false) ->
  py_float x = Some f ->
  findall pre [] -> findall post [] ->
  reads_as s (pre ++ tag (b1 ++ chars "scale" ++ b2) (b3 ++ x ++ b4) ++ post) ->
  get_tags_from_name s =
  Ok [("scale", f)].
Proof. exact get_tags_scale. Qed.
Print Assumptions C04_scale_tag.

Theorem C04_no_bracket : forall s, ~ In "["%char (chars s) -> get_tags_from_name s = Ok [].
Proof. exact get_tags_none. Qed.
Print Assumptions C04_no_bracket.

(** Text that is not a tag is ignored: the result is determined by the tags that the
    language definition finds, and these exist and are unique for every name. *)
Theorem C04_scanner_is_findall : forall s ts, tags_of s ts <-> ts = find_tags s.
Proof. exact findall_iff. Qed.
Print Assumptions C04_scanner_is_findall.

Theorem C04_same_tags_same_result : forall s s' ts,
  tags_of s ts -> tags_of s' ts -> get_tags_from_name s = get_tags_from_name s'.
Proof. exact get_tags_determined. Qed.
Print Assumptions C04_same_tags_same_result.

(** A tag is found whatever text surrounds it. *)
Theorem C04_tag_found_anywhere : forall pre tp n v post tq,
  findall pre tp -> is_tag n v -> findall post tq ->
  findall (pre ++ tag n v ++ post) (tp ++ (n, v) :: tq).
Proof. exact findall_insert'. Qed.
Print Assumptions C04_tag_found_anywhere.

Example C04_ex : get_tags_from_name "arm[ scale : 0.5 ]left" = Ok [("scale", S754_finite false 4503599627370496 (-53))].
Proof. vm_compute. reflexivity. Qed.
Example C04_ex_ignored : get_tags_from_name "arm[scale]:[:1][scale:-1]" = Ok [].
Proof. vm_compute. reflexivity. Qed.
Example C04_ex_pre : tags_of "a]b[" [].
Proof. apply findall_iff. reflexivity. Qed.

(** ** C05 *)
(** The result as a function of the list of tags: a single, numeric scale tag or
    no tag is accepted; everything else is a ValueError. *)
Theorem C05_exact : forall s ts, tags_of s ts ->
  match ts with
  | [] => get_tags_from_name s = Ok []
  | [t] => (exists f, unchars (strip (fst t)) = "scale" /\ py_float (strip (snd t)) = Some f /\
                      get_tags_from_name s = Ok [("scale", f)]) \/
           ((unchars (strip (fst t)) <> "scale" \/ py_float (strip (snd t)) = None) /\
            exists w, get_tags_from_name s = Err (EValue w))
  | _ => exists w, get_tags_from_name s = Err (EValue w)
  end.
Proof. exact get_tags_cases. Qed.
Print Assumptions C05_exact.

Theorem C05_unsupported_tag : forall s ts n v,
  tags_of s ts -> In (n, v) ts -> unchars (strip n) <> "scale" ->
  exists w, get_tags_from_name s = Err (EValue w).
Proof. exact get_tags_unsupported. Qed.
Print Assumptions C05_unsupported_tag.

Theorem C05_repeated_tag : forall s t1 t2 ts,
  tags_of s (t1 :: t2 :: ts) -> exists w, get_tags_from_name s = Err (EValue w).
Proof. exact get_tags_repeated. Qed.
Print Assumptions C05_repeated_tag.

Theorem C05_not_a_number : forall s n v ts,
  tags_of s ts -> In (n, v) ts -> py_float (strip v) = None ->
  exists w, get_tags_from_name s = Err (EValue w).
Proof. exact get_tags_not_number. Qed.
Print Assumptions C05_not_a_number.

Theorem C05_only_scale : forall s d k f,
  get_tags_from_name s = Ok d -> In (k, f) d -> k = "scale" /\ d = [("scale", f)].
Proof. exact get_tags_only_scale. Qed.
Print Assumptions C05_only_scale.

Example C05_ex_unsupported : tags_of "a[color:red]" [(chars "color", chars "red")].
Proof. apply findall_iff. reflexivity. Qed.
Example C05_ex_repeated : tags_of "[scale:1][scale:1]" [(chars "scale", chars "1"); (chars "scale", chars "1")].
Proof. apply findall_iff. reflexivity. Qed.
Example C05_ex_nan : get_tags_from_name "[scale:1.2.3]" = Err (EValue "could not convert string to float").
Proof. vm_compute. reflexivity. Qed.
