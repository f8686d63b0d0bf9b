(** Specification of tags in names: the language of the regular expression
    [\[\s*[\w0-9-]+\s*:\s*[\w0-9.\s]+\s*\]] (utils.py:15) and Python's [findall],
    written as relations on strings, with no scanner. *)
From Verif Require Import PyBase PyNum SpecUnicode.

Definition all_in (f : ascii -> bool) (l : list ascii) : Prop := Forall (fun c => f c = true) l.
Definition is_name_char (c : ascii) : bool := (is_word c || is_digit c || Ascii.eqb c "-")%bool.
Definition is_value_char (c : ascii) : bool :=
  (is_word c || is_digit c || Ascii.eqb c "." || is_space c)%bool.

(** The text between '[' and ':' *)
Definition name_text (t : list ascii) : Prop :=
  exists b1 w b2, t = (b1 ++ w ++ b2)%list /\
    all_in is_space b1 /\ all_in is_name_char w /\ w <> [] /\ all_in is_space b2.
(** The text between ':' and ']' *)
Definition value_text (t : list ascii) : Prop :=
  exists b1 w b2, t = (b1 ++ w ++ b2)%list /\
    all_in is_space b1 /\ all_in is_value_char w /\ w <> [] /\ all_in is_space b2.

Definition tag (n v : list ascii) : list ascii :=
  ("["%char :: n ++ ":"%char :: v ++ "]"%char :: nil)%list.
Definition is_tag (n v : list ascii) : Prop := name_text n /\ value_text v.

(** [findall]: scan from the left; a position where some tag starts is a match and
    the scan goes on behind it; a position where no tag starts is skipped. *)
Inductive findall : list ascii -> list (list ascii * list ascii) -> Prop :=
| fa_end : findall [] []
| fa_hit : forall n v rest ts,
    is_tag n v -> findall rest ts -> findall (tag n v ++ rest)%list ((n, v) :: ts)
| fa_skip : forall c l ts,
    (forall n v rest, is_tag n v -> c :: l <> (tag n v ++ rest)%list) ->
    findall l ts -> findall (c :: l) ts.

(** The tags of a name *)
Definition tags_of (s : string) (ts : list (list ascii * list ascii)) : Prop :=
  exists l, reads_as s l /\ findall l ts.
