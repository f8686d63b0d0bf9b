(** Specification of the layout of the JSON texts that json.dump writes: the lines, how deep
    each is indented, and what stands on it. *)
From Verif Require Import PyBase PyNum Json SpecUnicode SpecText SpecRepr.
From Coq Require Import SpecFloat.
Open Scope string_scope.
Open Scope list_scope.

(** ** What stands on a line for a value that is not a list or a dictionary *)
(** A character of a string: printable ASCII as itself, and else a short escape, or \uhhhh in
    lower case, or two halves. *)
Definition short_escapes : list (ascii * ascii) :=
  [("""", """"); ("\", "\"); ("b", "008"); ("f", "012"); ("n", "010"); ("r", "013"); ("t", "009")]%char.
Definition lower_case (t : list ascii) : Prop := forall c, In c t -> ~ (65 <= code c <= 90)%N.
Definition printable (n : N) : Prop := (32 <= n <= 126)%N.
Definition has_short (n : N) : Prop := exists e c, In (e, c) short_escapes /\ n = code c.
Inductive char_written : N -> list ascii -> Prop :=
| cw_plain : forall c, printable (code c) -> ~ has_short (code c) -> char_written (code c) [c]
| cw_short : forall e c, In (e, c) short_escapes -> char_written (code c) ["\"%char; e]
| cw_hex : forall n t, ~ printable n -> ~ has_short n -> hex_text t n -> lower_case t -> char_written n t
| cw_pair : forall t u x y, hex_text t (55296 + x) -> hex_text u (56320 + y) -> (x < 1024)%N -> (y < 1024)%N ->
    lower_case (t ++ u) -> char_written (65536 + x * 1024 + y) (t ++ u).
Definition string_written (s : string) (t : list ascii) : Prop :=
  exists ns parts, stands_for (chars s) ns /\ Forall2 char_written ns parts /\ t = ("""" :: concat parts ++ [""""])%char.
Inductive token : val -> list ascii -> Prop :=
| tk_constant : forall v t, constant_text t v -> token v t
| tk_str : forall s t, string_written s t -> token (VStr s) t
| tk_positive : forall z t, (0 <= z)%Z -> int_digits t -> Z.of_N (decimal_value t) = z -> token (VInt z) t
| tk_negative : forall z t, (z < 0)%Z -> int_digits t -> Z.of_N (decimal_value t) = (- z)%Z -> token (VInt z) ("-"%char :: t)
| tk_float : forall f t, is_finite f -> written f t -> token (VFloat f) t
| tk_empty_list : token (VList []) (chars "[]")
| tk_empty_dict : token (VDict []) (chars "{}").

(** ** Lines *)
Record line := mkLine { l_depth : nat; l_text : list ascii; l_comma : bool }.
Definition deeper (b : list line) : list line := map (fun x => mkLine (S (l_depth x)) (l_text x) (l_comma x)) b.
(** A comma after the last line *)
Inductive with_comma : list line -> list line -> Prop :=
| wc_last : forall b n t, with_comma (b ++ [mkLine n t false]) (b ++ [mkLine n t true]).
(** Blocks one after the other; a comma after each but the last *)
Inductive in_sequence : list (list line) -> list line -> Prop :=
| sq_one : forall b, in_sequence [b] b
| sq_more : forall b b' bs ls, with_comma b b' -> in_sequence bs ls -> in_sequence (b :: bs) (b' ++ ls).
(** [k: ] before the first line *)
Inductive with_key : string -> list line -> list line -> Prop :=
| wk_first : forall k kt t c b, string_written k kt ->
    with_key k (mkLine 0 t c :: b) (mkLine 0 (kt ++ [":"; " "]%char ++ t) c :: b).
Definition alone (t : list ascii) : line := mkLine 0 t false.
Inductive lines_of : val -> list line -> Prop :=
| lo_token : forall v t, token v t -> lines_of v [alone t]
| lo_list : forall l bs ls, l <> [] -> each_lines l bs -> in_sequence bs ls ->
    lines_of (VList l) (alone ["["%char] :: deeper ls ++ [alone ["]"%char]])
| lo_dict : forall d bs ls, d <> [] -> each_pair d bs -> in_sequence bs ls ->
    lines_of (VDict d) (alone ["{"%char] :: deeper ls ++ [alone ["}"%char]])
with each_lines : list val -> list (list line) -> Prop :=
| el_nil : each_lines [] []
| el_cons : forall v l b bs, lines_of v b -> each_lines l bs -> each_lines (v :: l) (b :: bs)
with each_pair : list (string * val) -> list (list line) -> Prop :=
| ep_nil : each_pair [] []
| ep_cons : forall k v l b b' bs, lines_of v b -> with_key k b b' -> each_pair l bs -> each_pair ((k, v) :: l) (b' :: bs).

(** ** Texts *)
(** Lines with [n] blanks for each level, and newlines between them *)
Definition comma (x : line) : list ascii := if l_comma x then [","%char] else [].
Definition indented (n : nat) (x : line) : list ascii := repeat " "%char (n * l_depth x) ++ l_text x ++ comma x.
Definition joined_lines (n : nat) (ls : list line) : list ascii :=
  match map (indented n) ls with
  | [] => []
  | x :: r => x ++ flat_map (fun y => "010"%char :: y) r
  end.
(** All on one line, with a blank after each comma between items *)
Definition one_line (ls : list line) : list ascii := flat_map (fun x => l_text x ++ (if l_comma x then [","; " "]%char else [])) ls.
