(** Specification of JSON texts (RFC 8259, with the constants NaN, Infinity and -Infinity that
    Python adds): which text stands for which value, as a relation.  No scanner is involved. *)
From Verif Require Import PyBase PyNum Json SpecUnicode.
From Coq Require Import SpecFloat.
Open Scope string_scope.
Open Scope list_scope.

Definition blank (c : ascii) : Prop := In c [" "; "009"; "010"; "013"]%char.
Definition blanks (l : list ascii) : Prop := Forall blank l.
Definition digit (c : ascii) : Prop := (48 <= code c <= 57)%N.

(** The value of a hexadecimal digit *)
Inductive hexit : ascii -> N -> Prop :=
| hex_num : forall c, (48 <= code c <= 57)%N -> hexit c (code c - 48)
| hex_lower : forall c, (97 <= code c <= 102)%N -> hexit c (code c - 87)
| hex_upper : forall c, (65 <= code c <= 70)%N -> hexit c (code c - 55).

(** One character of a string: as itself, as \x, as \uhhhh, or as the two halves \uhhhh\uhhhh *)
Definition escapes : list (ascii * ascii) :=
  [("""", """"); ("\", "\"); ("/", "/"); ("b", "008"); ("f", "012"); ("n", "010"); ("r", "013"); ("t", "009")]%char.
Inductive hex_text : list ascii -> N -> Prop :=
| hx_text : forall a b c d na nb nc nd, hexit a na -> hexit b nb -> hexit c nc -> hexit d nd ->
    hex_text ["\"%char; "u"%char; a; b; c; d] (na * 4096 + nb * 256 + nc * 16 + nd).
Inductive char_text : list ascii -> N -> Prop :=
| ct_plain : forall n p, bytes_of n p -> n <> code """" -> n <> code "\" -> (32 <= n)%N -> char_text p n
| ct_escape : forall e c, In (e, c) escapes -> char_text ["\"%char; e] (code c)
| ct_hex : forall t n, hex_text t n -> char_text t n
| ct_pair : forall t u x y, hex_text t (55296 + x) -> hex_text u (56320 + y) -> (x < 1024)%N -> (y < 1024)%N ->
    char_text (t ++ u) (65536 + x * 1024 + y).
(** A whole string with its quotes *)
Inductive string_text : list ascii -> string -> Prop :=
| st_text : forall parts ns s, Forall2 char_text parts ns -> stands_for (chars s) ns ->
    string_text ("""" :: concat parts ++ [""""])%char%list s.

(** Numbers.  An integer is read in base ten; the value of a text with a fraction or an
    exponent is that of the decimal number as a binary64 (FloatFacts: the nearest one). *)
Definition decimal_value (l : list ascii) : N := fold_left (fun z c => 10 * z + (code c - 48))%N l 0%N.
Inductive int_digits : list ascii -> Prop :=
| id_zero : int_digits ["0"%char]
| id_other : forall c l, digit c -> c <> "0"%char -> Forall digit l -> int_digits (c :: l).
(** a fraction and its digits *)
Inductive frac_text : list ascii -> list ascii -> Prop :=
| ft_none : frac_text [] []
| ft_text : forall l, l <> [] -> Forall digit l -> frac_text ("."%char :: l) l.
(** an exponent and its value *)
Inductive exp_text : list ascii -> Z -> Prop :=
| et_none : exp_text [] 0
| et_none_sign : forall e l, In e ["e"; "E"]%char -> l <> [] -> Forall digit l -> exp_text (e :: l) (Z.of_N (decimal_value l))
| et_plus : forall e l, In e ["e"; "E"]%char -> l <> [] -> Forall digit l -> exp_text (e :: "+"%char :: l) (Z.of_N (decimal_value l))
| et_minus : forall e l, In e ["e"; "E"]%char -> l <> [] -> Forall digit l -> exp_text (e :: "-"%char :: l) (- Z.of_N (decimal_value l)).
(** a number without its sign *)
Inductive unsigned_text : bool -> list ascii -> val -> Prop :=
| ut_int : forall neg i, int_digits i ->
    unsigned_text neg i (VInt (if neg then - Z.of_N (decimal_value i) else Z.of_N (decimal_value i)))
| ut_float : forall neg i p ds x e, int_digits i -> frac_text p ds -> exp_text x e -> p ++ x <> [] ->
    unsigned_text neg (i ++ p ++ x) (VFloat (float_of_decimal neg (decimal_value (i ++ ds)) (e - Z.of_nat (length ds)))).
Inductive number_text : list ascii -> val -> Prop :=
| nt_plain : forall t v, unsigned_text false t v -> number_text t v
| nt_minus : forall t v, unsigned_text true t v -> number_text ("-"%char :: t) v.

Inductive constant_text : list ascii -> val -> Prop :=
| ct_null : constant_text (chars "null") VNone
| ct_true : constant_text (chars "true") (VBool true)
| ct_false : constant_text (chars "false") (VBool false)
| ct_nan : constant_text (chars "NaN") (VFloat S754_nan)
| ct_inf : constant_text (chars "Infinity") (VFloat (S754_infinity false))
| ct_neg : constant_text (chars "-Infinity") (VFloat (S754_infinity true)).

(** The dictionary of a list of pairs: of equal keys the last counts, at the place of the first. *)
Definition dict_of_pairs (l : list (string * val)) : dict val :=
  fold_left (fun d kv => dset (fst kv) (snd kv) d) l [].

(** A value.  [items_text l vs]: values separated by commas; [pairs_text]: pairs likewise;
    blanks around every part. *)
Inductive value_text : list ascii -> val -> Prop :=
| vt_string : forall t s, string_text t s -> value_text t (VStr s)
| vt_constant : forall t v, constant_text t v -> value_text t v
| vt_number : forall t v, number_text t v -> value_text t v
| vt_empty_list : forall b, blanks b -> value_text ("[" :: b ++ ["]"])%char%list (VList [])
| vt_list : forall t vs, items_text t vs -> value_text ("[" :: t ++ ["]"])%char%list (VList vs)
| vt_empty_dict : forall b, blanks b -> value_text ("{" :: b ++ ["}"])%char%list (VDict [])
| vt_dict : forall t ps, pairs_text t ps -> value_text ("{" :: t ++ ["}"])%char%list (VDict (dict_of_pairs ps))
with items_text : list ascii -> list val -> Prop :=
| it_one : forall a t b v, blanks a -> value_text t v -> blanks b -> items_text (a ++ t ++ b) [v]
| it_more : forall a t b v ts vs, blanks a -> value_text t v -> blanks b -> items_text ts vs ->
    items_text (a ++ t ++ b ++ ","%char :: ts) (v :: vs)
with pairs_text : list ascii -> list (string * val) -> Prop :=
| pt_one : forall a k b c t d s v, blanks a -> string_text k s -> blanks b -> blanks c -> value_text t v -> blanks d ->
    pairs_text (a ++ k ++ b ++ ":"%char :: c ++ t ++ d) [(s, v)]
| pt_more : forall a k b c t d s v ts vs, blanks a -> string_text k s -> blanks b -> blanks c -> value_text t v -> blanks d ->
    pairs_text ts vs -> pairs_text (a ++ k ++ b ++ ":"%char :: c ++ t ++ d ++ ","%char :: ts) ((s, v) :: vs).

Scheme value_text_ind' := Induction for value_text Sort Prop
with items_text_ind' := Induction for items_text Sort Prop
with pairs_text_ind' := Induction for pairs_text Sort Prop.
Combined Scheme text_ind from value_text_ind', items_text_ind', pairs_text_ind'.

(** A whole file *)
Definition json_text (l : list ascii) (v : val) : Prop :=
  exists a t b, blanks a /\ value_text t v /\ blanks b /\ l = (a ++ t ++ b)%list.

(** The floats of Python: binary64 *)
Definition is_float (f : float64) : Prop := valid_binary 53 1024 f = true.
Definition is_finite (f : float64) : Prop := match f with S754_zero _ | S754_finite _ _ _ => True | _ => False end.

(** Values as json.load returns them: no key twice in a dictionary, floats are binary64 *)
Inductive json_value : val -> Prop :=
| jv_none : json_value VNone
| jv_bool : forall b, json_value (VBool b)
| jv_int : forall z, json_value (VInt z)
| jv_float : forall f, is_float f -> json_value (VFloat f)
| jv_str : forall s, json_value (VStr s)
| jv_list : forall l, Forall json_value l -> json_value (VList l)
| jv_dict : forall d, NoDup (dkeys d) -> (forall k v, In (k, v) d -> json_value v) -> json_value (VDict d).

(** The text has an escape \uhhhh of a half of a pair. *)
Definition half_escape (l : list ascii) : Prop :=
  exists a t b n, l = a ++ t ++ b /\ hex_text t n /\ (55296 <= n <= 57343)%N.
