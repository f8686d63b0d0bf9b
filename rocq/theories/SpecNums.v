(** Specification of the texts that Python's int() and float() accept, and of version strings,
    as relations; no scanner is involved.  The texts are lists of characters below 256; see
    [reads_as] in SpecUnicode.v for what stands for the other characters. *)
From Verif Require Import PyBase PyNum Version SpecText SpecUnicode.
From Coq Require Import SpecFloat.
Open Scope string_scope.
Open Scope list_scope.

(** White space as str.strip() sees it, on code points 0-255 *)
Definition white (c : ascii) : Prop :=
  (9 <= code c <= 13)%N \/ (28 <= code c <= 32)%N \/ code c = 133%N \/ code c = 160%N.
(** White space as int() and float() see it: the separators 28 to 31 are not among it. *)
Definition skipped (c : ascii) : Prop :=
  (9 <= code c <= 13)%N \/ code c = 32%N \/ code c = 133%N \/ code c = 160%N.

(** [numeral t ds]: the text [t] is the digits [ds], with single underscores allowed between
    two digits. *)
Inductive numeral : list ascii -> list ascii -> Prop :=
| nu_one : forall c, digit c -> numeral [c] [c]
| nu_digit : forall c t ds, digit c -> numeral t ds -> numeral (c :: t) (c :: ds)
| nu_under : forall c t ds, digit c -> numeral t ds -> numeral (c :: "_"%char :: t) (c :: ds).

Inductive sign_text : list ascii -> bool -> Prop :=
| sg_none : sign_text [] false
| sg_plus : sign_text ["+"%char] false
| sg_minus : sign_text ["-"%char] true.

(** int(s) *)
Definition int_text (s : list ascii) (z : Z) : Prop :=
  exists b1 b2 sg neg t ds, Forall skipped b1 /\ Forall skipped b2 /\ sign_text sg neg /\ numeral t ds /\
    s = b1 ++ sg ++ t ++ b2 /\
    z = if neg then (- Z.of_N (decimal_value ds))%Z else Z.of_N (decimal_value ds).

(** float(s) *)
Inductive opt_numeral : list ascii -> list ascii -> Prop :=
| on_none : opt_numeral [] []
| on_some : forall t ds, numeral t ds -> opt_numeral t ds.
Inductive point_text : list ascii -> list ascii -> Prop :=
| po_none : point_text [] []
| po_some : forall t ds, opt_numeral t ds -> point_text ("."%char :: t) ds.
Inductive exponent_text : list ascii -> Z -> Prop :=
| ex_none : exponent_text [] 0
| ex_some : forall e sg neg t ds, In e ["e"; "E"]%char -> sign_text sg neg -> numeral t ds ->
    exponent_text (e :: sg ++ t) (if neg then (- Z.of_N (decimal_value ds))%Z else Z.of_N (decimal_value ds)).
(** the same letters, in upper or lower case *)
Definition same_letter (c d : ascii) : Prop :=
  c = d \/ ((65 <= code c <= 90)%N /\ code d = (code c + 32)%N).
Definition word_text (w : string) (t : list ascii) : Prop := Forall2 same_letter t (chars w).
Inductive float_body : bool -> list ascii -> float64 -> Prop :=
| fb_inf : forall neg t, word_text "inf" t -> float_body neg t (S754_infinity neg)
| fb_infinity : forall neg t, word_text "infinity" t -> float_body neg t (S754_infinity neg)
| fb_nan : forall neg t, word_text "nan" t -> float_body neg t S754_nan
| fb_number : forall neg i p x is ps e,
    opt_numeral i is -> point_text p ps -> exponent_text x e -> is ++ ps <> [] ->
    float_body neg (i ++ p ++ x)
      (float_of_decimal neg (decimal_value (is ++ ps)) (e - Z.of_nat (length ps))).
Definition float_text (s : list ascii) (f : float64) : Prop :=
  exists b1 b2 sg neg t, Forall skipped b1 /\ Forall skipped b2 /\ sign_text sg neg /\ float_body neg t f /\
    s = b1 ++ sg ++ t ++ b2.

(** float(s.strip()) *)
Definition stripped_float (s : list ascii) (f : float64) : Prop :=
  exists b1 w b2, Forall white b1 /\ Forall white b2 /\ float_text w f /\ s = b1 ++ w ++ b2.

(** A version string: two or three integers with dots between them, and the whole begins with
    digits, a character other than a newline, and a digit. *)
Definition no_dots (l : list ascii) : Prop := ~ In "."%char l.
Definition version_start (s : list ascii) : Prop :=
  exists ds c d rest, s = ds ++ c :: d :: rest /\ ds <> [] /\ Forall digit ds /\ c <> "010"%char /\ digit d.
Inductive version_text : list ascii -> version -> Prop :=
| vt_two : forall a b x y, no_dots a -> no_dots b -> int_text a x -> int_text b y ->
    version_start (a ++ "."%char :: b) -> version_text (a ++ "."%char :: b) (mkVersion x y 0)
| vt_three : forall a b c x y z, no_dots a -> no_dots b -> no_dots c ->
    int_text a x -> int_text b y -> int_text c z ->
    version_start (a ++ "."%char :: b ++ "."%char :: c) ->
    version_text (a ++ "."%char :: b ++ "."%char :: c) (mkVersion x y z).

(** int("0x" + s, 16) *)
Inductive hex_numeral : list ascii -> list N -> Prop :=
| hn_one : forall c n, hexit c n -> hex_numeral [c] [n]
| hn_digit : forall c n t ns, hexit c n -> hex_numeral t ns -> hex_numeral (c :: t) (n :: ns)
| hn_under : forall c n t ns, hexit c n -> hex_numeral t ns -> hex_numeral (c :: "_"%char :: t) (n :: ns).
Definition hex_value (ns : list N) : N := fold_left (fun a n => a * 16 + n)%N ns 0%N.
Definition color_value (s : string) (n : N) : Prop :=
  exists u t ns b, (u = [] \/ u = ["_"%char]) /\ hex_numeral t ns /\ Forall skipped b /\
    reads_as s (u ++ t ++ b) /\ n = hex_value ns.
