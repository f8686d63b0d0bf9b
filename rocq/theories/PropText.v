(** Properties C91 to C96: version strings, tags, JSON texts, numbers, casts. *)
From Verif Require Import PyBase PyNum Json JsonText Version Tags Cast SpecUnicode SpecText SpecNums SpecFloats SpecRepr SpecCast SpecTags FloatFacts TextFacts NumFacts CastFacts VersionFacts.
From Coq Require Import SpecFloat.
Open Scope string_scope.

(** ** C91: exactly which strings are versions *)
Theorem C91_exact : forall s v, mk_version s = Ok v <-> exists l, reads_as s l /\ version_text l v.
Proof. exact mk_version_iff. Qed.
Print Assumptions C91_exact.
Theorem C91_refused : forall s e, mk_version s = Err e -> exists w, e = EValue w.
Proof. exact mk_version_err. Qed.
Print Assumptions C91_refused.
(** The components are read with int(), so blanks, signs and underscores are let through. *)
Example C91_ex : mk_version "3_0.+8. 9 " = Ok (mkVersion 30 8 9).
Proof. vm_compute. reflexivity. Qed.
(** The digits can be those of any script (here Arabic), and the blanks any blanks (here the em space). *)
Example C91_ex_unicode : mk_version (unchars (map ascii_of_N [217; 163; 46; 217; 168; 226; 128; 131]%N)) = Ok (mkVersion 3 8 0).
Proof. vm_compute. reflexivity. Qed.
Example C91_ex_bad : mk_version "3.x" = Err (EValue "not a valid spine version") /\ mk_version "3.8x" = Err (EValue "invalid literal for int()").
Proof. split; vm_compute; reflexivity. Qed.

(** ** C92: exactly which names carry a scale *)
Theorem C92_exact : forall s d, get_tags_from_name s = Ok d <->
  (tags_of s [] /\ d = []) \/
  (exists n v f, tags_of s [(n, v)] /\ blanks_around "scale" n /\ stripped_float v f /\ d = [("scale", f)]).
Proof. exact tags_iff. Qed.
Print Assumptions C92_exact.
Theorem C92_scale : forall s f, scale_in_name s = Ok f <->
  (tags_of s [] /\ f = f_one) \/ (exists n v, tags_of s [(n, v)] /\ blanks_around "scale" n /\ stripped_float v f).
Proof. exact scale_in_name_iff. Qed.
Print Assumptions C92_scale.
Theorem C92_refused : forall s e, get_tags_from_name s = Err e -> exists w, e = EValue w.
Proof. exact tags_refused. Qed.
Print Assumptions C92_refused.
(** The blanks that separate files are removed before float() sees them, but are no blanks for float(). *)
Example C92_ex_separator : scale_in_name (unchars (chars "[scale:" ++ "028"%char :: chars "2]")%list) = Ok (S754_finite false 4503599627370496 (-51)) /\
  cast_element (VStr (String "028" "2")) "number" = Err (EValue "could not convert string to float").
Proof. split; vm_compute; reflexivity. Qed.
Example C92_ex : scale_in_name "arm[ scale: 2 ]" = Ok (S754_finite false 4503599627370496 (-51)) /\ scale_in_name "arm[scale:nan]" = Ok S754_nan.
Proof. split; vm_compute; reflexivity. Qed.

(** ** C93: exactly which texts are read as JSON *)
Theorem C93_exact : forall l v, json_loads l = Ok v <-> json_text l v.
Proof. exact loads_iff. Qed.
Print Assumptions C93_exact.
Theorem C93_one_value : forall l v w, json_text l v -> json_text l w -> v = w.
Proof. exact json_text_unique. Qed.
Print Assumptions C93_one_value.
(** Other texts are refused with a ValueError; strings with a half of a pair alone are not modelled. *)
Theorem C93_refused : forall l e, json_loads l = Err e -> (exists w, e = EValue w) \/ ((exists w, e = EUnmodelled w) /\ half_escape l).
Proof. exact loads_refused. Qed.
Print Assumptions C93_refused.
Example C93_ex : json_loads (chars " {""a"": [1, -2.5e1, ""x\n""], ""b"": null, ""a"": NaN} ") = Ok (VDict [("a", VFloat S754_nan); ("b", VNone)]).
Proof. vm_compute. reflexivity. Qed.
(** A character written as its bytes, as an escape, and as two halves *)
Example C93_ex_unicode : json_loads (chars """\u00e8\ud83d\uDE00""") = Ok (VStr (unchars (map ascii_of_N [195; 168; 240; 159; 152; 128]%N))) /\
  json_loads (""""%char :: map ascii_of_N [240; 159; 152; 128]%N ++ [""""%char]) = Ok (VStr (unchars (map ascii_of_N [240; 159; 152; 128]%N))) /\
  json_loads (""""%char :: map ascii_of_N [195; 34]%N) = Err (EValue "UnicodeDecodeError") /\
  json_loads (chars """\ud83d""") = Err (EUnmodelled "a lone surrogate").
Proof. repeat split; vm_compute; reflexivity. Qed.
Example C93_ex_bad : json_loads (chars "[1,]") = Err (EValue "JSONDecodeError") /\ json_loads (chars "01") = Err (EValue "JSONDecodeError").
Proof. split; vm_compute; reflexivity. Qed.

(** ** C94: numbers are rounded correctly *)
(** The float of m * 10^e, which is what the texts above stand for *)
Theorem C94_decimal : forall neg m e,
  rounds neg (Z.of_N m * 10 ^ Z.max e 0 * 2 ^ 1074) (10 ^ Z.max (- e) 0) (float_of_decimal neg m e).
Proof. exact float_of_decimal_rounds. Qed.
Print Assumptions C94_decimal.
Theorem C94_product : forall a b, is_float a -> is_float b -> is_finite a -> is_finite b ->
  rounds (xorb (negative a) (negative b)) (size a * size b) (2 ^ 1074) (fmul a b).
Proof. exact fmul_rounds. Qed.
Print Assumptions C94_product.
Theorem C94_one_answer : forall neg x q f g, (0 < q)%Z -> rounds neg x q f -> rounds neg x q g -> f = g.
Proof. exact rounds_unique. Qed.
Print Assumptions C94_one_answer.
(** 0.1 is not a float; the nearest one is. *)
Example C94_ex : float_of_decimal false 1 (-1) = S754_finite false 7205759403792794 (-56) /\
  size (S754_finite false 7205759403792794 (-56)) <> (2 ^ 1074 / 10)%Z.
Proof. split; [vm_compute; reflexivity | vm_compute; discriminate]. Qed.

(** ** C95: a cast gives a value of the type asked for -- false for booleans *)
(** A string that spells no boolean is returned as it is. *)
Theorem C95_refuted : exists v x, cast_element v "boolean" = Ok x /\ forall b, x <> VBool b.
Proof. exists (VStr "yes"), (VStr "yes"). split; [reflexivity | discriminate]. Qed.
Print Assumptions C95_refuted.

(** ** C96: exactly what casts give *)
Theorem C96_number : forall v x, cast_element v "number" = Ok x <-> exists f, as_float v f /\ x = VFloat f.
Proof. exact cast_number. Qed.
Print Assumptions C96_number.
Theorem C96_integer : forall v x, (forall g, v = VFloat g -> is_float g) ->
  (cast_element v "integer" = Ok x <-> exists f z, as_float v f /\ whole_part f z /\ x = VInt z).
Proof. exact cast_integer. Qed.
Print Assumptions C96_integer.
Theorem C96_string : forall v x, json_value v -> (cast_element v "string" = Ok x <-> exists s, said v s /\ x = VStr s).
Proof. exact cast_string. Qed.
Print Assumptions C96_string.
Theorem C96_boolean : forall v x, cast_element v "boolean" = Ok x <-> as_boolean v x.
Proof. exact cast_boolean. Qed.
Print Assumptions C96_boolean.
Theorem C96_errors : forall v t e, cast_element v t = Err e ->
  (exists w, e = EValue w) \/ (exists w, e = EType w) \/ e = EOverflow.
Proof. exact cast_errors. Qed.
Print Assumptions C96_errors.
(** Which exception, and when *)
Theorem C96_refused : forall v t r, (exists e, cast_element v t = Err e /\ raised r e) <-> cast_refused v t r.
Proof. exact cast_refused_iff. Qed.
Print Assumptions C96_refused.
Example C96_ex : cast_element (VStr " -2.75 ") "integer" = Ok (VInt (-2)) /\ cast_element (VStr "TRUE") "boolean" = Ok (VBool true) /\
  cast_element (VInt (-7)) "string" = Ok (VStr "-7") /\ cast_element VNone "number" = Err (EType "float() argument must be a string or a real number") /\
  cast_element (VStr "inf") "integer" = Err EOverflow.
Proof. repeat split; vm_compute; reflexivity. Qed.
