(** Properties C121 (the texts of floats) and C122 (the texts of values). *)
From Verif Require Import PyBase PyNum Json JsonText SpineGraph Cast SpecText SpecFloats SpecRepr ReprFacts WriteFacts StrFacts StrInj CastFacts.
From Coq Require Import SpecFloat.
Open Scope string_scope.

(** ** C121: a float is written with as few digits as are needed to read it back, and of those
    numbers the nearest *)
Theorem C121_exact : forall ind f t, is_float f -> is_finite f -> (json_dumps ind (VFloat f) = t <-> written f t).
Proof. exact float_written. Qed.
Print Assumptions C121_exact.
Theorem C121_read_back : forall f t, is_float f -> is_finite f -> written f t -> json_text t (VFloat f) /\ json_loads t = Ok (VFloat f).
Proof. exact float_read_back. Qed.
Print Assumptions C121_read_back.
Theorem C121_one_text : forall f t t', is_float f -> written f t -> written f t' -> t = t'.
Proof. exact written_one. Qed.
Print Assumptions C121_one_text.
Theorem C121_one_float : forall f g t, is_float f -> is_float g -> written f t -> written g t -> f = g.
Proof. exact written_inj. Qed.
Print Assumptions C121_one_float.
(** 0.1, 1e22, the smallest float, 2^-44 (a power of two), 2^50 + 1/4 (halfway between two numbers of 17 digits), 1e16, 123456789012345680, -0.00001 *)
Definition decimal10 (n : N) (e : Z) : float64 := float_of_decimal false n e.
Example C121_ex : Forall (fun ft => is_float (fst ft) /\ is_finite (fst ft) /\ written (fst ft) (chars (snd ft)))
  [(decimal10 1 (-1), "0.1"); (decimal10 1 22, "1e+22"); (S754_finite false 1 (-1074), "5e-324"); (S754_finite false 4503599627370496 (-96), "5.684341886080802e-14");
   (S754_finite false 4503599627370497 (-2), "1125899906842624.2"); (decimal10 1 16, "1e+16"); (decimal10 123456789012345680 0, "1.2345678901234568e+17");
   (decimal10 1 15, "1000000000000000.0"); (float_of_decimal true 1 (-5), "-1e-05"); (decimal10 1 (-4), "0.0001"); (S754_zero true, "-0.0")].
Proof.
  repeat (constructor; [cbn [fst snd]; split; [vm_compute; reflexivity | split; [vm_compute; exact I | apply repr_written; vm_compute; reflexivity]] | ]). constructor.
Qed.

(** ** C122: str() of any value of JSON: what a cast to string gives, and what node ids contain *)
Theorem C122_cast : forall v x, json_value v -> (cast_element v "string" = Ok x <-> exists s, said v s /\ x = VStr s).
Proof. exact cast_string. Qed.
Print Assumptions C122_cast.
Theorem C122_id : forall type v i, json_value v -> (to_graph_id type v = Ok i <-> exists s, said v s /\ i = s ++ "_" ++ type).
Proof. exact id_said. Qed.
Print Assumptions C122_id.
Theorem C122_one_text : forall v s s', json_value v -> said v s -> said v s' -> s = s'.
Proof. exact said_one. Qed.
Print Assumptions C122_one_text.
(** Different strings are shown differently. *)
Theorem C122_strings : forall s s' t, quoted s t -> quoted s' t -> s = s'.
Proof. exact quoted_inj. Qed.
Print Assumptions C122_strings.
Definition C122_value : val := VList [VStr "it's"; VFloat (decimal10 25 (-1)); VDict [("a""b", VNone); (String "010" (unchars (map ascii_of_N [195; 169; 194; 173]%N)), VBool true)]; VInt (-7)].
Example C122_ex : json_value C122_value /\ said C122_value ("[""it's"", 2.5, {'a""b': None, '\n" ++ unchars (map ascii_of_N [195; 169]%N) ++ "\xad': True}, -7]") /\
  said (VStr "it's") "it's" /\ said VNone "None" /\ said (VFloat S754_nan) "nan".
Proof.
  assert (J : json_value C122_value).
  { apply jv_list. constructor; [apply jv_str | ]. constructor; [apply jv_float; vm_compute; reflexivity | ].
    constructor; [ | constructor; [apply jv_int | constructor]]. apply jv_dict.
    - vm_compute. constructor; [intros [E | []]; discriminate | constructor; [intros [] | constructor]].
    - intros k v [E | [E | []]]; injection E as <- <-; constructor. }
  split; [exact J | ]. split; [apply str_said; [exact J | vm_compute; reflexivity] | ]. split; [constructor | ].
  split; (apply str_said; [constructor; vm_compute; reflexivity | vm_compute; reflexivity]).
Qed.
