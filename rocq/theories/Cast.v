(** spine_json_lib/utils.py:16-45: cast_element.  The library itself only uses it for numbers
    in tags (Tags.v); here is the whole function.
    Not modelled: str() of floats, lists and dictionaries. *)
From Verif Require Import PyBase PyNum Unicode Json.
From Coq Require Import SpecFloat.
Open Scope string_scope.

(** float(v) *)
Definition py_float_of (v : val) : res float64 :=
  match v with
  | VFloat f => Ok f
  | VInt z => float_of_Z z
  | VBool b => float_of_Z (if b then 1 else 0)
  | VStr s => match py_float (folded s) with Some f => Ok f | None => Err (EValue "could not convert string to float") end
  | VNone | VList _ | VDict _ => Err (EType "float() argument must be a string or a real number")
  end.
(** int(f): the fraction is cut off. *)
Definition py_int_of_float (f : float64) : res Z :=
  match f with
  | S754_zero _ => Ok 0%Z
  | S754_infinity _ => Err EOverflow
  | S754_nan => Err (EValue "cannot convert float NaN to integer")
  | S754_finite s m e =>
      let n := if (0 <=? e)%Z then (Zpos m * 2 ^ e)%Z else (Zpos m / 2 ^ (- e))%Z in
      Ok (if s then (- n)%Z else n)
  end.

(** utils.py:6-9 and 18-45 *)
Inductive value_type := TNumber | TInteger | TString | TBoolean | TOther.
Definition value_type_of (s : string) : value_type :=
  if seqb s "number" then TNumber
  else if seqb s "integer" then TInteger
  else if seqb s "string" then TString
  else if seqb s "boolean" then TBoolean
  else TOther.
Definition cast_element (value : val) (t : string) : res val :=
  match value_type_of t with
  | TNumber => let! f := py_float_of value in Ok (VFloat f)
  | TInteger => let! f := py_float_of value in let! z := py_int_of_float f in Ok (VInt z)
  | TString => Ok (VStr (py_str value))
  | TBoolean =>
      match value with
      | VBool _ => Ok value
      | VStr s =>
          let to_lower := unchars (map lower (chars s)) in
          Ok (if seqb to_lower "true" then VBool true
              else if seqb to_lower "false" then VBool false
              else value)
      | _ => Err (EValue "Wrong type: value needs to be boolean or string")
      end
  | TOther => Ok value
  end.
