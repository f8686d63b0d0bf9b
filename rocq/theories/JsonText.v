(** JSON texts: the parts of Python's [json] module that /repo uses to read and write files
    (spine_animation_editor.py:62, 225, 261; deserializer/spine_nodes.py:129, 137):
    [json.load], [json.dump(.., indent=4)], [json.dump] and [json.dumps].

    Mirrors json/decoder.py, json/scanner.py and json/encoder.py of the standard library (Python 3.11; line numbers of that version).
    A text is its UTF-8 encoding (the encoding [open] uses).
    Simplifications: strings with lone surrogates are outside the model (Unicode.v); the limit on
    the number of digits of an int and the recursion limit are left out. *)
From Verif Require Import PyBase PyNum Unicode Json Repr.
From Coq Require Import SpecFloat.
Open Scope string_scope.

(** JSONDecodeError is a ValueError. *)
Definition bad_json {A} : res A := Err (EValue "JSONDecodeError").

Fixpoint span (f : ascii -> bool) (l : list ascii) : list ascii * list ascii :=
  match l with
  | [] => ([], [])
  | c :: l' => if f c then let '(a, b) := span f l' in (c :: a, b) else ([], l)
  end.

(** ** Reading *)
(** decoder.py:132 (WHITESPACE) *)
Definition is_ws (c : ascii) : bool :=
  (Ascii.eqb c " " || Ascii.eqb c "009" || Ascii.eqb c "010" || Ascii.eqb c "013")%bool.
Definition skip_ws (l : list ascii) : list ascii := snd (span is_ws l).

(** decoder.py:54-57 (BACKSLASH) *)
Definition unescape (c : ascii) : option N :=
  if Ascii.eqb c """" then Some 34%N
  else if Ascii.eqb c "\" then Some 92%N
  else if Ascii.eqb c "/" then Some 47%N
  else if Ascii.eqb c "b" then Some 8%N
  else if Ascii.eqb c "f" then Some 12%N
  else if Ascii.eqb c "n" then Some 10%N
  else if Ascii.eqb c "r" then Some 13%N
  else if Ascii.eqb c "t" then Some 9%N
  else None.

(** decoder.py:59-67 (_decode_uXXXX) *)
Definition hex4 (a b c d : ascii) : option N :=
  match hex_val a, hex_val b, hex_val c, hex_val d with
  | Some w, Some x, Some y, Some z => Some (((w * 16 + x) * 16 + y) * 16 + z)%N
  | _, _, _, _ => None
  end.
(** decoder.py:116-120: the second half of a character that is written in two escapes *)
Definition low_half (l : list ascii) : option N :=
  match l with
  | x :: y :: a :: b :: c :: d :: _ =>
      if (Ascii.eqb x "\" && Ascii.eqb y "u")%bool then
        match hex4 a b c d with
        | Some n => if in_range 56320 57343 n then Some n else None
        | None => None
        end
      else None
  | _ => None
  end.

(** decoder.py:69-127 (scanstring, strict), after the opening quote: the characters, and what
    follows.  [chunk] are the bytes since the last escape, in reverse order, and [skip] the
    number of bytes that have been looked at.  Bytes that are not UTF-8 were refused when the
    file was read (UnicodeDecodeError is a ValueError). *)
Definition chunk_chars (chunk : list ascii) : res (list N) :=
  if is_utf8 (rev chunk) then Ok (decode (rev chunk)) else Err (EValue "UnicodeDecodeError").
Fixpoint scan_chars (skip : nat) (chunk l : list ascii) : res (list N * list ascii) :=
  match l with
  | [] => bad_json
  | c :: l1 =>
      match skip with
      | S k => scan_chars k chunk l1
      | O =>
          if Ascii.eqb c """" then let! s := chunk_chars chunk in Ok (s, l1)
          else if Ascii.eqb c "\" then
            match l1 with
            | [] => bad_json
            | e :: l2 =>
                if Ascii.eqb e "u" then
                  match l2 with
                  | h1 :: h2 :: h3 :: h4 :: l3 =>
                      match hex4 h1 h2 h3 h4 with
                      | Some n =>
                          let! s := chunk_chars chunk in
                          match (if in_range 55296 56319 n then low_half l3 else None) with
                          | Some m =>
                              let! (t, r) := scan_chars 11 [] l1 in
                              Ok ((s ++ (65536 + (n - 55296) * 1024 + (m - 56320)) :: t)%N%list, r)
                          | None =>
                              let! (t, r) := scan_chars 5 [] l1 in Ok ((s ++ n :: t)%list, r)
                          end
                      | None => bad_json
                      end
                  | _ => bad_json
                  end
                else
                  match unescape e with
                  | Some x =>
                      let! s := chunk_chars chunk in
                      let! (t, r) := scan_chars 1 [] l1 in Ok ((s ++ x :: t)%list, r)
                  | None => bad_json
                  end
            end
          else if N.leb (code c) 31 then bad_json
          else scan_chars 0 (c :: chunk) l1
      end
  end.
Definition scan_string (l : list ascii) : res (list ascii * list ascii) :=
  let! (s, r) := scan_chars 0 [] l in
  match str_of s with
  | Some b => Ok (b, r)
  | None => Err (EUnmodelled "a lone surrogate")
  end.

(** scanner.py:11-13 (NUMBER_RE): sign, int, fraction, exponent, and what follows *)
Definition scan_sign (l : list ascii) : list ascii * list ascii :=
  match l with
  | c :: r => if Ascii.eqb c "-" then ([c], r) else ([], l)
  | [] => ([], l)
  end.
Definition scan_int (l : list ascii) : list ascii * list ascii :=
  match l with
  | c :: r => if Ascii.eqb c "0" then ([c], r) else span is_digit l
  | [] => ([], l)
  end.
Definition scan_frac (l : list ascii) : list ascii * list ascii :=
  match l with
  | c :: r =>
      if Ascii.eqb c "." then
        match span is_digit r with
        | ([], _) => ([], l)
        | (d, r') => (c :: d, r')
        end
      else ([], l)
  | [] => ([], l)
  end.
Definition is_e (c : ascii) : bool := (Ascii.eqb c "e" || Ascii.eqb c "E")%bool.
Definition scan_exp (l : list ascii) : list ascii * list ascii :=
  match l with
  | c :: r =>
      if is_e c then
        let '(s, r1) := match r with
                        | x :: r1 => if (Ascii.eqb x "+" || Ascii.eqb x "-")%bool then ([x], r1) else ([], r)
                        | [] => ([], r)
                        end in
        match span is_digit r1 with
        | ([], _) => ([], l)
        | (d, r2) => ((c :: s ++ d)%list, r2)
        end
      else ([], l)
  | [] => ([], l)
  end.
(** scanner.py:48-55 *)
Definition scan_number (l : list ascii) : res (val * list ascii) :=
  let '(sg, l1) := scan_sign l in
  let '(ip, l2) := scan_int l1 in
  match ip with
  | [] => bad_json
  | _ =>
      let '(fp, l3) := scan_frac l2 in
      let '(ep, l4) := scan_exp l3 in
      match fp, ep with
      | [], [] =>
          match py_int (sg ++ ip) with
          | Some z => Ok (VInt z, l4)
          | None => Err (EValue "invalid literal for int()")
          end
      | _, _ =>
          match py_float (sg ++ ip ++ fp ++ ep) with
          | Some f => Ok (VFloat f, l4)
          | None => Err (EValue "could not convert string to float")
          end
      end
  end.

(** scanner.py:41-46, 56-61: the constants *)
Definition constants : list (string * val) :=
  [("null", VNone); ("true", VBool true); ("false", VBool false); ("NaN", VFloat S754_nan);
   ("Infinity", VFloat (S754_infinity false)); ("-Infinity", VFloat (S754_infinity true))].
Fixpoint scan_constant (cs : list (string * val)) (l : list ascii) : option (val * list ascii) :=
  match cs with
  | [] => None
  | (w, v) :: cs' =>
      match strip_prefix (chars w) l with
      | Some r => Some (v, r)
      | None => scan_constant cs' l
      end
  end.

(** scanner.py:28-63 (_scan_once), decoder.py:136-215 (JSONObject), 217-255 (JSONArray).
    [members] starts at the quote of a key, [elements] at a value.  Twice the number of characters
    left bounds the number of calls ([fuel]). *)
Fixpoint scan_once (fuel : nat) (l : list ascii) : res (val * list ascii) :=
  match fuel with
  | O => Err EDiverges
  | S f =>
      match l with
      | [] => bad_json
      | c :: r =>
          if Ascii.eqb c """" then let! (s, r') := scan_string r in Ok (VStr (unchars s), r')
          else if Ascii.eqb c "{" then
            match skip_ws r with
            | [] => bad_json
            | x :: r' => if Ascii.eqb x "}" then Ok (VDict [], r') else members f [] (x :: r')
            end
          else if Ascii.eqb c "[" then
            match skip_ws r with
            | [] => bad_json
            | x :: r' => if Ascii.eqb x "]" then Ok (VList [], r') else elements f [] (x :: r')
            end
          else
            match scan_constant constants l with
            | Some vr => Ok vr
            | None => scan_number l
            end
      end
  end
with members (fuel : nat) (acc : dict val) (l : list ascii) : res (val * list ascii) :=
  match fuel with
  | O => Err EDiverges
  | S f =>
      match l with
      | [] => bad_json
      | c :: r =>
          if negb (Ascii.eqb c """") then bad_json
          else
            let! (k, r1) := scan_string r in
            match skip_ws r1 with
            | [] => bad_json
            | x :: r2 =>
                if negb (Ascii.eqb x ":") then bad_json
                else
                  let! (v, r3) := scan_once f (skip_ws r2) in
                  let acc' := dset (unchars k) v acc in
                  match skip_ws r3 with
                  | [] => bad_json
                  | y :: r4 =>
                      if Ascii.eqb y "}" then Ok (VDict acc', r4)
                      else if Ascii.eqb y "," then members f acc' (skip_ws r4)
                      else bad_json
                  end
            end
      end
  end
with elements (fuel : nat) (acc : list val) (l : list ascii) : res (val * list ascii) :=
  match fuel with
  | O => Err EDiverges
  | S f =>
      let! (v, r) := scan_once f l in
      let acc' := (acc ++ [v])%list in
      match skip_ws r with
      | [] => bad_json
      | y :: r' =>
          if Ascii.eqb y "]" then Ok (VList acc', r')
          else if Ascii.eqb y "," then elements f acc' (skip_ws r')
          else bad_json
      end
  end.

(** decoder.py:332-357 (decode, raw_decode); json.loads and json.load call it. *)
Definition json_loads (s : list ascii) : res val :=
  let! (v, r) := scan_once (S (2 * length s)) (skip_ws s) in
  match skip_ws r with
  | [] => Ok v
  | _ => bad_json
  end.

(** ** Writing *)
Definition hex_digit (n : N) : ascii :=
  if N.ltb n 10 then ascii_of_N (48 + n) else ascii_of_N (87 + n).
Definition hex_escape (n : N) : list ascii :=
  ["\"; "u"; hex_digit (n / 4096); hex_digit (n / 256 mod 16); hex_digit (n / 16 mod 16); hex_digit (n mod 16)]%char.
(** encoder.py:18-32, 49-70: ESCAPE_ASCII, ESCAPE_DCT (ensure_ascii is on) *)
Definition escape (n : N) : list ascii :=
  if N.eqb n 92 then ["\"; "\"]%char
  else if N.eqb n 34 then ["\"; """"]%char
  else if N.eqb n 8 then ["\"; "b"]%char
  else if N.eqb n 12 then ["\"; "f"]%char
  else if N.eqb n 10 then ["\"; "n"]%char
  else if N.eqb n 13 then ["\"; "r"]%char
  else if N.eqb n 9 then ["\"; "t"]%char
  else if in_range 32 126 n then [ascii_of_N n]
  else if N.ltb n 65536 then hex_escape n
  else (hex_escape (55296 + (n - 65536) / 1024) ++ hex_escape (56320 + (n - 65536) mod 1024))%N%list.
Definition encode_string (s : string) : list ascii :=
  ("""" :: flat_map escape (decode (chars s)) ++ [""""])%char%list.

(** encoder.py:224-243 (floatstr) *)
Definition encode_float (f : float64) : list ascii :=
  match f with
  | S754_nan => chars "NaN"
  | S754_infinity false => chars "Infinity"
  | S754_infinity true => chars "-Infinity"
  | _ => repr_float f
  end.

(** encoder.py:275-276, 288-295, 327-329: the line break and indentation, if [indent] is given *)
Definition newline (indent : option nat) (level : nat) : list ascii :=
  match indent with
  | Some n => "010"%char :: repeat " "%char (n * level)
  | None => []
  end.
(** encoder.py:103-104, 154-157: the item separator *)
Definition item_separator (indent : option nat) (level : nat) : list ascii :=
  match indent with
  | Some _ => ","%char :: newline indent level
  | None => [","; " "]%char
  end.

(** encoder.py:278-442 (_iterencode_list, _iterencode_dict, _iterencode) *)
Fixpoint encode (indent : option nat) (level : nat) (v : val) : list ascii :=
  match v with
  | VNone => chars "null"
  | VBool true => chars "true"
  | VBool false => chars "false"
  | VInt z => chars (dec_Z z)
  | VFloat f => encode_float f
  | VStr s => encode_string s
  | VList [] => chars "[]"
  | VList (x :: l) =>
      ("["%char :: newline indent (S level) ++ encode indent (S level) x ++
       flat_map (fun y => item_separator indent (S level) ++ encode indent (S level) y) l ++
       newline indent level ++ ["]"%char])%list
  | VDict [] => chars "{}"
  | VDict ((k, x) :: d) =>
      ("{"%char :: newline indent (S level) ++ encode_string k ++ [":"; " "]%char ++ encode indent (S level) x ++
       flat_map (fun ky => item_separator indent (S level) ++ encode_string (fst ky) ++ [":"; " "]%char ++
                           encode indent (S level) (snd ky)) d ++
       newline indent level ++ ["}"%char])%list
  end.

(** json.dumps(v) and json.dump(v, f, indent=..) *)
Definition json_dumps (indent : option nat) (v : val) : list ascii := encode indent 0 v.
