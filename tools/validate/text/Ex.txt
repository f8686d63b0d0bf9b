From Verif Require Import PyBase PyNum Unicode Json JsonText Version Tags Cast WriteFacts.
From Coq Require Extraction ExtrOcamlBasic ExtrOcamlString.
Definition ans (o : option val) : list ascii := match o with Some v => chars "OK " ++ json_dumps None v | None => chars "VALUE" end.
Definition int_of (l : list ascii) := ans (option_map VInt (py_int (folded (unchars l)))).
Definition float_of (l : list ascii) := ans (option_map VFloat (py_float (folded (unchars l)))).
Definition color_of (l : list ascii) := ans (option_map (fun n => VInt (Z.of_N n)) (py_int_0x (folded (unchars l)))).
Definition strip_of (l : list ascii) := ans (Some (VInt (Z.of_nat (length (strip (folded (unchars l))))))).
Definition version_of (l : list ascii) := ans (match mk_version (unchars l) with Ok v => Some (VList [VInt (v_major v); VInt (v_minor v); VInt (v_patch v)]) | Err _ => None end).
Definition tags_of (l : list ascii) := ans (match get_tags_from_name (unchars l) with Ok d => Some (VDict (map (fun kv => (fst kv, VFloat (snd kv))) d)) | Err _ => None end).
Definition found (l : list ascii) := ans (Some (VList (map (fun nv => VList [VInt (Z.of_nat (length (fst nv))); VInt (Z.of_nat (length (snd nv)))]) (find_tags (unchars l))))).
Definition len_of (l : list ascii) := ans (Some (VInt (Z.of_nat (length (decode l))))).
Extraction "model.ml" int_of float_of color_of strip_of version_of tags_of found len_of.
