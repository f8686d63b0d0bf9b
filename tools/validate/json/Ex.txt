From Verif Require Import PyBase PyNum Json JsonText Repr.
From Coq Require Extraction ExtrOcamlBasic ExtrOcamlString.
Extraction "model.ml" json_loads json_dumps py_str.
