From Verif Require Import PyBase Json Editor Classes.
From Coq Require Import SpecFloat Extraction ExtrOcamlBasic ExtrOcamlString.
Definition id_enum : order := fun _ l => l.
Definition imgs_val (d : dict imgref) := VDict (dmap (fun i => VDict (("path"%string, VStr (im_path i)) :: match im_scale i with Some f => [("scale"%string, VFloat f)] | None => [] end)) d).
Definition run_erase := erase_animations id_enum.
Definition run_skins := erase_skins id_enum.
Extraction "m.ml" mk_editor run_erase run_skins imgs_val editor_json py_eq id_enum.
