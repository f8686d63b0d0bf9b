From Verif Require Import PyBase PyNum Json JsonText Files.
From Coq Require Extraction ExtrOcamlBasic ExtrOcamlString.
Definition cfile (t : list ascii) := File t.
Definition save (cwd : place) (p : string) (text : list ascii) : M fs unit := do! _ := make_parent cwd p in write_file cwd p text.
Extraction "model.ml" save read_file path_dirname path_split fset os_stat os_makedirs Dir File.
