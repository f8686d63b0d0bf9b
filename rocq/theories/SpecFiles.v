(** Specification for the calls on files. *)
From Verif Require Import PyBase PyNum Json SpineGraph Editor Files SpecText.
Open Scope string_scope.

(** A file system: the root is a directory, and whatever exists is in a directory. *)
Definition fs_ok (f : fs) : Prop := f [] = Some Dir /\ forall d n, f (d ++ [n])%list <> None -> f d = Some Dir.

(** Names that stand for themselves *)
Definition plain_name (n : string) : Prop :=
  n <> "" /\ n <> "." /\ n <> ".." /\ ~ In "/"%char (chars n) /\ ~ In "000"%char (chars n).
(** The path of a list of names: from the root, or from the current directory *)
Fixpoint slashed (l : list string) : string :=
  match l with
  | [] => ""
  | n :: l' => match l' with [] => n | _ :: _ => n ++ "/" ++ slashed l' end
  end.
Definition path_to (absolute : bool) (l : list string) : string := if absolute then "/" ++ slashed l else slashed l.
Definition place_of (absolute : bool) (cwd : place) (l : list string) : place := ((if absolute then [] else cwd) ++ l)%list.
(** [p] is a directory on the way to [q]. *)
Definition above (p q : place) : Prop := exists r, r <> [] /\ q = (p ++ r)%list.
Definition is_file (f : fs) (p : place) : Prop := exists x, f p = Some (File x).

(** [g] is [f] with some new directories. *)
Definition new_dirs (f g : fs) : Prop := forall q, g q = f q \/ (f q = None /\ g q = Some Dir).
(** [g] is [f] with the file at [t] written, and perhaps some new directories. *)
Definition file_written (t : place) (x : list ascii) (f g : fs) : Prop :=
  g t = Some (File x) /\ f t <> Some Dir /\ forall q, q <> t -> g q = f q \/ (f q = None /\ g q = Some Dir).

(** Characters that every encoding of files in use writes the same way *)
Definition is_ascii (c : ascii) : Prop := (code c < 128)%N.

(** An editor after any calls, also calls that raise.  The factors of a scaling are numbers as
    json.load returns them; other arguments are anything. *)
Definition json_args (op : eop) : Prop := match op with EoScale sx sy => json_value sx /\ json_value sy | _ => True end.
Inductive used : editor -> Prop :=
| used_load : forall j e, json_value j -> mk_editor j = Ok e -> used e
| used_call : forall e op, used e -> json_args op -> used (fst (estep e op)).

(** images_references as a JSON value: for each image its path, and its scale if it has one *)
Definition saved_image (i : imgref) : val :=
  match im_scale i with
  | None => VDict [("path", VStr (im_path i))]
  | Some x => VDict [("path", VStr (im_path i)); ("scale", VFloat x)]
  end.
Definition saved_images (d : dict imgref) : val := VDict (map (fun ki => (fst ki, saved_image (snd ki))) d).
(** The lists of a graph as a JSON value *)
Definition saved_graph (o : graph_json) : val :=
  VDict [("slots", VList (gj_slots o)); ("bones", VList (gj_bones o)); ("ik", VList (gj_ik o))].
