(** Model of the calls of /repo that read and write files, over a small model of a POSIX file
    system as Python's [os] and [open] see it.

    spine_animation_editor.py:59-64 (from_json_file), 219-225 (to_json), 255-261
    (save_images_json); deserializer/spine_nodes.py:123-137 (create_from_json_file, to_json).
    From the standard library: posixpath.py (split, dirname), genericpath.py (exists, isdir)
    and os.py (makedirs) of Python 3.11.

    Simplifications: no symbolic links, mounts, permissions, full disks, limits on the length of
    a name, special files or other processes.  A file holds its bytes, which
    [open] decodes as UTF-8; what the library writes is ASCII.  [open] translates line ends
    on reading, which JSON does not notice. *)
From Verif Require Import PyBase PyNum Json Version Classes Graph SpineGraph AnimData Editor JsonText.
Open Scope string_scope.

(** ** The file system *)
Inductive entry := Dir | File (text : list ascii).
(** The names from the root to an entry *)
Definition place := list string.
Definition fs := place -> option entry.
Definition place_eqb (a b : place) : bool := if list_eq_dec string_dec a b then true else false.
Definition fset (p : place) (x : entry) (f : fs) : fs := fun q => if place_eqb q p then Some x else f q.

(** The names in a path; empty ones do not count *)
Definition names (p : string) : list string :=
  filter (fun s => negb (String.eqb s "")) (map unchars (split_on "/" (chars p))).
Definition has_nul (p : string) : bool := existsb (Ascii.eqb "000") (chars p).

(** Follow directories from [cur]. *)
Fixpoint walk (f : fs) (cur : place) (l : list string) : res place :=
  match l with
  | [] => Ok cur
  | n :: l' =>
      if String.eqb n "." then walk f cur l'
      else if String.eqb n ".." then walk f (removelast cur) l'
      else match f (cur ++ [n])%list with
           | None => Err (EOs FileNotFound)
           | Some (File _) => Err (EOs NotADirectory)
           | Some Dir => walk f (cur ++ [n])%list l'
           end
  end.

(** What a path stands for: a directory that exists for sure, or a name in a directory, and
    whether a slash follows it. *)
Inductive target := Here (d : place) | Named (d : place) (n : string) (slash : bool).
Definition resolve (cwd : place) (p : string) (f : fs) : res target :=
  if has_nul p then Err (EValue "embedded null byte")
  else if String.eqb p "" then Err (EOs FileNotFound)
  else
    let start := if starts_with_slash p then [] else cwd in
    match rev (names p) with
    | [] => Ok (Here start)
    | n :: l =>
        let! d := walk f start (rev l) in
        if String.eqb n "." then Ok (Here d)
        else if String.eqb n ".." then Ok (Here (removelast d))
        else Ok (Named d n (ends_with_slash p))
    end.

(** os.stat *)
Definition os_stat (cwd : place) (p : string) (f : fs) : res entry :=
  let! t := resolve cwd p f in
  match t with
  | Here _ => Ok Dir
  | Named d n slash =>
      match f (d ++ [n])%list, slash with
      | None, _ => Err (EOs FileNotFound)
      | Some (File _), true => Err (EOs NotADirectory)
      | Some x, _ => Ok x
      end
  end.
(** genericpath.py: exists, isdir; OSError and ValueError mean False *)
Definition path_exists (cwd : place) (p : string) (f : fs) : bool :=
  match os_stat cwd p f with Ok _ => true | Err _ => false end.
Definition path_isdir (cwd : place) (p : string) (f : fs) : bool :=
  match os_stat cwd p f with Ok Dir => true | _ => false end.
(** os.mkdir *)
Definition os_mkdir (cwd : place) (p : string) : M fs unit :=
  fun f => match resolve cwd p f with
           | Err e => (f, Err e)
           | Ok (Here _) => (f, Err (EOs FileExists))
           | Ok (Named d n _) => match f (d ++ [n])%list with
                                 | Some _ => (f, Err (EOs FileExists))
                                 | None => (fset (d ++ [n])%list Dir f, Ok tt)
                                 end
           end.
(** open(p).read() *)
Definition read_file (cwd : place) (p : string) (f : fs) : res (list ascii) :=
  let! x := os_stat cwd p f in
  match x with File text => Ok text | Dir => Err (EOs IsADirectory) end.
(** open(p, "w") and writing all of [text] *)
Definition write_file (cwd : place) (p : string) (text : list ascii) : M fs unit :=
  fun f => match resolve cwd p f with
           | Err e => (f, Err e)
           | Ok (Here _) | Ok (Named _ _ true) => (f, Err (EOs IsADirectory))
           | Ok (Named d n false) => match f (d ++ [n])%list with
                                     | Some Dir => (f, Err (EOs IsADirectory))
                                     | _ => (fset (d ++ [n])%list (File text) f, Ok tt)
                                     end
           end.

(** ** posixpath.py, os.py *)
Definition is_slash (c : ascii) : bool := Ascii.eqb c "/".
(** posixpath.py (split): cut after the last slash, then drop the slashes at the end of the
    head unless it is all slashes. *)
Fixpoint cut_last (l : list ascii) : list ascii * list ascii :=
  match l with
  | [] => ([], [])
  | c :: l' => if existsb is_slash l then let '(h, t) := cut_last l' in (c :: h, t) else ([], l)
  end.
Fixpoint drop_slashes (l : list ascii) : list ascii :=
  match l with
  | [] => []
  | c :: l' => if is_slash c then drop_slashes l' else l
  end.
Definition path_split (p : string) : string * string :=
  let '(h, t) := cut_last (chars p) in
  (unchars (if forallb is_slash h then h else rev (drop_slashes (rev h))), unchars t).
Definition path_dirname (p : string) : string := fst (path_split p).

(** os.py (makedirs, exist_ok=False).  [fuel]: the length of the name is enough. *)
Fixpoint makedirs (fuel : nat) (cwd : place) (name : string) : M fs unit :=
  let '(head, tail) := path_split name in
  let '(head, tail) := if String.eqb tail "" then path_split head else (head, tail) in
  fun f =>
    if (negb (String.eqb head "") && negb (String.eqb tail "") && negb (path_exists cwd head f))%bool
    then
      match fuel with
      | O => (f, Err EDiverges)
      | S fuel' =>
          let '(f1, r) := makedirs fuel' cwd head f in
          match r with
          | Ok _ | Err (EOs FileExists) =>
              if String.eqb tail "." then (f1, Ok tt) else os_mkdir cwd name f1
          | Err e => (f1, Err e)
          end
      end
    else os_mkdir cwd name f.
Definition os_makedirs (cwd : place) (name : string) : M fs unit := makedirs (String.length name) cwd name.

(** spine_animation_editor.py:220-222 and 256-258 *)
Definition make_parent (cwd : place) (p : string) : M fs unit :=
  let base_dir := path_dirname p in
  fun f => if path_isdir cwd base_dir f then (f, Ok tt) else os_makedirs cwd base_dir f.

(** ** The calls *)
Section Calls.
  (** The current directory *)
  Variable cwd : place.

  (** [json.load(open(p))] *)
  Definition load_file (p : string) (f : fs) : res val :=
    let! text := read_file cwd p f in json_loads text.

  (** spine_animation_editor.py:59-64 *)
  Definition from_json_file (json_path : string) (f : fs) : res editor :=
    let! spine_json_data := load_file json_path f in mk_editor spine_json_data.

  (** spine_animation_editor.py:219-225.  [open] comes before to_json_data, which cannot raise. *)
  Definition to_json (output_json : string) (e : editor) : M fs unit :=
    do! _ := make_parent cwd output_json in
    write_file cwd output_json (json_dumps (Some 4%nat) (editor_json e)).

  (** spine_animation_editor.py:250-252: images_references as a Python value *)
  Definition image_json (i : imgref) : val :=
    VDict (("path", VStr (im_path i)) ::
           match im_scale i with Some s => [("scale", VFloat s)] | None => [] end).
  Definition images_json (e : editor) : val := VDict (dmap image_json (e_images e)).
  (** spine_animation_editor.py:255-261 *)
  Definition save_images_json (p : string) (e : editor) : M fs unit :=
    do! _ := make_parent cwd p in
    write_file cwd p (json_dumps None (images_json e)).

  (** deserializer/spine_nodes.py:123-133 *)
  Definition create_from_json_file (json_file : string) (f : fs) : res sgraph :=
    let! json_data := load_file json_file f in create_from_json_data json_data.
  (** deserializer/spine_nodes.py:139-173: the result as a Python value *)
  Definition graph_value (o : graph_json) : val :=
    VDict [("slots", VList (gj_slots o)); ("bones", VList (gj_bones o)); ("ik", VList (gj_ik o))].
  (** deserializer/spine_nodes.py:135-137 *)
  Definition graph_text (g : sgraph) : res (list ascii) :=
    let! o := graph_to_json g in Ok (json_dumps None (graph_value o)).
End Calls.
