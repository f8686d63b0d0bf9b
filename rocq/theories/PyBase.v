(** Python run-time notions used by the model: exceptions as values, insertion
    ordered dictionaries, frozensets, and the string methods the code calls.
    Nothing here models a particular file of /repo; each definition says which
    Python construct it stands for. *)
From Coq Require Export String Ascii Bool ZArith NArith Arith Lia List.
From Coq Require Export DecimalString.
Export ListNotations.
Set Implicit Arguments.

(** ** Exceptions as values *)
Inductive os_error : Set := FileNotFound | FileExists | NotADirectory | IsADirectory.
Inductive exn : Type :=
| EValue (why : string)                 (* ValueError *)
| EType (why : string)                  (* TypeError *)
| EKey (key : string)                   (* KeyError *)
| EIndex                                (* IndexError *)
| EAttr (why : string)                  (* AttributeError *)
| EOverflow                             (* OverflowError (int too large for float) *)
| EUnsupported (attrs : list string)    (* SpineParsingException, data_types/base_type.py:48-54 *)
| ERequired (attrs : list string)       (* SpineParsingException, data_types/base_type.py:56-61 *)
| EEditor (why : string)                (* SpineJsonEditorError *)
| ENotImplemented                       (* NotImplementedError *)
| EOs (e : os_error)                    (* the subclass of OSError, from calls on files *)
| EDiverges                             (* the Python code would loop for ever (fuel exhausted) *)
| EUnmodelled (why : string).           (* an input whose treatment is outside the model *)

Inductive res (A : Type) : Type :=
| Ok (a : A)
| Err (e : exn).
Arguments Ok {A} a.
Arguments Err {A} e.

Definition bind {A B} (m : res A) (f : A -> res B) : res B :=
  match m with Ok a => f a | Err e => Err e end.

Notation "'let!' x ':=' m 'in' k" := (bind m (fun x => k))
  (at level 200, x pattern, m at level 100, k at level 200, right associativity).

Definition is_ok {A} (m : res A) : bool :=
  match m with Ok _ => true | Err _ => false end.

(** [for x in l: r.append(f(x))], stopping at the first exception. *)
Fixpoint mapM {A B} (f : A -> res B) (l : list A) : res (list B) :=
  match l with
  | [] => Ok []
  | x :: l' => let! y := f x in let! ys := mapM f l' in Ok (y :: ys)
  end.

(** [for x in l: s = f(s, x)], stopping at the first exception. *)
Fixpoint foldM {S A} (f : S -> A -> res S) (s : S) (l : list A) : res S :=
  match l with
  | [] => Ok s
  | x :: l' => let! s' := f s x in foldM f s' l'
  end.

(** A loop body that updates its object in place and may raise: the elements
    before the failing one are already updated, the failing one is in the state
    its body left it in, later ones are untouched. *)
Fixpoint mapM_inplace {A} (f : A -> A * res unit) (l : list A) : list A * res unit :=
  match l with
  | [] => ([], Ok tt)
  | x :: l' =>
      let '(x', r) := f x in
      match r with
      | Err e => (x' :: l', Err e)
      | Ok _ => let '(l'', r') := mapM_inplace f l' in (x' :: l'', r')
      end
  end.

(** State and exception: an exception keeps the state reached so far. *)
Definition M (S A : Type) : Type := S -> S * res A.

Definition mret {S A} (a : A) : M S A := fun s => (s, Ok a).
Definition mraise {S A} (e : exn) : M S A := fun s => (s, Err e).
Definition mlift {S A} (r : res A) : M S A := fun s => (s, r).
Definition mget {S} : M S S := fun s => (s, Ok s).
Definition mput {S} (s' : S) : M S unit := fun _ => (s', Ok tt).
Definition mbind {S A B} (m : M S A) (f : A -> M S B) : M S B :=
  fun s => let '(s', r) := m s in
           match r with Ok a => f a s' | Err e => (s', Err e) end.

Notation "'do!' x ':=' m 'in' k" := (mbind m (fun x => k))
  (at level 200, x pattern, m at level 100, k at level 200, right associativity).

Fixpoint mforeach {S A B} (f : A -> M S B) (l : list A) : M S (list B) :=
  match l with
  | [] => mret []
  | x :: l' => do! y := f x in do! ys := mforeach f l' in mret (y :: ys)
  end.

(** ** Strings: a Python str is a [string], its UTF-8 encoding (Unicode.v).  What follows is
    the same for a str and its encoding: the separators and texts searched are ASCII. *)
Definition seqb (a b : string) : bool := String.eqb a b.
Definition smem (x : string) (l : list string) : bool := existsb (String.eqb x) l.

Definition chars (s : string) : list ascii := list_ascii_of_string s.
Definition unchars (l : list ascii) : string := string_of_list_ascii l.

Definition code (c : ascii) : N := N_of_ascii c.

(** [str(n)] for a natural number. *)
Definition dec (n : N) : string := NilEmpty.string_of_uint (N.to_uint n).
(** [str(z)] for an int. *)
Definition dec_Z (z : Z) : string :=
  match z with
  | Zneg p => String "-" (dec (Npos p))
  | _ => dec (Z.to_N z)
  end.

(** [s.split(c)] for a one-character separator. *)
Fixpoint split_on (c : ascii) (l : list ascii) : list (list ascii) :=
  match l with
  | [] => [[]]
  | x :: l' =>
      if Ascii.eqb x c then [] :: split_on c l'
      else match split_on c l' with
           | [] => [[x]]                       (* impossible: split_on is never empty *)
           | w :: ws => (x :: w) :: ws
           end
  end.

(** Is [p] a prefix of [l]; if so the remainder. *)
Fixpoint strip_prefix (p l : list ascii) : option (list ascii) :=
  match p, l with
  | [], _ => Some l
  | _ :: _, [] => None
  | a :: p', b :: l' => if Ascii.eqb a b then strip_prefix p' l' else None
  end.

(** [s.replace(old, "")] for a non-empty [old]: delete the left-most
    non-overlapping occurrences.  [fuel] bounds the number of scanning steps;
    the length of the string suffices. *)
Fixpoint remove_all_fuel (fuel : nat) (old l : list ascii) : list ascii :=
  match fuel with
  | O => l
  | S fuel' =>
      match l with
      | [] => []
      | x :: l' =>
          match strip_prefix old l with
          | Some rest => remove_all_fuel fuel' old rest
          | None => x :: remove_all_fuel fuel' old l'
          end
      end
  end.
Definition str_remove_all (old s : string) : string :=
  unchars (remove_all_fuel (String.length s) (chars old) (chars s)).

(** ** Dictionaries with string keys, in insertion order. *)
Definition dict (A : Type) : Type := list (string * A).

Section Dict.
  Context {A : Type}.

  (** [d.get(k)] *)
  Fixpoint dget (k : string) (d : dict A) : option A :=
    match d with
    | [] => None
    | (k', v) :: d' => if String.eqb k k' then Some v else dget k d'
    end.

  (** [k in d] *)
  Definition dmem (k : string) (d : dict A) : bool :=
    match dget k d with Some _ => true | None => false end.

  (** [d[k]] *)
  Definition dget_err (k : string) (d : dict A) : res A :=
    match dget k d with Some v => Ok v | None => Err (EKey k) end.

  (** [d[k] = v]: an existing key keeps its position. *)
  Fixpoint dset (k : string) (v : A) (d : dict A) : dict A :=
    match d with
    | [] => [(k, v)]
    | (k', v') :: d' => if String.eqb k k' then (k', v) :: d' else (k', v') :: dset k v d'
    end.

  (** [del d[k]] for a present key. *)
  Definition ddel (k : string) (d : dict A) : dict A :=
    filter (fun kv => negb (String.eqb k (fst kv))) d.

  (** [d.keys()] *)
  Definition dkeys (d : dict A) : list string := map fst d.
  Definition dvals (d : dict A) : list A := map snd d.
End Dict.

Definition dmap {A B} (f : A -> B) (d : dict A) : dict B :=
  map (fun kv => (fst kv, f (snd kv))) d.

(** {k: f(v) for k, v in d.items()} with an f that may raise. *)
Definition dmapM {A B} (f : A -> res B) (d : dict A) : res (dict B) :=
  mapM (fun kv => let! v := f (snd kv) in Ok (fst kv, v)) d.

(** In-place update of every value of a dictionary. *)
Definition dmapM_inplace {A} (f : A -> A * res unit) (d : dict A) : dict A * res unit :=
  mapM_inplace (fun kv => let '(v, r) := f (snd kv) in ((fst kv, v), r)) d.

(** ** frozenset of strings: a list without repetition.  Python fixes no iteration
    order for sets; every place where the code iterates one takes the order from a
    parameter of the model. *)
Definition set_of (l : list string) : list string := nodup string_dec l.
Definition set_diff (a b : list string) : list string := filter (fun x => negb (smem x b)) a.
Definition set_union (a b : list string) : list string := set_of (a ++ b).

(** ** Option helpers *)
Definition opt_eqb (a b : option string) : bool :=
  match a, b with
  | Some x, Some y => String.eqb x y
  | None, None => true
  | _, _ => false
  end.

(** [a or b or ...] on str-or-None: the empty string is falsy. *)
Definition truthy_str (a : option string) : bool :=
  match a with Some s => negb (String.eqb s "") | None => false end.
Definition py_or (a b : option string) : option string := if truthy_str a then a else b.
