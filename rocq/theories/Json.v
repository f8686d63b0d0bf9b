(** JSON values as [json.load] produces them, Python truthiness, [==], [*] and
    iteration on them.  Dictionaries have string keys and keep insertion order. *)
From Verif Require Import PyBase PyNum Unicode Repr.
From Coq Require Import SpecFloat.
Open Scope string_scope.

Inductive val : Type :=
| VNone
| VBool (b : bool)
| VInt (z : Z)
| VFloat (f : float64)
| VStr (s : string)
| VList (l : list val)
| VDict (d : list (string * val)).

(** Induction over nested values. *)
Section val_ind_strong.
  Variable P : val -> Prop.
  Hypothesis HNone : P VNone.
  Hypothesis HBool : forall b, P (VBool b).
  Hypothesis HInt : forall z, P (VInt z).
  Hypothesis HFloat : forall f, P (VFloat f).
  Hypothesis HStr : forall s, P (VStr s).
  Hypothesis HList : forall l, Forall P l -> P (VList l).
  Hypothesis HDict : forall d, Forall (fun kv => P (snd kv)) d -> P (VDict d).
  Fixpoint val_ind' (v : val) : P v :=
    match v with
    | VNone => HNone
    | VBool b => HBool b
    | VInt z => HInt z
    | VFloat f => HFloat f
    | VStr s => HStr s
    | VList l =>
        HList l ((fix go (l : list val) : Forall P l :=
                  match l with
                  | [] => Forall_nil P
                  | x :: l' => Forall_cons x (val_ind' x) (go l')
                  end) l)
    | VDict d =>
        HDict d ((fix go (d : list (string * val)) : Forall (fun kv => P (snd kv)) d :=
                  match d with
                  | [] => Forall_nil _
                  | (k, x) :: d' => Forall_cons (k, x) (val_ind' x) (go d')
                  end) d)
    end.
End val_ind_strong.

(** bool(v) *)
Definition truthy (v : val) : bool :=
  match v with
  | VNone => false
  | VBool b => b
  | VInt z => negb (Z.eqb z 0)
  | VFloat f => match f with S754_zero _ => false | _ => true end
  | VStr s => negb (seqb s "")
  | VList l => match l with [] => false | _ => true end
  | VDict d => match d with [] => false | _ => true end
  end.

(** A number (bool is a subclass of int), as int or float. *)
Inductive num := NInt (z : Z) | NFloat (f : float64).
Definition as_num (v : val) : option num :=
  match v with
  | VBool b => Some (NInt (if b then 1 else 0)%Z)
  | VInt z => Some (NInt z)
  | VFloat f => Some (NFloat f)
  | _ => None
  end.
Definition num_eqb (a b : num) : bool :=
  match a, b with
  | NInt x, NInt y => Z.eqb x y
  | NInt x, NFloat y => zfeqb x y
  | NFloat x, NInt y => zfeqb y x
  | NFloat x, NFloat y => feqb x y
  end.

(** [a == b] *)
Fixpoint py_eq (a b : val) {struct a} : bool :=
  match a, b with
  | VNone, VNone => true
  | VStr x, VStr y => seqb x y
  | VList x, VList y =>
      (fix go (x y : list val) : bool :=
         match x, y with
         | [], [] => true
         | a' :: x', b' :: y' => py_eq a' b' && go x' y'
         | _, _ => false
         end) x y
  | VDict x, VDict y =>
      Nat.eqb (length x) (length y) &&
      (fix go (x : list (string * val)) : bool :=
         match x with
         | [] => true
         | (k, a') :: x' =>
             match dget k y with
             | Some b' => py_eq a' b'
             | None => false
             end && go x'
         end) x
  | _, _ =>
      match as_num a, as_num b with
      | Some x, Some y => num_eqb x y
      | _, _ => false
      end
  end.

(** [a * n] for a sequence and an int, which must fit a machine word; a negative one counts as 0.
    Memory is unlimited. *)
Fixpoint repeated {A} (n : nat) (l : list A) : list A :=
  match n with O => [] | S n' => (l ++ repeated n' l)%list end.
Definition times {A} (z : Z) (l : list A) : res (list A) :=
  if ((- 2 ^ 63 <=? z) && (z <? 2 ^ 63))%Z then Ok (repeated (Z.to_nat z) l) else Err EOverflow.
(** [a * b] *)
Definition py_mul (a b : val) : res val :=
  match as_num a, as_num b with
  | Some (NInt x), Some (NInt y) => Ok (VInt (x * y))
  | Some (NInt x), Some (NFloat y) => let! fx := float_of_Z x in Ok (VFloat (fmul fx y))
  | Some (NFloat x), Some (NInt y) => let! fy := float_of_Z y in Ok (VFloat (fmul x fy))
  | Some (NFloat x), Some (NFloat y) => Ok (VFloat (fmul x y))
  | _, _ =>
      match a, b, as_num a, as_num b with
      | VStr s, _, _, Some (NInt z) | _, VStr s, Some (NInt z), _ =>
          let! l := times z (chars s) in Ok (VStr (unchars l))
      | VList l, _, _, Some (NInt z) | _, VList l, Some (NInt z), _ =>
          let! l' := times z l in Ok (VList l')
      | _, _, _, _ => Err (EType "unsupported operand type(s) for *")
      end
  end.

(** [for x in v]: lists, dict keys, characters of a string. *)
Definition py_iter (v : val) : res (list val) :=
  match v with
  | VList l => Ok l
  | VDict d => Ok (map (fun kv => VStr (fst kv)) d)
  | VStr s => Ok (map VStr (each_char s))
  | _ => Err (EType "object is not iterable")
  end.

(** The object as a dictionary, for [v.get(..)] / [v.items()]. *)
Definition as_dict (v : val) : res (dict val) :=
  match v with
  | VDict d => Ok d
  | _ => Err (EAttr "object has no attribute 'get'")
  end.

(** [l[x]] for a list [l] *)
Definition py_nth (l : list val) (x : val) : res val :=
  match as_num x with
  | Some (NInt i) =>
      let n := Z.of_nat (length l) in
      let j := if (i <? 0)%Z then (i + n)%Z else i in
      if (0 <=? j)%Z then match nth_error l (Z.to_nat j) with Some y => Ok y | None => Err EIndex end
      else Err EIndex
  | _ => Err (EType "list indices must be integers")
  end.

(** [v[k]] with a string key. *)
Definition py_item (v : val) (k : string) : res val :=
  match v with
  | VDict d => dget_err k d
  | _ => Err (EType "indices must be integers")
  end.

(** [repr(v)] *)
Fixpoint py_repr (v : val) : list ascii :=
  match v with
  | VNone => chars "None"
  | VBool true => chars "True"
  | VBool false => chars "False"
  | VInt z => chars (dec_Z z)
  | VFloat f => repr_float f
  | VStr s => repr_string s
  | VList [] => ["["; "]"]%char
  | VList (x :: l) => ("["%char :: py_repr x ++ flat_map (fun y => ","%char :: " "%char :: py_repr y) l ++ ["]"%char])%list
  | VDict [] => ["{"; "}"]%char
  | VDict ((k, x) :: d) =>
      ("{"%char :: repr_string k ++ ":"%char :: " "%char :: py_repr x ++
       flat_map (fun ky => ","%char :: " "%char :: repr_string (fst ky) ++ ":"%char :: " "%char :: py_repr (snd ky)) d ++
       ["}"%char])%list
  end.
(** [str(v)], ["{}".format(v)] *)
Definition py_str (v : val) : string :=
  match v with
  | VStr s => s
  | _ => unchars (py_repr v)
  end.

Definition val_str (v : val) : option string := match v with VStr s => Some s | _ => None end.
Definition opt_val (o : option string) : val := match o with Some s => VStr s | None => VNone end.
