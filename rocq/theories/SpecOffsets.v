(** Specification notions for C108: the draw order that a list of (slot, offset) pairs gives
    for any integers, in the words of Python's list.insert and sorted. *)
From Coq Require Import Sorted.
From Verif Require Import PyBase SpecDraw.
Open Scope string_scope.

(** Where list.insert puts an element of a list of [n]: a negative index counts from the end,
    and the place is cut to the list. *)
Definition place (i : Z) (n : nat) (k : nat) : Prop :=
  ((0 <= i)%Z /\ (Z.of_nat k = i /\ k <= n \/ k = n /\ (Z.of_nat n < i)%Z)) \/
  ((i < 0)%Z /\ (Z.of_nat k = (Z.of_nat n + i)%Z \/ k = 0 /\ (Z.of_nat n + i < 0)%Z)).
Definition inserted (i : Z) (x : string) (l l' : list string) : Prop :=
  exists a b, l = (a ++ b)%list /\ l' = (a ++ x :: b)%list /\ place i (length l) (length a).
Inductive inserted_all : list move -> list string -> list string -> Prop :=
| ia_nil : forall l, inserted_all [] l l
| ia_cons : forall s z ts l l1 l2, inserted z s l l1 -> inserted_all ts l1 l2 -> inserted_all ((s, z) :: ts) l l2.

(** The offset that counts for a slot: the last one listed. *)
Definition counts (ms : list move) (s : string) (z : Z) : Prop :=
  exists a b, ms = (a ++ (s, z) :: b)%list /\ ~ In s (map fst b).

(** The places the listed slots go to, in the order of the places; slots with the same place
    in the order of the slots. *)
Definition before (names : list string) (a b : string) : Prop :=
  exists i j, nth_error names i = Some a /\ nth_error names j = Some b /\ i < j.
Definition targets (names : list string) (ms ts : list move) : Prop :=
  StronglySorted (fun a b => (snd a < snd b)%Z \/ snd a = snd b /\ before names (fst a) (fst b)) ts /\
  forall s t, In (s, t) ts <-> exists i z, nth_error names i = Some s /\ counts ms s z /\ t = (Z.of_nat i + z)%Z.

(** The draw order: the slots that are not listed, and the others inserted one after the
    other. *)
Definition drawn (names : list string) (ms : list move) (l : list string) : Prop :=
  exists ts, targets names ms ts /\ inserted_all ts (filter (unlisted ms) names) l.

(** The slots in the order in which they are first listed. *)
Fixpoint first_listed (l : list string) : list string :=
  match l with
  | [] => []
  | s :: l' => s :: filter (fun x => negb (String.eqb s x)) (first_listed l')
  end.
(** [l] is [all] without some of its elements. *)
Inductive sublist {A} : list A -> list A -> Prop :=
| sl_nil : sublist [] []
| sl_skip : forall x l l', sublist l l' -> sublist l (x :: l')
| sl_keep : forall x l l', sublist l l' -> sublist (x :: l) (x :: l').
