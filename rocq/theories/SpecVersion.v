(** Specification of versions: the order in which versions are released, and the
    number of dots of a string.  Independent of the model's comparison functions. *)
From Verif Require Import PyBase Version.

Definition release_lt (u v : version) : Prop :=
  (v_major u < v_major v)%Z \/
  (v_major u = v_major v /\ (v_minor u < v_minor v)%Z) \/
  (v_major u = v_major v /\ v_minor u = v_minor v /\ (v_patch u < v_patch v)%Z).
Definition release_le (u v : version) : Prop := release_lt u v \/ u = v.

Definition count_dots (s : string) : nat := count_occ ascii_dec (chars s) "."%char.
