(** Specification of UTF-8 (RFC 3629), and of the classes of characters. *)
From Verif Require Import PyBase PyNum UnicodeTables.
Local Open Scope N_scope.
Open Scope list_scope.

(** ** The bytes of a character *)
Definition scalar (n : N) : Prop := n < 55296 \/ 57344 <= n < 1114112.
Inductive bytes_of : N -> list ascii -> Prop :=
| bo_one : forall a, code a < 128 -> bytes_of (code a) [a]
| bo_two : forall a b x y, code a = 192 + x -> code b = 128 + y -> x < 32 -> y < 64 ->
    128 <= x * 64 + y -> bytes_of (x * 64 + y) [a; b]
| bo_three : forall a b c x y z, code a = 224 + x -> code b = 128 + y -> code c = 128 + z -> x < 16 -> y < 64 -> z < 64 ->
    2048 <= x * 4096 + y * 64 + z -> scalar (x * 4096 + y * 64 + z) -> bytes_of (x * 4096 + y * 64 + z) [a; b; c]
| bo_four : forall a b c d x y z w, code a = 240 + x -> code b = 128 + y -> code c = 128 + z -> code d = 128 + w ->
    x < 8 -> y < 64 -> z < 64 -> w < 64 -> 65536 <= x * 262144 + y * 4096 + z * 64 + w ->
    scalar (x * 262144 + y * 4096 + z * 64 + w) -> bytes_of (x * 262144 + y * 4096 + z * 64 + w) [a; b; c; d].
(** The characters a byte string stands for.  A byte at which no character begins is a lone
    surrogate. *)
Inductive stands_for : list ascii -> list N -> Prop :=
| sf_nil : stands_for [] []
| sf_char : forall n p r l, bytes_of n p -> stands_for r l -> stands_for (p ++ r) (n :: l)
| sf_byte : forall a r l, (forall n p q, bytes_of n p -> a :: r <> p ++ q) -> stands_for r l ->
    stands_for (a :: r) (56320 + code a :: l).
(** UTF-8 *)
Definition utf8 (b : list ascii) : Prop := exists l, Forall scalar l /\ stands_for b l.

(** ** Classes *)
Definition listed (n : N) (l : list (N * N)) : Prop := exists a b, In (a, b) l /\ a <= n <= b.
Definition decimal (n d : N) : Prop := exists z, In z decimal_zeros /\ n = z + d /\ d < 10.
(** [like n c]: for numbers and regular expressions, the character [n] counts as [c]. *)
Inductive like : N -> ascii -> Prop :=
| lk_ascii : forall c, code c < 128 -> like (code c) c
| lk_digit : forall n d c, decimal n d -> code c = 48 + d -> like n c
| lk_space : forall n c, listed n space_ranges -> code c = 160 -> like n c
| lk_word : forall n c, 128 <= n -> listed n word_ranges -> (forall d, ~ decimal n d) -> code c = 233 -> like n c
| lk_other : forall n c, 128 <= n -> ~ listed n word_ranges -> ~ listed n space_ranges -> code c = 215 -> like n c.
Definition reads_as (s : string) (l : list ascii) : Prop :=
  exists ns, stands_for (chars s) ns /\ Forall2 like ns l.
