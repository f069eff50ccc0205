(** LEB128 integers exactly as in the WebAssembly core specification, section
    5.2.2 (Integers).  [uN n bs v] says that the byte string [bs] is an encoding
    of the unsigned integer [v] at width [n]; [sN n bs v] likewise for signed
    integers.  Nothing here refers to the model. *)
From Coq Require Import ZArith List.
Import ListNotations.
Open Scope Z_scope.

Inductive uN : Z -> list Z -> Z -> Prop :=
| uN_last n b : 0 <= b < 2 ^ 7 -> b < 2 ^ n -> uN n [b] b
| uN_more n b bs m :
    2 ^ 7 <= b < 2 ^ 8 -> 7 < n -> uN (n - 7) bs m ->
    uN n (b :: bs) (2 ^ 7 * m + (b - 2 ^ 7)).

Inductive sN : Z -> list Z -> Z -> Prop :=
| sN_pos n b : 0 <= b < 2 ^ 6 -> b < 2 ^ (n - 1) -> sN n [b] b
| sN_neg n b : 2 ^ 6 <= b < 2 ^ 7 -> 2 ^ 7 - 2 ^ (n - 1) <= b -> sN n [b] (b - 2 ^ 7)
| sN_more n b bs m :
    2 ^ 7 <= b < 2 ^ 8 -> 7 < n -> sN (n - 7) bs m ->
    sN n (b :: bs) (2 ^ 7 * m + (b - 2 ^ 7)).
