(** What inline data should give. *)
From Coq Require Import List ZArith.
Import ListNotations.
From Verif.Inldata Require Import Model.
Open Scope Z_scope.

(** The number in little-endian bytes. *)
Fixpoint from_le (b : list Z) : Z := match b with [] => 0 | x :: b => x + 256 * from_le b end.
(** The size in bytes of what is written. *)
Definition size_of (d : written) : Z := match d with Str b => Z.of_nat (length b) | Nums w vs => Z.of_nat w * Z.of_nat (length vs) end.
Fixpoint total (l : list written) : Z := match l with [] => 0 | d :: l => size_of d + total l end.
(** [len] bytes from [at]. *)
Definition slice (b : list Z) (at_ len : Z) : list Z := firstn (Z.to_nat len) (skipn (Z.to_nat at_) b).
(** The page size: 65536 if none is written. *)
Definition bytes_per_page (size : option Z) : Z := match size with Some s => s | None => 65536 end.
Definition power_of_two (s : Z) : Prop := exists k, 0 <= k /\ s = 2 ^ k.
