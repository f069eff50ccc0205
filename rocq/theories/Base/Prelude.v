(** Shared vocabulary of the model: results, machine integers, byte lists.

    Conventions used by every model file:
    - a byte or a machine integer is a [Z] holding its numeric value (two's
      complement value for signed types); every wrap is written explicitly with
      [wrapu]/[wraps];
    - [usize] is 64 bits wide;
    - Rust [Result] is [res], and an operation that may panic returns
      [Panic] in place of a value where the model tracks panics. *)
From Coq Require Export ZArith List Bool String Lia.
From Coq Require Export ZifyBool ZifyNat.
Export ListNotations.
Open Scope Z_scope.

(** Reduction of an integer to an unsigned [n]-bit value (Rust [as u8/u32/u64]). *)
Definition wrapu (n x : Z) : Z := x mod 2 ^ n.

(** Reduction of an integer to a signed [n]-bit value (Rust [as i8/i32/i64]). *)
Definition wraps (n x : Z) : Z :=
  let y := x mod 2 ^ n in if y <? 2 ^ (n - 1) then y else y - 2 ^ n.

Definition is_byte (b : Z) : Prop := 0 <= b < 256.
Definition bytes_ok (l : list Z) : Prop := Forall is_byte l.

Definition in_u (n x : Z) : Prop := 0 <= x < 2 ^ n.
Definition in_s (n x : Z) : Prop := - 2 ^ (n - 1) <= x < 2 ^ (n - 1).

Definition zlen {A} (l : list A) : Z := Z.of_nat (List.length l).

Lemma zlen_nil {A} : zlen (@nil A) = 0. Proof. reflexivity. Qed.
Lemma zlen_cons {A} (a : A) l : zlen (a :: l) = 1 + zlen l.
Proof. unfold zlen; cbn [List.length]; lia. Qed.
Lemma zlen_app {A} (l1 l2 : list A) : zlen (l1 ++ l2) = zlen l1 + zlen l2.
Proof. unfold zlen; rewrite app_length; lia. Qed.
Lemma zlen_nonneg {A} (l : list A) : 0 <= zlen l.
Proof. unfold zlen; lia. Qed.

(** The error value of crates/wasmparser/src/error.rs:14-20 ([ErrorInner]): a
    message, the offset in the original binary, and the hint telling how many
    more bytes are needed when the input ended too early.  [ErrorKind]
    (error.rs:22-27) only refines the message and is not modelled. *)
Record error := mkError { e_msg : string; e_off : Z; e_hint : option Z }.

(** Rust's [Result<T, Error>] (error.rs:30). *)
Inductive res (A : Type) : Type :=
| Ok : A -> res A
| Err : error -> res A.
Arguments Ok {A} _.
Arguments Err {A} _.

Definition is_ok {A} (r : res A) : bool := match r with Ok _ => true | Err _ => false end.

(** [Error::new] (error.rs:59-61). *)
Definition err_new (msg : string) (off : Z) : error := mkError msg off None.
(** [Error::eof] (error.rs:84-88). *)
Definition err_eof (off hint : Z) : error :=
  mkError "unexpected end-of-file" off (Some hint).

Definition rbind {A B} (x : res A) (f : A -> res B) : res B :=
  match x with Ok a => f a | Err e => Err e end.

(* Keep arithmetic folded under [simpl]/[injection]. *)
#[global] Arguments Z.mul : simpl never.
#[global] Arguments Z.add : simpl never.
#[global] Arguments Z.sub : simpl never.
#[global] Arguments Z.opp : simpl never.
#[global] Arguments Z.pow : simpl never.
#[global] Arguments Z.div : simpl never.
#[global] Arguments Z.modulo : simpl never.
#[global] Arguments Z.land : simpl never.
#[global] Arguments Z.lor : simpl never.
#[global] Arguments Z.shiftl : simpl never.
#[global] Arguments Z.shiftr : simpl never.
#[global] Arguments zlen : simpl never.
