(** The integer writers of wasm-encoder, crates/wasm-encoder/src/lib.rs:130-198.

    The bytes come from the external crate [leb128fmt] ([encode_u32],
    [encode_s32], ...), whose source is not in /repo; what is modelled is the
    standard loop that crate implements: emit the low seven bits, shift, stop
    when nothing but sign remains.  The fuel is the number of bytes of the
    output array (5 or 10): running out is the [None] on which the callers'
    [.unwrap()] would panic. *)
From Verif.Base Require Import Prelude.

(** [leb128fmt::encode_u32] / [encode_u64] (called at lib.rs:137-142, 151-156). *)
Fixpoint enc_u (fuel : nat) (v : Z) : option (list Z) :=
  match fuel with
  | O => None
  | S k =>
      let b := Z.land v 0x7f in
      let v := Z.shiftr v 7 in
      if v =? 0 then Some [b]
      else match enc_u k v with
           | Some t => Some (Z.lor b 0x80 :: t)
           | None => None
           end
  end.

(** [leb128fmt::encode_s32] / [encode_s64] (called at lib.rs:144-149, 158-163). *)
Fixpoint enc_s (fuel : nat) (v : Z) : option (list Z) :=
  match fuel with
  | O => None
  | S k =>
      let b := Z.land v 0x7f in
      let v6 := Z.shiftr v 6 in
      if (v6 =? 0) || (v6 =? -1) then Some [b]
      else match enc_s k (Z.shiftr v 7) with
           | Some t => Some (Z.lor b 0x80 :: t)
           | None => None
           end
  end.

(** [Encode for u32/u64/i32/i64] (lib.rs:137-163): [None] is a panic of [unwrap]. *)
Definition encode_u32 (v : Z) : option (list Z) := enc_u 5 v.
Definition encode_u64 (v : Z) : option (list Z) := enc_u 10 v.
Definition encode_s32 (v : Z) : option (list Z) := enc_s 5 v.
Definition encode_s64 (v : Z) : option (list Z) := enc_s 10 v.

(** [Encode for usize] (lib.rs:130-135): panics above [u32::MAX]. *)
Definition encode_usize (v : Z) : option (list Z) :=
  if v <=? 2 ^ 32 - 1 then encode_u32 v else None.

(** [encoding_size] (lib.rs:193-196). *)
Definition encoding_size (v : Z) : option Z :=
  match encode_u32 v with Some bs => Some (zlen bs) | None => None end.

(** [encode_section] (lib.rs:198-202). *)
Definition encode_section (count : Z) (bytes : list Z) : option (list Z) :=
  match encoding_size count, encode_u32 count with
  | Some n, Some c =>
      match encode_usize (n + zlen bytes) with
      | Some sz => Some (sz ++ c ++ bytes)
      | None => None
      end
  | _, _ => None
  end.
