(** UTF-8 as checked by Rust's [str::from_utf8] (standard library, not in
    /repo): the table of well-formed byte sequences of the Unicode standard
    (table 3-7). *)
From Verif.Base Require Import Prelude.

Definition inr (lo hi b : Z) : bool := (lo <=? b) && (b <=? hi).
Definition cont (b : Z) : bool := inr 0x80 0xbf b.

(** Is this list of bytes well-formed UTF-8? *)
Fixpoint utf8_valid (l : list Z) : bool :=
  match l with
  | [] => true
  | b0 :: t =>
      if inr 0 0x7f b0 then utf8_valid t
      else if inr 0xc2 0xdf b0 then
        match t with b1 :: t => cont b1 && utf8_valid t | _ => false end
      else if inr 0xe0 0xef b0 then
        match t with
        | b1 :: b2 :: t =>
            (if b0 =? 0xe0 then inr 0xa0 0xbf b1
             else if b0 =? 0xed then inr 0x80 0x9f b1 else cont b1)
            && cont b2 && utf8_valid t
        | _ => false
        end
      else if inr 0xf0 0xf4 b0 then
        match t with
        | b1 :: b2 :: b3 :: t =>
            (if b0 =? 0xf0 then inr 0x90 0xbf b1
             else if b0 =? 0xf4 then inr 0x80 0x8f b1 else cont b1)
            && cont b2 && cont b3 && utf8_valid t
        | _ => false
        end
      else false
  end.

(** A Unicode scalar value (Rust [char]). *)
Definition is_scalar (c : Z) : bool := inr 0 0xd7ff c || inr 0xe000 0x10ffff c.

(** [char::encode_utf8]. *)
Definition utf8_encode_char (c : Z) : list Z :=
  if c <? 0x80 then [c]
  else if c <? 0x800 then [0xc0 + c / 64; 0x80 + c mod 64]
  else if c <? 0x10000 then [0xe0 + c / 4096; 0x80 + c / 64 mod 64; 0x80 + c mod 64]
  else [0xf0 + c / 262144; 0x80 + c / 4096 mod 64; 0x80 + c / 64 mod 64; 0x80 + c mod 64].

Fixpoint utf8_encode (cs : list Z) : list Z :=
  match cs with [] => [] | c :: t => utf8_encode_char c ++ utf8_encode t end.
