(** Integers and floats read from tokens: crates/wast/src/token.rs:302-690. *)
From Coq Require Import ZArith Lia List Bool String.
From Verif Require Import Base.Prelude Names.Kebab Names.Name Text.Lexer.
Import ListNotations.
Open Scope Z_scope.

(** [$t::from_str_radix] (standard library) of the integer type whose values are
    [lo..=hi], signed when [lo < 0]; an error is [None]. *)
Definition to_digit (base c : Z) : option Z :=
  if is_hex c then if to_hex c <? base then Some (to_hex c) else None else None.
Fixpoint radix_loop (lo hi base : Z) (positive : bool) (n : Z) (s : str) : option Z :=
  match s with
  | [] => Some n
  | c :: s =>
      let m := n * base in
      if (m <? lo) || (hi <? m) then None
      else match to_digit base c with
           | None => None
           | Some d =>
               let m := if positive then m + d else m - d in
               if (m <? lo) || (hi <? m) then None else radix_loop lo hi base positive m s
           end
  end.
Definition from_str_radix (lo hi : Z) (s : str) (base : Z) : option Z :=
  match s with
  | [] => None
  | c :: t =>
      if ((c =? 43) || (c =? 45)) && (match t with [] => true | _ => false end) then None
      else if c =? 43 then radix_loop lo hi base true 0 t
      else if (c =? 45) && (lo <? 0) then radix_loop lo hi base false 0 t
      else radix_loop lo hi base true 0 s
  end.
Definition u_from (n : Z) : str -> Z -> option Z := from_str_radix 0 (2 ^ n - 1).
Definition i_from (n : Z) : str -> Z -> option Z := from_str_radix (- 2 ^ (n - 1)) (2 ^ (n - 1) - 1).

(** token.rs:302-347 (the macro [integers!]): [u8 u16 u32 u64] are paired with
    themselves, [i8 i16 i32 i64] with the unsigned type of the same width.
    The token kind and its text are those of the next token. *)
Definition int_of (signed : bool) (n : Z) (s : str) (base : Z) : option Z :=
  match (if signed then i_from n s base else u_from n s base) with
  | Some v => Some v
  | None => match u_from n s base with Some i => Some (if signed then wraps n i else i) | None => None end
  end.
Definition parse_int (signed : bool) (n : Z) (k : tkind) (src : str) : option Z :=
  match k with
  | TInteger u sg hex => let '(s, base) := token_integer u sg hex src in int_of signed n s base
  | _ => None
  end.

(** token.rs:383-690 (the macro [float!]): width [w], [$exp_bits] = [e].
    Base-10 floats are read by Rust's [str::parse], a parameter. *)
Section Float.
Variable dec : str -> option Z.
Variables w e : Z.
Definition exp_offset : Z := w - 1 - e.
Definition bias : Z := 2 ^ (e - 1) - 1.
Definition msb : Z := 2 ^ (w - 1).
Definition signif_mask : Z := 2 ^ exp_offset - 1.
Definition is_infinite (bits : Z) : bool := Z.land bits (msb - 1) =? Z.shiftl (2 ^ e - 1) exp_offset.
Definition b2z (b : bool) : Z := if b then 1 else 0.
Definition i32_ok (x : Z) : option Z := if (- 2 ^ 31 <=? x) && (x <? 2 ^ 31) then Some x else None.

(** [str::trim_start_matches] with a character. *)
Definition trim_start (c : Z) : str -> str := skip_while (Z.eqb c).

(** token.rs:571-592: the loop over the digits after the first. *)
Record hstate := HState { hs_exp : Z; hs_pos : Z; hs_sig : Z; hs_extra : bool }.
Definition digit_step (st : hstate) (d : Z * bool) : hstate :=
  let '(digit, in_fractional) := d in
  let ex := if in_fractional : bool then hs_exp st else wraps 32 (hs_exp st + 4) in
  let pos := if hs_pos st >? -4 then hs_pos st - 4 else hs_pos st in
  if pos >=? 0 then HState ex pos (Z.lor (hs_sig st) (wrapu w (Z.shiftl digit pos))) (hs_extra st)
  else if pos >? -4 then
    HState ex pos (Z.lor (hs_sig st) (Z.shiftr digit (4 - pos)))
           (negb (Z.land digit (2 ^ w - 1 - Z.shiftr (2 ^ w - 1) (4 - pos)) =? 0))
  else HState ex pos (hs_sig st) (if negb (digit =? 0) then true else hs_extra st).

(** token.rs:609-639: exponent field, significand field, what is discarded. *)
Definition encode (exponent significand : Z) : Z * Z * Z :=
  if exponent <=? - bias then
    let shift := exp_offset + exponent + bias in
    if shift =? 0 then (0, 0, significand)
    else if (shift <? 0) || (shift >=? w) then (0, 0, 0)
    else (0, Z.shiftr significand (w - shift), wrapu w (Z.shiftl significand shift))
  else if exponent <=? bias then
    (Z.shiftl (exponent + bias) exp_offset,
     Z.land (Z.shiftr significand (w - exp_offset - 1)) signif_mask,
     wrapu w (Z.shiftl significand (exp_offset + 1)))
  else (Z.shiftl (2 ^ e - 1) exp_offset, 0, 0).
(** token.rs:641-672: rounding, sign, no infinity. *)
Definition finish (is_negative : bool) (exponent significand : Z) (extra : bool) : option Z :=
  let '(ee, es, ds) := encode exponent significand in
  let bits := Z.lor ee es in
  let bits := bits + b2z (negb (Z.land ds msb =? 0) && (negb (Z.land ds (msb - 1) =? 0) || extra || negb (Z.land es 1 =? 0))) in
  let bits := if is_negative then Z.lor bits msb else bits in
  if is_infinite bits then None else Some bits.

(** token.rs:516-607: hexadecimal floats. *)
Definition hexfloat (integral0 : str) (fractional exponent_str : option str) : option Z :=
  let is_negative := starts 45 integral0 in
  let integral := trim_start 48 (trim_start 45 integral0) in
  let fractional := match fractional with Some f => f | None => [] end in
  let no_leading := trim_start 48 fractional in
  let frac := match integral with [] => no_leading | _ => fractional end in
  match map (fun c => (to_hex c, false)) integral ++ map (fun c => (to_hex c, true)) frac with
  | [] => Some (if is_negative then msb else 0)
  | (lead, _) :: digits =>
      let lz := 8 - 1 - Z.log2 lead - 4 in
      let exponent := match integral with
                      | [] => wraps 32 (- wraps 32 (zlen fractional - zlen no_leading + 1) + 1)
                      | _ => 1
                      end in
      let pos := w - (4 - lz) in
      match i32_ok (exponent * 4) with
      | None => None
      | Some x =>
          match i32_ok (x - (lz + 1)) with
          | None => None
          | Some exponent =>
              let st := fold_left digit_step digits (HState exponent pos (wrapu w (Z.shiftl lead pos)) false) in
              match (match exponent_str with Some s => i_from 32 s 10 | None => Some 0 end) with
              | None => None
              | Some x =>
                  match i32_ok (hs_exp st + x) with
                  | None => None
                  | Some exponent => finish is_negative exponent (hs_sig st) (hs_extra st)
                  end
              end
          end
      end
  end.

(** token.rs:429-515: infinities, NaNs, base-10 floats. *)
Definition strto (v : floatv) : option Z :=
  match v with
  | VInf negative => Some (Z.lor (Z.shiftl (b2z negative) (w - 1)) (Z.shiftl (2 ^ e - 1) exp_offset))
  | VNan val negative =>
      match (match val with Some s => u_from w s 16 | None => Some (Z.shiftl 1 (exp_offset - 1)) end) with
      | None => None
      | Some signif =>
          if (signif =? 0) || negb (Z.land signif (2 ^ w - 1 - signif_mask) =? 0) then None
          else Some (Z.lor (Z.lor (Z.shiftl (b2z negative) (w - 1)) (Z.shiftl (2 ^ e - 1) exp_offset)) signif)
      end
  | VVal false integral fractional exponent =>
      match dec (integral ++ match fractional with Some f => 46 :: f | None => [] end
                          ++ match exponent with Some x => 101 :: x | None => [] end) with
      | Some bits => if is_infinite bits then None else Some bits
      | None => None
      end
  | VVal true integral fractional exponent => hexfloat integral fractional exponent
  end.
(** token.rs:397-425 ([F32::parse], [F64::parse]) of a token. *)
Definition parse_float (k : tkind) (src : str) : option Z :=
  match k with
  | TFloat f => strto (token_float f src)
  | TInteger u sg hex =>
      let '(s, base) := token_integer u sg hex src in strto (VVal (base =? 16) s None None)
  | _ => None
  end.
End Float.
