(** What the literals of the text format denote, independently of how the lexer
    reads them. *)
From Coq Require Import ZArith Lia List Bool String.
From Verif Require Import Base.Prelude Base.Utf8 Names.Kebab.
Import ListNotations.
Open Scope Z_scope.

(** The value of a digit: its place among these, or among those in capitals. *)
Fixpoint index_of (c : Z) (s : str) (i : Z) : option Z :=
  match s with [] => None | x :: s => if c =? x then Some i else index_of c s (i + 1) end.
Definition digit_value (c : Z) : option Z :=
  match index_of c (lit "0123456789abcdef") 0 with
  | Some v => Some v
  | None => match index_of c (lit "ABCDEF") 10 with Some v => Some v | None => None end
  end.
Definition is_digit (base c : Z) : Prop := exists v, digit_value c = Some v /\ v < base.

(** [num ::= digit ('_'? digit)*]. *)
Inductive number (base : Z) : str -> Prop :=
| N_one d : is_digit base d -> number base [d]
| N_more s d : number base s -> is_digit base d -> number base (s ++ [d])
| N_under s d : number base s -> is_digit base d -> number base (s ++ [95; d]).
(** The number written by digits, whatever underscores are among them. *)
Definition magnitude (base : Z) (s : str) : Z :=
  fold_left (fun n c => match digit_value c with Some v => n * base + v | None => n end) s 0.

(** An integer literal: sign, base, digits; its text; the integer it denotes. *)
Inductive isign := INone | IPlus | IMinus.
Record int_lit := IntLit { il_sign : isign; il_hex : bool; il_digits : str }.
Definition il_base (l : int_lit) : Z := if il_hex l then 16 else 10.
Definition il_wf (l : int_lit) : Prop := number (il_base l) (il_digits l).
Definition sign_text (s : isign) : str := match s with INone => [] | IPlus => lit "+" | IMinus => lit "-" end.
Definition il_text (l : int_lit) : str :=
  sign_text (il_sign l) ++ (if il_hex l then lit "0x" else []) ++ il_digits l.
Definition il_value (l : int_lit) : Z :=
  let m := magnitude (il_base l) (il_digits l) in match il_sign l with IMinus => - m | _ => m end.

(** A string literal's elements, each with the bytes it stands for. *)
Inductive hexnumber : str -> Z -> Prop :=
| H_one d v : digit_value d = Some v -> hexnumber [d] v
| H_more s n d v : hexnumber s n -> digit_value d = Some v -> hexnumber (s ++ [d]) (n * 16 + v)
| H_under s n k d v : hexnumber s n -> digit_value d = Some v -> hexnumber (s ++ repeat 95 k ++ [d]) (n * 16 + v).
Inductive elem (plain : Z -> Prop) : str -> list Z -> Prop :=
| E_plain c : 32 <= c -> c <> 34 -> c <> 92 -> c <> 127 -> plain c -> elem plain [c] (utf8_encode_char c)
| E_quote : elem plain (lit "\""") [34]
| E_tick : elem plain (lit "\'") [39]
| E_tab : elem plain (lit "\t") [9]
| E_newline : elem plain (lit "\n") [10]
| E_return : elem plain (lit "\r") [13]
| E_backslash : elem plain (lit "\\") [92]
| E_byte h l vh vl : digit_value h = Some vh -> digit_value l = Some vl -> elem plain [92; h; l] [vh * 16 + vl]
| E_unicode t n : hexnumber t n -> n < 2 ^ 32 -> is_scalar n = true -> elem plain (lit "\u{" ++ t ++ lit "}") (utf8_encode_char n).
Inductive contents (plain : Z -> Prop) : str -> list Z -> Prop :=
| C_nil : contents plain [] []
| C_cons t b ts bs : elem plain t b -> contents plain ts bs -> contents plain (t ++ ts) (b ++ bs).

(** What may follow a token made of identifier characters and strings: the end,
    or a character which is neither. *)
Definition word_char (c : Z) : Prop :=
  48 <= c <= 57 \/ 65 <= c <= 90 \/ 97 <= c <= 122 \/ In c (lit "!#$%&'*+-./:<=>?@\^_`|~").
Definition delimited (rest : str) : Prop :=
  match rest with [] => True | c :: _ => ~ word_char c /\ c <> 34 end.

(** IEEE 754 binary interchange formats of width [w] with [e] exponent bits. The
    value of the finite pattern [b] (no sign), in units of the smallest positive
    one; for the pattern of infinity it is what the next larger finite number
    would be, if there were one. *)
Definition fmt_ok (w e : Z) : Prop := (w = 32 /\ e = 8) \/ (w = 64 /\ e = 11).
Definition mant (w e : Z) : Z := w - 1 - e.
Definition inf_bits (w e : Z) : Z := (2 ^ e - 1) * 2 ^ mant w e.
Definition units (w e b : Z) : Z :=
  let be := b / 2 ^ mant w e in
  let m := b mod 2 ^ mant w e in
  if be =? 0 then m else (2 ^ mant w e + m) * 2 ^ (be - 1).
(** The smallest positive number is [2 ^ - scale]. *)
Definition scale (w e : Z) : Z := 2 ^ (e - 1) - 2 + mant w e.

(** [n / d], in these units, rounds to the pattern [b]: it is a nearest one, and
    the even one if there are two. *)
Definition rounds_to (w e n d b : Z) : Prop :=
  0 <= b <= inf_bits w e /\
  forall b', 0 <= b' <= inf_bits w e -> b' <> b ->
    Z.abs (n - units w e b * d) < Z.abs (n - units w e b' * d) \/
    (Z.abs (n - units w e b * d) = Z.abs (n - units w e b' * d) /\ Z.even b = true).

(** A hexadecimal float literal: sign, integral digits, fraction ([None] without
    the point), exponent ([None] without; capital [P] or not, sign, decimal
    digits); its text; its value is [hl_num * 2 ^ hl_exp2]. *)
Record hex_lit := HexLit { hl_sign : isign; hl_int : str; hl_frac : option str; hl_exp : option (bool * isign * str) }.
Definition hl_wf (l : hex_lit) : Prop :=
  number 16 (hl_int l) /\
  (match hl_frac l with None | Some [] => True | Some f => number 16 f end) /\
  (match hl_exp l with None => True | Some (_, _, x) => number 10 x end).
Definition hl_text (l : hex_lit) : str :=
  sign_text (hl_sign l) ++ lit "0x" ++ hl_int l ++
  (match hl_frac l with None => [] | Some f => lit "." ++ f end) ++
  (match hl_exp l with None => [] | Some (up, s, x) => (if up : bool then lit "P" else lit "p") ++ sign_text s ++ x end).
Definition hl_fdigits (l : hex_lit) : str := match hl_frac l with None => [] | Some f => f end.
Definition no_underscores (s : str) : str := filter (fun c => negb (c =? 95)) s.
Definition hl_num (l : hex_lit) : Z := magnitude 16 (hl_int l ++ hl_fdigits l).
Definition hl_exp10 (l : hex_lit) : Z :=
  match hl_exp l with None => 0 | Some (_, s, x) => match s with IMinus => - magnitude 10 x | _ => magnitude 10 x end end.
Definition hl_exp2 (l : hex_lit) : Z := hl_exp10 l - 4 * zlen (no_underscores (hl_fdigits l)).
(** In units of the smallest positive number of a format: numerator, denominator. *)
Definition hl_units_num (w e : Z) (l : hex_lit) : Z := hl_num l * 2 ^ Z.max 0 (hl_exp2 l + scale w e).
Definition hl_units_den (w e : Z) (l : hex_lit) : Z := 2 ^ Z.max 0 (- (hl_exp2 l + scale w e)).
(** The digits from the first that is not zero on. *)
Definition digit_values (s : str) : list Z := flat_map (fun c => match digit_value c with Some v => [v] | None => [] end) s.
Fixpoint drop_zeros (l : list Z) : list Z := match l with d :: l' => if d =? 0 then drop_zeros l' else l | [] => [] end.
Definition hl_digits (l : hex_lit) : list Z := drop_zeros (digit_values (hl_int l ++ hl_fdigits l)).
(** The first is at least 8, or the one at place [w / 4] (from 0) is zero or
    missing, or one after that is not zero. *)
Definition counted (w : Z) (l : hex_lit) : Prop :=
  match hl_digits l with
  | [] => True
  | d :: _ => 8 <= d \/ nth (Z.to_nat (w / 4)) (hl_digits l) 0 = 0 \/ Exists (fun x => x <> 0) (skipn (Z.to_nat (w / 4 + 1)) (hl_digits l))
  end.
