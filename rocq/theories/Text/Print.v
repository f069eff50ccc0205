(** Strings, identifiers and floats as printed: crates/wasmprinter/src/lib.rs.

    Simplified: colours ([start_literal], [start_name], [reset_color]) write
    nothing, as with [PrintFmtWrite]; the comments which follow floats are not
    modelled: they begin with a space, and theorems quantify over what follows. *)
From Coq Require Import ZArith Lia List Bool String.
From Verif Require Import Base.Prelude Names.Kebab.
Import ListNotations.
Open Scope Z_scope.

(** Rust's [{:x}] and [{}] of an unsigned integer (standard library): the digits
    in base [b], no leading zero, lower case. *)
Definition digit_char (d : Z) : Z := if d <? 10 then 48 + d else 87 + d.
Fixpoint digits_loop (fuel : nat) (b n : Z) (acc : str) : str :=
  match fuel with
  | O => acc
  | S fuel => if n <? b then digit_char n :: acc else digits_loop fuel b (n / b) (digit_char (n mod b) :: acc)
  end.
Definition fmt_uint (b n : Z) : str := digits_loop (S (Z.to_nat (Z.log2 n))) b n [].
(** [{:+}] of a signed integer. *)
Definition fmt_plus (n : Z) : str := if n <? 0 then 45 :: fmt_uint 10 (- n) else 43 :: fmt_uint 10 n.
(** [{:02x}] of a byte. *)
Definition fmt_02x (n : Z) : str := [digit_char (n / 16); digit_char (n mod 16)].

(** lib.rs:1934-1943 ([print_str_contents]). *)
Definition print_char (v : Z) : str :=
  if ((0x20 <=? v) && (v <? 0x7f)) && negb (v =? 34) && negb (v =? 92) && (v <? 0xff) then [v]
  else lit "\u{" ++ fmt_uint 16 v ++ lit "}".
Definition print_str_contents (s : str) : str := flat_map print_char s.
(** lib.rs:1925-1932 ([print_str]). *)
Definition print_str (s : str) : str := 34 :: print_str_contents s ++ [34].

(** lib.rs:1946-1964 ([print_bytes], [hex_byte]). *)
Definition print_byte (b : Z) : str :=
  if (0x20 <=? b) && (b <? 0x7f) && negb (b =? 34) && negb (b =? 92) then [b] else 92 :: fmt_02x b.
Definition print_bytes (bs : list Z) : str := 34 :: flat_map print_byte bs ++ [34].

(** lib.rs:184-198 ([Naming], [NamingKind]). *)
Inductive nkind := DollarName | DollarQuotedName | SyntheticPrefix (prefix : str).
Definition naming : Type := nkind * str.
(** lib.rs:2385-2414 ([is_idchar]). *)
Definition print_idchar (c : Z) : bool :=
  in_range 48 57 c || in_range 97 122 c || in_range 65 90 c || existsb (Z.eqb c) (lit "!#$%&'*+-./:<=>?@\^_`|~").
(** [HashSet::insert] of a set of strings (standard library): a list of what was inserted. *)
Fixpoint mem (s : str) (l : list str) : bool :=
  match l with [] => false | x :: l => (if list_eq_dec Z.eq_dec s x then true else false) || mem s l end.
(** lib.rs:2343-2383 ([Naming::new]); [used]: [None] when shadowing is allowed. *)
Definition naming_new (name : str) (index : Z) (group : str) (used : option (list str)) : naming * option (list str) :=
  let kind := if existsb (fun c => negb (print_idchar c)) name then DollarQuotedName else DollarName in
  let synth := SyntheticPrefix (35 :: group ++ fmt_uint 10 index) in
  match name with
  | [] => ((synth, name), used)
  | c :: _ =>
      if c =? 35 then ((synth, name), used)
      else match used with
           | Some l => if mem name l then ((synth, name), used) else ((kind, name), Some (name :: l))
           | None => ((kind, name), used)
           end
  end.
(** lib.rs:2418-2438 ([write_identifier]). *)
Definition write_identifier (n : naming) : str :=
  match fst n with
  | DollarName => 36 :: snd n
  | DollarQuotedName => 36 :: 34 :: print_str_contents (snd n) ++ [34]
  | SyntheticPrefix p => 36 :: 34 :: p ++ 32 :: print_str_contents (snd n) ++ [34]
  end.
(** lib.rs:2494-2505 ([name_map]): the map afterwards, as a list of insertions,
    the latest first. *)
Fixpoint name_map_loop (group : str) (used : list str) (into : list (Z * naming)) (names : list (Z * str)) : list (Z * naming) :=
  match names with
  | [] => into
  | (i, s) :: names =>
      let '(n, u) := naming_new s i group (Some used) in
      name_map_loop group (match u with Some u => u | None => used end) ((i, n) :: into) names
  end.
Definition name_map (into : list (Z * naming)) (group : str) (names : list (Z * str)) : list (Z * naming) :=
  name_map_loop group [] into names.
Fixpoint lookup (i : Z) (m : list (Z * naming)) : option naming :=
  match m with [] => None | (j, n) :: m => if i =? j then Some n else lookup i m end.
(** lib.rs:1740-1749 ([_print_idx]); [desc] is the group (lib.rs:2473-2491). *)
Definition print_idx (name_unnamed : bool) (m : list (Z * naming)) (desc : str) (i : Z) : str :=
  match lookup i m with
  | Some n => write_identifier n
  | None => if name_unnamed then 36 :: 35 :: desc ++ fmt_uint 10 i else fmt_uint 10 i
  end.

(** lib.rs:2241-2335 ([print_float!]) with [int_width] = [w] and [$exp_bits] = [e]. *)
Definition wl (w x : Z) : Z := wrapu w x.
Definition sx (w x : Z) : Z := wraps w x.
(** lib.rs:2318-2321: the digits of the fraction, most significant first. *)
Fixpoint fraction_loop (fuel : nat) (w fraction : Z) : str :=
  match fuel with
  | O => []
  | S fuel => if fraction >? 0 then digit_char (Z.shiftr fraction (w - 4)) :: fraction_loop fuel w (wl w (Z.shiftl fraction 4)) else []
  end.
(** [leading_zeros] of a [w]-bit integer. *)
Definition leading_zeros (w x : Z) : Z := if x =? 0 then w else w - 1 - Z.log2 x.
Definition print_float (w e : Z) (bits0 : Z) : str :=
  let mw := w - 1 - e in
  let bias := 2 ^ (e - 1) - 1 in
  let max_exp := 2 ^ (e - 1) in
  let min_exp := - max_exp + 1 in
  let neg := negb (Z.shiftr bits0 (w - 1) =? 0) in
  let bits := if neg then Z.lxor bits0 (2 ^ (w - 1)) else bits0 in
  let minus := if neg then [45] else [] in
  let payload := Z.land bits (2 ^ mw - 1) in
  let ones := Z.shiftr bits mw =? 2 ^ e - 1 in
  if ones && (payload =? 0) then minus ++ lit "inf"
  else if ones then
    if payload =? 2 ^ (mw - 1) then minus ++ lit "nan" else minus ++ lit "nan:0x" ++ fmt_uint 16 payload
  else
    let exponent := sx w (Z.shiftr (sx w (Z.shiftl bits 1)) (mw + 1) - bias) in
    let exponent := Z.shiftr (sx w (Z.shiftl exponent (w - e))) (w - e) in
    let fraction := payload in
    minus ++ lit "0x" ++
    (if bits =? 0 then lit "0p+0"
     else
       lit "1" ++
       (if fraction >? 0 then
          let fraction := wl w (Z.shiftl fraction (w - mw)) in
          let '(fraction, exponent) :=
            if exponent =? min_exp then
              let leading := leading_zeros w fraction in
              (if leading <? w - 1 then wl w (Z.shiftl fraction (leading + 1)) else 0, exponent - leading)
            else (fraction, exponent) in
          lit "." ++ fraction_loop (Z.to_nat w) w fraction ++ lit "p" ++ fmt_plus exponent
        else lit "p" ++ fmt_plus exponent)).
