(** The lexer of the text format: crates/wast/src/lexer.rs.

    Simplified: the source is the list of its characters (code points), and a
    position is what is left of the source, so that lengths are counted in
    characters rather than bytes; the position carried by an error is not
    modelled; a token's length is not limited to 32 bits (lexer.rs:349). *)
From Coq Require Import ZArith Lia List Bool String.
From Verif Require Import Base.Prelude Base.Utf8 Names.Kebab Names.Name.
Import ListNotations.
Open Scope Z_scope.

(** lexer.rs:165-228 ([LexError]); [Fuel]: a loop of the model ran out of fuel
    (it never does). *)
Inductive lexerr :=
| UnexpectedEof | InvalidUnicodeValue (n : Z) | InvalidStringEscape (c : Z) | InvalidStringElement (c : Z)
| ConfusingUnicode (c : Z) | InvalidHexDigit (c : Z) | Expected (wanted found : Z) | LoneUnderscore | NumberTooBig
| DanglingBlockComment | Unexpected (c : Z) | EmptyId | InvalidUtf8Id | Fuel.
Inductive lres (A : Type) := LOk (a : A) | LErr (e : lexerr).
Arguments LOk {A} a. Arguments LErr {A} e.
Definition lbind {A B} (x : lres A) (f : A -> lres B) : lres B := match x with LOk a => f a | LErr e => LErr e end.

(** lexer.rs:62-160, 231-236 ([TokenKind], [FloatKind], [IntegerKind], [SignToken]). *)
Inductive sign := Plus | Minus.
Inductive fkind :=
| FInf (negative : bool) | FNan (negative : bool) | FNanVal (negative has_underscores : bool)
| FNormal (has_underscores hex : bool).
Inductive tkind :=
| LineComment | BlockComment | Whitespace | LParen | RParen | TString | TId | TKeyword | TAnnotation | TReserved
| TInteger (has_underscores : bool) (sg : option sign) (hex : bool) | TFloat (k : fkind).

(** [char::is_ascii_hexdigit], [is_ascii_digit]; lexer.rs:1188-1194 ([to_hex]). *)
Definition is_hex (c : Z) : bool := in_range 48 57 c || in_range 97 102 c || in_range 65 70 c.
Definition is_dec (c : Z) : bool := in_range 48 57 c.
Definition to_hex (c : Z) : Z := if in_range 97 102 c then c - 97 + 10 else if in_range 65 70 c then c - 65 + 10 else c - 48.

(** lexer.rs:278-306 (the macro [idchars!]). *)
Definition idchar (c : Z) : bool :=
  in_range 48 57 c || in_range 65 90 c || in_range 97 122 c || existsb (Z.eqb c) (lit "!#$%&'*+-./:<=>?@\^_`|~").

(** lexer.rs:1248-1262 ([is_confusing_unicode]). *)
Definition confusing (c : Z) : bool :=
  existsb (Z.eqb c) [0x202a; 0x202b; 0x202d; 0x202e; 0x2066; 0x2067; 0x2068; 0x206c; 0x2069].

(** lexer.rs:909-932 ([hexdigit], [must_char], [must_eat_char]). *)
Definition must_char (it : str) : lres (Z * str) := match it with [] => LErr UnexpectedEof | c :: it => LOk (c, it) end.
Definition must_eat_char (wanted : Z) (it : str) : lres str :=
  lbind (must_char it) (fun '(found, it) => if wanted =? found then LOk it else LErr (Expected wanted found)).
Definition hexdigit (it : str) : lres (Z * str) :=
  lbind (must_char it) (fun '(c, it) => if is_hex c then LOk (to_hex c, it) else LErr (InvalidHexDigit c)).

(** lexer.rs:880-905 ([hexnum]): [u32] arithmetic, checked. *)
Definition u32_checked (n : Z) : option Z := if n <? 2 ^ 32 then Some n else None.
Fixpoint hexnum_loop (n : Z) (last_underscore : bool) (it : str) : lres (Z * str) :=
  match it with
  | [] => if last_underscore then LErr LoneUnderscore else LOk (n, [])
  | c :: it' =>
      if c =? 95 then hexnum_loop n true it'
      else if negb (is_hex c) then if last_underscore then LErr LoneUnderscore else LOk (n, it)
      else match u32_checked (n * 16) with
           | None => LErr NumberTooBig
           | Some m => match u32_checked (m + to_hex c) with
                       | None => LErr NumberTooBig
                       | Some m => hexnum_loop m false it'
                       end
           end
  end.
Definition hexnum (it : str) : lres (Z * str) := lbind (hexdigit it) (fun '(n, it) => hexnum_loop n false it).

(** lexer.rs:783-848 ([parse_str]).  [orig]: all that was left at the start;
    the state is [None] for [State::Start]. *)
Definition consumed (orig it : str) : list Z := utf8_encode (firstn (List.length orig - List.length it - 1) orig).
Fixpoint str_loop (fuel : nat) (allow : bool) (orig : str) (st : option (list Z)) (it : str) : lres (list Z * str) :=
  match fuel with
  | O => LErr Fuel
  | S fuel =>
      match it with
      | [] => LErr UnexpectedEof
      | c :: it =>
          if c =? 34 then LOk (match st with None => consumed orig it | Some b => b end, it)
          else if c =? 92 then
            let buf := match st with Some b => b | None => consumed orig it end in
            match it with
            | [] => LErr UnexpectedEof
            | e :: it =>
                if e =? 34 then str_loop fuel allow orig (Some (buf ++ [34])) it
                else if e =? 39 then str_loop fuel allow orig (Some (buf ++ [39])) it
                else if e =? 116 then str_loop fuel allow orig (Some (buf ++ [9])) it
                else if e =? 110 then str_loop fuel allow orig (Some (buf ++ [10])) it
                else if e =? 114 then str_loop fuel allow orig (Some (buf ++ [13])) it
                else if e =? 92 then str_loop fuel allow orig (Some (buf ++ [92])) it
                else if e =? 117 then
                  lbind (must_eat_char 123 it) (fun it =>
                  lbind (hexnum it) (fun '(n, it) =>
                  if is_scalar n then
                    lbind (must_eat_char 125 it) (fun it =>
                    str_loop fuel allow orig (Some (buf ++ utf8_encode_char n)) it)
                  else LErr (InvalidUnicodeValue n)))
                else if is_hex e then
                  lbind (hexdigit it) (fun '(c2, it) =>
                  str_loop fuel allow orig (Some (buf ++ [to_hex e * 16 + c2])) it)
                else LErr (InvalidStringEscape e)
            end
          else if (c <? 32) || (c =? 127) then LErr (InvalidStringElement c)
          else if negb allow && confusing c then LErr (ConfusingUnicode c)
          else str_loop fuel allow orig (match st with None => None | Some b => Some (b ++ utf8_encode_char c) end) it
      end
  end.
Definition parse_str (allow : bool) (it : str) : lres (list Z * str) := str_loop (S (List.length it)) allow it None it.

(** lexer.rs:572-619 ([parse_reserved]): what kind, what was eaten, what is left. *)
Inductive rkind := RString | RIdchars | RIdString | RAnnotationString | RReserved.
Fixpoint reserved_loop (fuel : nat) (allow : bool) (idchars strings : nat) (it : str) : lres (nat * nat * str) :=
  match fuel with
  | O => LErr Fuel
  | S fuel =>
      match it with
      | [] => LOk (idchars, strings, it)
      | c :: it' =>
          if idchar c then reserved_loop fuel allow (S idchars) strings it'
          else if c =? 34 then
            lbind (parse_str allow it') (fun '(_, it) => reserved_loop fuel allow idchars (S strings) it)
          else LOk (idchars, strings, it)
      end
  end.
Definition eaten (s rest : str) : str := firstn (List.length s - List.length rest) s.
Definition starts (c : Z) (s : str) : bool := match s with x :: _ => x =? c | [] => false end.
Definition parse_reserved (allow : bool) (s : str) : lres (rkind * str * str) :=
  lbind (reserved_loop (S (List.length s)) allow 0 0 s) (fun '(i, n, rest) =>
  let ret := eaten s rest in
  let kind :=
    match i, n with
    | O, 1%nat => RString
    | _, O => RIdchars
    | 1%nat, 1%nat => if starts 36 ret then RIdString else if starts 64 ret then RAnnotationString else RReserved
    | _, _ => RReserved
    end in
  LOk (kind, ret, rest)).

(** lexer.rs:722-746 ([skip_underscores]). *)
Fixpoint us_loop (good : Z -> bool) (last has : bool) (it : str) : option (bool * str) :=
  match it with
  | [] => if last then None else Some (has, [])
  | c :: it' =>
      if (c =? 95) && negb last then us_loop good true true it'
      else if negb (good c) then if last then None else Some (has, it)
      else us_loop good false has it'
  end.
Definition skip_underscores (good : Z -> bool) (it : str) : option (bool * str) :=
  match it with
  | [] => None
  | c :: it => if negb (good c) then None else us_loop good false false it
  end.

Fixpoint seqb (a b : str) : bool :=
  match a, b with [], [] => true | x :: a, y :: b => (x =? y) && seqb a b | _, _ => false end.
Definition split_sign (src : str) : option sign * str :=
  match strip_prefix (lit "+") src with
  | Some s => (Some Plus, s)
  | None => match strip_prefix (lit "-") src with Some s => (Some Minus, s) | None => (None, src) end
  end.
Definition is_minus (s : option sign) : bool := match s with Some Minus => true | _ => false end.

(** lexer.rs:692-709: the optional exponent, and nothing after it. *)
Definition exponent_part (hex has : bool) (it : str) : option tkind :=
  match it with
  | [] => Some (TFloat (FNormal has hex))
  | c :: it =>
      if (if hex then (c =? 112) || (c =? 80) else (c =? 101) || (c =? 69)) then
        let it := match it with x :: it' => if (x =? 45) || (x =? 43) then it' else it | [] => it end in
        match skip_underscores is_dec it with
        | Some (u, []) => Some (TFloat (FNormal (if u then true else has) hex))
        | _ => None
        end
      else None
  end.
(** lexer.rs:621-748 ([classify_number]). *)
Definition classify_number (src : str) : option tkind :=
  let '(sg, num) := split_sign src in
  let negative := is_minus sg in
  if seqb num (lit "inf") then Some (TFloat (FInf negative))
  else if seqb num (lit "nan") then Some (TFloat (FNan negative))
  else match strip_prefix (lit "nan:0x") num with
  | Some stripped =>
      match skip_underscores is_hex stripped with
      | Some (u, []) => Some (TFloat (FNanVal negative u))
      | _ => None
      end
  | None =>
      let '(it, hex) := match strip_prefix (lit "0x") num with Some s => (s, true) | None => (num, false) end in
      let test_valid := if hex : bool then is_hex else is_dec in
      match skip_underscores test_valid it with
      | None => None
      | Some (u, []) => Some (TInteger u sg hex)
      | Some (u, c :: it) =>
          if c =? 46 then
            match it with
            | x :: _ => if test_valid x then
                          match skip_underscores test_valid it with
                          | None => None
                          | Some (v, it) => exponent_part hex (if v then true else u) it
                          end
                        else exponent_part hex u it
            | [] => exponent_part hex u it
            end
          else exponent_part hex u (c :: it)
      end
  end.

(** lexer.rs:752-780 ([check_confusing_comment]); the search for the byte 0xe2 is
    only a faster way to find these characters. *)
Definition check_comment (allow : bool) (comment : str) : lres unit :=
  if allow then LOk tt
  else match List.find confusing comment with Some c => LErr (ConfusingUnicode c) | None => LOk tt end.

(** lexer.rs:383-409: the rest of a block comment, after [(;]. *)
Fixpoint block_loop (level : Z) (it : str) : option str :=
  match it with
  | [] => None
  | c :: it' =>
      if c =? 40 then
        match it' with
        | d :: it'' => if d =? 59 then block_loop (level + 1) it'' else block_loop level it'
        | [] => block_loop level it'
        end
      else if c =? 59 then
        match it' with
        | d :: it'' => if d =? 41 then (if level - 1 =? 0 then Some it'' else block_loop (level - 1) it'') else block_loop level it'
        | [] => block_loop level it'
        end
      else block_loop level it'
  end.

(** lexer.rs:470-510 ([skip_ws]). *)
Definition is_ws (c : Z) : bool := (c =? 32) || (c =? 10) || (c =? 13) || (c =? 9).
Fixpoint skip_while (f : Z -> bool) (it : str) : str := match it with c :: it' => if f c then skip_while f it' else it | [] => [] end.

(** lexer.rs:354-468 ([parse_kind]) and 341-352 ([parse]): the kind of the next
    token, its text and what is left. *)
Definition parse_token (allow : bool) (s : str) : lres (option (tkind * str * str)) :=
  match s with
  | [] => LOk None
  | c :: s1 =>
      let tok k rest := LOk (Some (k, eaten s rest, rest)) in
      if c =? 40 then
        match s1 with
        | d :: s2 =>
            if d =? 59 then
              match block_loop 1 s2 with
              | Some rest => lbind (check_comment allow (eaten s rest)) (fun _ => tok BlockComment rest)
              | None => LErr DanglingBlockComment
              end
            else tok LParen s1
        | [] => tok LParen s1
        end
      else if c =? 41 then tok RParen s1
      else if is_ws c then tok Whitespace (skip_while is_ws s)
      else if idchar c || (c =? 34) then
        lbind (parse_reserved allow s) (fun '(kind, src, rest) =>
        match kind with
        | RString => tok TString rest
        | RIdchars =>
            match classify_number src with
            | Some k => tok k rest
            | None => if c =? 36 then tok TId rest else if c =? 64 then tok TAnnotation rest
                      else if in_range 97 122 c then tok TKeyword rest else tok TReserved rest
            end
        | RIdString => tok TId rest
        | RAnnotationString => tok TAnnotation rest
        | RReserved => tok TReserved rest
        end)
      else if c =? 59 then
        match s1 with
        | d :: _ =>
            if d =? 59 then
              let rest := skip_while (fun c => negb ((c =? 10) || (c =? 13))) s in
              lbind (check_comment allow (eaten s rest)) (fun _ => tok LineComment rest)
            else tok TReserved s1
        | [] => tok TReserved s1
        end
      else if existsb (Z.eqb c) (lit ",[]{}") then tok TReserved s1
      else LErr (Unexpected c)
  end.

(** lexer.rs:938-940 ([Lexer::iter]), collected: the tokens with their texts. *)
Fixpoint all_tokens (fuel : nat) (allow : bool) (s : str) : lres (list (tkind * str)) :=
  match fuel with
  | O => LErr Fuel
  | S fuel =>
      lbind (parse_token allow s) (fun o =>
      match o with
      | None => LOk []
      | Some (k, t, rest) => lbind (all_tokens fuel allow rest) (fun l => LOk ((k, t) :: l))
      end)
  end.
Definition tokens (allow : bool) (s : str) : lres (list (tkind * str)) := all_tokens (S (List.length s)) allow s.

(** lexer.rs:1040-1045 ([Token::string]). *)
Definition token_string (src : str) : lres (list Z) :=
  match src with [] => LErr UnexpectedEof | _ :: it => lbind (parse_str true it) (fun '(b, _) => LOk b) end.

(** lexer.rs:862-878 ([parse_name]) and 985-995 ([Token::id]): the bytes of the name. *)
Definition parse_name (it : str) : lres (list Z) :=
  match it with
  | 34 :: it => lbind (parse_str true it) (fun '(b, _) => if utf8_valid b then LOk b else LErr InvalidUtf8Id)
  | _ => LOk (utf8_encode it)
  end.
Definition token_id (src : str) : lres (list Z) :=
  lbind (parse_name (tl src)) (fun id => match id with [] => LErr EmptyId | _ => LOk id end).

(** [str::replace("_", "")] and [str::replace("0x", "")]. *)
Definition drop_underscores (s : str) : str := filter (fun c => negb (c =? 95)) s.
Fixpoint drop_0x (s : str) : str :=
  match s with
  | [] => []
  | x :: s' => match s' with
               | y :: s'' => if (x =? 48) && (y =? 120) then drop_0x s'' else x :: drop_0x s'
               | [] => x :: drop_0x s'
               end
  end.
Definition strip_or (p s : str) : str := match strip_prefix p s with Some r => r | None => s end.

(** lexer.rs:1143-1162 ([Token::integer]), 1177-1179 ([Integer::val]): the digits
    and the base. *)
Definition token_integer (has_underscores : bool) (sg : option sign) (hex : bool) (src : str) : str * Z :=
  let val := match sg with Some Plus => strip_or (lit "+") src | _ => src end in
  let val := if has_underscores then drop_underscores val else val in
  let val := if hex then drop_0x val else val in
  (val, if hex then 16 else 10).

(** lexer.rs:240-266 ([Float]). *)
Inductive floatv :=
| VInf (negative : bool)
| VNan (val : option str) (negative : bool)
| VVal (hex : bool) (integral : str) (fractional exponent : option str).

(** lexer.rs:1074-1082: the exponent, after [p]/[P] or [e]/[E]. *)
Definition split_exp (hex : bool) (s : str) : str * option str :=
  let lo := if hex : bool then 112 else 101 in
  let up := if hex : bool then 80 else 69 in
  match find lo s with
  | Some (a, b) => (a, Some (tl b))
  | None => match find up s with Some (a, b) => (a, Some (tl b)) | None => (s, None) end
  end.
(** lexer.rs:1052-1137 ([Token::float]). *)
Definition token_float (k : fkind) (src : str) : floatv :=
  match k with
  | FInf n => VInf n
  | FNan n => VNan None n
  | FNanVal n u =>
      let src := if starts 110 src then src else tl src in
      let val := strip_or (lit "nan:0x") src in
      VNan (Some (if u then drop_underscores val else val)) n
  | FNormal u hex =>
      let '(integral, fractional, exponent) :=
        match find 46 src with
        | Some (integral, b) => let '(f, e) := split_exp hex (tl b) in (integral, Some f, e)
        | None => let '(i, e) := split_exp hex src in (i, None, e)
        end in
      let integral := strip_or (lit "+") integral in
      let fractional := match fractional with Some [] => None | f => f end in
      let exponent := option_map (strip_or (lit "+")) exponent in
      let us s := if u : bool then drop_underscores s else s in
      let integral := us integral in
      VVal hex (if hex then drop_0x integral else integral) (option_map us fractional) (option_map us exponent)
  end.
