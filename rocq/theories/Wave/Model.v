(** WAVE values as text: crates/wasm-wave/src/{writer,lex,parser,ast,strings}.rs and value/mod.rs.

    Simplified: a node keeps the text it was read from instead of its span (the
    text is what is used; spans only place errors), and only leaves keep it; an
    error is its kind; a value is read and written with its type and does not
    carry it, so the checks of [make_list] .. [make_flags] that a part has the
    type it was just read with are left out.  The lexer, which the logos macros
    generate from regular expressions, is written out by hand: longest match of
    each expression.  Strings are lists of code points. *)
From Coq Require Import ZArith Lia List Bool String Arith.
From Verif Require Import Base.Prelude Names.Kebab Text.Lexer Text.Numbers Text.Print.
Import ListNotations.
Open Scope Z_scope.

(** wasm/ty.rs, value/ty.rs:12-28. *)
Inductive ty :=
| TBool | TInt (signed : bool) (bits : Z) | TFloat (bits : Z) | TChar | TString
| TList (t : ty) | TRecord (fields : list (str * ty)) | TTuple (ts : list ty)
| TVariant (cases : list (str * option ty)) | TEnum (cases : list str)
| TOption (t : ty) | TResult (ok err : option ty) | TFlags (names : list str).
(** value/mod.rs:43-66; a float is its bits. *)
Inductive value :=
| VBool (b : bool) | VInt (z : Z) | VFloat (bits : Z) | VChar (c : Z) | VString (s : str)
| VList (vs : list value) | VRecord (vs : list value) | VTuple (vs : list value)
| VVariant (case : nat) (payload : option value) | VEnum (case : nat)
| VOption (v : option value) | VResult (ok : bool) (payload : option value) | VFlags (flags : list nat).

(** parser.rs: [ParserErrorKind]. *)
Inductive kind :=
| InvalidToken | UnexpectedEnd | UnexpectedToken | EmptyTuple | DuplicateField | DuplicateFlag | NestingTooDeep
| InvalidType | InvalidValue | InvalidEscape | MultipleChars | InvalidMultilineString | WasmValueError | TrailingCharacters.
(** [Fuel]: the model's loop did not end. *)
Inductive pres (A : Type) := Good (a : A) | Fail (k : kind) | Fuel.
Arguments Good {A} a. Arguments Fail {A} k. Arguments Fuel {A}.
Definition bind {A B} (x : pres A) (f : A -> pres B) : pres B := match x with Good a => f a | Fail k => Fail k | Fuel => Fuel end.
Notation "'do' p <- e ; f" := (bind e (fun p => f)) (at level 200, p pattern, e at level 100, f at level 200).

Definition same (a b : str) : bool := if list_eq_dec Z.eq_dec a b then true else false.
Fixpoint mapm {A B} (f : A -> pres B) (l : list A) : pres (list B) :=
  match l with [] => Good [] | x :: l => do y <- f x; do ys <- mapm f l; Good (y :: ys) end.

(** ** Lexing: lex.rs:10-87. *)
Inductive token := BraceOpen | BraceClose | ParenOpen | ParenClose | BracketOpen | BracketClose | Colon | Comma
| Number | LabelOrKeyword | Char | String | MultilineString.
Definition token_eqb (a b : token) : bool :=
  match a, b with
  | BraceOpen, BraceOpen | BraceClose, BraceClose | ParenOpen, ParenOpen | ParenClose, ParenClose
  | BracketOpen, BracketOpen | BracketClose, BracketClose | Colon, Colon | Comma, Comma | Number, Number
  | LabelOrKeyword, LabelOrKeyword | Char, Char | String, String | MultilineString, MultilineString => true
  | _, _ => false
  end.
Inductive lexed := End | Bad | Tok (t : token) (slice rest : str).
Fixpoint take_while (p : Z -> bool) (s : str) : str * str :=
  match s with
  | [] => ([], [])
  | c :: t => if p c then let '(a, b) := take_while p t in (c :: a, b) else ([], s)
  end.
(** lex.rs:13-14: white space and comments. *)
Definition is_ws (c : Z) : bool := (c =? 32) || (c =? 9) || (c =? 10) || (c =? 13).
Fixpoint skip (comment : bool) (s : str) : str :=
  match s with
  | [] => []
  | c :: t =>
      if comment then skip (negb (c =? 10)) t
      else if is_ws c then skip false t
      else if c =? 47 then match t with d :: t' => if d =? 47 then skip true t' else s | [] => s end
      else s
  end.
(** lex.rs:53-55. *)
Definition lex_digits (s : str) : option (str * str) :=
  match take_while dg s with ([], _) => None | r => Some r end.
Definition lex_int (s : str) : option (str * str) :=
  match s with
  | c :: t => if c =? 48 then Some ([c], t) else lex_digits s
  | [] => None
  end.
Definition lex_frac (s : str) : str * str :=
  match s with
  | c :: t => if c =? 46 then match lex_digits t with Some (d, r) => (c :: d, r) | None => ([], s) end else ([], s)
  | [] => ([], s)
  end.
Definition lex_sign (s : str) : str * str :=
  match s with c :: t => if (c =? 45) || (c =? 43) then ([c], t) else ([], s) | [] => ([], s) end.
Definition lex_exp (s : str) : str * str :=
  match s with
  | c :: t =>
      if (c =? 101) || (c =? 69) then
        let '(g, t) := lex_sign t in
        match lex_digits t with Some (d, r) => (c :: g ++ d, r) | None => ([], s) end
      else ([], s)
  | [] => ([], s)
  end.
Definition lex_unsigned (s : str) : option (str * str) :=
  match lex_int s with
  | None => None
  | Some (i, r) => let '(f, r) := lex_frac r in let '(e, r) := lex_exp r in Some (i ++ f ++ e, r)
  end.
Definition lex_number (s : str) : option (str * str) :=
  match s with
  | c :: t =>
      if c =? 45 then
        match lex_unsigned t with
        | Some (n, r) => Some (c :: n, r)
        | None =>
            match t with
            | 105 :: 110 :: 102 :: r => Some (lit "-inf", r)
            | _ => None
            end
        end
      else lex_unsigned s
  | [] => None
  end.
(** lex.rs:15-16 and 58-59. *)
Definition lower_digit (c : Z) : bool := lc c || dg c.
Definition upper_digit (c : Z) : bool := uc c || dg c.
Definition lex_word (s : str) : str * str :=
  let '(a, ra) := take_while lower_digit s in
  let '(b, rb) := take_while upper_digit s in
  if Nat.ltb (List.length a) (List.length b) then (b, rb) else (a, ra).
Fixpoint lex_words (fuel : nat) (s : str) : str * str :=
  match fuel, s with
  | S fuel, c :: t =>
      if c =? 45 then
        match lex_word t with
        | ([], _) => ([], s)
        | (w, r) => let '(ws, r) := lex_words fuel r in (c :: w ++ ws, r)
        end
      else ([], s)
  | _, _ => ([], s)
  end.
Definition lex_name (s : str) : option (str * str) :=
  match s with
  | [] => None
  | c :: _ =>
      if lc c then let '(a, r) := take_while lower_digit s in let '(b, r) := lex_words (List.length r) r in Some (a ++ b, r)
      else if uc c then let '(a, r) := take_while upper_digit s in let '(b, r) := lex_words (List.length r) r in Some (a ++ b, r)
      else None
  end.
Definition lex_label (s : str) : option (str * str) :=
  match s with
  | c :: t => if c =? 37 then option_map (fun p => (c :: fst p, snd p)) (lex_name t) else lex_name s
  | [] => None
  end.
(** lex.rs:17. *)
Definition lex_escape (s : str) : option (str * str) :=
  match s with
  | b :: c :: t =>
      if negb (b =? 92) then None else
      if existsb (Z.eqb c) [39; 34; 116; 110; 114; 92] then Some ([b; c], t) else
      if c =? 117 then
        match t with
        | o :: t =>
            if o =? 123 then
              match take_while is_hex t with
              | (h, z :: r) => if (z =? 125) && (1 <=? zlen h) && (zlen h <=? 6) then Some (b :: c :: o :: h ++ [z], r) else None
              | _ => None
              end
            else None
        | [] => None
        end
      else None
  | _ => None
  end.
(** lex.rs:62-63 and 81-88 ([validate_char]). *)
Definition lex_char (s : str) : option (str * str) :=
  match s with
  | c :: _ =>
      if c =? 92 then
        match lex_escape s with
        | Some (e, q :: r) => if q =? 39 then Some (39 :: e ++ [q], r) else None
        | _ => None
        end
      else
        match take_while (fun c => negb ((c =? 92) || (c =? 39) || (c =? 10))) s with
        | (a, q :: r) => if (q =? 39) && (zlen a =? 1) then Some (39 :: a ++ [q], r) else None
        | _ => None
        end
  | [] => None
  end.
(** lex.rs:66-67. *)
Fixpoint lex_string (fuel : nat) (s : str) : option (str * str) :=
  match fuel, s with
  | S fuel, c :: t =>
      if c =? 34 then Some ([c], t)
      else if c =? 92 then
        match lex_escape s with
        | Some (e, r) => option_map (fun p => (e ++ fst p, snd p)) (lex_string fuel r)
        | None => None
        end
      else if c =? 10 then None
      else option_map (fun p => (c :: fst p, snd p)) (lex_string fuel t)
  | _, _ => None
  end.
(** lex.rs:70-71 and 90-97 ([lex_multiline_string]). *)
Definition triple (s : str) : option str :=
  match s with a :: b :: c :: t => if (a =? 34) && (b =? 34) && (c =? 34) then Some t else None | _ => None end.
Fixpoint find_triple (s : str) : option (str * str) :=
  match triple s with
  | Some t => Some ([34; 34; 34], t)
  | None => match s with c :: t => option_map (fun p => (c :: fst p, snd p)) (find_triple t) | [] => None end
  end.
Definition as_token (t : token) (r : option (str * str)) : lexed :=
  match r with Some (a, b) => Tok t a b | None => Bad end.
Definition lex (src : str) : lexed :=
  match skip false src with
  | [] => End
  | c :: t =>
      let s := c :: t in
      if c =? 123 then Tok BraceOpen [c] t else if c =? 125 then Tok BraceClose [c] t
      else if c =? 40 then Tok ParenOpen [c] t else if c =? 41 then Tok ParenClose [c] t
      else if c =? 91 then Tok BracketOpen [c] t else if c =? 93 then Tok BracketClose [c] t
      else if c =? 58 then Tok Colon [c] t else if c =? 44 then Tok Comma [c] t
      else if dg c || (c =? 45) then as_token Number (lex_number s)
      else if lc c || uc c || (c =? 37) then as_token LabelOrKeyword (lex_label s)
      else if c =? 39 then as_token Char (lex_char t)
      else if c =? 34 then
        match triple s with
        | Some r => as_token MultilineString (option_map (fun p => ([34; 34; 34] ++ fst p, snd p)) (find_triple r))
        | None => as_token String (option_map (fun p => (c :: fst p, snd p)) (lex_string (List.length t) t))
        end
      else Bad
  end.
(** lex.rs:99-131. *)
Inductive keyword := KTrue | KFalse | KSome | KNone | KOk | KErr | KInf | KNan.
Definition decode (s : str) : option keyword :=
  if same s (lit "true") then Some KTrue else if same s (lit "false") then Some KFalse
  else if same s (lit "some") then Some KSome else if same s (lit "none") then Some KNone
  else if same s (lit "ok") then Some KOk else if same s (lit "err") then Some KErr
  else if same s (lit "inf") then Some KInf else if same s (lit "nan") then Some KNan else None.

(** ** Parsing: parser.rs:20-310. *)
(** ast.rs:395-447. *)
Inductive ntype := BoolTrue | BoolFalse | NNumber | NChar | NString | NMultilineString | NTuple | NList | NRecord
| NLabel | NVariantWithPayload | NOptionSome | NOptionNone | NResultOk | NResultErr | NFlags.
(** ast.rs:20-26. *)
Inductive node := Node (t : ntype) (slice : str) (children : list node).
Definition leaf (t : ntype) (slice : str) : node := Node t slice [].
Definition MAX_DEPTH : nat := 100.

(** parser.rs:236-254, 268-282: the token, its text and the rest. *)
Definition advance (src : str) : pres (token * str * str) :=
  match lex src with
  | Tok t slice rest => Good (t, slice, rest)
  | Bad => Fail InvalidToken
  | End => Fail UnexpectedEnd
  end.
Definition next_is (t : token) (src : str) : bool :=
  match lex src with Tok t' _ _ => token_eqb t' t | _ => false end.
Definition expect (t t' : token) : pres unit := if token_eqb t t' then Good tt else Fail UnexpectedToken.
(** A parser of a nested node, and the rest of the source. *)
Definition nodep := str -> pres (node * str).

(** parser.rs:284-307. *)
Fixpoint comma_loop (fuel : nat) (pn : nodep) (end_token : token) (src : str) : pres (list node * str) :=
  match fuel with
  | O => Fuel
  | S fuel =>
      do (n, src) <- pn src;
      do (t, _, src) <- advance src;
      if token_eqb t Comma then
        if next_is end_token src then do (_, _, src) <- advance src; Good ([n], src)
        else do (ns, src) <- comma_loop fuel pn end_token src; Good (n :: ns, src)
      else do _ <- expect t end_token; Good ([n], src)
  end.
Definition parse_comma_separated_nodes (pn : nodep) (end_token : token) (src : str) : pres (list node * str) :=
  if next_is end_token src then do (_, _, src) <- advance src; Good ([], src)
  else comma_loop (S (List.length src)) pn end_token src.
(** parser.rs:107-121. *)
Definition parse_tuple (pn : nodep) (src : str) : pres (node * str) :=
  do (children, src) <- parse_comma_separated_nodes pn ParenClose src;
  match children with [] => Fail EmptyTuple | _ => Good (Node NTuple [] children, src) end.
Definition parse_list (pn : nodep) (src : str) : pres (node * str) :=
  do (children, src) <- parse_comma_separated_nodes pn BracketClose src; Good (Node NList [] children, src).
(** [trim_start_matches('%')]. *)
Fixpoint trim_percent (s : str) : str := match s with c :: t => if c =? 37 then trim_percent t else s | [] => [] end.
Definition mem (s : str) (l : list str) : bool := existsb (same s) l.
(** parser.rs:148-183; the token in hand is [t], its text [slice]. *)
Fixpoint finish_record (fuel : nat) (pn : nodep) (t : token) (slice src : str) (seen : list str) : pres (list node * str) :=
  match fuel with
  | O => Fuel
  | S fuel =>
      do _ <- expect t LabelOrKeyword;
      let field := trim_percent slice in
      if mem field seen then Fail DuplicateField else
      do (c, _, src) <- advance src;
      do _ <- expect c Colon;
      do (n, src) <- pn src;
      do (t, s, src) <- advance src;
      do (t, s, src) <- (if token_eqb t Comma then advance src else Good (t, s, src));
      if token_eqb t BraceClose then Good ([leaf NLabel slice; n], src)
      else do (ns, src) <- finish_record fuel pn t s src (field :: seen); Good (leaf NLabel slice :: n :: ns, src)
  end.
(** [BTreeMap::insert] of a new key and [into_values]. *)
Fixpoint put (k : str) (n : node) (m : list (str * node)) : list (str * node) :=
  match m with
  | [] => [(k, n)]
  | (k', n') :: m' => match str_cmp k k' with Lt => (k, n) :: m | _ => (k', n') :: put k n m' end
  end.
(** parser.rs:185-214. *)
Fixpoint finish_flags (fuel : nat) (t : token) (slice src : str) (flags : list (str * node)) : pres (list node * str) :=
  match fuel with
  | O => Fuel
  | S fuel =>
      do _ <- expect t LabelOrKeyword;
      let flag := trim_percent slice in
      if mem flag (List.map fst flags) then Fail DuplicateFlag else
      let flags := put flag (leaf NLabel slice) flags in
      do (t, s, src) <- advance src;
      do (t, s, src) <- (if token_eqb t Comma then advance src else Good (t, s, src));
      if token_eqb t BraceClose then Good (List.map snd flags, src)
      else finish_flags fuel t s src flags
  end.
(** parser.rs:123-146. *)
Definition parse_record_or_flags (pn : nodep) (src : str) : pres (node * str) :=
  do (t, slice, src) <- advance src;
  match t with
  | Colon => do (t, _, src) <- advance src; do _ <- expect t BraceClose; Good (Node NRecord [] [], src)
  | BraceClose => Good (Node NFlags [] [], src)
  | _ =>
      if next_is Colon src then do (ns, src) <- finish_record (S (List.length src)) pn t slice src []; Good (Node NRecord [] ns, src)
      else do (ns, src) <- finish_flags (S (List.length src)) t slice src []; Good (Node NFlags [] ns, src)
  end.
(** The payload in parentheses, the opening one being next: parser.rs:219-223, 241-245, 256-259. *)
Definition parse_payload (pn : nodep) (src : str) : pres (node * str) :=
  do (t, _, src) <- advance src;
  do _ <- expect t ParenOpen;
  do (n, src) <- pn src;
  do (t, _, src) <- advance src;
  do _ <- expect t ParenClose;
  Good (n, src).
(** parser.rs:216-234. *)
Definition parse_label_maybe_payload (pn : nodep) (slice src : str) : pres (node * str) :=
  if next_is ParenOpen src then do (n, src) <- parse_payload pn src; Good (Node NVariantWithPayload [] [leaf NLabel slice; n], src)
  else Good (leaf NLabel slice, src).
(** parser.rs:236-252. *)
Definition parse_some (pn : nodep) (src : str) : pres (node * str) :=
  do (n, src) <- parse_payload pn src; Good (Node NOptionSome [] [n], src).
(** parser.rs:254-266. *)
Definition parse_result (pn : nodep) (t : ntype) (src : str) : pres (node * str) :=
  if next_is ParenOpen src then do (n, src) <- parse_payload pn src; Good (Node t [] [n], src)
  else Good (Node t [] [], src).
(** parser.rs:81-105. *)
Definition parse_node_inner (pn : nodep) (src : str) : pres (node * str) :=
  do (t, slice, src) <- advance src;
  match t with
  | Number => Good (leaf NNumber slice, src)
  | Char => Good (leaf NChar slice, src)
  | String => Good (leaf NString slice, src)
  | MultilineString => Good (leaf NMultilineString slice, src)
  | ParenOpen => parse_tuple pn src
  | BracketOpen => parse_list pn src
  | BraceOpen => parse_record_or_flags pn src
  | LabelOrKeyword =>
      match decode slice with
      | Some KTrue => Good (leaf BoolTrue slice, src)
      | Some KFalse => Good (leaf BoolFalse slice, src)
      | Some KSome => parse_some pn src
      | Some KNone => Good (Node NOptionNone [] [], src)
      | Some KOk => parse_result pn NResultOk src
      | Some KErr => parse_result pn NResultErr src
      | Some (KInf | KNan) => Good (leaf NNumber slice, src)
      | None => parse_label_maybe_payload pn slice src
      end
  | BraceClose | ParenClose | BracketClose | Colon | Comma => Fail UnexpectedToken
  end.
(** parser.rs:68-79; the argument is [MAX_DEPTH - depth]. *)
Fixpoint parse_node (deeper : nat) (src : str) : pres (node * str) :=
  match deeper with
  | O => Fail NestingTooDeep
  | S deeper => parse_node_inner (parse_node deeper) src
  end.
(** parser.rs:56-66. *)
Definition finish (src : str) : pres unit := match lex src with End => Good tt | _ => Fail TrailingCharacters end.

(** ** Strings: strings.rs. *)
(** [char::from_u32]. *)
Definition from_u32 (v : Z) : option Z := if (v <=? 0x10ffff) && negb (in_range 0xd800 0xdfff v) then Some v else None.
(** strings.rs:172-204; the character and the rest. *)
Fixpoint unescape_hex (digits : nat) (val : Z) (s : str) : option (Z * str) :=
  match s with
  | [] => None
  | c :: s =>
      if c =? 125 then match digits with O => None | _ => option_map (fun v => (v, s)) (from_u32 val) end
      else if is_hex c then
        if (6 <=? digits)%nat then None else unescape_hex (S digits) (Z.lor (Z.shiftl val 4) (to_hex c)) s
      else None
  end.
Definition unescape (s : str) : option (Z * str) :=
  match s with
  | b :: c :: t =>
      if negb (b =? 92) then None
      else if c =? 92 then Some (92, t)
      else if c =? 39 then Some (39, t)
      else if c =? 34 then Some (34, t)
      else if c =? 116 then Some (9, t)
      else if c =? 110 then Some (10, t)
      else if c =? 114 then Some (13, t)
      else if c =? 117 then match t with o :: t => if o =? 123 then unescape_hex 0 0 t else None | [] => None end
      else None
  | _ => None
  end.
(** strings.rs:40-73, all parts together. *)
Fixpoint string_parts (fuel : nat) (s : str) : pres str :=
  match fuel with
  | O => match s with [] => Good [] | _ => Fuel end
  | S fuel =>
      match s with
      | [] => Good []
      | c :: t =>
          if c =? 92 then
            match unescape s with
            | Some (v, t) => do r <- string_parts fuel t; Good (v :: r)
            | None => Fail InvalidEscape
            end
          else do r <- string_parts fuel t; Good (c :: r)
      end
  end.
(** strings.rs:84-166. *)
Fixpoint split_lines (s : str) : list str :=
  match s with
  | [] => [[]]
  | c :: s => if c =? 10 then [] :: split_lines s else match split_lines s with l :: ls => (c :: l) :: ls | [] => [[c]] end
  end.
Fixpoint strip_prefix (p s : str) : option str :=
  match p, s with
  | [], _ => Some s
  | a :: p, b :: s => if a =? b then strip_prefix p s else None
  | _, _ => None
  end.
Definition strip_cr (l : str) : str := match rev l with c :: r => if c =? 13 then rev r else l | [] => l end.
Definition multiline_parts (s : str) : pres str :=
  let s := match s with c :: t => if c =? 13 then t else s | [] => s end in
  match rev (split_lines s) with
  | indent :: before =>
      if existsb (fun c => negb (c =? 32)) indent then Fail InvalidMultilineString else
      match rev before with
      | [] :: lines =>
          do ls <- mapm (fun l => match strip_prefix indent l with
                                  | Some l => string_parts (List.length l) (strip_cr l)
                                  | None => Fail InvalidMultilineString
                                  end) lines;
          Good (tl (flat_map (fun l => 10 :: l) ls))
      | _ => Fail InvalidMultilineString
      end
  | [] => Fail InvalidMultilineString
  end.

Section Wave.
(** The standard library's tables behind [char::escape_debug]; floats as written
    and read by the standard library ([w] bits wide). *)
Variable grapheme_extended printable : Z -> bool.
Variable fmt_float : Z -> Z -> str.
Variable parse_float : Z -> str -> option Z.

(** ** From nodes to values: ast.rs:50-380. *)
(** lib.rs:62-75. *)
Definition inf_of (w : Z) : Z := if w =? 32 then 0x7f800000 else 0x7ff0000000000000.
Definition is_nan (w b : Z) : bool := inf_of w <? b mod 2 ^ (w - 1).
Definition canonical_nan (w : Z) : Z := if w =? 32 then 0x7fc00000 else 0x7ff8000000000000.
Definition canonicalize (w b : Z) : Z := if is_nan w b then canonical_nan w else b.
(** The text between the delimiters. *)
Definition inner (n : nat) (s : str) : str := removelast (Nat.iter (n - 1) (@removelast Z) (skipn n s)).
(** ast.rs:59-66. *)
Definition as_int (signed : bool) (w : Z) (n : node) : pres Z :=
  match n with
  | Node NNumber slice _ =>
      match (if signed then i_from w slice 10 else u_from w slice 10) with Some z => Good z | None => Fail InvalidValue end
  | _ => Fail InvalidType
  end.
Definition as_float (w : Z) (n : node) : pres Z :=
  match n with
  | Node NNumber slice _ => match parse_float w slice with Some b => Good b | None => Fail InvalidValue end
  | _ => Fail InvalidType
  end.
(** ast.rs:69-84. *)
Definition as_char (n : node) : pres Z :=
  match n with
  | Node NChar slice _ =>
      match inner 1 slice with
      | c :: t =>
          if c =? 92 then
            match unescape (c :: t) with
            | Some (v, []) => Good v
            | Some (_, _) => Fail MultipleChars
            | None => Fail InvalidEscape
            end
          else match t with [] => Good c | _ => Fail MultipleChars end
      | [] => Fail MultipleChars
      end
  | _ => Fail InvalidType
  end.
(** ast.rs:87-127. *)
Definition as_str (n : node) : pres str :=
  match n with
  | Node NString slice _ => let s := inner 1 slice in string_parts (List.length s) s
  | Node NMultilineString slice _ => multiline_parts (inner 3 slice)
  | _ => Fail InvalidType
  end.
(** ast.rs:206-211. *)
Definition strip_percent (s : str) : str := match s with c :: t => if c =? 37 then t else s | [] => s end.
Definition as_label (n : node) : pres str :=
  match n with Node NLabel slice _ => Good (strip_percent slice) | _ => Fail InvalidType end.
(** ast.rs:143-153: pairs of a label and a node. *)
Fixpoint pairs (ns : list node) : list (str * node) :=
  match ns with
  | Node _ slice _ :: n :: ns => (strip_percent slice, n) :: pairs ns
  | _ => []
  end.
(** [BTreeMap::get] of the map collected from the pairs: the last one counts. *)
Definition field (name : str) (m : list (str * node)) : option node :=
  option_map snd (find (fun p => same name (fst p)) (rev m)).
(** ast.rs:157-169. *)
Definition as_variant (n : node) : pres (str * option node) :=
  match n with
  | Node NLabel slice _ => Good (strip_percent slice, None)
  | Node NVariantWithPayload _ (l :: v :: _) => do s <- as_label l; Good (s, Some v)
  | _ => Fail InvalidType
  end.
(** The first position of a name. *)
Fixpoint position (s : str) (l : list str) : option nat :=
  match l with [] => None | x :: l => if same x s then Some O else option_map S (position s l) end.
(** value/mod.rs:333-354 ([make_flags]); [Vec::sort]. *)
Fixpoint insert_sorted (i : nat) (l : list nat) : list nat :=
  match l with [] => [i] | x :: t => if (i <=? x)%nat then i :: l else x :: insert_sorted i t end.
Definition sort (l : list nat) : list nat := fold_right insert_sorted [] l.
Definition make_flags (names : list str) (set : list str) : pres value :=
  do is <- mapm (fun s => match position s names with Some i => Good i | None => Fail WasmValueError end) set;
  Good (VFlags (sort is)).
(** ast.rs:390-393. *)
Definition flattenable (t : ty) : bool := match t with TOption _ | TResult _ _ => false | _ => true end.
(** ast.rs:361-380; [f]: the reading of a payload of the type. *)
Definition maybe_payload {A} (f : option (node -> pres A)) (payload : option node) : pres (option A) :=
  match f, payload with
  | Some f, Some n => do v <- f n; Good (Some v)
  | None, None => Good None
  | _, _ => Fail WasmValueError
  end.
(** ast.rs:213-359. *)
Fixpoint to_wasm_value (t : ty) (n : node) {struct t} : pres value :=
  match t with
  | TBool => match n with Node BoolTrue _ _ => Good (VBool true) | Node BoolFalse _ _ => Good (VBool false) | _ => Fail InvalidType end
  | TInt signed w => do z <- as_int signed w n; Good (VInt z)
  | TFloat w => do b <- as_float w n; Good (VFloat (canonicalize w b))
  | TChar => do c <- as_char n; Good (VChar c)
  | TString => do s <- as_str n; Good (VString s)
  | TList t => match n with Node NList _ ns => do vs <- mapm (to_wasm_value t) ns; Good (VList vs) | _ => Fail InvalidType end
  | TRecord fields =>
      match n with
      | Node NRecord _ ns =>
          let m := pairs ns in
          do vs <- (fix go (fields : list (str * ty)) : pres (list value) :=
             match fields with
             | [] => Good []
             | (name, ft) :: fields =>
                 do v <- (match field name m with
                          | Some n => to_wasm_value ft n
                          | None => match ft with TOption _ => Good (VOption None) | _ => Fail WasmValueError end
                          end);
                 do vs <- go fields; Good (v :: vs)
             end) fields;
          Good (VRecord vs)
      | _ => Fail InvalidType
      end
  | TTuple ts =>
      match n with
      | Node NTuple _ ns =>
          do vs <- (fix go (ts : list ty) (ns : list node) : pres (list value) :=
             match ts, ns with
             | [], [] => Good []
             | t :: ts, n :: ns => do v <- to_wasm_value t n; do vs <- go ts ns; Good (v :: vs)
             | _, _ => Fail WasmValueError
             end) ts ns;
          Good (VTuple vs)
      | _ => Fail InvalidType
      end
  | TVariant cases =>
      do (label, payload) <- as_variant n;
      (fix go (cases : list (str * option ty)) (i : nat) : pres value :=
         match cases with
         | [] => Fail WasmValueError
         | (name, pt) :: cases =>
             if same name label then
               do p <- maybe_payload (match pt with Some pt => Some (to_wasm_value pt) | None => None end) payload;
               Good (VVariant i p)
             else go cases (S i)
         end) cases O
  | TEnum cases =>
      do s <- as_label n;
      match position s cases with Some i => Good (VEnum i) | None => Fail WasmValueError end
  | TOption t =>
      match n with
      | Node NOptionSome _ (p :: _) => do v <- to_wasm_value t p; Good (VOption (Some v))
      | Node NOptionNone _ _ => Good (VOption None)
      | _ => if flattenable t then do v <- to_wasm_value t n; Good (VOption (Some v)) else Fail InvalidType
      end
  | TResult ok err =>
      match n with
      | Node NResultOk _ ns =>
          do p <- maybe_payload (match ok with Some t => Some (to_wasm_value t) | None => None end) (hd_error ns); Good (VResult true p)
      | Node NResultErr _ ns =>
          do p <- maybe_payload (match err with Some t => Some (to_wasm_value t) | None => None end) (hd_error ns); Good (VResult false p)
      | _ =>
          match ok with
          | Some t => if flattenable t then do v <- to_wasm_value t n; Good (VResult true (Some v)) else Fail InvalidType
          | None => Fail InvalidType
          end
      end
  | TFlags names =>
      match n with
      | Node NFlags _ ns => make_flags names (List.map (fun n => match n with Node _ slice _ => slice end) ns)
      | _ => Fail InvalidType
      end
  end.
(** lib.rs:36-45 ([from_str]). *)
Definition from_str (t : ty) (src : str) : pres value :=
  do (n, rest) <- parse_node MAX_DEPTH src;
  do v <- to_wasm_value t n;
  do _ <- finish rest;
  Good v.

(** ** Writing: writer.rs. *)
(** [char::escape_unicode], [char::is_control]. *)
Definition escape_unicode (c : Z) : str := lit "\u{" ++ fmt_uint 16 c ++ lit "}".
Definition is_control (c : Z) : bool := in_range 0 31 c || in_range 127 159 c.
(** [char::escape_default] of the characters it is used for. *)
Definition escape_default (c : Z) : str :=
  if c =? 9 then lit "\t" else if c =? 13 then lit "\r" else if c =? 10 then lit "\n" else [92; c].
(** [char::escape_debug]. *)
Definition escape_debug (c : Z) : str :=
  if c =? 0 then lit "\0"
  else if (c =? 9) || (c =? 13) || (c =? 10) || (c =? 92) || (c =? 34) || (c =? 39) then escape_default c
  else if grapheme_extended c then escape_unicode c
  else if printable c then [c]
  else escape_unicode c.
(** writer.rs:182-191. *)
Definition write_char (c : Z) : str :=
  if existsb (Z.eqb c) [92; 34; 39; 9; 13; 10] then escape_default c
  else if is_control c then escape_unicode c
  else escape_debug c.
(** [Display] of an integer. *)
Definition fmt_int (z : Z) : str := if z <? 0 then 45 :: fmt_uint 10 (- z) else fmt_uint 10 z.
(** What is separated by a comma and a space. *)
Fixpoint commas (l : list str) : str :=
  match l with [] => [] | [x] => x | x :: l => x ++ lit ", " ++ commas l end.
Definition label_text (name : str) : str := match decode name with Some _ => 37 :: name | None => name end.
(** writer.rs:23-171; a value of another type, on which the code panics, gives
    nothing. *)
Fixpoint write_value (t : ty) (v : value) {struct v} : str :=
  match t, v with
  | TBool, VBool b => if b then lit "true" else lit "false"
  | TInt _ _, VInt z => fmt_int z
  | TFloat w, VFloat b => if is_nan w b then lit "nan" else fmt_float w b
  | TChar, VChar c => 39 :: write_char c ++ [39]
  | TString, VString s => 34 :: flat_map write_char s ++ [34]
  | TList t, VList vs => 91 :: commas (List.map (write_value t) vs) ++ [93]
  | TRecord fields, VRecord vs =>
      let written := (fix go (vs : list value) (fields : list (str * ty)) : list str :=
        match vs, fields with
        | v :: vs, (name, ft) :: fields =>
            match ft, v with
            | TOption _, VOption None => go vs fields
            | _, _ => (name ++ lit ": " ++ write_value ft v) :: go vs fields
            end
        | _, _ => []
        end) vs fields in
      123 :: (match written with [] => lit ":" | _ => commas written end) ++ [125]
  | TTuple ts, VTuple vs =>
      40 :: commas ((fix go (vs : list value) (ts : list ty) : list str :=
        match vs, ts with v :: vs, t :: ts => write_value t v :: go vs ts | _, _ => [] end) vs ts) ++ [41]
  | TVariant cases, VVariant i p =>
      match nth_error cases i with
      | Some (name, pt) =>
          label_text name ++ match pt, p with Some t, Some v => 40 :: write_value t v ++ [41] | _, _ => [] end
      | None => []
      end
  | TEnum cases, VEnum i => match nth_error cases i with Some name => label_text name | None => [] end
  | TOption t, VOption (Some v) => lit "some(" ++ write_value t v ++ [41]
  | TOption _, VOption None => lit "none"
  | TResult ok err, VResult b p =>
      (if b then lit "ok" else lit "err") ++
      match (if b then ok else err), p with Some t, Some v => 40 :: write_value t v ++ [41] | _, _ => [] end
  | TFlags names, VFlags is =>
      123 :: commas (List.map (fun i => nth i names []) is) ++ [125]
  | _, _ => []
  end.
End Wave.
