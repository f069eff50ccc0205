(** Model of the incremental [Parser], crates/wasmparser/src/parser.rs.

    Simplifications, valid for the whole file:
    - the typed payloads wrap a [SectionLimited] reader whose items are not
      parsed by the parser itself; the model keeps the section id, its range, its
      whole contents, the item count read by the constructor, and the bytes after
      the count;
    - error messages built with [format!] are abbreviated to their fixed part;
    - [Parser::features] is passed on to the readers and otherwise inert. *)
From Verif.Base Require Import Prelude Utf8.
From Verif.Reader Require Import Model.

(** [enum Encoding] (parser.rs:15-21). *)
Inductive encoding := EModule | EComponent.

Definition encoding_eqb (a b : encoding) : bool :=
  match a, b with EModule, EModule | EComponent, EComponent => true | _, _ => false end.

(** [enum Order] (parser.rs:60-76), as its declaration position, which is what the
    derived [Ord] compares. *)
Definition OInitial := 0.
Definition OType := 1.
Definition OImport := 2.
Definition OFunction := 3.
Definition OTable := 4.
Definition OMemory := 5.
Definition OTag := 6.
Definition OGlobal := 7.
Definition OExport := 8.
Definition OStart := 9.
Definition OElement := 10.
Definition ODataCount := 11.
Definition OCode := 12.
Definition OData := 13.

(** [enum State] (parser.rs:98-103). *)
Inductive pstate :=
| SHeader
| SSectionStart
| SFunctionBody (remaining len : Z).

(** [struct ParserCounts] (parser.rs:45-53). *)
Record counts := mkCounts
  { function_entries : option Z; code_entries : option Z;
    data_entries : option Z; data_count : option Z;
    component_start_sections : bool }.
Definition counts0 : counts := mkCounts None None None None false.

(** [struct Parser] (parser.rs:86-96). *)
Record parser := mkParser
  { p_state : pstate; p_offset : Z; p_max_offset : option Z; p_enc : encoding;
    p_feat : features; p_counts : counts; p_order : Z * Z }.

(** [Parser::new] (parser.rs:403-415). *)
Definition new_parser (offset : Z) : parser :=
  mkParser SHeader offset None EModule all_features counts0 (OInitial, offset).

Definition set_state (p : parser) (s : pstate) : parser :=
  mkParser s (p_offset p) (p_max_offset p) (p_enc p) (p_feat p) (p_counts p) (p_order p).
Definition set_offset (p : parser) (o : Z) : parser :=
  mkParser (p_state p) o (p_max_offset p) (p_enc p) (p_feat p) (p_counts p) (p_order p).
Definition set_enc (p : parser) (e : encoding) : parser :=
  mkParser (p_state p) (p_offset p) (p_max_offset p) e (p_feat p) (p_counts p) (p_order p).
Definition set_counts (p : parser) (c : counts) : parser :=
  mkParser (p_state p) (p_offset p) (p_max_offset p) (p_enc p) (p_feat p) c (p_order p).
Definition set_order (p : parser) (o : Z * Z) : parser :=
  mkParser (p_state p) (p_offset p) (p_max_offset p) (p_enc p) (p_feat p) (p_counts p) o.

(** [struct ComponentStartFunction] (readers/component/start.rs:7-16). *)
Record start_fn := mkStart { st_func : Z; st_args : list Z; st_results : Z }.

(** [enum Payload] (parser.rs:148-330).  [PLimited] stands for every variant that
    carries a [SectionLimited] reader, distinguished by section id (and by the
    encoding of the parser that produced it). *)
Inductive payload :=
| PVersion (num : Z) (e : encoding) (range : Z * Z)
| PLimited (e : encoding) (id : Z) (range : Z * Z) (contents : list Z) (count : Z) (items : list Z)
| PCustom (range : Z * Z) (contents : list Z) (name data : list Z)
| PStart (func : Z) (range : Z * Z)
| PDataCount (count : Z) (range : Z * Z)
| PCodeStart (count : Z) (range : Z * Z) (size : Z)
| PCodeEntry (range : Z * Z) (body : list Z)
| PModule (sub : parser) (range : Z * Z)
| PComponent (sub : parser) (range : Z * Z)
| PComponentStart (s : start_fn) (range : Z * Z)
| PUnknown (id : Z) (contents : list Z) (range : Z * Z)
| PEnd (off : Z).

(** [enum Chunk] (parser.rs:111-129). *)
Inductive chunk :=
| NeedMoreData (hint : Z)
| Parsed (consumed : Z) (pl : payload).

(** Methods of [Parser] that take [&mut self] and [&mut BinaryReader]: on failure
    the mutations made to the parser before the failure persist. *)
Definition M (A : Type) : Type := parser -> reader -> res (A * reader) * parser.

Definition mret {A} (a : A) : M A := fun p r => (Ok (a, r), p).
Definition mbind {A B} (m : M A) (f : A -> M B) : M B :=
  fun p r => match m p r with
             | (Ok (a, r'), p') => f a p' r'
             | (Err e, p') => (Err e, p')
             end.
Definition lift {A} (m : R A) : M A := fun p r => (m r, p).
Definition mget : M parser := fun p r => (Ok (p, r), p).
Definition mput (q : parser) : M unit := fun p r => (Ok (tt, r), q).

Declare Scope parser_scope.
Delimit Scope parser_scope with parser.
Notation "'do' x '<-' m ';' k" := (mbind m (fun x => k))
  (at level 200, x pattern, m at level 100, k at level 200, right associativity)
  : parser_scope.
Open Scope parser_scope.

(** [Error::without_needed_hint] (error.rs:131-134). *)
Definition without_needed_hint (e : error) : error := mkError (e_msg e) (e_off e) None.
Definition map_err_nohint {A} (x : res A) : res A :=
  match x with Ok a => Ok a | Err e => Err (without_needed_hint e) end.

(** [SectionLimited::new] (readers.rs:96-103) as passed to [section]. *)
Definition limited_new (e : encoding) (id : Z) (content : reader) : res payload :=
  match read_var_u32 content with
  | Ok (count, rest) =>
      Ok (PLimited e id (range content) (r_rem content) count (r_rem rest))
  | Err err => Err err
  end.

(** [CustomSectionReader::new] (readers/core/custom.rs:14-17). *)
Definition custom_new (content : reader) : res payload :=
  match read_string content with
  | Ok (name, rest) => Ok (PCustom (range content) (r_rem content) name (r_rem rest))
  | Err err => Err err
  end.

(** [section] (parser.rs:1234-1250): the section's bytes must be resident; a
    failure of the constructor is stripped of its hint. *)
Definition section (len : Z) (ctor : reader -> res payload) : R payload := fun r =>
  match skip_bytes len r with
  | Ok (content, r') =>
      match map_err_nohint (ctor content) with
      | Ok p => Ok (p, r')
      | Err e => Err e
      end
  | Err e => Err e
  end.

(** [single_item] (parser.rs:1253-1280). *)
Definition single_item {T} (item : R T) (section_end : Z) (desc : string) : R (T * (Z * Z)) :=
  fun r =>
  let rg := (original_position r, section_end) in
  match skip_bytes (wrapu 32 (section_end - original_position r)) r with
  | Ok (content, r') =>
      match map_err_nohint (item content) with
      | Ok (v, content') =>
          if negb (eof content') then
            Err (err_new ("unexpected content in the " ++ desc ++ " section")
                         (original_position content'))
          else Ok ((v, rg), r')
      | Err e => Err e
      end
  | Err e => Err e
  end.

(** [delimited] (parser.rs:1287-1304): returns the remaining [len] along with the
    value; [len.checked_sub] fails below zero. *)
Definition delimited {T} (len : Z) (f : R T) : R (T * Z) := fun r =>
  let start := original_position r in
  match f r with
  | Ok (v, r') =>
      let n := len - (original_position r' - start) in
      if 0 <=? n then Ok ((v, n), r')
      else Err (err_new "unexpected end-of-file" start)
  | Err e => Err e
  end.

(** [update_order] (parser.rs:673-686). *)
Definition update_order (order pos : Z) : M unit := fun p r =>
  let '(last_order, last_pos) := p_order p in
  if encoding_eqb (p_enc p) EModule && ((order <=? last_order) && (last_pos <? pos))
  then (Err (err_new "section out of order" pos), p)
  else (Ok (tt, r), set_order p (order, pos)).

(** [check_function_code_counts] (parser.rs:1200-1216). *)
Definition check_function_code_counts (c : counts) (pos : Z) : res unit :=
  match function_entries c, code_entries c with
  | Some n, Some m =>
      if negb (n =? m) then Err (err_new "function and code section have inconsistent lengths" pos)
      else Ok tt
  | Some n, None =>
      if 0 <? n then Err (err_new "function section has non-zero count but code section is absent" pos)
      else Ok tt
  | None, Some m =>
      if 0 <? m then Err (err_new "function section is absent but code section has non-zero count" pos)
      else Ok tt
  | None, None => Ok tt
  end.

(** [check_data_count] (parser.rs:1218-1228). *)
Definition check_data_count (c : counts) (pos : Z) : res unit :=
  match data_count c, data_entries c with
  | Some n, Some m =>
      if negb (n =? m) then Err (err_new "data count and data section have inconsistent lengths" pos)
      else Ok tt
  | Some n, None =>
      if 0 <? n then Err (err_new "data count is non-zero but data section is absent" pos)
      else Ok tt
  | _, _ => Ok tt
  end.

Definition mcheck (f : counts -> Z -> res unit) (pos : Z) : M unit := fun p r =>
  (match f (p_counts p) pos with Ok _ => Ok (tt, r) | Err e => Err e end, p).

(** [FromReader for ComponentStartFunction] (readers/component/start.rs:18-31),
    [MAX_WASM_START_ARGS] = 1000, [MAX_WASM_FUNCTION_RETURNS] = 1000. *)
Definition read_start_fn : R start_fn :=
  (let* func := read_var_u32 in
   let* args := read_list 1000 "start function arguments" read_var_u32 in
   let* results := read_size 1000 "start function results" in
   ret (mkStart func args results))%reader.

Definition WASM_MAGIC_NUMBER : list Z := [0; 97; 115; 109].

Fixpoint bytes_eqb (a b : list Z) : bool :=
  match a, b with
  | [], [] => true
  | x :: a, y :: b => (x =? y) && bytes_eqb a b
  | _, _ => false
  end.

(** [read_header_version] (binary_reader.rs:718-729). *)
Definition read_header_version : R Z :=
  (let* magic := read_bytes 4 in
   if bytes_eqb magic WASM_MAGIC_NUMBER then read_u32
   else fail_at "magic header not detected: bad magic number" 4)%reader.

Definition U64MAX : Z := 2 ^ 64 - 1.
(** [MAX_WASM_MODULE_SIZE] (limits.rs:73). *)
Definition MAX_WASM_MODULE_SIZE : Z := 1024 * 1024 * 1024.

Definition max_off (p : parser) : Z :=
  match p_max_offset p with Some m => m | None => U64MAX end.

(** The match on version and kind (parser.rs:701-705; constants 22-36). *)
Definition header_encoding (num kind : Z) : option encoding :=
  if (num =? 1) && (kind =? 0) then Some EModule
  else if (num =? 13) && (kind =? 1) then Some EComponent
  else None.

(** [State::Header] branch of [parse_reader] (parser.rs:696-711).
    Versions and kinds: parser.rs:22-35. *)
Definition parse_header : M payload := fun p r =>
  let start := original_position r in
  match read_header_version r with
  | Err e => (Err e, p)
  | Ok (v, r') =>
      let num := wrapu 16 v in
      let kind := wrapu 16 (Z.shiftr v 16) in
      match header_encoding num kind with
      | None => (Err (err_new "unknown binary version" (start + 4)), p)
      | Some e =>
          (Ok (PVersion num e (start, original_position r'), r'),
           set_state (set_enc p e) SSectionStart)
      end
  end.

(** A section that is just an order check followed by [section] with a
    [SectionLimited] constructor (e.g. parser.rs:767-774). *)
Definition ordered_limited (order id len section_start : Z) : M payload :=
  do _ <- update_order order section_start;
  lift (section len (limited_new EModule id)).

(** The module arms of the [match (self.encoding, id)] (parser.rs:766-845). *)
Definition parse_module_section (id len section_start section_end : Z) : M payload :=
  if id =? 1 then ordered_limited OType id len section_start
  else if id =? 2 then ordered_limited OImport id len section_start
  else if id =? 3 then
    do _ <- update_order OFunction section_start;
    do s <- lift (section len (limited_new EModule id));
    do p <- mget;
    let c := p_counts p in
    let n := match s with PLimited _ _ _ _ n _ => n | _ => 0 end in
    do _ <- mput (set_counts p (mkCounts (Some n) (code_entries c) (data_entries c)
                                  (data_count c) (component_start_sections c)));
    mret s
  else if id =? 4 then ordered_limited OTable id len section_start
  else if id =? 5 then ordered_limited OMemory id len section_start
  else if id =? 6 then ordered_limited OGlobal id len section_start
  else if id =? 7 then ordered_limited OExport id len section_start
  else if id =? 8 then
    do _ <- update_order OStart section_start;
    do (func, rg) <- lift (single_item read_var_u32 section_end "start");
    mret (PStart func rg)
  else if id =? 9 then ordered_limited OElement id len section_start
  else if id =? 10 then
    do _ <- update_order OCode section_start;
    do (count, len) <- lift (delimited len read_var_u32);
    do p <- mget;
    let c := p_counts p in
    do _ <- mput (set_counts p (mkCounts (function_entries c) (Some count) (data_entries c)
                                  (data_count c) (component_start_sections c)));
    do _ <- mcheck check_function_code_counts section_start;
    do p <- mget;
    do _ <- mput (set_state p (SFunctionBody count len));
    mret (PCodeStart count (section_start, section_end) len)
  else if id =? 11 then
    do _ <- update_order OData section_start;
    do s <- lift (section len (limited_new EModule id));
    do p <- mget;
    let c := p_counts p in
    let n := match s with PLimited _ _ _ _ n _ => n | _ => 0 end in
    do _ <- mput (set_counts p (mkCounts (function_entries c) (code_entries c) (Some n)
                                  (data_count c) (component_start_sections c)));
    do pos <- lift get_pos;
    do _ <- mcheck check_data_count pos;
    mret s
  else if id =? 12 then
    do _ <- update_order ODataCount section_start;
    do (count, rg) <- lift (single_item read_var_u32 section_end "data count");
    do p <- mget;
    let c := p_counts p in
    do _ <- mput (set_counts p (mkCounts (function_entries c) (code_entries c) (data_entries c)
                                  (Some count) (component_start_sections c)));
    mret (PDataCount count rg)
  else if id =? 13 then ordered_limited OTag id len section_start
  else
    (* the catch-all arm, parser.rs:939-948 *)
    do offset <- lift get_pos;
    do contents <- lift (read_bytes len);
    mret (PUnknown id contents (offset, section_end)).

(** The component arms (parser.rs:848-938). *)
Definition parse_component_section (id len len_pos section_start section_end : Z) : M payload :=
  if (id =? 1) || (id =? 4) then
    if MAX_WASM_MODULE_SIZE <? len then lift (fail_pos "section is too large" len_pos)
    else
      do p <- mget;
      do _ <- mput (set_offset p (p_offset p + len));
      let sub := mkParser SHeader section_start (Some section_end) EModule (p_feat p)
                   counts0 (OInitial, section_start) in
      mret (if id =? 1 then PModule sub (section_start, section_end)
            else PComponent sub (section_start, section_end))
  else if (id =? 2) || (id =? 3) || (id =? 5) || (id =? 6) || (id =? 7) || (id =? 8)
          || (id =? 10) || (id =? 11) then
    lift (section len (limited_new EComponent id))
  else if id =? 9 then
    do p <- mget;
    let c := p_counts p in
    if component_start_sections c then
      lift (fail_at "component cannot have more than one start function" 0)
    else
      do _ <- mput (set_counts p (mkCounts (function_entries c) (code_entries c)
                                    (data_entries c) (data_count c) true));
      do (start, rg) <- lift (single_item read_start_fn section_end "component start");
      mret (PComponentStart start rg)
  else
    do offset <- lift get_pos;
    do contents <- lift (read_bytes len);
    mret (PUnknown id contents (offset, section_end)).

(** The body of [State::SectionStart] after the end and magic-number tests
    (parser.rs:739-948). *)
Definition parse_section : M payload :=
  do id_pos <- lift get_pos;
  do id <- lift read_u8;
  if negb (Z.land id 0x80 =? 0) then lift (fail_pos "malformed section id" id_pos)
  else
    do len_pos <- lift get_pos;
    do len <- lift read_var_u32;
    do section_start <- lift get_pos;
    do p <- mget;
    let section_end := section_start + len in
    if (U64MAX <? section_end) || (max_off p <? section_end) then
      lift (fail_pos "section too large" len_pos)
    else if id =? 0 then lift (section len custom_new)
    else match p_enc p with
         | EModule => parse_module_section id len section_start section_end
         | EComponent => parse_component_section id len len_pos section_start section_end
         end.

(** [State::SectionStart] (parser.rs:712-949). *)
Definition parse_section_start (eof_flag : bool) : M payload := fun p r =>
  if eof_flag && (bytes_remaining r =? 0) then
    match check_function_code_counts (p_counts p) (original_position r) with
    | Err e => (Err e, p)
    | Ok _ =>
        match check_data_count (p_counts p) (original_position r) with
        | Err e => (Err e, p)
        | Ok _ => (Ok (PEnd (original_position r), r), p)
        end
    end
  else
    match peek_bytes 4 r with
    | Ok (bs, _) =>
        if bytes_eqb bs WASM_MAGIC_NUMBER
        then (Err (err_new "expected section, got wasm magic number" (original_position r)), p)
        else parse_section p r
    | Err _ => parse_section p r
    end.

(** [State::FunctionBody] with entries remaining (parser.rs:985-994). *)
Definition parse_body (remaining len : Z) : M payload :=
  do (body, len) <- lift (delimited len read_reader);
  do p <- mget;
  do _ <- mput (set_state p (SFunctionBody (remaining - 1) len));
  mret (PCodeEntry (range body) (r_rem body)).

(** [parse_reader] (parser.rs:688-996).  The recursive call of the arm
    [FunctionBody { remaining: 0, len: 0 }] lands in [SectionStart]. *)
Definition parse_reader (eof_flag : bool) : M payload := fun p r =>
  match p_state p with
  | SHeader => parse_header p r
  | SSectionStart => parse_section_start eof_flag p r
  | SFunctionBody remaining len =>
      if remaining =? 0 then
        if len =? 0 then parse_section_start eof_flag (set_state p SSectionStart) r
        else (Err (err_new "trailing bytes at end of section" (original_position r)), p)
      else parse_body remaining len p r
  end.

(** [Parser::parse] (parser.rs:624-671), with [offsets::max_data_len]
    (offsets.rs:37-44) on a 64-bit [usize]. *)
Definition parse (p : parser) (data : list Z) (eof_flag : bool) : res chunk * parser :=
  let max_len := max_off p - p_offset p in
  if (max_len <? zlen data) && (match p_max_offset p with None => true | Some _ => false end)
  then (Err (err_new "Content too large to parse" (p_offset p)), p)
  else
    let '(data, eof_flag) :=
      if max_len <? zlen data then (firstn (Z.to_nat max_len) data, true)
      else (data, eof_flag) in
    let r := new_reader (p_feat p) data (p_offset p) in
    match parse_reader eof_flag p r with
    | (Ok (pl, r'), p') =>
        let consumed := r_pos r' in
        (Ok (Parsed consumed pl), set_offset p' (p_offset p' + consumed))
    | (Err e, p') =>
        if eof_flag then (Err e, p')
        else match e_hint e with
             | Some h => (Ok (NeedMoreData h), p')
             | None => (Err e, p')
             end
    end.

(** [skip_section] (parser.rs:1191-1198); [None] is its panic. *)
Definition skip_section (p : parser) : option parser :=
  match p_state p with
  | SFunctionBody _ len => Some (set_state (set_offset p (p_offset p + len)) SSectionStart)
  | _ => None
  end.

(** One call of the closure inside [parse_all] (parser.rs:1098-1134): the state is
    the current parser, the stack of suspended parsers and the unread data. *)
Record all_state := mkAll { a_cur : parser; a_stack : list parser; a_data : list Z; a_done : bool }.

Inductive all_step :=
| AllNone                        (* the iterator is exhausted *)
| AllItem (x : res payload)      (* [Some(item)] *)
| AllUnreachable.                (* [unreachable!()] on NeedMoreData *)

(** What happens to the parser stack after a payload (parser.rs:1119-1131). *)
Definition after_payload (cur : parser) (stack : list parser) (pl : payload)
  : parser * list parser * bool :=
  match pl with
  | PModule sub _ | PComponent sub _ => (sub, cur :: stack, false)
  | PEnd _ => match stack with
              | q :: stack' => (q, stack', false)
              | [] => (cur, [], true)
              end
  | _ => (cur, stack, false)
  end.

Definition all_next (s : all_state) : all_step * all_state :=
  if a_done s then (AllNone, s)
  else
    match parse (a_cur s) (a_data s) true with
    | (Err e, cur) => (AllItem (Err e), mkAll cur (a_stack s) (a_data s) true)
    | (Ok (NeedMoreData _), cur) => (AllUnreachable, mkAll cur (a_stack s) (a_data s) (a_done s))
    | (Ok (Parsed consumed pl), cur) =>
        let data := skipn (Z.to_nat consumed) (a_data s) in
        let '(cur, stack, done) := after_payload cur (a_stack s) pl in
        (AllItem (Ok pl), mkAll cur stack data done)
    end.
