(** What it means to drive a [Parser], stated over its public methods only. *)
From Verif.Base Require Import Prelude Utf8.
From Verif.Reader Require Import Model.
From Verif.Leb Require Import Spec.
From Verif.Encoder Require Import Model.
From Verif.Parser Require Import Model.

(** Everything the iterator returned by [parse_all] produces: the payloads it
    yields, and the error it stops with, if any. *)
Inductive yields : all_state -> list payload -> option error -> Prop :=
| yields_err s e s' :
    all_next s = (AllItem (Err e), s') -> yields s [] (Some e)
| yields_last s pl s' :
    all_next s = (AllItem (Ok pl), s') -> a_done s' = true -> yields s [pl] None
| yields_item s pl s' tr out :
    all_next s = (AllItem (Ok pl), s') -> a_done s' = false -> yields s' tr out ->
    yields s (pl :: tr) out.

Definition parse_all_of (p : parser) (data : list Z) : all_state := mkAll p [] data false.

(** Any caller that feeds the parser piecewise, as the documentation of
    [Parser::parse] (parser.rs:500-623) describes it.  The state of such a caller
    is the current parser, the stack of suspended ones, the bytes buffered so far,
    the pieces that have not arrived, and the [eof] flag it passes.  At any moment
    it may append the next piece to its buffer, or -- when nothing is left -- learn
    that the input has ended; in between it calls [parse] as often as it likes. *)
Inductive run : parser -> list parser -> list Z -> list (list Z) -> bool ->
                list payload -> option error -> Prop :=
| run_feed cur st buf c cs tr out :
    run cur st (buf ++ c) cs false tr out -> run cur st buf (c :: cs) false tr out
| run_eof cur st buf tr out :
    run cur st buf [] true tr out -> run cur st buf [] false tr out
| run_more cur st buf cs e h cur' tr out :
    parse cur buf e = (Ok (NeedMoreData h), cur') ->
    run cur' st buf cs e tr out -> run cur st buf cs e tr out
| run_item cur st buf cs e n pl cur' cur'' st' tr out :
    parse cur buf e = (Ok (Parsed n pl), cur') ->
    after_payload cur' st pl = (cur'', st', false) ->
    run cur'' st' (skipn (Z.to_nat n) buf) cs e tr out ->
    run cur st buf cs e (pl :: tr) out
| run_last cur st buf cs e n pl cur' cur'' st' :
    parse cur buf e = (Ok (Parsed n pl), cur') ->
    after_payload cur' st pl = (cur'', st', true) ->
    run cur st buf cs e [pl] None
| run_err cur st buf cs e er cur' :
    parse cur buf e = (Err er, cur') -> run cur st buf cs e [] (Some er).

Definition msg_magic : string := "expected section, got wasm magic number".
Definition msg_start : string := "component cannot have more than one start function".

(** Same verdict: both complete, or both fail -- with the same error, unless the
    whole-input run reports the friendlier magic-number error or the piecewise run
    trips over the component start flag. *)
Definition agree (whole piecewise : option error) : Prop :=
  match whole, piecewise with
  | None, None => True
  | Some e, Some e' => e = e' \/ e_msg e = msg_magic \/ e_msg e' = msg_start
  | _, _ => False
  end.

Definition is_component_start (pl : payload) : Prop :=
  match pl with PComponentStart _ _ => True | _ => False end.

(** The input starts with the header of a component. *)
Definition is_component (data : list Z) : Prop := exists t, data = [0; 97; 115; 109; 13; 0; 1; 0] ++ t.

(** ** One step of the parser, as a transition relation

    [pstep e p pl bs p'] says: a parser in state [p] whose input starts with exactly
    the bytes [bs] delivers [pl] and becomes [p'].  It is a complete description of
    what a successful [parse] does, written with the LEB128 relation of the
    WebAssembly specification instead of the readers. *)

(** The order index of a module section (parser.rs:766-845), or none. *)
Definition section_order (id : Z) : option Z :=
  match id with
  | 1 => Some OType | 2 => Some OImport | 3 => Some OFunction | 4 => Some OTable
  | 5 => Some OMemory | 6 => Some OGlobal | 7 => Some OExport | 8 => Some OStart
  | 9 => Some OElement | 10 => Some OCode | 11 => Some OData | 12 => Some ODataCount
  | 13 => Some OTag | _ => None
  end.

(** A module section may come now. *)
Definition order_ok (p : parser) (o pos : Z) : Prop :=
  ~ (p_enc p = EModule /\ o <= fst (p_order p) /\ snd (p_order p) < pos).

(** The parser is about to read a section; [q] is [p] with the exhausted code
    section closed. *)
Definition at_sections (p q : parser) : Prop :=
  (p_state p = SSectionStart /\ q = p) \/
  (p_state p = SFunctionBody 0 0 /\ q = set_state p SSectionStart).

(** A section header: identifier, length field, and the place where the contents
    start; the section ends within the limit of the parser. *)
Definition header_at (p : parser) (id : Z) (lenb : list Z) (len start : Z) : Prop :=
  0 <= id < 128 /\ uN 32 lenb len /\ start = p_offset p + 1 + zlen lenb /\
  start + len <= U64MAX /\ start + len <= max_off p.

Definition moved (p : parser) (bs : list Z) : parser := set_offset p (p_offset p + zlen bs).

Definition bump (id n : Z) (c : counts) : counts :=
  if id =? 3 then mkCounts (Some n) (code_entries c) (data_entries c) (data_count c) (component_start_sections c)
  else if id =? 11 then mkCounts (function_entries c) (code_entries c) (Some n) (data_count c) (component_start_sections c)
  else if id =? 12 then mkCounts (function_entries c) (code_entries c) (data_entries c) (Some n) (component_start_sections c)
  else if id =? 10 then mkCounts (function_entries c) (Some n) (data_entries c) (data_count c) (component_start_sections c)
  else c.
Definition with_start (c : counts) : counts :=
  mkCounts (function_entries c) (code_entries c) (data_entries c) (data_count c) true.

(** The numbers of functions declared and defined agree; an absent section counts
    as empty. *)
Definition funcs_agree (c : counts) : Prop :=
  match function_entries c with Some n => n | None => 0 end
  = match code_entries c with Some n => n | None => 0 end.
(** If a data count was declared it agrees with the data section; an absent section
    counts as empty. *)
Definition data_agree (c : counts) : Prop :=
  forall n, data_count c = Some n -> n = match data_entries c with Some m => m | None => 0 end.

Definition child (p : parser) (s e : Z) : parser :=
  mkParser SHeader s (Some e) EModule (p_feat p) counts0 (OInitial, s).

(** The arguments of a component start section. *)
Inductive u32s : list Z -> list Z -> Prop :=
| u32s_nil : u32s [] []
| u32s_cons b v bs vs : uN 32 b v -> u32s bs vs -> u32s (b ++ bs) (v :: vs).

Inductive pstep (e : bool) (p : parser) : payload -> list Z -> parser -> Prop :=
| ps_module_header :
    p_state p = SHeader ->
    pstep e p (PVersion 1 EModule (p_offset p, p_offset p + 8)) [0; 97; 115; 109; 1; 0; 0; 0]
      (moved (set_state (set_enc p EModule) SSectionStart) [0; 97; 115; 109; 1; 0; 0; 0])
| ps_component_header :
    p_state p = SHeader ->
    pstep e p (PVersion 13 EComponent (p_offset p, p_offset p + 8)) [0; 97; 115; 109; 13; 0; 1; 0]
      (moved (set_state (set_enc p EComponent) SSectionStart) [0; 97; 115; 109; 13; 0; 1; 0])
| ps_custom q lenb s nb name data :
    at_sections p q -> header_at p 0 lenb (zlen (nb ++ name ++ data)) s ->
    uN 32 nb (zlen name) -> zlen name <= MAX_WASM_STRING_SIZE -> utf8_valid name = true ->
    pstep e p (PCustom (s, s + zlen (nb ++ name ++ data)) (nb ++ name ++ data) name data)
      (0 :: lenb ++ nb ++ name ++ data) (moved q (0 :: lenb ++ nb ++ name ++ data))
| ps_limited q id o lenb s cb count items :
    at_sections p q -> p_enc p = EModule ->
    section_order id = Some o -> id <> 8 -> id <> 10 -> id <> 12 ->
    header_at p id lenb (zlen (cb ++ items)) s ->
    order_ok p o s -> uN 32 cb count ->
    (id = 11 -> data_agree (bump id count (p_counts p))) ->
    pstep e p (PLimited EModule id (s, s + zlen (cb ++ items)) (cb ++ items) count items)
      (id :: lenb ++ cb ++ items)
      (moved (set_counts (set_order q (o, s)) (bump id count (p_counts p))) (id :: lenb ++ cb ++ items))
| ps_start q lenb s fb func :
    at_sections p q -> p_enc p = EModule -> header_at p 8 lenb (zlen fb) s ->
    order_ok p OStart s -> uN 32 fb func ->
    pstep e p (PStart func (s, s + zlen fb)) (8 :: lenb ++ fb)
      (moved (set_order q (OStart, s)) (8 :: lenb ++ fb))
| ps_data_count q lenb s cb count :
    at_sections p q -> p_enc p = EModule -> header_at p 12 lenb (zlen cb) s ->
    order_ok p ODataCount s -> uN 32 cb count ->
    pstep e p (PDataCount count (s, s + zlen cb)) (12 :: lenb ++ cb)
      (moved (set_counts (set_order q (ODataCount, s)) (bump 12 count (p_counts p))) (12 :: lenb ++ cb))
| ps_code q lenb len s cb count :
    at_sections p q -> p_enc p = EModule -> header_at p 10 lenb len s ->
    order_ok p OCode s -> uN 32 cb count -> zlen cb <= len ->
    funcs_agree (bump 10 count (p_counts p)) ->
    pstep e p (PCodeStart count (s, s + len) (len - zlen cb)) (10 :: lenb ++ cb)
      (moved (set_state (set_counts (set_order q (OCode, s)) (bump 10 count (p_counts p)))
                (SFunctionBody count (len - zlen cb))) (10 :: lenb ++ cb))
| ps_entry n l lenb body :
    p_state p = SFunctionBody n l -> n <> 0 -> uN 32 lenb (zlen body) ->
    zlen (lenb ++ body) <= l ->
    pstep e p (PCodeEntry (p_offset p + zlen lenb, p_offset p + zlen lenb + zlen body) body) (lenb ++ body)
      (moved (set_state p (SFunctionBody (n - 1) (l - zlen (lenb ++ body)))) (lenb ++ body))
| ps_unknown q id lenb s contents :
    at_sections p q -> id <> 0 ->
    (match p_enc p with EModule => section_order id = None | EComponent => 11 < id end) ->
    header_at p id lenb (zlen contents) s ->
    pstep e p (PUnknown id contents (s, s + zlen contents)) (id :: lenb ++ contents)
      (moved q (id :: lenb ++ contents))
| ps_climited q id lenb s cb count items :
    at_sections p q -> p_enc p = EComponent ->
    In id [2; 3; 5; 6; 7; 8; 10; 11] ->
    header_at p id lenb (zlen (cb ++ items)) s -> uN 32 cb count ->
    pstep e p (PLimited EComponent id (s, s + zlen (cb ++ items)) (cb ++ items) count items)
      (id :: lenb ++ cb ++ items) (moved q (id :: lenb ++ cb ++ items))
| ps_nested q id lenb len s :
    at_sections p q -> p_enc p = EComponent -> id = 1 \/ id = 4 ->
    header_at p id lenb len s -> len <= MAX_WASM_MODULE_SIZE ->
    pstep e p ((if id =? 1 then PModule else PComponent) (child p s (s + len)) (s, s + len)) (id :: lenb)
      (set_offset q (s + len))
| ps_cstart q lenb s fb func nb args abs rb results :
    at_sections p q -> p_enc p = EComponent ->
    component_start_sections (p_counts p) = false ->
    header_at p 9 lenb (zlen (fb ++ nb ++ abs ++ rb)) s ->
    uN 32 fb func -> uN 32 nb (zlen args) -> zlen args <= 1000 -> u32s abs args ->
    uN 32 rb results -> results <= 1000 ->
    pstep e p (PComponentStart (mkStart func args results) (s, s + zlen (fb ++ nb ++ abs ++ rb)))
      (9 :: lenb ++ fb ++ nb ++ abs ++ rb)
      (moved (set_counts q (with_start (p_counts p))) (9 :: lenb ++ fb ++ nb ++ abs ++ rb))
| ps_end q :
    at_sections p q -> e = true -> funcs_agree (p_counts p) -> data_agree (p_counts p) ->
    pstep e p (PEnd (p_offset p)) [] (moved q []).

(** ** Tiling: which bytes of the input a payload stands for *)

(** A section: identifier byte, LEB128 length, contents. *)
Definition section_frame (pos id : Z) (rg : Z * Z) (contents bs : list Z) : Prop :=
  exists lenb, bs = id :: lenb ++ contents /\ uN 32 lenb (zlen contents) /\
    rg = (pos + 1 + zlen lenb, pos + zlen bs).

(** [framed pos pl bs]: at file offset [pos] the bytes [bs] are exactly what [pl]
    reports, including its header, and the ranges in [pl] point into them. *)
Definition framed (pos : Z) (pl : payload) (bs : list Z) : Prop :=
  match pl with
  | PVersion _ _ rg => rg = (pos, pos + 8) /\ zlen bs = 8
  | PLimited _ id rg contents _ _ => section_frame pos id rg contents bs
  | PCustom rg contents _ _ => section_frame pos 0 rg contents bs
  | PUnknown id contents rg => section_frame pos id rg contents bs
  | PStart _ rg => exists contents, section_frame pos 8 rg contents bs
  | PDataCount _ rg => exists contents, section_frame pos 12 rg contents bs
  | PComponentStart _ rg => exists contents, section_frame pos 9 rg contents bs
  | PCodeStart count (s, e) size =>
      exists lenb cb, bs = 10 :: lenb ++ cb /\ uN 32 lenb (e - s) /\ uN 32 cb count /\
        s = pos + 1 + zlen lenb /\ size = e - s - zlen cb
  | PCodeEntry rg body =>
      exists lenb, bs = lenb ++ body /\ uN 32 lenb (zlen body) /\ rg = (pos + zlen lenb, pos + zlen bs)
  | PModule _ (s, e) => exists lenb, bs = 1 :: lenb /\ uN 32 lenb (e - s) /\ s = pos + zlen bs
  | PComponent _ (s, e) => exists lenb, bs = 4 :: lenb /\ uN 32 lenb (e - s) /\ s = pos + zlen bs
  | PEnd off => bs = [] /\ off = pos
  end.

(** [tiles pos data tr]: the payloads [tr] cover [data], which starts at file offset
    [pos], one after the other, without gap or overlap. *)
Inductive tiles : Z -> list Z -> list payload -> Prop :=
| tiles_nil pos : tiles pos [] []
| tiles_cons pos pl bs data tr :
    framed pos pl bs -> tiles (pos + zlen bs) data tr -> tiles pos (bs ++ data) (pl :: tr).

(** The same, except that once the input is exhausted the position may jump ahead:
    this happens when a nested module of a component is cut off by the end of the
    input. *)
Inductive tiles_cut : Z -> list Z -> list payload -> Prop :=
| tc_nil pos : tiles_cut pos [] []
| tc_cons pos pl bs data tr :
    framed pos pl bs -> tiles_cut (pos + zlen bs) data tr -> tiles_cut pos (bs ++ data) (pl :: tr)
| tc_jump pos pos' tr : pos <= pos' -> tiles_cut pos' [] tr -> tiles_cut pos [] tr.

(** ** Sections of a module *)

(** The section identifiers of a module in the order the WebAssembly specification
    requires (binary format, modules; with the tag section of the exception-handling
    proposal between memories and globals and the data count before the code). *)
Definition spec_order : list Z := [1; 2; 3; 4; 5; 13; 6; 7; 8; 9; 12; 10; 11].

Inductive subseq {A} : list A -> list A -> Prop :=
| sub_nil : subseq [] []
| sub_skip x l m : subseq l m -> subseq l (x :: m)
| sub_take x l m : subseq l m -> subseq (x :: l) (x :: m).

Definition known_id (id : Z) : bool := (1 <=? id) && (id <=? 13).

(** No duplicates, in order, sections with other identifiers anywhere. *)
Definition in_order (ids : list Z) : Prop := subseq (filter known_id ids) spec_order.

(** The sections a sequence of payloads reports: identifier and byte range. *)
Fixpoint sections_of (tr : list payload) : list (Z * (Z * Z)) :=
  match tr with
  | [] => []
  | PLimited _ id rg _ _ _ :: tr => (id, rg) :: sections_of tr
  | PCustom rg _ _ _ :: tr => (0, rg) :: sections_of tr
  | PStart _ rg :: tr => (8, rg) :: sections_of tr
  | PDataCount _ rg :: tr => (12, rg) :: sections_of tr
  | PCodeStart _ rg _ :: tr => (10, rg) :: sections_of tr
  | PUnknown id _ rg :: tr => (id, rg) :: sections_of tr
  | _ :: tr => sections_of tr
  end.

(** Number of items declared by the module sections with identifier [id]. *)
Fixpoint items_of (id : Z) (tr : list payload) : Z :=
  match tr with
  | [] => 0
  | PLimited EModule id' _ _ n _ :: tr => (if id' =? id then n else 0) + items_of id tr
  | _ :: tr => items_of id tr
  end.
(** Number of function bodies delivered, and number announced. *)
Fixpoint bodies_of (tr : list payload) : Z :=
  match tr with [] => 0 | PCodeEntry _ _ :: tr => 1 + bodies_of tr | _ :: tr => bodies_of tr end.
Fixpoint announced (tr : list payload) : Z :=
  match tr with [] => 0 | PCodeStart n _ _ :: tr => n + announced tr | _ :: tr => announced tr end.
Definition data_counts_ok (tr : list payload) : Prop :=
  forall n rg, In (PDataCount n rg) tr -> n = items_of 11 tr.

(** The function bodies of a code section whose entries start at [pos]. *)
Inductive code_entries_at : Z -> list Z -> list payload -> Prop :=
| ce_nil pos : code_entries_at pos [] []
| ce_cons pos lenb body bs pls :
    uN 32 lenb (zlen body) -> code_entries_at (pos + zlen lenb + zlen body) bs pls ->
    code_entries_at pos (lenb ++ body ++ bs)
      (PCodeEntry (pos + zlen lenb, pos + zlen lenb + zlen body) body :: pls).

(** What a module section with identifier [id] and contents at offset [s] should be
    reported as. *)
Inductive shows (s : Z) : Z -> list Z -> list payload -> Prop :=
| sh_custom nb name data :
    uN 32 nb (zlen name) -> zlen name <= 100000 -> utf8_valid name = true ->
    shows s 0 (nb ++ name ++ data)
      [PCustom (s, s + zlen (nb ++ name ++ data)) (nb ++ name ++ data) name data]
| sh_limited id cb count items :
    In id [1; 2; 3; 4; 5; 6; 7; 9; 11; 13] -> uN 32 cb count ->
    shows s id (cb ++ items) [PLimited EModule id (s, s + zlen (cb ++ items)) (cb ++ items) count items]
| sh_start fb f : uN 32 fb f -> shows s 8 fb [PStart f (s, s + zlen fb)]
| sh_data_count cb n : uN 32 cb n -> shows s 12 cb [PDataCount n (s, s + zlen cb)]
| sh_code cb bs pls :
    uN 32 cb (zlen pls) -> code_entries_at (s + zlen cb) bs pls ->
    shows s 10 (cb ++ bs) (PCodeStart (zlen pls) (s, s + zlen (cb ++ bs)) (zlen bs) :: pls)
| sh_unknown id data : 13 < id < 128 -> shows s id data [PUnknown id data (s, s + zlen data)].

(** The whole module: sections one after the other as laid out in [bytes], the
    first at offset [pos]. *)
Inductive shows_all : Z -> list (Z * list Z) -> list Z -> list payload -> Prop :=
| sa_nil pos : shows_all pos [] [] []
| sa_cons pos id data lenb pls secs bytes tr :
    uN 32 lenb (zlen data) -> shows (pos + 1 + zlen lenb) id data pls ->
    shows_all (pos + 1 + zlen lenb + zlen data) secs bytes tr ->
    shows_all pos ((id, data) :: secs) (id :: lenb ++ data ++ bytes) (pls ++ tr).

(** Bytes [s..e] of [b]. *)
Definition slice (b : list Z) (s e : Z) : list Z :=
  firstn (Z.to_nat (e - s)) (skipn (Z.to_nat s) b).

(** The situations a caller that feeds the pieces [cs0] to a new parser can be in:
    current parser, suspended parsers, buffer, pieces to come, [eof] flag. *)
Inductive driven (off : Z) (cs0 : list (list Z)) :
  parser -> list parser -> list Z -> list (list Z) -> bool -> Prop :=
| dr_init : driven off cs0 (new_parser off) [] [] cs0 false
| dr_feed cur st buf c cs :
    driven off cs0 cur st buf (c :: cs) false -> driven off cs0 cur st (buf ++ c) cs false
| dr_eof cur st buf : driven off cs0 cur st buf [] false -> driven off cs0 cur st buf [] true
| dr_more cur st buf cs e h cur' :
    driven off cs0 cur st buf cs e -> parse cur buf e = (Ok (NeedMoreData h), cur') ->
    driven off cs0 cur' st buf cs e
| dr_item cur st buf cs e n pl cur' cur'' st' :
    driven off cs0 cur st buf cs e -> parse cur buf e = (Ok (Parsed n pl), cur') ->
    after_payload cur' st pl = (cur'', st', false) ->
    driven off cs0 cur'' st' (skipn (Z.to_nat n) buf) cs e.

Definition is_end_payload (pl : payload) : bool := match pl with PEnd _ => true | _ => false end.

(** Reading function bodies one by one, with [eof] set, until something else comes. *)
Inductive reads_bodies : parser -> list Z -> list payload -> parser -> list Z -> Prop :=
| rb_nil p data : reads_bodies p data [] p data
| rb_cons p data n rg body p1 tr p2 rest :
    parse p data true = (Ok (Parsed n (PCodeEntry rg body)), p1) ->
    reads_bodies p1 (skipn (Z.to_nat n) data) tr p2 rest ->
    reads_bodies p data (PCodeEntry rg body :: tr) p2 rest.

(** The section-level grammar of modules: header, then well-formed sections in
    order, with as many function bodies as functions and with every data count
    equal to the number of data segments.  [tr] is what should be reported. *)
Definition accepted (off : Z) (data : list Z) (tr : list payload) : Prop :=
  exists secs bytes pls,
    data = [0; 97; 115; 109; 1; 0; 0; 0] ++ bytes /\
    shows_all (off + 8) secs bytes pls /\
    in_order (map fst secs) /\
    items_of 3 pls = bodies_of pls /\
    data_counts_ok pls /\
    tr = PVersion 1 EModule (off, off + 8) :: pls ++ [PEnd (off + zlen data)].

(** ** What a module built with wasm-encoder should be reported as *)
Definition tells (t : tsection) (pls : list payload) : Prop :=
  match t with
  | TCustom name data => exists rg c, pls = [PCustom rg c name data]
  | TLimited id count items => exists rg c, pls = [PLimited EModule id rg c count items]
  | TStart f => exists rg, pls = [PStart f rg]
  | TDataCount n => exists rg, pls = [PDataCount n rg]
  | TCode bodies => exists rg size ents, pls = PCodeStart (zlen bodies) rg size :: ents /\
      Forall2 (fun b e => exists rg, e = PCodeEntry rg b) bodies ents
  | TRaw id data => exists rg, pls = [PUnknown id data rg]
  end.

(** Arguments the builders are meant for: bytes, 32-bit counts, valid UTF-8 names
    no longer than the parser's limit, and raw sections only for unknown ids. *)
Definition tsection_ok (t : tsection) : Prop :=
  match t with
  | TCustom name data => bytes_ok name /\ bytes_ok data /\ zlen name <= 100000 /\ utf8_valid name = true
  | TLimited id count items => In id [1; 2; 3; 4; 5; 6; 7; 9; 11; 13] /\ in_u 32 count /\ bytes_ok items
  | TStart f => in_u 32 f
  | TDataCount n => in_u 32 n
  | TCode bodies => Forall bytes_ok bodies /\ zlen bodies < 2 ^ 32
  | TRaw id data => 13 < id < 128 /\ bytes_ok data
  end.

Fixpoint declared (id : Z) (ts : list tsection) : Z :=
  match ts with
  | [] => 0
  | TLimited id' n _ :: ts => (if id' =? id then n else 0) + declared id ts
  | _ :: ts => declared id ts
  end.
Fixpoint defined (ts : list tsection) : Z :=
  match ts with [] => 0 | TCode bodies :: ts => zlen bodies + defined ts | _ :: ts => defined ts end.
