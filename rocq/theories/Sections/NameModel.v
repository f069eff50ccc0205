(** Model of the [name] custom section: the reader of wasmparser (readers/core/names.rs and [Subsections] of
    readers.rs), the writer of wasm-encoder (core/names.rs) and the translation between the two
    (reencode.rs:1842-1940) with its default methods.  Maps that the reader leaves for later are kept as
    their bytes; ranges are dropped. *)
From Verif.Base Require Import Prelude Utf8.
From Verif.Reader Require Import Model.
From Verif.Leb Require Import Model.
From Verif.Encoder Require Import Model.
From Verif.Codec Require Import Kit.
From Verif.Types Require Import RefModel CodecModel EntityModel.
From Verif.Sections Require Import SeeModel.

(** * The reader *)
(** [struct Naming] and its [FromReader] (names.rs:24-41): an index and a name of any length. *)
Definition read_naming : R (Z * list Z) :=
  let* i := read_var_u32 in let* s := read_unlimited_string in ret (i, s).
(** [FromReader for IndirectNaming] (names.rs:55-75): the names are skipped, by [skip_string], which has a
    limit.  [NameMap::new] reads the count again from the bytes that were skipped. *)
Definition read_indirect : R (Z * list Z) :=
  let* i := read_var_u32 in
  let* names := skip_raw (let* n := read_var_u32 in
                          let* _ := read_n (Z.to_nat n) (let* _ := read_var_u32 in skip_string) in ret tt) in
  ret (i, names).
(** The cases of [enum Name] (names.rs:79-118) that hold a [NameMap] and an [IndirectNameMap]. *)
Inductive map_kind := PFunction | PType | PTable | PMemory | PGlobal | PElement | PData | PTag.
Inductive ind_kind := PLocal | PLabel | PField.
Inductive p_name :=
| PNModule (name : list Z)
| PNMap (k : map_kind) (bytes : list Z)
| PNInd (k : ind_kind) (bytes : list Z)
| PNUnknown (ty : Z) (data : list Z).
(** [SectionLimited::new] (readers.rs:101-108): the count is read at once. *)
Definition new_limited {A} (f : list Z -> A) (d : reader) : res A :=
  match read_var_u32 d with Ok _ => Ok (f (r_rem d)) | Err e => Err e end.
(** [Name::from_reader] (names.rs:123-155). *)
Definition name_from_reader (id : Z) (d : reader) : res p_name :=
  match id with
  | 0 => match read_string d with
         | Err e => Err e
         | Ok (s, d') => if eof d' then Ok (PNModule s) else Err (mkError "trailing data at the end of a name" (original_position d') None)
         end
  | 1 => new_limited (PNMap PFunction) d
  | 2 => new_limited (PNInd PLocal) d
  | 3 => new_limited (PNInd PLabel) d
  | 4 => new_limited (PNMap PType) d
  | 5 => new_limited (PNMap PTable) d
  | 6 => new_limited (PNMap PMemory) d
  | 7 => new_limited (PNMap PGlobal) d
  | 8 => new_limited (PNMap PElement) d
  | 9 => new_limited (PNMap PData) d
  | 10 => new_limited (PNInd PField) d
  | 11 => new_limited (PNMap PTag) d
  | ty => Ok (PNUnknown ty (r_rem d))
  end.
(** [Subsections::read] (readers.rs:290-298). *)
Definition read_name : R p_name :=
  let* id := read_u7 in
  let* d := read_reader in
  fun r => match name_from_reader id d with Ok n => Ok (n, r) | Err e => Err e end.
(** The iterator [Subsections::next] (readers.rs:318-332), collected.  Every subsection has at least two
    bytes, so that the fuel, the number of bytes, is never exhausted. *)
Fixpoint until_eof {A} (fuel : nat) (item : R A) : R (list A) := fun r =>
  if eof r then Ok ([], r)
  else match fuel with
       | O => fail_at "out of fuel" 0 r
       | S fuel => (let* a := item in let* l := until_eof fuel item in ret (a :: l)) r
       end.
Definition read_names (ft : features) (data : list Z) : res (list p_name) :=
  match until_eof (List.length data) read_name (new_reader ft data 0) with Ok (l, _) => Ok l | Err e => Err e end.

(** * What a user sees *)
Inductive s_name :=
| SNModule (name : list Z)
| SNMap (k : map_kind) (l : list (Z * list Z))
| SNInd (k : ind_kind) (l : list (Z * list (Z * list Z)))
| SNUnknown (ty : Z) (data : list Z).
Definition see_map (ft : features) (bytes : list Z) : option (list (Z * list Z)) := seen_ok (section_items read_naming ft 0 bytes).
Definition see_indirect (ft : features) (x : Z * list Z) : option (Z * list (Z * list Z)) := option_map (pair (fst x)) (see_map ft (snd x)).
Definition see_ind (ft : features) (bytes : list Z) : option (list (Z * list (Z * list Z))) :=
  ops_bind (seen_ok (section_items read_indirect ft 0 bytes)) (all_seen (see_indirect ft)).
Definition see_name (ft : features) (n : p_name) : option s_name :=
  match n with
  | PNModule s => Some (SNModule s)
  | PNMap k b => option_map (SNMap k) (see_map ft b)
  | PNInd k b => option_map (SNInd k) (see_ind ft b)
  | PNUnknown ty d => Some (SNUnknown ty d)
  end.
Definition see_names (ft : features) (data : list Z) : option (list s_name) :=
  ops_bind (seen_ok (read_names ft data)) (all_seen (see_name ft)).

(** * The writer *)
(** [enum Subsection] and its discriminants (core/names.rs:31-52). *)
Inductive subsection := SubModule | SubFunction | SubLocal | SubLabel | SubType | SubTable | SubMemory | SubGlobal | SubElement | SubData | SubField | SubTag.
Definition sub_id (s : subsection) : Z :=
  match s with
  | SubModule => 0 | SubFunction => 1 | SubLocal => 2 | SubLabel => 3 | SubType => 4 | SubTable => 5 | SubMemory => 6
  | SubGlobal => 7 | SubElement => 8 | SubData => 9 | SubField => 10 | SubTag => 11
  end.
(** Calls of the methods of [NameSection]. *)
Inductive map_method := MFunctions | MTypes | MTables | MMemories | MGlobals | MElements | MData | MTags.
Inductive ind_method := MLocals | MLabels | MFields.
Inductive e_name :=
| ENModule (name : list Z)
| ENMap (m : map_method) (l : list (Z * list Z))
| ENInd (m : ind_method) (l : list (Z * list (Z * list Z)))
| ENRaw (id : Z) (data : list Z).
Definition map_sub (m : map_method) : subsection :=
  match m with
  | MFunctions => SubFunction | MTypes => SubType | MTables => SubTable | MMemories => SubMemory | MGlobals => SubGlobal
  | MElements => SubElement | MData => SubData | MTags => SubTag
  end.
Definition ind_sub (m : ind_method) : subsection := match m with MLocals => SubLocal | MLabels => SubLabel | MFields => SubField end.
(** A count and the bytes of the entries: [NameMap] and [IndirectNameMap] with their [size] and [encode]
    (names.rs:219-300). *)
Record name_map := mkMap { nm_count : Z; nm_bytes : out }.
Definition map_size (m : name_map) : option Z :=
  match encoding_size (nm_count m), nm_bytes m with Some n, Some b => Some (n + zlen b) | _, _ => None end.
Definition map_encode (m : name_map) : out := encode_u32 (nm_count m) +++ nm_bytes m.
(** [NameMap::append] (names.rs:244-248) and [IndirectNameMap::append] (names.rs:286-290), once for every entry. *)
Definition enc_naming (x : Z * list Z) : out := encode_u32 (fst x) +++ o_str (snd x).
Definition map_of (l : list (Z * list Z)) : name_map := mkMap (zlen l) (o_all enc_naming l).
Definition enc_indirect (x : Z * list (Z * list Z)) : out := encode_u32 (fst x) +++ map_encode (map_of (snd x)).
Definition ind_of (l : list (Z * list (Z * list Z))) : name_map := mkMap (zlen l) (o_all enc_indirect l).
(** [subsection_header] (names.rs:185-188). *)
Definition sub_header (s : subsection) (len : option Z) : out :=
  match len with Some n => o_byte (sub_id s) +++ encode_usize n | None => None end.
(** [NameSection::module] (names.rs:65-69), the methods for maps (names.rs:77-177), [raw] (names.rs:180-183). *)
Definition enc_name (n : e_name) : out :=
  match n with
  | ENModule s => sub_header SubModule (option_map (fun k => k + zlen s) (encoding_size (zlen s))) +++ o_str s
  | ENMap m l => sub_header (map_sub m) (map_size (map_of l)) +++ map_encode (map_of l)
  | ENInd m l => sub_header (ind_sub m) (map_size (ind_of l)) +++ map_encode (ind_of l)
  | ENRaw id d => o_byte id +++ o_str d
  end.
Definition enc_names (l : list e_name) : out := o_all enc_name l.

(** * The translation *)
(** [name_map] and [indirect_name_map] (reencode.rs:1910-1940). *)
Definition c_map (ft : features) (bytes : list Z) : option (list (Z * list Z)) :=
  match section_items read_naming ft 0 bytes with Ok l => Some l | Err _ => None end.
Definition c_indirect (ft : features) (x : Z * list Z) : option (Z * list (Z * list Z)) :=
  match c_map ft (snd x) with Some l => Some (fst x, l) | None => None end.
Definition c_ind (ft : features) (bytes : list Z) : option (list (Z * list (Z * list Z))) :=
  match section_items read_indirect ft 0 bytes with Ok l => all_some (c_indirect ft) l | Err _ => None end.
(** [parse_custom_name_subsection] (reencode.rs:1853-1908). *)
Definition c_map_kind (k : map_kind) : map_method :=
  match k with
  | PFunction => MFunctions | PType => MTypes | PTable => MTables | PMemory => MMemories | PGlobal => MGlobals
  | PElement => MElements | PData => MData | PTag => MTags
  end.
Definition c_ind_kind (k : ind_kind) : ind_method := match k with PLocal => MLocals | PLabel => MLabels | PField => MFields end.
Definition c_name (ft : features) (n : p_name) : option e_name :=
  match n with
  | PNModule s => Some (ENModule s)
  | PNMap k b => option_map (ENMap (c_map_kind k)) (c_map ft b)
  | PNInd k b => option_map (ENInd (c_ind_kind k)) (c_ind ft b)
  | PNUnknown ty d => Some (ENRaw ty d)
  end.
(** [custom_name_section] (reencode.rs:1842-1851). *)
Definition c_names (ft : features) (data : list Z) : option (list e_name) :=
  match read_names ft data with Ok l => all_some (c_name ft) l | Err _ => None end.

(** * Which names can be written *)
Definition naming_ok (x : Z * list Z) : Prop := in_u 32 (fst x) /\ bytes_ok (snd x) /\ utf8_valid (snd x) = true /\ zlen (snd x) < 2 ^ 32.
(** Inside an indirect map a name has a limited length. *)
Definition short_ok (x : Z * list Z) : Prop := in_u 32 (fst x) /\ bytes_ok (snd x) /\ utf8_valid (snd x) = true /\ zlen (snd x) <= 100000.
Definition indirect_ok (x : Z * list (Z * list Z)) : Prop := in_u 32 (fst x) /\ Forall short_ok (snd x) /\ zlen (snd x) < 2 ^ 32.
Definition e_name_ok (n : e_name) : Prop :=
  match n with
  | ENModule s => bytes_ok s /\ utf8_valid s = true /\ zlen s <= 100000
  | ENMap _ l => Forall naming_ok l /\ zlen l < 2 ^ 32
  | ENInd _ l => Forall indirect_ok l /\ zlen l < 2 ^ 32
  | ENRaw id d => 11 < id < 128 /\ bytes_ok d
  end.
