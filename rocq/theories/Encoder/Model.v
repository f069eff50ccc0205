(** The outermost layer of wasm-encoder: how sections are put into a module. *)
From Verif.Base Require Import Prelude.
From Verif.Leb Require Import Model.

(** [Encode for [u8]] (crates/wasm-encoder/src/lib.rs:115-120). *)
Definition encode_bytes (data : list Z) : option (list Z) :=
  match encode_usize (zlen data) with
  | Some n => Some (n ++ data)
  | None => None
  end.

(** [Module::section] with a [RawSection] (core.rs:142-146, raw.rs:16-26): the id
    followed by the length-prefixed data.  Every other section writer produces the
    same outer shape: [encode_section] (lib.rs:198-202) prefixes the length of
    count and items, [CustomSection] (custom.rs:14-21) that of name and data, and
    [StartSection]/[DataCountSection] that of their one integer. *)
Definition module_section (id : Z) (data : list Z) : option (list Z) :=
  match encode_bytes data with
  | Some b => Some (id :: b)
  | None => None
  end.

(** [Module::HEADER] (core.rs:117-122). *)
Definition module_header : list Z := [0x00; 0x61; 0x73; 0x6D; 0x01; 0x00; 0x00; 0x00].

(** [Module::new], a [section] call for every element, [finish]
    (core.rs:126-130, 142-146, 160-162). *)
Fixpoint module_sections (secs : list (Z * list Z)) : option (list Z) :=
  match secs with
  | [] => Some []
  | (id, data) :: secs =>
      match module_section id data, module_sections secs with
      | Some a, Some b => Some (a ++ b)
      | _, _ => None
      end
  end.
Definition module_finish (secs : list (Z * list Z)) : option (list Z) :=
  match module_sections secs with Some b => Some (module_header ++ b) | None => None end.

(** [CustomSection::encode] (custom.rs:14-21): note that the length written first is
    computed, not measured. *)
Definition encode_custom (name data : list Z) : option (list Z) :=
  match encoding_size (zlen name), encode_bytes name with
  | Some n, Some nm =>
      match encode_usize (n + zlen name + zlen data) with
      | Some l => Some (l ++ nm ++ data)
      | None => None
      end
  | _, _ => None
  end.

(** [StartSection::encode] (start.rs:29-34) and [DataCountSection::encode]. *)
Definition encode_single_u32 (v : Z) : option (list Z) :=
  match encoding_size v, encode_u32 v with
  | Some n, Some b =>
      match encode_usize n with Some l => Some (l ++ b) | None => None end
  | _, _ => None
  end.

(** [CodeSection] (code.rs:42-45, 72-76, 104-108, 111-115): the bytes accumulated by
    [function]/[raw] calls, then [encode_section]. *)
Fixpoint code_bytes (bodies : list (list Z)) : option (list Z) :=
  match bodies with
  | [] => Some []
  | b :: bs =>
      match encode_bytes b, code_bytes bs with
      | Some x, Some y => Some (x ++ y)
      | _, _ => None
      end
  end.
Definition encode_code (bodies : list (list Z)) : option (list Z) :=
  match code_bytes bodies with
  | Some bs => encode_section (zlen bodies) bs
  | None => None
  end.

(** The section builders of wasm-encoder, by what they are given.  [TLimited] stands
    for every builder that counts the items added to it and appends their bytes:
    TypeSection, ImportSection, FunctionSection, TableSection, MemorySection,
    TagSection, GlobalSection, ExportSection, ElementSection, DataSection (each is
    [encode_section(sink, self.num_added, &self.bytes)], e.g. core/functions.rs:54-58,
    core/data.rs:157-161). *)
Inductive tsection :=
| TCustom (name data : list Z)
| TLimited (id count : Z) (items : list Z)
| TStart (func : Z)
| TDataCount (count : Z)
| TCode (bodies : list (list Z))
| TRaw (id : Z) (data : list Z).

(** [Section::id] (core/custom.rs:23-27, core/start.rs:36-40, core/data.rs:183-187,
    core/code.rs:118-122, raw.rs:21-25). *)
Definition tsection_id (t : tsection) : Z :=
  match t with
  | TCustom _ _ => 0 | TLimited id _ _ => id | TStart _ => 8 | TDataCount _ => 12
  | TCode _ => 10 | TRaw id _ => id
  end.

Definition encode_tsection (t : tsection) : option (list Z) :=
  match t with
  | TCustom name data => encode_custom name data
  | TLimited _ count items => encode_section count items
  | TStart f => encode_single_u32 f
  | TDataCount n => encode_single_u32 n
  | TCode bodies => encode_code bodies
  | TRaw _ data => encode_bytes data
  end.

(** [Section::append_to] (core.rs:60-64) for every section, then
    [Module::finish] (core.rs:160-162). *)
Fixpoint append_all (ts : list tsection) : option (list Z) :=
  match ts with
  | [] => Some []
  | t :: ts =>
      match encode_tsection t, append_all ts with
      | Some a, Some b => Some (tsection_id t :: a ++ b)
      | _, _ => None
      end
  end.
Definition module_build (ts : list tsection) : option (list Z) :=
  match append_all ts with Some b => Some (module_header ++ b) | None => None end.
