(** Model of crates/wit-parser/src/sizealign.rs.

    [usize] is taken to be 64 bits wide; its arithmetic wraps, as in a release
    build.  Type definitions are the arena [Resolve::types] as a list; a [TypeId]
    is an index into it. *)
From Verif.Base Require Import Prelude.

(** [enum Type] (lib.rs:750-766). *)
Inductive prim :=
| PBool | PU8 | PU16 | PU32 | PU64 | PS8 | PS16 | PS32 | PS64
| PF32 | PF64 | PChar | PString | PErrorContext.
Inductive ty := TPrim (p : prim) | TId (i : nat).

(** [enum TypeDefKind] (lib.rs:672-695); names of fields, cases and flags are
    dropped, flags and enums keep their number. *)
Inductive kind :=
| KRecord (fields : list ty)
| KResource
| KHandle
| KFlags (n : Z)
| KTuple (types : list ty)
| KVariant (cases : list (option ty))
| KEnum (n : Z)
| KOption (t : ty)
| KResult (ok err : option ty)
| KList (t : ty)
| KMap (k v : ty)
| KFixed (t : ty) (n : Z)
| KFuture (t : option ty)
| KStream (t : option ty)
| KType (t : ty)
| KUnknown.

Definition USIZE_MAX : Z := 2 ^ 64 - 1.
Definition uadd (a b : Z) : Z := wrapu 64 (a + b).
Definition usub (a b : Z) : Z := wrapu 64 (a - b).
Definition umul (a b : Z) : Z := wrapu 64 (a * b).

(** [enum Alignment] (sizealign.rs:13-19). *)
Inductive align_t := APointer | ABytes (n : Z).
Definition align_default : align_t := ABytes 1.

(** [Ord for Alignment] (sizealign.rs:42-66), as "less than or equal". *)
Definition align_leb (a b : align_t) : bool :=
  match a, b with
  | APointer, APointer => true
  | APointer, ABytes b => 4 <? b
  | ABytes b, APointer => negb (4 <? b)
  | ABytes a, ABytes b => a <=? b
  end.
(** [Ord::max]: the second operand wins ties. *)
Definition align_max (a b : align_t) : align_t := if align_leb a b then b else a.

(** [align_wasm32], [align_wasm64] (sizealign.rs:70-82). *)
Definition align_wasm32 (a : align_t) : Z := match a with APointer => 4 | ABytes n => n end.
Definition align_wasm64 (a : align_t) : Z := match a with APointer => 8 | ABytes n => n end.

(** [struct ArchitectureSize] (sizealign.rs:95-101). *)
Record asize := mkSize { s_bytes : Z; s_pointers : Z }.

(** [size_wasm32], [size_wasm64] (sizealign.rs:170-176). *)
Definition size_wasm32 (s : asize) : Z := uadd (s_bytes s) (umul (s_pointers s) 4).
Definition size_wasm64 (s : asize) : Z := uadd (s_bytes s) (umul (s_pointers s) 8).

(** [Add] (sizealign.rs:103-109). *)
Definition asize_add (a b : asize) : asize :=
  mkSize (uadd (s_bytes a) (s_bytes b)) (uadd (s_pointers a) (s_pointers b)).

(** [From<Alignment> for ArchitectureSize] (sizealign.rs:118-125). *)
Definition asize_of_align (a : align_t) : asize :=
  match a with ABytes n => mkSize n 0 | APointer => mkSize 0 1 end.

(** [align_to] (sizealign.rs:410-414). *)
Definition align_to (v a : Z) : Z := Z.land (usub (uadd v a) 1) (Z.lnot (a - 1)).

(** [ArchitectureSize::max] (sizealign.rs:138-154). *)
Definition asize_max (a b : asize) : asize :=
  let a32 := size_wasm32 a in let a64 := size_wasm64 a in
  let b32 := size_wasm32 b in let b64 := size_wasm64 b in
  if (b32 <=? a32) && (b64 <=? a64) then a
  else if (a32 <=? b32) && (a64 <=? b64) then b
  else
    let new32 := align_to (Z.max a32 b32) 4 in
    let new64 := align_to (Z.max a64 b64) 8 in
    mkSize (usub (uadd new32 new32) new64) (usub new64 new32 / 4).

(** [align_to_arch] (sizealign.rs:416-445). *)
Definition align_to_arch (v : asize) (a : align_t) : asize :=
  match a with
  | APointer =>
      let new32 := align_to (s_bytes v) 4 in
      if negb (new32 =? align_to new32 8)
      then mkSize (usub new32 4) (uadd (s_pointers v) 1)
      else mkSize new32 (s_pointers v)
  | ABytes n =>
      if (4 <? n) && negb (Z.land (s_pointers v) 1 =? 0) then
        let new_bytes := align_to (s_bytes v) n in
        if 4 <=? usub new_bytes (s_bytes v)
        then mkSize (usub new_bytes 8) (uadd (s_pointers v) 1)
        else mkSize (uadd new_bytes 8) (usub (s_pointers v) 1)
      else mkSize (align_to (s_bytes v) n) (s_pointers v)
  end.

(** [struct ElementInfo] (sizealign.rs:222-227). *)
Record info := mkInfo { i_size : asize; i_align : align_t }.

(** [enum Int] (lib.rs:769-774) and [int_size_align] (sizealign.rs:400-408). *)
Inductive int_t := IU8 | IU16 | IU32 | IU64.
Definition int_align (i : int_t) : align_t :=
  match i with IU8 => ABytes 1 | IU16 => ABytes 2 | IU32 => ABytes 4 | IU64 => ABytes 8 end.
Definition int_size_align (i : int_t) : info := mkInfo (asize_of_align (int_align i)) (int_align i).

(** [discriminant_type] (lib.rs:895-903); [None] is its panic. *)
Definition discriminant_type (n : Z) : option int_t :=
  if n =? 0 then Some IU8
  else if n - 1 <=? 255 then Some IU8
  else if n - 1 <=? 65535 then Some IU16
  else if n - 1 <=? 2 ^ 32 - 1 then Some IU32
  else None.

(** [Flags::repr] (lib.rs:820-827). *)
Inductive flags_repr := FU8 | FU16 | FU32 (n : Z).
Definition repr (n : Z) : flags_repr :=
  if n =? 0 then FU32 0 else if n <=? 8 then FU8 else if n <=? 16 then FU16
  else FU32 (align_to n 32 / 32).

(** [SizeAlign::size], [SizeAlign::align] (sizealign.rs:313-339), over the table
    computed so far; [None] is the panic of an index out of bounds. *)
Definition prim_size (p : prim) : asize :=
  match p with
  | PBool | PU8 | PS8 => mkSize 1 0
  | PU16 | PS16 => mkSize 2 0
  | PU32 | PS32 | PF32 | PChar | PErrorContext => mkSize 4 0
  | PU64 | PS64 | PF64 => mkSize 8 0
  | PString => mkSize 0 2
  end.
Definition prim_align (p : prim) : align_t :=
  match p with
  | PBool | PU8 | PS8 => ABytes 1
  | PU16 | PS16 => ABytes 2
  | PU32 | PS32 | PF32 | PChar | PErrorContext => ABytes 4
  | PU64 | PS64 | PF64 => ABytes 8
  | PString => APointer
  end.
(** Size and alignment are looked up together. *)
Definition lookup (m : list info) (t : ty) : option info :=
  match t with
  | TPrim p => Some (mkInfo (prim_size p) (prim_align p))
  | TId i => nth_error m i
  end.

Fixpoint lookups (m : list info) (l : list ty) : option (list info) :=
  match l with
  | [] => Some []
  | t :: l => match lookup m t, lookups m l with Some i, Some is => Some (i :: is) | _, _ => None end
  end.
(** The types of the cases that have one. *)
Fixpoint somes {A} (l : list (option A)) : list A :=
  match l with [] => [] | Some a :: l => a :: somes l | None :: l => somes l end.

(** [SizeAlign::record] (sizealign.rs:371-382) over the sizes of the fields. *)
Definition record_step (acc : asize * align_t) (f : info) : asize * align_t :=
  (asize_add (align_to_arch (fst acc) (i_align f)) (i_size f), align_max (snd acc) (i_align f)).
Definition record_info (fs : list info) : info :=
  let '(size, align) := fold_left record_step fs (mkSize 0 0, align_default) in
  mkInfo (align_to_arch size align) align.

(** [SizeAlign::variant] (sizealign.rs:388-413) over the sizes of the payloads. *)
Definition variant_step (acc : asize * align_t) (f : info) : asize * align_t :=
  (asize_max (fst acc) (i_size f), align_max (snd acc) (i_align f)).
Definition variant_info (tag : int_t) (cs : list info) : info :=
  let '(case_size, case_align) := fold_left variant_step cs (mkSize 0 0, align_default) in
  let align := align_max (int_align tag) case_align in
  let discrim_aligned := align_to_arch (asize_of_align (int_align tag)) case_align in
  mkInfo (align_to_arch (asize_add discrim_aligned case_size) align) align.

Definition omap {A B} (f : A -> B) (o : option A) : option B :=
  match o with Some a => Some (f a) | None => None end.

(** [checked_mul(..).unwrap()] (sizealign.rs:271-273). *)
Definition umul_checked (a b : Z) : option Z :=
  if a * b <=? USIZE_MAX then Some (a * b) else None.

(** [SizeAlign::calculate] (sizealign.rs:258-311). *)
Definition calculate (m : list info) (k : kind) : option info :=
  match k with
  | KType t => lookup m t
  | KFixed t n =>
      match lookup m t with
      | Some f =>
          match umul_checked (s_bytes (i_size f)) n, umul_checked (s_pointers (i_size f)) n with
          | Some b, Some p => Some (mkInfo (mkSize b p) (i_align f))
          | _, _ => None
          end
      | None => None
      end
  | KList _ | KMap _ _ => Some (mkInfo (mkSize 0 2) APointer)
  | KRecord fs | KTuple fs => omap record_info (lookups m fs)
  | KFlags n =>
      Some (match repr n with
            | FU8 => int_size_align IU8
            | FU16 => int_size_align IU16
            | FU32 n => mkInfo (mkSize (umul n 4) 0) (ABytes 4)
            end)
  | KVariant cs =>
      match discriminant_type (zlen cs), lookups m (somes cs) with
      | Some tag, Some is => Some (variant_info tag is)
      | _, _ => None
      end
  | KEnum n => omap (fun tag => variant_info tag []) (discriminant_type n)
  | KOption t => omap (variant_info IU8) (lookups m [t])
  | KResult ok err => omap (variant_info IU8) (lookups m (somes [ok; err]))
  | KHandle | KFuture _ | KStream _ => Some (int_size_align IU32)
  | KResource => Some (mkInfo (mkSize USIZE_MAX 0) (ABytes USIZE_MAX))
  | KUnknown => None
  end.

(** [SizeAlign::fill] (sizealign.rs:250-256). *)
Fixpoint fill_from (m : list info) (defs : list kind) : option (list info) :=
  match defs with
  | [] => Some m
  | k :: defs => match calculate m k with Some i => fill_from (m ++ [i]) defs | None => None end
  end.
Definition fill (defs : list kind) : option (list info) := fill_from [] defs.

(** [SizeAlign::field_offsets] (sizealign.rs:341-354) over the sizes of the fields. *)
Fixpoint offsets_from (cur : asize) (fs : list info) : list asize :=
  match fs with
  | [] => []
  | f :: fs => let ret := align_to_arch cur (i_align f) in
               ret :: offsets_from (asize_add ret (i_size f)) fs
  end.
Definition field_offsets (m : list info) (l : list ty) : option (list asize) :=
  omap (offsets_from (mkSize 0 0)) (lookups m l).

(** [SizeAlign::payload_offset] (sizealign.rs:356-369). *)
Definition payload_offset (m : list info) (tag : int_t) (cases : list (option ty)) : option asize :=
  omap (fun is => align_to_arch (asize_of_align (int_align tag))
                    (fold_left (fun a f => align_max a (i_align f)) is align_default))
       (lookups m (somes cases)).
