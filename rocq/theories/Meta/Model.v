(** Model of the editing of metadata: crates/wasm-metadata/src/rewrite.rs, producers.rs, names/module.rs,
    names/component.rs, utils.rs, add_metadata.rs and the sections of oci_annotations, with the readers and
    writers they call.

    Simplifications, valid for the whole file: an error and a panic are both [None]; a [String] is the list of
    its bytes; the SPDX and URL parsers of the crates [spdx] and [url] are parameters. *)
From Coq Require Import Ascii.
From Verif.Base Require Import Prelude Utf8.
From Verif.Reader Require Import Model.
From Verif.Leb Require Import Model.
From Verif.Encoder Require Import Model.
From Verif.Codec Require Import Kit.
From Verif.Types Require Import CodecModel EntityModel.
From Verif.Sections Require Import NameModel.
From Verif.Parser Require Import Model Spec.

Definition lit (s : string) : list Z := map (fun c => Z.of_nat (nat_of_ascii c)) (list_ascii_of_string s).
Definition same (a b : list Z) : bool := bytes_eqb a b.

(** * Producers *)
(** [IndexMap]: entries in the order of their first insertion; [insert] replaces the value of a key that is
    there, [get] finds it. *)
Fixpoint im_get {V} (m : list (list Z * V)) (k : list Z) : option V :=
  match m with [] => None | (k', v) :: m => if same k k' then Some v else im_get m k end.
Fixpoint im_insert {V} (m : list (list Z * V)) (k : list Z) (v : V) : list (list Z * V) :=
  match m with
  | [] => [(k, v)]
  | (k', v') :: m => if same k k' then (k', v) :: m else (k', v') :: im_insert m k v
  end.
(** [struct Producers] (producers.rs:10-17). *)
Definition versions : Type := list (list Z * list Z).
Definition producers : Type := list (list Z * versions).

(** [FromReader for ProducersField] and [for ProducersFieldValue] (wasmparser readers/core/producers.rs:48-85);
    the values are left for later, and skipped with [skip_string], which has a limit. *)
Definition known_field (name : list Z) : bool :=
  same name (lit "language") || same name (lit "sdk") || same name (lit "processed-by").
Definition read_pfield : R (list Z * list Z) :=
  let* name := read_unlimited_string in
  if known_field name then
    let* values := skip_raw (let* n := read_var_u32 in
                             let* _ := read_n (Z.to_nat n) (let* _ := skip_string in skip_string) in ret tt) in
    ret (name, values)
  else fail_at "invalid producers field name" 0.
Definition read_pvalue : R (list Z * list Z) :=
  let* name := read_unlimited_string in let* version := read_unlimited_string in ret (name, version).
(** [Producers::from_bytes] (producers.rs:60-74). *)
Definition insert_all {V} (l : list (list Z * V)) : list (list Z * V) :=
  fold_left (fun m x => im_insert m (fst x) (snd x)) l [].
Definition field_values (x : list Z * list Z) : option (list Z * versions) :=
  match section_items read_pvalue all_features 0 (snd x) with Ok l => Some (fst x, insert_all l) | Err _ => None end.
Definition producers_from_bytes (data : list Z) : option producers :=
  match section_items read_pfield all_features 0 data with
  | Ok fields => option_map insert_all (all_some field_values fields)
  | Err _ => None
  end.
(** [Producers::add] (producers.rs:79-90) and [merge] (94-100). *)
Definition p_add (p : producers) (field name version : list Z) : producers :=
  match im_get p field with
  | Some m => im_insert p field (im_insert m name version)
  | None => im_insert p field [(name, version)]
  end.
Definition p_merge (p other : producers) : producers :=
  fold_left (fun p f => fold_left (fun p x => p_add p (fst f) (fst x) (snd x)) (snd f) p) other p.
(** [Producers::section] (producers.rs:132-142) with [ProducersSection] and [ProducersField] of wasm-encoder
    (core/producers.rs:43-75, 98-126): the data of the custom section. *)
Definition enc_pvalue (x : list Z * list Z) : out := o_str (fst x) +++ o_str (snd x).
Definition enc_pfield (f : list Z * versions) : out :=
  o_str (fst f) +++ encode_u32 (zlen (snd f)) +++ o_all enc_pvalue (snd f).
Definition producers_data (p : producers) : out := encode_u32 (zlen p) +++ o_all enc_pfield p.

(** * Names of a module *)
(** [struct ModuleNames] (names/module.rs:10-13). *)
Record module_names := mkMN { mn_name : option (list Z); mn_names : list p_name }.
(** [ModuleNames::from_bytes] (names/module.rs:34-46). *)
Definition mn_of (l : list p_name) : module_names :=
  fold_left (fun s n => match n with
                        | PNModule name => mkMN (Some name) (mn_names s)
                        | n => mkMN (mn_name s) (mn_names s ++ [n])
                        end) l (mkMN None []).
Definition module_names_from_bytes (data : list Z) : option module_names :=
  match read_names all_features data with Ok l => Some (mn_of l) | Err _ => None end.
(** [ModuleNames::merge] (names/module.rs:55-60) with [from_name] of a name (48-52). *)
Definition mn_set (s : module_names) (name : list Z) : module_names := mkMN (Some name) (mn_names s).
(** [ModuleNames::section] (names/module.rs:71-94): unknown subsections are not written. *)
Definition mn_section (s : module_names) : option (list e_name) :=
  let fix go l := match l with
                  | [] => Some []
                  | PNUnknown _ _ :: l => go l
                  | PNModule _ :: _ => None (* unreachable!() *)
                  | n :: l => match c_name all_features n, go l with Some e, Some t => Some (e :: t) | _, _ => None end
                  end in
  option_map (app (match mn_name s with Some n => [ENModule n] | None => [] end)) (go (mn_names s)).
Definition module_names_data (s : module_names) : out :=
  match mn_section s with Some l => enc_names l | None => None end.

(** * Names of a component *)
(** [enum ComponentName] (wasmparser readers/component/names.rs:11-39); the kinds are given by the bytes that
    announce them, the core ones after a zero byte. *)
Inductive c_kind := KCore (b : Z) | KComp (b : Z).
Inductive c_name_ := CNComponent (name : list Z) | CNMap (k : c_kind) (bytes : list Z) | CNUnknown (ty : Z) (data : list Z).
Definition known_core (b : Z) : bool := ((0 <=? b) && (b <=? 4)) || ((0x10 <=? b) && (b <=? 0x12)).
Definition known_comp (b : Z) : bool := (1 <=? b) && (b <=? 5).
(** [ComponentName::from_reader] (names.rs:42-99). *)
Definition cname_from_reader (id : Z) (d : reader) : res c_name_ :=
  if id =? 0 then
    match read_unlimited_string d with
    | Err e => Err e
    | Ok (s, d') => if eof d' then Ok (CNComponent s) else Err (mkError "trailing data at the end of a name" (original_position d') None)
    end
  else if id =? 1 then
    match read_u8 d with
    | Err e => Err e
    | Ok (k, d1) =>
        if k =? 0 then
          match read_u8 d1 with
          | Err e => Err e
          | Ok (k2, d2) => if known_core k2 then new_limited (CNMap (KCore k2)) d2 else Ok (CNUnknown 1 (r_rem d2))
          end
        else if known_comp k then new_limited (CNMap (KComp k)) d1
        else Ok (CNUnknown 1 (r_rem d1))
    end
  else Ok (CNUnknown id (r_rem d)).
(** [Subsections::read] and its iteration (readers.rs:290-332). *)
Definition read_cname : R c_name_ :=
  let* id := read_u7 in
  let* d := read_reader in
  fun r => match cname_from_reader id d with Ok n => Ok (n, r) | Err e => Err e end.
Definition read_cnames (data : list Z) : res (list c_name_) :=
  match until_eof (List.length data) read_cname (new_reader all_features data 0) with Ok (l, _) => Ok l | Err e => Err e end.
(** [struct ComponentNames], [from_bytes], [merge] with [from_name] (names/component.rs:10-63). *)
Record component_names := mkCN { cn_name : option (list Z); cn_names : list c_name_ }.
Definition cn_of (l : list c_name_) : component_names :=
  fold_left (fun s n => match n with
                        | CNComponent name => mkCN (Some name) (cn_names s)
                        | n => mkCN (cn_name s) (cn_names s ++ [n])
                        end) l (mkCN None []).
Definition component_names_from_bytes (data : list Z) : option component_names :=
  match read_cnames data with Ok l => Some (cn_of l) | Err _ => None end.
Definition cn_set (s : component_names) (name : list Z) : component_names := mkCN (Some name) (cn_names s).
(** [ComponentNameSection::component], [core_decls], [component_decls] (wasm-encoder component/names.rs:32-36,
    126-145). *)
Definition enc_cname (n : list Z) : out :=
  match option_map (fun k => k + zlen n) (encoding_size (zlen n)) with Some len => o_byte 0 +++ encode_usize len +++ o_str n | None => None end.
Definition enc_decls (k : c_kind) (m : name_map) : out :=
  match map_size m with
  | None => None
  | Some n =>
      match k with
      | KComp b => o_byte 1 +++ encode_usize (1 + n) +++ o_byte b +++ map_encode m
      | KCore b => o_byte 1 +++ encode_usize (2 + n) +++ o_byte 0 +++ o_byte b +++ map_encode m
      end
  end.
(** [ComponentNames::section] (names/component.rs:73-103). *)
Definition component_names_data (s : component_names) : out :=
  let fix go l := match l with
                  | [] => o_nil
                  | CNUnknown _ _ :: l => go l
                  | CNComponent _ :: _ => None (* unreachable!() *)
                  | CNMap k b :: l => match c_map all_features b with Some m => enc_decls k (map_of m) +++ go l | None => None end
                  end in
  (match cn_name s with Some n => enc_cname n | None => o_nil end) +++ go (cn_names s).

(** * What to edit *)
(** [enum AddMetadataField] (add_metadata.rs:62-72). *)
Inductive field := Keep | Clear | Set_ (v : list Z).
(** The seven sections of oci_annotations. *)
Inductive oci := Authors | Description | Licenses | Source | Homepage | Revision | Version.
Definition all_oci : list oci := [Authors; Description; Licenses; Source; Homepage; Revision; Version].
Definition oci_name (o : oci) : list Z :=
  match o with
  | Authors => lit "authors" | Description => lit "description" | Licenses => lit "licenses" | Source => lit "source"
  | Homepage => lit "homepage" | Revision => lit "revision" | Version => lit "version"
  end.
(** [struct AddMetadata] (add_metadata.rs:8-48), without the producers it lists. *)
Record add_metadata := mkAdd { am_name : field; am_oci : oci -> field }.
(** [Expression::parse] and [Url::parse], each followed by [to_string]. *)
Record text_parsers := mkText { spdx : list Z -> option (list Z); url : list Z -> option (list Z) }.
(** [parse_custom_section] of the seven (e.g. authors.rs:28-35, licenses.rs:20-27, source.rs:22-29): the data
    written back. *)
Definition oci_reparse (tp : text_parsers) (o : oci) (data : list Z) : option (list Z) :=
  if utf8_valid data then
    match o with
    | Licenses => spdx tp data
    | Source | Homepage => url tp data
    | _ => Some data
    end
  else None.

(** * Rewriting *)
(** The variables of [rewrite_wasm] (rewrite.rs:14-17). *)
Record rw := mkRw { rw_producers : bool; rw_names : bool; rw_stack : list (list Z); rw_out : list Z }.
Definition emit (s : rw) (bytes : list Z) : rw := mkRw (rw_producers s) (rw_names s) (rw_stack s) (rw_out s ++ bytes).
Definition found_producers (s : rw) : rw := mkRw true (rw_names s) (rw_stack s) (rw_out s).
Definition found_names (s : rw) : rw := mkRw (rw_producers s) true (rw_stack s) (rw_out s).
(** [Component::HEADER] (wasm-encoder component.rs). *)
Definition component_header : list Z := [0x00; 0x61; 0x73; 0x6D; 0x0D; 0x00; 0x01; 0x00].
Definition header_of (e : encoding) : list Z := match e with EComponent => component_header | EModule => module_header end.
Fixpoint starts_with (p l : list Z) : bool :=
  match p, l with
  | [], _ => true
  | x :: p, y :: l => (x =? y) && starts_with p l
  | _, _ => false
  end.
(** [CustomSection] appended: id and contents. *)
Definition emit_custom (s : rw) (name data : list Z) : option rw :=
  match encode_custom name data with Some b => Some (emit s (0 :: b)) | None => None end.
Definition emit_data (s : rw) (name : list Z) (data : out) : option rw :=
  match data with Some d => emit_custom s name d | None => None end.
(** [Payload::as_section] (parser.rs:1323-1378). *)
Definition as_section (pl : payload) : option (Z * (Z * Z)) :=
  match pl with
  | PVersion _ _ _ => None
  | PLimited _ id rg _ _ _ => Some (id, rg)
  | PCustom rg _ _ _ => Some (0, rg)
  | PStart _ rg => Some (8, rg)
  | PDataCount _ rg => Some (12, rg)
  | PCodeStart _ rg _ => Some (10, rg)
  | PCodeEntry _ _ => None
  | PModule _ rg => Some (1, rg)
  | PComponent _ rg => Some (4, rg)
  | PComponentStart _ rg => Some (9, rg)
  | PUnknown id _ rg => Some (id, rg)
  | PEnd _ => None
  end.
(** The last part of the loop (rewrite.rs:162-169). *)
Definition pass (input : list Z) (s : rw) (pl : payload) : option rw :=
  match as_section pl with
  | None => Some s
  | Some (id, (a, b)) => match module_section id (slice input a b) with Some bs => Some (emit s bs) | None => None end
  end.
(** [ProducersSectionReader::new] in [as_known] (custom.rs:75-78): the count can be read. *)
Definition has_count (data : list Z) : bool := match read_var_u32 (new_reader all_features data 0) with Ok _ => true | Err _ => false end.
Definition find_oci (name : list Z) : option oci := find (fun o => same name (oci_name o)) all_oci.
(** The match on [as_known] (rewrite.rs:53-158).  [Some None]: the section is passed on. *)
Definition rewrite_custom (tp : text_parsers) (m : add_metadata) (add : producers) (s : rw) (name data : list Z) : option (option rw) :=
  if same name (lit "producers") && has_count data then
    match producers_from_bytes data with
    | Some p => option_map Some (emit_data (found_producers s) (lit "producers") (producers_data (p_merge p add)))
    | None => None
    end
  else if same name (lit "name") then
    match module_names_from_bytes data with
    | Some n =>
        let n := match am_name m with Keep => n | Set_ v => mn_set n v | Clear => mkMN None [] end in
        option_map Some (emit_data (found_names s) (lit "name") (module_names_data n))
    | None => None
    end
  else if same name (lit "component-name") then
    match component_names_from_bytes data with
    | Some n =>
        let n := match am_name m with Keep => n | Set_ v => cn_set n v | Clear => mkCN None [] end in
        option_map Some (emit_data (found_names s) (lit "component-name") (component_names_data n))
    | None => None
    end
  else match find_oci name with
       | Some o =>
           match am_oci m o with
           | Keep => match oci_reparse tp o data with Some d => option_map Some (emit_custom s (oci_name o) d) | None => None end
           | Clear => Some (Some s)
           | Set_ _ => Some None
           end
       | None => Some None
       end.
(** One turn of the loop (rewrite.rs:18-170); [true]: [break]. *)
Definition rewrite_payload (tp : text_parsers) (m : add_metadata) (add : producers) (input : list Z) (s : rw) (pl : payload) : option (rw * bool) :=
  let go o := option_map (fun s => (s, false)) o in
  match pl with
  | PModule _ _ | PComponent _ _ => Some (mkRw (rw_producers s) (rw_names s) (rw_out s :: rw_stack s) [], false)
  | PEnd _ =>
      match rw_stack s with
      | [] => Some (s, true)
      | parent :: st =>
          match encode_bytes (rw_out s) with
          | Some b => Some (mkRw (rw_producers s) (rw_names s) st
                              (parent ++ (if starts_with component_header (rw_out s) then 4 else 1) :: b), false)
          | None => None
          end
      end
  | PVersion _ e _ => Some (emit s (header_of e), false)
  | PCustom _ _ name data =>
      match rw_stack s with
      | [] => match rewrite_custom tp m add s name data with
              | Some (Some s') => Some (s', false)
              | Some None => go (pass input s pl)
              | None => None
              end
      | _ => go (pass input s pl)
      end
  | _ => go (pass input s pl)
  end.
Fixpoint rewrite_loop (tp : text_parsers) (m : add_metadata) (add : producers) (input : list Z) (s : rw) (tr : list payload) : option rw :=
  match tr with
  | [] => Some s
  | pl :: tr => match rewrite_payload tp m add input s pl with
                | Some (s, false) => rewrite_loop tp m add input s tr
                | Some (s, true) => Some s
                | None => None
                end
  end.
(** After the loop (rewrite.rs:171-223). *)
Definition add_names (m : add_metadata) (s : rw) : option rw :=
  if rw_names s then Some s
  else match am_name m with
       | Set_ n => if starts_with component_header (rw_out s)
                   then emit_data s (lit "component-name") (component_names_data (mkCN (Some n) []))
                   else emit_data s (lit "name") (module_names_data (mkMN (Some n) []))
       | _ => Some s
       end.
Definition add_producers (add : producers) (s : rw) : option rw :=
  if rw_producers s then Some s
  else match add with
       | [] => Some s
       | _ => emit_data s (lit "producers") (producers_data (p_merge [] add))
       end.
Fixpoint add_oci (m : add_metadata) (l : list oci) (s : rw) : option rw :=
  match l with
  | [] => Some s
  | o :: l => match am_oci m o with
              | Set_ d => match emit_custom s (oci_name o) d with Some s => add_oci m l s | None => None end
              | _ => add_oci m l s
              end
  end.
(** [rewrite_wasm] (rewrite.rs:9-224) on an input for which [parse_all] delivers [tr] and no error. *)
Definition rewrite_wasm (tp : text_parsers) (m : add_metadata) (add : producers) (input : list Z) (tr : list payload) : option (list Z) :=
  match rewrite_loop tp m add input (mkRw false false [] []) tr with
  | None => None
  | Some s =>
      match add_names m s with
      | None => None
      | Some s => match add_producers add s with
                  | None => None
                  | Some s => option_map rw_out (add_oci m all_oci s)
                  end
      end
  end.
(** [Producers::add_to_wasm] (producers.rs:153-155): nothing else is edited. *)
Definition keep_all : add_metadata := mkAdd Keep (fun _ => Keep).
(** [Producers::from_wasm] (producers.rs:39-58) on such an input; the outer [None] is an error. *)
Fixpoint producers_from_wasm (depth : Z) (tr : list payload) : option (option producers) :=
  match tr with
  | [] => Some None
  | PModule _ _ :: tr | PComponent _ _ :: tr => producers_from_wasm (depth + 1) tr
  | PEnd _ :: tr => producers_from_wasm (depth - 1) tr
  | PCustom _ _ name data :: tr =>
      if (depth =? 0) && (same name (lit "producers") && has_count data)
      then option_map Some (producers_from_bytes data)
      else producers_from_wasm depth tr
  | _ :: tr => producers_from_wasm depth tr
  end.
