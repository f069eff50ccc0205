(** Model of [Reencode::parse_core_module] (crates/wasm-encoder/src/reencode.rs:665-890) with the default
    methods of the trait, as [RoundtripReencoder] has them: a whole module is parsed, every section is
    translated and written again.  [intersperse_section_hook] does nothing by default and is left out. *)
From Verif.Base Require Import Prelude.
From Verif.Reader Require Import Model.
From Verif.Leb Require Import Model.
From Verif.Encoder Require Import Model.
From Verif.Parser Require Import Model.
From Verif.Codec Require Import Kit.
From Verif.Types Require Import RefModel CodecModel EntityModel.
From Verif.Instr Require Import ImmModel Ops Sink Visit Convert BodyModel.
From Verif.Sections Require Import SegModel SeeModel NameModel.

(** The items of a [SectionLimited] whose count was read by [SectionLimited::new]: what its iterator returns
    (readers.rs:196-214). *)
Definition limited {A} (item : R A) (ft : features) (count : Z) (items : list Z) : res (list A) :=
  match read_n (Z.to_nat count) item (new_reader ft items 0) with
  | Err e => Err e
  | Ok (l, r) => if eof r then Ok l else Err (mkError "section size mismatch: unexpected data at the end of the section" (original_position r) None)
  end.

(** * What a user sees of a module *)
Definition NAME : list Z := [110; 97; 109; 101].
Definition bytes_eqb (a b : list Z) : bool := if list_eq_dec Z.eq_dec a b then true else false.
(** One payload, with everything in it read, and without positions. *)
Inductive s_payload :=
| SVersion (num : Z) (e : encoding)
| STypes (l : list p_rec) | SImports (l : list s_imports) | SFunctions (l : list Z) | STables (l : list (table_ty Z * option (list seen)))
| SMemories (l : list memory_ty) | STags (l : list Z) | SGlobals (l : list (global_ty p_val * list seen)) | SExports (l : list p_export)
| SStart (f : Z) | SElements (l : list (s_elem_kind * s_elem_items)) | SDataCount (n : Z) | SData (l : list (s_data_kind * list Z))
| SCodeStart (n : Z) | SBody (b : list (Z * p_val) * list seen)
| SNames (l : list s_name) | SCustom (name data : list Z) | SUnknown (id : Z) (data : list Z) | SEnd.
Definition see_items {A V B} (item : R A) (view : A -> option V) (f : list V -> B) (ft : features) (count : Z) (items : list Z) : option B :=
  option_map f (ops_bind (seen_ok (limited item ft count items)) (all_seen view)).
Definition see_payload (ft : features) (p : payload) : option s_payload :=
  match p with
  | PVersion n e _ => Some (SVersion n e)
  | PLimited EModule id _ _ n items =>
      match id with
      | 1 => see_items read_rec Some STypes ft n items
      | 2 => see_items read_imports (see_imports ft) SImports ft n items
      | 3 => see_items read_var_u32 Some SFunctions ft n items
      | 4 => see_items read_table_def (see_table_def ft) STables ft n items
      | 5 => see_items read_memory Some SMemories ft n items
      | 6 => see_items read_global_def (see_global_def ft) SGlobals ft n items
      | 7 => see_items read_export Some SExports ft n items
      | 9 => see_items read_elem (see_elem ft) SElements ft n items
      | 11 => see_items read_data (see_data ft) SData ft n items
      | 13 => see_items read_tag Some STags ft n items
      | _ => None
      end
  | PStart f _ => Some (SStart f)
  | PDataCount n _ => Some (SDataCount n)
  | PCodeStart n _ _ => Some (SCodeStart n)
  | PCodeEntry _ b => option_map SBody (see_body ft b)
  | PCustom _ _ name data =>
      if bytes_eqb name NAME then option_map SNames (see_names ft data) else Some (SCustom name data)
  | PUnknown id data _ => Some (SUnknown id data)
  | PEnd _ => Some SEnd
  | PLimited EComponent _ _ _ _ _ | PModule _ _ | PComponent _ _ | PComponentStart _ _ => None
  end.
Definition see_module (ft : features) (tr : list payload) : option (list s_payload) := all_seen (see_payload ft) tr.

(** * Sections of wasm-encoder *)
(** A section builder with what was added to it. *)
Inductive e_section :=
| ESTypes (l : list e_rec) | ESImports (l : list e_imports) | ESFunctions (l : list Z) | ESTables (l : list e_table_def)
| ESMemories (l : list memory_ty) | ESTags (l : list Z) | ESGlobals (l : list e_global_def) | ESExports (l : list export)
| ESStart (f : Z) | ESElements (l : list e_elem) | ESDataCount (n : Z) | ESData (l : list e_data) | ESCode (l : list e_func)
| ESNames (l : list e_name) | ESCustom (name data : list Z) | ESRaw (id : Z) (data : list Z).
(** The bytes each builder holds; the identifiers are those of [enum SectionId] (core.rs:80-110). *)
Definition t_limited {A} (id : Z) (enc : A -> out) (l : list A) : option tsection :=
  option_map (TLimited id (zlen l)) (o_all enc l).
Fixpoint t_bodies (l : list e_func) : option (list (list Z)) :=
  match l with [] => Some [] | f :: t => match func_bytes f, t_bodies t with Some b, Some bs => Some (b :: bs) | _, _ => None end end.
Definition t_section (s : e_section) : option tsection :=
  match s with
  | ESTypes l => t_limited 1 enc_rec l
  | ESImports l => t_limited 2 enc_imports l
  | ESFunctions l => t_limited 3 encode_u32 l
  | ESTables l => t_limited 4 enc_table_def l
  | ESMemories l => t_limited 5 enc_memory l
  | ESGlobals l => t_limited 6 enc_global_def l
  | ESExports l => t_limited 7 enc_export l
  | ESStart f => Some (TStart f)
  | ESElements l => t_limited 9 enc_elem l
  | ESCode l => option_map TCode (t_bodies l)
  | ESData l => t_limited 11 enc_data l
  | ESDataCount n => Some (TDataCount n)
  | ESTags l => t_limited 13 enc_tag l
  | ESNames l => option_map (TCustom NAME) (enc_names l)
  | ESCustom name data => Some (TCustom name data)
  | ESRaw id data => Some (TRaw id data)
  end.
Fixpoint t_sections (l : list e_section) : option (list tsection) :=
  match l with [] => Some [] | s :: t => match t_section s, t_sections t with Some a, Some b => Some (a :: b) | _, _ => None end end.
(** [Module::new], [section] for every element, [finish]; [None] is a panic. *)
Definition build (l : list e_section) : out := match t_sections l with Some ts => module_build ts | None => None end.

(** * The translation *)
(** [get_original_section] (reencode.rs:687-696), the parser starting at offset 0. *)
Definition get_original (data : list Z) (rg : Z * Z) : option (list Z) :=
  if (fst rg <=? snd rg) && (snd rg <=? zlen data) then Some (firstn (Z.to_nat (snd rg - fst rg)) (skipn (Z.to_nat (fst rg)) data)) else None.
(** [parse_*_section]: every item is read, translated and added (e.g. reencode.rs:1116-1128, 1300-1310). *)
Definition c_limited {A B} (item : R B) (conv : B -> option A) (f : list A -> e_section) (ft : features) (count : Z) (items : list Z) : option (list e_section) :=
  match limited item ft count items with Ok l => option_map (fun l => [f l]) (all_some conv l) | Err _ => None end.
Definition c_payload (ft : features) (data : list Z) (p : payload) : option (list e_section) :=
  match p with
  | PVersion _ EModule _ => Some []
  | PVersion _ EComponent _ => None
  | PLimited EModule id _ _ n items =>
      match id with
      | 1 => c_limited read_rec c_rec ESTypes ft n items
      | 2 => c_limited read_imports (c_imports ft 0) ESImports ft n items
      | 3 => c_limited read_var_u32 Some ESFunctions ft n items
      | 4 => c_limited read_table_def (c_table_def ft) ESTables ft n items
      | 5 => c_limited read_memory Some ESMemories ft n items
      | 6 => c_limited read_global_def (c_global_def ft) ESGlobals ft n items
      | 7 => c_limited read_export c_export ESExports ft n items
      | 9 => c_limited read_elem (c_elem ft) ESElements ft n items
      | 11 => c_limited read_data (c_data ft) ESData ft n items
      | 13 => c_limited read_tag Some ESTags ft n items
      | _ => None
      end
  | PStart f _ => Some [ESStart f]
  | PDataCount n _ => Some [ESDataCount n]
  | PCodeStart _ rg _ =>
      match get_original data rg with
      | None => None
      | Some section =>
          match section_items read_body ft (fst rg) section with
          | Ok l => option_map (fun l => [ESCode l]) (all_some (c_func ft) l)
          | Err _ => None
          end
      end
  | PCodeEntry _ _ => Some []
  | PCustom _ _ name d => if bytes_eqb name NAME then option_map (fun l => [ESNames l]) (c_names ft d) else Some [ESCustom name d]
  | PUnknown id _ rg => option_map (fun d => [ESRaw id d]) (get_original data rg)
  | PEnd _ => Some []
  | PLimited EComponent _ _ _ _ _ | PModule _ _ | PComponent _ _ | PComponentStart _ _ => None
  end.
Fixpoint reencode (ft : features) (data : list Z) (tr : list payload) : option (list e_section) :=
  match tr with
  | [] => Some []
  | p :: tr => match c_payload ft data p, reencode ft data tr with Some a, Some b => Some (a ++ b) | _, _ => None end
  end.
