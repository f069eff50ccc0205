(** What a reader of a module or component finds in it, and what an edit of its metadata may change. *)
From Verif.Base Require Import Prelude Utf8.
From Verif.Leb Require Import Spec.
From Verif.Reader Require Import Model.
From Verif.Sections Require Import SeeModel NameModel.
From Verif.Parser Require Import Model Spec.
From Verif.Meta Require Import Model.

(** A section with its contents, or a nested module or component: the identifier of the section it is in,
    what its header says it is, and its items. *)
Inductive item :=
| Sec (id : Z) (contents : list Z)
| Sub (id : Z) (e : encoding) (items : list item).

(** The payloads of [parse_all] report these items of the file [data]. *)
Inductive reported (data : list Z) : list item -> list payload -> Prop :=
| rep_nil : reported data [] []
| rep_section pl id s e items tr :
    as_section pl = Some (id, (s, e)) -> (forall q rg, pl <> PModule q rg /\ pl <> PComponent q rg) ->
    reported data items tr -> reported data (Sec id (slice data s e) :: items) (pl :: tr)
| rep_body rg b items tr : reported data items tr -> reported data items (PCodeEntry rg b :: tr)
| rep_nested pl id q rg num e rg' sub tr1 off items tr2 :
    (id = 1 /\ pl = PModule q rg) \/ (id = 4 /\ pl = PComponent q rg) ->
    reported data sub tr1 -> reported data items tr2 ->
    reported data (Sub id e sub :: items) (pl :: PVersion num e rg' :: tr1 ++ PEnd off :: tr2).
(** The file is a module or a component, as [e] says, with these items. *)
Definition is_document (data : list Z) (e : encoding) (items : list item) : Prop :=
  exists num rg tr off, yields (parse_all_of (new_parser 0) data) (PVersion num e rg :: tr ++ [PEnd off]) None /\ reported data items tr.

(** Modules are in sections for modules, components in sections for components. *)
Fixpoint well_kinded (i : item) : Prop :=
  match i with
  | Sec _ _ => True
  | Sub id e l => id = match e with EModule => 1 | EComponent => 4 end /\ (fix all l := match l with [] => True | i :: l => well_kinded i /\ all l end) l
  end.

(** The bytes of the items, each length in as few bytes as possible. *)
Definition shortest (lb : list Z) (n : Z) : Prop := uN 32 lb n /\ forall lb', uN 32 lb' n -> zlen lb <= zlen lb'.
Definition header (e : encoding) : list Z := [0; 97; 115; 109] ++ match e with EModule => [1; 0; 0; 0] | EComponent => [13; 0; 1; 0] end.
Inductive laid_out : list item -> list Z -> Prop :=
| lo_nil : laid_out [] []
| lo_section id c lb items bs : shortest lb (zlen c) -> laid_out items bs -> laid_out (Sec id c :: items) ((id :: lb ++ c) ++ bs)
| lo_nested id e sub b lb items bs :
    laid_out sub b -> shortest lb (zlen (header e ++ b)) -> laid_out items bs ->
    laid_out (Sub id e sub :: items) ((id :: lb ++ header e ++ b) ++ bs).

(** The contents of a custom section. *)
Definition custom (name data contents : list Z) : Prop := exists nb, uN 32 nb (zlen name) /\ contents = nb ++ name ++ data.
Definition metadata_names : list (list Z) :=
  map lit ["producers"; "name"; "component-name"; "authors"; "description"; "licenses"; "source"; "homepage"; "revision"; "version"]%string.
(** The item is metadata called [name]. *)
Definition metadata (name : list Z) (i : item) : Prop :=
  In name metadata_names /\ exists data c, i = Sec 0 c /\ custom name data c.

(** [edited R before after]: the items that are not metadata are there, the same and in the same order; in the
    place of one that is metadata there is at most one of the same name, and [R] relates the name and the data
    of the one to the data of the other, if any. *)
Inductive edited (R : list Z -> list Z -> option (list Z) -> Prop) : list item -> list item -> Prop :=
| ed_nil : edited R [] []
| ed_other i before after : (forall name, ~ metadata name i) -> edited R before after -> edited R (i :: before) (i :: after)
| ed_metadata name d c d' c' before after :
    In name metadata_names -> custom name d c -> custom name d' c' -> R name d (Some d') -> edited R before after ->
    edited R (Sec 0 c :: before) (Sec 0 c' :: after)
| ed_gone name d c before after :
    In name metadata_names -> custom name d c -> R name d None -> edited R before after -> edited R (Sec 0 c :: before) after.

(** ** Producers *)
Definition version_of (p : producers) (field name : list Z) : option (list Z) :=
  match im_get p field with Some m => im_get m name | None => None end.
(** What can be read back: the three fields that are known, each once, names once in each field, texts that are
    short enough. *)
Definition text_ok (s : list Z) : Prop := bytes_ok s /\ utf8_valid s = true /\ zlen s <= 100000.
Definition producers_ok (p : producers) : Prop :=
  NoDup (map fst p) /\
  Forall (fun f => In (fst f) (map lit ["language"; "sdk"; "processed-by"]%string) /\ NoDup (map fst (snd f)) /\
                   Forall (fun x => text_ok (fst x) /\ text_ok (snd x)) (snd f) /\ zlen (snd f) < 2 ^ 32) p.
(** Versions of the one, and of the other where it has none. *)
Definition merged (p add p' : producers) : Prop :=
  forall field name, version_of p' field name = match version_of add field name with Some v => Some v | None => version_of p field name end.

(** ** Names *)
(** The name of the module, the last if there are several, and the names of other things. *)
Definition called (l : list s_name) : option (list Z) := fold_left (fun o n => match n with SNModule s => Some s | _ => o end) l None.
Definition other_names (l : list s_name) : list s_name := filter (fun n => match n with SNModule _ | SNUnknown _ _ => false | _ => true end) l.
Definition named (name : option (list Z)) (l : list s_name) : list s_name := match name with Some n => SNModule n :: l | None => l end.
(** The same for a component. *)
Inductive s_cname := SCComponent (name : list Z) | SCMap (k : c_kind) (l : list (Z * list Z)) | SCUnknown (ty : Z) (data : list Z).
Definition see_cname (n : c_name_) : option s_cname :=
  match n with
  | CNComponent s => Some (SCComponent s)
  | CNMap k b => option_map (SCMap k) (see_map all_features b)
  | CNUnknown ty d => Some (SCUnknown ty d)
  end.
Definition see_cnames (data : list Z) : option (list s_cname) := ops_bind (seen_ok (read_cnames data)) (all_seen see_cname).
Definition c_called (l : list s_cname) : option (list Z) := fold_left (fun o n => match n with SCComponent s => Some s | _ => o end) l None.
Definition c_other_names (l : list s_cname) : list s_cname := filter (fun n => match n with SCMap _ _ => true | _ => false end) l.
Definition c_named (name : option (list Z)) (l : list s_cname) : list s_cname := match name with Some n => SCComponent n :: l | None => l end.

(** ** What becomes of metadata *)
(** [effect m add name d r]: of the section [name] with data [d] becomes one with the data [r], or none. *)
Definition effect (tp : text_parsers) (m : add_metadata) (add : producers) (name d : list Z) (r : option (list Z)) : Prop :=
  (name = lit "producers" ->
     (has_count d = false /\ r = Some d) \/
     (has_count d = true /\ exists p d', producers_from_bytes d = Some p /\ r = Some d' /\
        (producers_ok add -> exists p', producers_from_bytes d' = Some p' /\ merged p add p'))) /\
  (name = lit "name" -> exists d', r = Some d' /\
     match am_name m with
     | Keep => exists l, see_names all_features d = Some l /\ see_names all_features d' = Some (named (called l) (other_names l))
     | Set_ v => exists l, see_names all_features d = Some l /\ (text_ok v -> see_names all_features d' = Some (named (Some v) (other_names l)))
     | Clear => d' = []
     end) /\
  (name = lit "component-name" -> exists d', r = Some d' /\
     match am_name m with
     | Keep => exists l, see_cnames d = Some l /\ see_cnames d' = Some (c_named (c_called l) (c_other_names l))
     | Set_ v => exists l, see_cnames d = Some l /\ (text_ok v -> see_cnames d' = Some (c_named (Some v) (c_other_names l)))
     | Clear => d' = []
     end) /\
  (forall o, name = oci_name o ->
     match am_oci m o with
     | Keep => exists d', r = Some d' /\ utf8_valid d = true /\
         match o with Licenses => spdx tp d = Some d' | Source | Homepage => url tp d = Some d' | _ => d' = d end
     | Clear => r = None
     | Set_ _ => r = Some d
     end).

(** ** What is appended *)
Definition has_producers (items : list item) : Prop := exists d c, In (Sec 0 c) items /\ custom (lit "producers") d c /\ has_count d = true.
Definition has_names (items : list item) : Prop := exists d c, In (Sec 0 c) items /\ (custom (lit "name") d c \/ custom (lit "component-name") d c).
(** Custom sections, with their names and data. *)
Inductive customs : list (list Z * list Z) -> list item -> Prop :=
| cu_nil : customs [] []
| cu_cons name d c l items : In name metadata_names -> custom name d c -> customs l items -> customs ((name, d) :: l) (Sec 0 c :: items).
(** [appended m add e items l]: to a file of kind [e] with [items] are added: a name, if one is wanted and there
    are no names; producers, if some are wanted and there are none; whatever else is wanted. *)
Definition appended (m : add_metadata) (add : producers) (e : encoding) (items : list item) (l : list (list Z * list Z)) : Prop :=
  exists ns ps, l = ns ++ ps ++ List.concat (map (fun o => match am_oci m o with Set_ d => [(oci_name o, d)] | _ => [] end) all_oci) /\
    ((ns = [] /\ (has_names items \/ am_name m = Keep \/ am_name m = Clear)) \/
     (~ has_names items /\ exists v d, am_name m = Set_ v /\
        match e with
        | EModule => ns = [(lit "name", d)] /\ (text_ok v -> see_names all_features d = Some (named (Some v) []))
        | EComponent => ns = [(lit "component-name", d)] /\ (text_ok v -> see_cnames d = Some (c_named (Some v) []))
        end)) /\
    ((ps = [] /\ (has_producers items \/ add = [])) \/
     (~ has_producers items /\ add <> [] /\ exists d, ps = [(lit "producers", d)] /\
        (producers_ok add -> exists p', producers_from_bytes d = Some p' /\ merged [] add p'))).
(** The data of the first producers section that can be begun to be read. *)
Definition first_producers (items : list item) (d : list Z) : Prop :=
  exists a c b, items = a ++ Sec 0 c :: b /\ ~ has_producers a /\ custom (lit "producers") d c /\ has_count d = true.
