(** Where sections are written by the encoder of the text format (crates/wast/src/core/binary.rs:104-310), with the places of custom sections (core/custom.rs:16-93). *)
From Coq Require Import List Arith Bool.
Import ListNotations.

(** [CustomPlaceAnchor] and [CustomPlace] (custom.rs:66-94). *)
Inductive anchor := Type_ | Import | Func | Table | Memory | Global | Export | Start | Elem | Code | Data | Tag.
Inductive place := BeforeFirst | Before (a : anchor) | After (a : anchor) | AfterLast.
Definition anchor_eq_dec : forall a b : anchor, {a = b} + {a <> b}. Proof. decide equality. Defined.
Definition place_eq_dec : forall a b : place, {a = b} + {a <> b}. Proof. decide equality; apply anchor_eq_dec. Defined.
(** Custom sections of the text: raw ones with a place, [producers] and [dylink.0]; a number stands for the contents. *)
Inductive custom := Raw (p : place) (id : nat) | Producers (id : nat) | Dylink0 (id : nat).
(** [Custom::place] (custom.rs:18-24). *)
Definition place_of (c : custom) : place := match c with Raw p _ => p | Producers _ => AfterLast | Dylink0 _ => BeforeFirst end.
(** Sections of the binary: known ones, the data count, custom ones of the text, and those that the encoder makes (branch hints, names, debugging information). *)
Inductive section := Known (a : anchor) | DataCount | Custom (c : custom) | Hints | Names | Dwarf.
(** What matters of a module: how many items of each kind (functions count for [Func] and [Code]), whether a data count is needed, whether there are branch hints, names, debugging information, and the custom sections. *)
Record module := mkM { items : anchor -> nat; needs_count : bool; has_hints : bool; has_names : bool; has_dwarf : bool; customs : list custom }.

(** [custom_sections] (binary.rs:236-242). *)
Definition custom_sections (m : module) (p : place) : list section :=
  flat_map (fun c => if place_eq_dec (place_of c) p then [Custom c] else []) (customs m).
(** [typed_section] (binary.rs:244-257). *)
Definition typed_section (m : module) (a : anchor) : list section :=
  custom_sections m (Before a) ++ (if items m a =? 0 then [] else [Known a]) ++ custom_sections m (After a).
(** [code_section] (binary.rs:272-306). *)
Definition code_section (m : module) : list section :=
  custom_sections m (Before Code) ++ (if items m Func =? 0 then [] else (if has_hints m then [Hints] else []) ++ [Known Code]) ++ custom_sections m (After Code).
(** [encode] (binary.rs:104-200); the sections of debugging information are taken as one. *)
Definition encode (m : module) : list section :=
  custom_sections m BeforeFirst ++
  typed_section m Type_ ++ typed_section m Import ++ typed_section m Func ++ typed_section m Table ++ typed_section m Memory ++ typed_section m Tag ++ typed_section m Global ++ typed_section m Export ++
  custom_sections m (Before Start) ++ repeat (Known Start) (items m Start) ++ custom_sections m (After Start) ++
  typed_section m Elem ++ (if needs_count m then [DataCount] else []) ++ code_section m ++ typed_section m Data ++
  custom_sections m AfterLast ++ (if has_names m then [Names] else []) ++ (if has_dwarf m then [Dwarf] else []).
