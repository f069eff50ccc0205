(** Where sections should be. *)
From Coq Require Import List Arith Bool.
Import ListNotations.
From Verif.Place Require Import Model.

(** The order of sections in a binary; the data count is between elements and code. *)
Definition rank (a : anchor) : nat :=
  match a with Type_ => 1 | Import => 2 | Func => 3 | Table => 4 | Memory => 5 | Tag => 6 | Global => 7 | Export => 8 | Start => 9 | Elem => 10 | Code => 12 | Data => 13 end.
Definition known (s : section) : option nat := match s with Known a => Some (rank a) | DataCount => Some 11 | _ => None end.
(** Which known sections may be before a place, and which after it. *)
Definition may_precede (r : nat) (p : place) : Prop := match p with BeforeFirst => False | Before a => r < rank a | After a => r <= rank a | AfterLast => True end.
Definition may_follow (r : nat) (p : place) : Prop := match p with BeforeFirst => True | Before a => rank a <= r | After a => rank a < r | AfterLast => False end.
(** The place a custom section should have: its own, the last for producers, the first for [dylink.0]. *)
Definition wanted (c : custom) : place := match c with Raw p _ => p | Producers _ => AfterLast | Dylink0 _ => BeforeFirst end.
(** The custom sections of a place, and those of the text among sections. *)
Definition at_place (p : place) (c : custom) : bool := if place_eq_dec (wanted c) p then true else false.
Definition text_customs (l : list section) : list custom := flat_map (fun s => match s with Custom c => [c] | _ => [] end) l.
Fixpoint ranks (l : list section) : list nat := match l with [] => [] | s :: l => match known s with Some r => r :: ranks l | None => ranks l end end.
(** How often a known section is there. *)
Definition occurrences (a : anchor) (l : list section) : nat := length (filter (fun s => match s with Known b => if anchor_eq_dec a b then true else false | _ => false end) l).
