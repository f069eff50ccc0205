(** Dependency order of WIT items: crates/wit-parser/src/ast/toposort.rs.

    [IndexMap] is the list of its entries in insertion order, keys distinct (a
    hypothesis of the theorems); [BinaryHeap], keyed by [(deps.len() - i, ..)]
    with a different [i] for every element, gives the least [i]; a name is a
    list of code points; a span is a number. *)
From Coq Require Import ZArith Lia List Bool Arith.
From Verif Require Import Base.Prelude Names.Kebab.
Import ListNotations.
Open Scope nat_scope.

(** What can come out; [Panicked]: a subtraction below zero, an index out of
    bounds, [unwrap] of nothing, or [unreachable!]; [Fuel]: the model's loop did
    not end. *)
Inductive outcome :=
| Sorted (order : list str)
| ItemNotFound (span : Z) (name : str)
| TypeCycle (span : Z) (name : str)
| Panicked
| Fuel.
Definition edge : Type := Z * str.
Definition graph : Type := list (str * list edge).

Definition str_eq (a b : str) : bool := if list_eq_dec Z.eq_dec a b then true else false.
(** [IndexMap::get_full]: the index of a key. *)
Fixpoint get_full (g : graph) (name : str) : option nat :=
  match g with
  | [] => None
  | (k, _) :: g => if str_eq k name then Some 0 else option_map S (get_full g name)
  end.

(** toposort.rs:10-19. *)
Record state := State { outbound_remaining : nat; reverse_deps : list nat }.
Fixpoint update {A} (l : list A) (i : nat) (f : A -> A) : list A :=
  match l, i with
  | [], _ => []
  | x :: l, O => f x :: l
  | x :: l, S i => x :: update l i f
  end.
Definition set_remaining (n : nat) (s : state) : state := State n (reverse_deps s).
Definition push_reverse (i : nat) (s : state) : state := State (outbound_remaining s) (reverse_deps s ++ [i]).
Definition take_reverse (s : state) : state := State (outbound_remaining s) [].

(** toposort.rs:53-63: the edges of node [i]. *)
Fixpoint add_edges (g : graph) (i : nat) (edges : list edge) (states : list state) : outcome + list state :=
  match edges with
  | [] => inr states
  | (span, name) :: edges =>
      match get_full g name with
      | None => inl (ItemNotFound span name)
      | Some j => add_edges g i edges (update states j (push_reverse i))
      end
  end.
(** toposort.rs:50-64. *)
Fixpoint build (g : graph) (i : nat) (todo : graph) (states : list state) : outcome + list state :=
  match todo with
  | [] => inr states
  | (_, edges) :: todo =>
      match add_edges g i edges (update states i (set_remaining (List.length edges))) with
      | inl o => inl o
      | inr states => build g (S i) todo states
      end
  end.
(** toposort.rs:78-82: the nodes without dependencies. *)
Fixpoint seed (i : nat) (states : list state) : list nat :=
  match states with
  | [] => []
  | s :: states => if outbound_remaining s =? 0 then i :: seed (S i) states else seed (S i) states
  end.
(** [BinaryHeap::pop]. *)
Fixpoint remove_one (i : nat) (h : list nat) : list nat :=
  match h with [] => [] | x :: h => if x =? i then h else x :: remove_one i h end.
Definition pop (h : list nat) : option (nat * list nat) :=
  match h with
  | [] => None
  | x :: t => let m := fold_left Nat.min t x in Some (m, remove_one m h)
  end.
(** toposort.rs:89-95: one node is done. *)
Fixpoint release (rs : list nat) (states : list state) (heap : list nat) : option (list state * list nat) :=
  match rs with
  | [] => Some (states, heap)
  | i :: rs =>
      match nth_error states i with
      | None => None
      | Some s =>
          match outbound_remaining s with
          | O => None
          | S r => release rs (update states i (set_remaining r)) (if r =? 0 then heap ++ [i] else heap)
          end
      end
  end.
(** toposort.rs:87-96. *)
Fixpoint drain (fuel : nat) (g : graph) (states : list state) (heap : list nat) (order : list str) : outcome + (list state * list str) :=
  match fuel with
  | O => inl Fuel
  | S fuel =>
      match pop heap with
      | None => inr (states, order)
      | Some (i, heap) =>
          match nth_error g i, nth_error states i with
          | Some (node, _), Some s =>
              match release (reverse_deps s) (update states i take_reverse) heap with
              | None => inl Panicked
              | Some (states, heap) => drain fuel g states heap (order ++ [node])
              end
          | _, _ => inl Panicked
          end
      end
  end.
(** toposort.rs:111-122: the first edge between nodes which are left. *)
Fixpoint cycle_edge (g : graph) (states : list state) (edges : list edge) : option outcome :=
  match edges with
  | [] => None
  | (span, name) :: edges =>
      match get_full g name with
      | None => Some Panicked
      | Some j =>
          match nth_error states j with
          | None => Some Panicked
          | Some s => if outbound_remaining s =? 0 then cycle_edge g states edges else Some (TypeCycle span name)
          end
      end
  end.
(** toposort.rs:107-126. *)
Fixpoint report (g : graph) (all : list state) (i : nat) (states : list state) : outcome :=
  match states with
  | [] => Panicked
  | s :: states =>
      if outbound_remaining s =? 0 then report g all (S i) states
      else match nth_error g i with
           | None => Panicked
           | Some (_, edges) =>
               match cycle_edge g all edges with
               | Some o => o
               | None => report g all (S i) states
               end
           end
  end.
(** toposort.rs:44-127. *)
Definition toposort (g : graph) : outcome :=
  match build g 0 g (repeat (State 0 []) (List.length g)) with
  | inl o => o
  | inr states =>
      match drain (S (List.length g)) g states (seed 0 states) [] with
      | inl o => o
      | inr (states, order) =>
          if List.length order =? List.length g then Sorted order else report g states 0 states
      end
  end.
