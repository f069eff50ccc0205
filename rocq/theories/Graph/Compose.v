(** Edits of a composition graph and the instantiations it is encoded to:
    crates/wasm-compose/src/graph.rs and encoding.rs.

    A component is its name, the names of its imports and the number of its
    exports; whether an export fits an import ([try_connection],
    [is_instance_subtype_of], and with them the resource mapping) is a bit which
    comes with the call.  [IndexMap], [HashMap] and petgraph's [DiGraphMap] are
    association lists with their documented operations; the set of a component's
    instances is walked in the order of insertion (any order in the code).
    Identifiers come from process-wide counters: other graphs may take some
    ([skipped]); that the counter reaches [usize::MAX] is not modelled. *)
From Coq Require Import ZArith Lia List Bool Arith.
From Verif Require Import Base.Prelude Names.Kebab.
Import ListNotations.
Open Scope nat_scope.

Section Maps.
Context {K V : Type} (eqd : forall a b : K, {a = b} + {a <> b}).
Definition is_key (k : K) (e : K * V) : bool := if eqd k (fst e) then true else false.
Fixpoint lookup (k : K) (l : list (K * V)) : option V :=
  match l with [] => None | e :: l => if eqd k (fst e) then Some (snd e) else lookup k l end.
(** [insert]: in place of the old value, or at the end. *)
Fixpoint insert (k : K) (v : V) (l : list (K * V)) : list (K * V) :=
  match l with [] => [(k, v)] | e :: l => if eqd k (fst e) then (k, v) :: l else e :: insert k v l end.
End Maps.
(** [swap_remove]: the last element takes the place of the removed one. *)
Fixpoint swap_remove {A} (p : A -> bool) (l : list A) : list A :=
  match l with
  | [] => []
  | x :: t => if p x then match rev t with [] => [] | y :: r => y :: rev r end else x :: swap_remove p t
  end.
Definition str_dec : forall a b : str, {a = b} + {a <> b} := list_eq_dec Z.eq_dec.
Definition pair_dec : forall a b : nat * nat, {a = b} + {a <> b}.
Proof. decide equality; apply Nat.eq_dec. Defined.
Notation nlookup := (lookup Nat.eq_dec).
Notation ninsert := (insert Nat.eq_dec).
Definition nremove {V} (k : nat) (l : list (nat * V)) := swap_remove (is_key Nat.eq_dec k) l.

(** graph.rs:36-45: [Component]; 445-461: [Instance], [ComponentEntry]; 549-564:
    [CompositionGraph]. *)
Record component := Component { c_name : str; c_imports : list str; c_exports : nat }.
Record entry := Entry { e_component : component; e_instances : list nat }.
Record instance := Instance { i_component : nat; i_connected : list nat }.
Definition edge_map : Type := list (nat * option nat).
Record graph := Graph {
  names : list (str * nat);
  components : list (nat * entry);
  instances : list (nat * instance);
  nodes : list nat;
  edges : list (nat * nat * edge_map);
  next_component : nat;
  next_instance : nat }.
Definition new : graph := Graph [] [] [] [] [] 0 0.

Inductive result := Done (g : graph) | Failed | Panicked.

(** graph.rs:705-733. *)
Definition add_component (skipped : nat) (c : component) (g : graph) : result :=
  match lookup str_dec (c_name c) (names g) with
  | Some _ => Failed
  | None =>
      let id := next_component g + skipped in
      match nlookup id (components g) with
      | Some _ => Panicked
      | None =>
          Done (Graph (insert str_dec (c_name c) id (names g)) (ninsert id (Entry c []) (components g)) (instances g)
                  (nodes g) (edges g) (S id) (next_instance g))
      end
  end.
(** graph.rs:766-773 and 838-844: the imports fed by the edges are open again. *)
Definition disconnected (i : nat) (x : instance) : instance := Instance (i_component x) (swap_remove (Nat.eqb i) (i_connected x)).
Fixpoint open_imports (out : list (nat * nat * edge_map)) (insts : list (nat * instance)) : option (list (nat * instance)) :=
  match out with
  | [] => Some insts
  | (_, target, map) :: out =>
      match nlookup target insts with
      | None => None
      | Some x => open_imports out (ninsert target (fold_left (fun x e => disconnected (fst e) x) map x) insts)
      end
  end.
Definition outgoing (id : nat) (es : list (nat * nat * edge_map)) := filter (fun e => fst (fst e) =? id) es.
(** petgraph: [remove_node] drops the node and every edge at it. *)
Definition drop_edges (id : nat) (es : list (nat * nat * edge_map)) :=
  filter (fun e => negb (fst (fst e) =? id) && negb (snd (fst e) =? id)) es.
Definition drop_node (id : nat) (ns : list nat) := swap_remove (Nat.eqb id) ns.
(** graph.rs:762-777: the loop over the instances of a component. *)
Fixpoint remove_all (ids : list nat) (insts : list (nat * instance)) (ns : list nat) (es : list (nat * nat * edge_map))
  : option (list (nat * instance) * list nat * list (nat * nat * edge_map)) :=
  match ids with
  | [] => Some (insts, ns, es)
  | id :: ids =>
      match open_imports (outgoing id es) (nremove id insts) with
      | None => None
      | Some insts => remove_all ids insts (drop_node id ns) (drop_edges id es)
      end
  end.
(** graph.rs:751-779. *)
Definition remove_component (id : nat) (g : graph) : result :=
  match nlookup id (components g) with
  | None => Done g
  | Some e =>
      match lookup str_dec (c_name (e_component e)) (names g) with
      | None => Panicked
      | Some _ =>
          match remove_all (e_instances e) (instances g) (nodes g) (edges g) with
          | None => Panicked
          | Some (insts, ns, es) =>
              Done (Graph (swap_remove (is_key str_dec (c_name (e_component e))) (names g)) (nremove id (components g))
                      insts ns es (next_component g) (next_instance g))
          end
      end
  end.
(** graph.rs:781-806. *)
Definition instantiate (skipped : nat) (id : nat) (g : graph) : result :=
  match nlookup id (components g) with
  | None => Failed
  | Some e =>
      let i := next_instance g + skipped in
      Done (Graph (names g) (ninsert id (Entry (e_component e) (i :: e_instances e)) (components g))
              (ninsert i (Instance id []) (instances g)) (nodes g) (edges g) (next_component g) (S i))
  end.
(** graph.rs:825-848. *)
Definition remove_instance (id : nat) (g : graph) : result :=
  match nlookup id (instances g) with
  | None => Done g
  | Some x =>
      match nlookup (i_component x) (components g) with
      | None => Panicked
      | Some e =>
          match open_imports (outgoing id (edges g)) (nremove id (instances g)) with
          | None => Panicked
          | Some insts =>
              Done (Graph (names g) (ninsert (i_component x) (Entry (e_component e) (swap_remove (Nat.eqb id) (e_instances e))) (components g))
                      insts (drop_node id (nodes g)) (drop_edges id (edges g)) (next_component g) (next_instance g))
          end
      end
  end.
(** graph.rs:945-1022; [fits]: the answer of the type check. *)
Definition validate_connection (fits : bool) (source : nat) (export : option nat) (target import : nat) (g : graph) : option bool :=
  if source =? target then Some false else
  match nlookup source (instances g) with
  | None => Some false
  | Some s =>
      match nlookup (i_component s) (components g) with
      | None => None
      | Some sc =>
          match nlookup target (instances g) with
          | None => Some false
          | Some t =>
              match nlookup (i_component t) (components g) with
              | None => None
              | Some tc =>
                  Some ((import <? List.length (c_imports (e_component tc))) &&
                        negb (existsb (Nat.eqb import) (i_connected t)) &&
                        match export with Some e => e <? c_exports (e_component sc) | None => true end && fits)
              end
          end
      end
  end.
Definition add_node (n : nat) (ns : list nat) : list nat := if existsb (Nat.eqb n) ns then ns else ns ++ [n].
(** graph.rs:856-895. *)
Definition connect (fits : bool) (source : nat) (export : option nat) (target import : nat) (g : graph) : result :=
  match validate_connection fits source export target import g with
  | None => Panicked
  | Some false => Failed
  | Some true =>
      match nlookup target (instances g) with
      | None => Panicked
      | Some t =>
          let insts := ninsert target (Instance (i_component t) (if existsb (Nat.eqb import) (i_connected t) then i_connected t else i_connected t ++ [import])) (instances g) in
          match lookup pair_dec (source, target) (edges g) with
          | Some map =>
              match nlookup import map with
              | Some _ => Panicked
              | None => Done (Graph (names g) (components g) insts (nodes g)
                                (insert pair_dec (source, target) (ninsert import export map) (edges g)) (next_component g) (next_instance g))
              end
          | None => Done (Graph (names g) (components g) insts (add_node target (add_node source (nodes g)))
                            (insert pair_dec (source, target) [(import, export)] (edges g)) (next_component g) (next_instance g))
          end
      end
  end.
(** graph.rs:902-938. *)
Definition disconnect (source target import : nat) (g : graph) : result :=
  match nlookup source (instances g), nlookup target (instances g) with
  | Some _, Some t =>
      let insts := ninsert target (disconnected import t) (instances g) in
      let es :=
        match lookup pair_dec (source, target) (edges g) with
        | Some map =>
            match nremove import map with
            | [] => swap_remove (is_key pair_dec (source, target)) (edges g)
            | m => insert pair_dec (source, target) m (edges g)
            end
        | None => edges g
        end in
      Done (Graph (names g) (components g) insts (nodes g) es (next_component g) (next_instance g))
  | _, _ => Failed
  end.

(** The calls of the API; a failed one leaves the graph as it is. *)
Inductive edit :=
| AddComponent (skipped : nat) (c : component)
| RemoveComponent (id : nat)
| Instantiate (skipped : nat) (id : nat)
| RemoveInstance (id : nat)
| Connect (fits : bool) (source : nat) (export : option nat) (target import : nat)
| Disconnect (source target import : nat).
Definition step (e : edit) (g : graph) : result :=
  match e with
  | AddComponent k c => add_component k c g
  | RemoveComponent id => remove_component id g
  | Instantiate k id => instantiate k id g
  | RemoveInstance id => remove_instance id g
  | Connect f s e t i => connect f s e t i g
  | Disconnect s t i => disconnect s t i g
  end.
(** [None]: a call panicked. *)
Fixpoint run (es : list edit) (g : graph) : option graph :=
  match es with
  | [] => Some g
  | e :: es => match step e g with Done g => run es g | Failed => run es g | Panicked => None end
  end.

(** encoding.rs:1622-1684: the arguments of one instantiation: an import by its
    index, and what it is given. *)
Inductive argument := FromInstance (source : nat) (export : option nat) | Imported.
Definition incoming (id : nat) (es : list (nat * nat * edge_map)) := filter (fun e => snd (fst e) =? id) es.
(** encoding.rs:1632-1664; [encoded]: the instances which exist so far. *)
Fixpoint connected_args (c : component) (g : graph) (encoded : list nat) (inc : list (nat * nat * edge_map)) : option (list (nat * argument)) :=
  match inc with
  | [] => Some []
  | (source, _, map) :: inc =>
      if negb (existsb (Nat.eqb source) encoded) then None else
      match nlookup source (instances g) with
      | None => None
      | Some s =>
          match nlookup (i_component s) (components g) with
          | None => None
          | Some sc =>
              if forallb (fun e => (fst e <? List.length (c_imports c)) && match snd e with Some x => x <? c_exports (e_component sc) | None => true end) map then
                option_map (fun rest => List.map (fun e => (fst e, FromInstance source (snd e))) map ++ rest) (connected_args c g encoded inc)
              else None
          end
      end
  end.
(** encoding.rs:1667-1679. *)
Definition imported_args (c : component) (x : instance) : list (nat * argument) :=
  List.map (fun i => (i, Imported)) (filter (fun i => negb (existsb (Nat.eqb i) (i_connected x))) (seq 0 (List.length (c_imports c)))).
(** encoding.rs:1556-1580; 1622-1684. *)
Definition instantiation_args (g : graph) (encoded : list nat) (id : nat) : option (list (nat * argument)) :=
  match nlookup id (instances g) with
  | None => None
  | Some x =>
      match nlookup (i_component x) (components g) with
      | None => None
      | Some e =>
          if existsb (fun e => fst (fst e) =? id) (incoming id (edges g)) then None
          else option_map (fun a => a ++ imported_args (e_component e) x) (connected_args (e_component e) g encoded (incoming id (edges g)))
      end
  end.
Fixpoint encode_all (g : graph) (encoded : list nat) (ids : list nat) : option (list (nat * list (nat * argument))) :=
  match ids with
  | [] => Some []
  | id :: ids =>
      match instantiation_args g encoded id with
      | None => None
      | Some args => option_map (cons (id, args)) (encode_all g (encoded ++ [id]) ids)
      end
  end.
(** encoding.rs:1498-1518; [ordering]: the answer of petgraph's [toposort]. *)
Definition encode_instantiations (ordering : list nat) (g : graph) : option (list (nat * list (nat * argument))) :=
  let independent := filter (fun id => negb (existsb (Nat.eqb id) ordering)) (List.map fst (instances g)) in
  encode_all g [] (independent ++ ordering).
