(** Dependencies, cycles and orders. *)
From Coq Require Import ZArith List Relations.
From Verif Require Import Base.Prelude Names.Kebab Graph.Toposort.
Import ListNotations.

(** Item [a] names item [b] among its dependencies. *)
Definition depends (g : graph) (a b : str) : Prop := exists es, In (a, es) g /\ In b (map snd es).
Definition defined (g : graph) (a : str) : Prop := In a (map fst g).
(** A chain of dependencies from an item to itself. *)
Definition cyclic (g : graph) : Prop := exists a, clos_trans str (depends g) a a.
(** In [order] every item comes after what it depends on. *)
Definition after_dependencies (g : graph) (order : list str) : Prop :=
  forall before a rest, order = before ++ a :: rest -> forall b, depends g a b -> In b before.
(** All that [a] depends on is in [done]. *)
Definition ready (g : graph) (done : list str) (a : str) : Prop := forall b, depends g a b -> In b done.
