(** What the live types of WIT items should be. *)
From Coq Require Import List Arith.
Import ListNotations.
From Verif.Live Require Import Model.

(** A definition is made of the types that occur in it. *)
Inductive made_of : kind -> nat -> Prop :=
| of_field l i : In (Id i) l -> made_of (Record l) i
| of_own i : made_of (Own i) i
| of_borrow i : made_of (Borrow i) i
| of_tuple l i : In (Id i) l -> made_of (Tuple l) i
| of_case l i : In (Some (Id i)) l -> made_of (Variant l) i
| of_option i : made_of (Option (Id i)) i
| of_ok i e : made_of (Result (Some (Id i)) e) i
| of_err o i : made_of (Result o (Some (Id i))) i
| of_list i : made_of (ListOf (Id i)) i
| of_key i v : made_of (MapOf (Id i) v) i
| of_value k i : made_of (MapOf k (Id i)) i
| of_fixed i n : made_of (FixedLengthList (Id i) n) i
| of_future i : made_of (Future (Some (Id i))) i
| of_stream i : made_of (Stream (Some (Id i))) i
| of_alias i : made_of (Alias (Id i)) i.

Section Resolve.
Variable r : resolve.
Definition refers (i j : nat) : Prop := exists k, nth_error (r_types r) i = Some k /\ made_of k j.
Inductive reaches (i : nat) : nat -> Prop :=
| reach_self : reaches i i
| reach_step j k : reaches i j -> refers j k -> reaches i k.

(** The types that are named by a function, by an item of a world, and by a call. *)
Definition of_func (f : function) (i : nat) : Prop := f_kind f = Static i \/ f_kind f = AsyncStatic i \/ In (Id i) (f_params f) \/ f_result f = Some (Id i).
Definition of_interface (x i : nat) : Prop := exists d, nth_error (r_interfaces r) x = Some d /\ (In i (i_types d) \/ exists f, In f (i_functions d) /\ of_func f i).
Definition of_item (x : item) (i : nat) : Prop := match x with ItemInterface n => of_interface n i | ItemFunction f => of_func f i | ItemType j => i = j end.
Definition named (c : call) (i : nat) : Prop :=
  match c with
  | AddInterface x => of_interface x i
  | AddWorld n => exists w x, nth_error (r_worlds r) n = Some w /\ (In x (w_imports w) \/ In x (w_exports w)) /\ of_item x i
  | AddItem x => of_item x i
  | AddFunc f => of_func f i
  | AddTypeId j => i = j
  | AddType t => t = Id i
  end.

(** A [Resolve] as the parser and the decoder make them: no unknown types, ids that exist, and no type that is made of itself. *)
Definition whole : Prop := forall i k, nth_error (r_types r) i = Some k -> k <> Unknown /\ forall j, made_of k j -> j < length (r_types r).
Definition acyclic : Prop := exists rank : nat -> nat, forall i j, refers i j -> rank j < rank i.
(** A call whose ids exist. *)
Definition item_exists (x : item) : Prop := match x with ItemInterface n => n < length (r_interfaces r) | _ => True end.
Definition exists_ (c : call) : Prop :=
  (forall i, named c i -> i < length (r_types r)) /\
  match c with
  | AddInterface n => n < length (r_interfaces r)
  | AddWorld n => exists w, nth_error (r_worlds r) n = Some w /\ Forall item_exists (w_imports w ++ w_exports w)
  | AddItem x => item_exists x
  | _ => True
  end.
(** The answer to some calls: the types reached from those named, each once, and each after those it is made of. *)
Definition in_order (s : list nat) : Prop := forall a i b, s = a ++ i :: b -> forall j, refers i j -> In j a.
Definition answers (l : list call) (s : list nat) : Prop :=
  NoDup s /\ in_order s /\ forall j, In j s <-> exists c i, In c l /\ named c i /\ reaches i j.
End Resolve.
