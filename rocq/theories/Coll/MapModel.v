(** Model of the b-tree based [IndexMap]
    (crates/wasmparser/src/collections/index_map/detail.rs).

    The inner [BTreeMap<K, SlotIndex>] is a list of pairs: only look-up, removal and
    update by key are used, never its order.  [eqk] is "[Ord::cmp] gives [Equal]"; keys
    may be [eqk] without being identical.  Capacities, and the borrowed forms of keys,
    are left out. *)
From Verif.Base Require Import Prelude.

Section IndexMap.
  Context {K V : Type} (eqk : K -> K -> bool).

  (** [struct IndexMap], [struct Slot] (detail.rs:64-70, 127-132). *)
  Record imap := mkMap { key2slot : list (K * nat); slots : list (K * V) }.
  (** [new] (detail.rs:147-152). *)
  Definition imap_new : imap := mkMap [] [].

  (** [BTreeMap::get_key_value], [BTreeMap::remove], [*get_mut = ..]. *)
  Fixpoint bt_find (t : list (K * nat)) (k : K) : option (K * nat) :=
    match t with
    | [] => None
    | (k0, i) :: t => if eqk k k0 then Some (k0, i) else bt_find t k
    end.
  Fixpoint bt_remove (t : list (K * nat)) (k : K) : list (K * nat) :=
    match t with
    | [] => []
    | (k0, i) :: t => if eqk k k0 then t else (k0, i) :: bt_remove t k
    end.
  Fixpoint bt_set (t : list (K * nat)) (k : K) (j : nat) : list (K * nat) :=
    match t with
    | [] => []
    | (k0, i) :: t => if eqk k k0 then (k0, j) :: t else (k0, i) :: bt_set t k j
    end.
  (** [vec[i] = x]; only used below the length. *)
  Fixpoint set_nth {X} (l : list X) (i : nat) (x : X) : list X :=
    match l, i with
    | [], _ => []
    | _ :: l, O => x :: l
    | y :: l, S i => y :: set_nth l i x
    end.

  (** [len], [contains_key] (detail.rs:170-190), [get] (321-329), [get_key_value] (349-357),
      [get_full] (366-376), [get_index_of] (383-389), [get_index] (392-394),
      [iter] (402-406).  The outer [None] is the panic of an index out of bounds. *)
  Definition m_len (m : imap) : nat := List.length (slots m).
  Definition m_contains (m : imap) (k : K) : bool :=
    match bt_find (key2slot m) k with Some _ => true | None => false end.
  Definition m_get_full (m : imap) (k : K) : option (option (nat * K * V)) :=
    match bt_find (key2slot m) k with
    | None => Some None
    | Some (k0, i) => match nth_error (slots m) i with Some (_, v) => Some (Some (i, k0, v)) | None => None end
    end.
  Definition m_get_key_value (m : imap) (k : K) : option (option (K * V)) :=
    match bt_find (key2slot m) k with
    | None => Some None
    | Some (k0, i) => match nth_error (slots m) i with Some (_, v) => Some (Some (k0, v)) | None => None end
    end.
  Definition m_get (m : imap) (k : K) : option (option V) :=
    match bt_find (key2slot m) k with
    | None => Some None
    | Some (_, i) => match nth_error (slots m) i with Some (_, v) => Some (Some v) | None => None end
    end.
  Definition m_get_index_of (m : imap) (k : K) : option nat :=
    match bt_find (key2slot m) k with None => None | Some (_, i) => Some i end.
  Definition m_get_index (m : imap) (i : nat) : option (K * V) := nth_error (slots m) i.
  Definition m_iter (m : imap) : list (K * V) := slots m.

  (** [insert_full] (detail.rs:216-234). *)
  Definition m_insert (m : imap) (k : K) (v : V) : option (imap * (nat * option V)) :=
    match bt_find (key2slot m) k with
    | None =>
        let index := List.length (slots m) in
        Some (mkMap ((k, index) :: key2slot m) (slots m ++ [(k, v)]), (index, None))
    | Some (_, index) =>
        match nth_error (slots m) index with
        | Some (_, old) => Some (mkMap (key2slot m) (set_nth (slots m) index (k, v)), (index, Some old))
        | None => None
        end
    end.

  (** [Vec::swap_remove]. *)
  Definition vec_swap_remove {X} (l : list X) (i : nat) : option (X * list X) :=
    match nth_error l i with
    | None => None
    | Some x => Some (x, removelast (set_nth l i (last l x)))
    end.

  (** [swap_remove_full] (detail.rs:279-299). *)
  Definition m_swap_remove (m : imap) (k : K) : option (imap * option (nat * K * V)) :=
    match bt_find (key2slot m) k with
    | None => Some (m, None)
    | Some (_, index) =>
        let t := bt_remove (key2slot m) k in
        match vec_swap_remove (slots m) index with
        | None => None
        | Some ((rk, rv), sl) =>
            if (index =? List.length sl)%nat then Some (mkMap t sl, Some (index, rk, rv))
            else
              match nth_error sl index with
              | None => None
              | Some (swapped, _) =>
                  match bt_find t swapped with
                  | None => None                                   (* expect *)
                  | Some _ => Some (mkMap (bt_set t swapped index) sl, Some (index, rk, rv))
                  end
              end
        end
    end.

  (** [entry(k).or_insert(v)]: [or_insert] (detail.rs:816-824), [entry] (301-315), [into_mut] (1000-1003),
      [VacantEntry::insert] (938-947); the result is the value the reference shows. *)
  Definition m_or_insert (m : imap) (k : K) (v : V) : option (imap * V) :=
    match bt_find (key2slot m) k with
    | None => Some (mkMap ((k, List.length (slots m)) :: key2slot m) (slots m ++ [(k, v)]), v)
    | Some (_, i) => match nth_error (slots m) i with Some (_, v0) => Some (m, v0) | None => None end
    end.
  (** [entry(k)], then [OccupiedEntry::insert] (detail.rs:1007-1016) or [VacantEntry::insert]. *)
  Definition m_entry_insert (m : imap) (k : K) (v : V) : option (imap * option V) :=
    match bt_find (key2slot m) k with
    | None => Some (mkMap ((k, List.length (slots m)) :: key2slot m) (slots m ++ [(k, v)]), None)
    | Some (k0, i) =>
        match nth_error (slots m) i with
        | Some (_, v0) => Some (mkMap (key2slot m) (set_nth (slots m) i (k0, v)), Some v0)
        | None => None
        end
    end.
  (** Writing through [get_mut] (detail.rs:335-343) and [get_index_mut] (397-399); the
      value that was there. *)
  Definition m_set (m : imap) (k : K) (v : V) : option (imap * option V) :=
    match bt_find (key2slot m) k with
    | None => Some (m, None)
    | Some (_, i) =>
        match nth_error (slots m) i with
        | Some (sk, v0) => Some (mkMap (key2slot m) (set_nth (slots m) i (sk, v)), Some v0)
        | None => None
        end
    end.
  Definition m_set_index (m : imap) (i : nat) (v : V) : imap * option V :=
    match nth_error (slots m) i with
    | Some (sk, v0) => (mkMap (key2slot m) (set_nth (slots m) i (sk, v)), Some v0)
    | None => (m, None)
    end.
  (** [clear] (detail.rs:437-440). *)
  Definition m_clear (m : imap) : imap := mkMap [] [].

  (** [extend], [from_iter] (detail.rs:488-514). *)
  Fixpoint m_extend (m : imap) (l : list (K * V)) : option imap :=
    match l with
    | [] => Some m
    | (k, v) :: l => match m_insert m k v with Some (m, _) => m_extend m l | None => None end
    end.
End IndexMap.
Arguments imap : clear implicits.
