(** An insertion-ordered association list, and the calls a user makes. *)
From Verif.Base Require Import Prelude.

Section Spec.
  Context {K V : Type} (eqk : K -> K -> bool).

  (** The position, the key as first inserted and the value. *)
  Fixpoint find (l : list (K * V)) (k : K) : option (nat * K * V) :=
    match l with
    | [] => None
    | (k0, v) :: l =>
        if eqk k k0 then Some (0%nat, k0, v)
        else match find l k with Some (i, k1, v1) => Some (S i, k1, v1) | None => None end
    end.
  (** A new key goes last; an old one keeps its place and its key. *)
  Fixpoint put (l : list (K * V)) (k : K) (v : V) : list (K * V) :=
    match l with
    | [] => [(k, v)]
    | (k0, v0) :: l => if eqk k k0 then (k0, v) :: l else (k0, v0) :: put l k v
    end.
  (** The last entry takes the place of the one removed. *)
  Fixpoint drop (l : list (K * V)) (k : K) : list (K * V) :=
    match l with
    | [] => []
    | (k0, v0) :: l =>
        if eqk k k0 then match l with [] => [] | e :: _ => last l e :: removelast l end
        else (k0, v0) :: drop l k
    end.
  Fixpoint put_at (l : list (K * V)) (i : nat) (v : V) : list (K * V) :=
    match l, i with
    | [], _ => []
    | (k, _) :: l, O => (k, v) :: l
    | e :: l, S i => e :: put_at l i v
    end.
  Definition value_of (r : option (nat * K * V)) : option V := match r with Some (_, _, v) => Some v | None => None end.

  Inductive call := CInsert (k : K) (v : V) | CRemove (k : K) | COrInsert (k : K) (v : V)
    | CEntryInsert (k : K) (v : V) | CSet (k : K) (v : V) | CSetIndex (i : nat) (v : V) | CClear.
  (** What a call returns: a position, a key, a value. *)
  Definition ret := (option nat * option K * option V)%type.

  Definition ideal (l : list (K * V)) (c : call) : list (K * V) * ret :=
    match c with
    | CInsert k v =>
        (put l k v, match find l k with
                    | Some (i, _, old) => (Some i, None, Some old)
                    | None => (Some (List.length l), None, None)
                    end)
    | CRemove k => (drop l k, match find l k with Some (i, k0, v) => (Some i, Some k0, Some v) | None => (None, None, None) end)
    | COrInsert k v => match find l k with Some (_, _, v0) => (l, (None, None, Some v0)) | None => (put l k v, (None, None, Some v)) end
    | CEntryInsert k v => (put l k v, (None, None, value_of (find l k)))
    | CSet k v => match find l k with Some (_, _, v0) => (put l k v, (None, None, Some v0)) | None => (l, (None, None, None)) end
    | CSetIndex i v => (put_at l i v, (None, None, match nth_error l i with Some (_, v0) => Some v0 | None => None end))
    | CClear => ([], (None, None, None))
    end.
  Fixpoint ideals (l : list (K * V)) (cs : list call) : list (K * V) * list ret :=
    match cs with
    | [] => (l, [])
    | c :: cs => let '(l1, r) := ideal l c in let '(l2, rs) := ideals l1 cs in (l2, r :: rs)
    end.
End Spec.
Arguments call : clear implicits.
Arguments ret : clear implicits.
