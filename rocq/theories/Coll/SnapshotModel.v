(** Model of [SnapshotList] (crates/wasmparser/src/validator/types.rs:730-857).

    An [Arc] is its content: snapshots are never changed once shared. *)
From Verif.Base Require Import Prelude Search.

Section Snapshot.
  Context {A : Type}.

  (** [struct SnapshotList], [struct Snapshot] (types.rs:730-753); lengths are [nat]. *)
  Record snap := mkSnap { prior_types : nat; items : list A }.
  Record slist := mkSlist { snapshots : list snap; snapshots_total : nat; cur : list A }.
  (** [Default] (types.rs:848-856). *)
  Definition slist_empty : slist := mkSlist [] 0 [].

  (** [get] (types.rs:757-775): [None] is a panic ([i - 1] below zero, index out of
      bounds), [Some None] the result [None]. *)
  Definition get (s : slist) (index : nat) : option (option A) :=
    if (snapshots_total s <=? index)%nat then Some (nth_error (cur s) (index - snapshots_total s))
    else
      let at_ (i : nat) :=
        match nth_error (snapshots s) i with
        | Some sn =>
            if (index <? prior_types sn)%nat then None
            else match nth_error (items sn) (index - prior_types sn) with Some x => Some (Some x) | None => None end
        | None => None
        end in
      match binary_search (fun sn => Z.of_nat (prior_types sn)) (snapshots s) (Z.of_nat index) with
      | FOk i => at_ i
      | FErr O => None
      | FErr (S i) => at_ i
      end.

  (** [push], [len] (types.rs:778-785). *)
  Definition push (s : slist) (x : A) : slist := mkSlist (snapshots s) (snapshots_total s) (cur s ++ [x]).
  Definition len (s : slist) : nat := List.length (cur s) + snapshots_total s.

  (** [truncate] (types.rs:788-792); [None] is the failing assertion. *)
  Definition truncate (s : slist) (n : nat) : option slist :=
    if (n <? snapshots_total s)%nat then None
    else Some (mkSlist (snapshots s) (snapshots_total s) (firstn (n - snapshots_total s) (cur s))).

  (** [commit] (types.rs:799-818): the list and the clone returned. *)
  Definition commit (s : slist) : slist * slist :=
    let s' := if (0 <? List.length (cur s))%nat
              then mkSlist (snapshots s ++ [mkSnap (snapshots_total s) (cur s)])
                     (snapshots_total s + List.length (cur s)) []
              else s in
    (s', mkSlist (snapshots s') (snapshots_total s') []).
End Snapshot.
Arguments slist : clear implicits.
Arguments snap : clear implicits.
