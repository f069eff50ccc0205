(** Properties C22, C23: the validator's collections. *)
From Verif.Base Require Import Prelude.
From Verif.Coll Require Import SnapshotModel SnapshotProofs MapModel MapSpec MapProofs.

(** C22: the list and every snapshot ever taken answer as plain lists do; the only
    panic is truncating below what a snapshot holds. *)
Theorem C22_snapshots : forall (A : Type) (h : list (op A)),
  match run slist_empty [] h, plain [] 0 [] h with
  | Some (s', cs), Some (l', ls) =>
      (len s' = List.length l' /\ forall i, get s' i = Some (nth_error l' i)) /\
      Forall2 (fun s l => len s = List.length l /\ forall i, get s i = Some (nth_error l i)) cs ls
  | None, None => True
  | _, _ => False
  end.
Proof. exact @snapshot_ok. Qed.
Print Assumptions C22_snapshots.
Example C22_case :
  let h := [OPush 10; OPush 11; OCommit; OPush 12; OTruncate 2; OCommit; OPush 13; OPush 14; OTruncate 3; OCommit; OPush 15] in
  plain [] 0 [] h = Some ([10; 11; 13; 15], [[10; 11; 13]; [10; 11]; [10; 11]]) /\
  run slist_empty [] (h ++ [OTruncate 2]) = None /\
  match run slist_empty [] h with Some (s, _) => map (get s) [0; 1; 2; 3; 4]%nat = [Some (Some 10); Some (Some 11); Some (Some 13); Some (Some 15); Some None] | None => False end.
Proof. vm_compute. repeat split. Qed.

(** C23: any sequence of calls on a new map returns what the insertion-ordered
    association list returns, without a panic, and leaves a map whose every view agrees
    with it.  Keys returned by position are compared up to the order's equality. *)
Theorem C23_map : forall (K V : Type) (eqk : K -> K -> bool),
  (forall a, eqk a a = true) -> (forall a b, eqk a b = true -> eqk b a = true) ->
  (forall a b c, eqk a b = true -> eqk b c = true -> eqk a c = true) ->
  forall cs : list (call K V), exists m rs, steps eqk imap_new cs = Some (m, rs) /\
    Forall2 (same_ret eqk) rs (snd (ideals eqk [] cs)) /\ agrees eqk m (fst (ideals eqk [] cs)).
Proof. exact @imap_ok. Qed.
Print Assumptions C23_map.

(** C23: with keys that are equal only when identical, the answers are the same. *)
Theorem C23_exact : forall (K V : Type) (eqk : K -> K -> bool) (cs : list (call K V)),
  (forall a b, eqk a b = true <-> a = b) ->
  exists m rs, steps eqk imap_new cs = Some (m, rs) /\ rs = snd (ideals eqk [] cs) /\
    m_iter m = fst (ideals eqk [] cs) /\ forall i, m_get_index m i = nth_error (fst (ideals eqk [] cs)) i.
Proof. exact @imap_exact. Qed.
Print Assumptions C23_exact.

(** C23: building from an iterator is inserting in turn. *)
Theorem C23_from_iter : forall (K V : Type) (eqk : K -> K -> bool),
  (forall a, eqk a a = true) -> (forall a b, eqk a b = true -> eqk b a = true) ->
  (forall a b c, eqk a b = true -> eqk b c = true -> eqk a c = true) ->
  forall es : list (K * V), exists m, m_extend eqk imap_new es = Some m /\
    agrees eqk m (fold_left (fun l e => put eqk l (fst e) (snd e)) es []).
Proof. exact @from_iter_ok. Qed.
Print Assumptions C23_from_iter.

Example C23_case :
  let cs := [CInsert 1 10; CInsert 2 20; CInsert 3 30; CRemove 1; CInsert 2 21; COrInsert 4 40; CRemove 9; CSetIndex 0 31] in
  (forall a b, Z.eqb a b = true <-> a = b) /\
  match steps Z.eqb imap_new cs with
  | Some (m, rs) => m_iter m = [(3, 31); (2, 21); (4, 40)] /\ nth_error rs 3 = Some (Some 0%nat, Some 1, Some 10) /\ m_get_index_of Z.eqb m 3 = Some 0%nat
  | None => False
  end.
Proof. split; [exact Z.eqb_eq|]. vm_compute. repeat split. Qed.

(** C23 is false of identical keys: inserting again under an equal key changes the key
    that positions show, against the documentation of [insert], while look-ups go on
    returning the first one. *)
Theorem C23_key_kept_refuted : exists (eqk : (Z * Z) -> (Z * Z) -> bool) (cs : list (call (Z * Z) Z)),
  (forall a, eqk a a = true) /\ (forall a b, eqk a b = true -> eqk b a = true) /\
  (forall a b c, eqk a b = true -> eqk b c = true -> eqk a c = true) /\
  exists m rs, steps eqk imap_new cs = Some (m, rs) /\
    exists k k' v, m_get_full eqk m k = Some (Some (0%nat, k, v)) /\ m_get_index m 0 = Some (k', v) /\ k <> k'.
Proof. exact key_kept_refuted. Qed.
Print Assumptions C23_key_kept_refuted.
