(** What a list of local declarations, and a history of sets and blocks, mean. *)
From Verif.Base Require Import Prelude.

(** Declarations in order: each is refused if the total would exceed 50000. *)
Fixpoint declare {A} (locals : list A) (ds : list (Z * A)) : list bool * list A :=
  match ds with
  | [] => ([], locals)
  | (n, t) :: ds =>
      if zlen locals + n <=? 50000
      then let r := declare (locals ++ repeat t (Z.to_nat n)) ds in (true :: fst r, snd r)
      else let r := declare locals ds in (false :: fst r, snd r)
  end.

(** What happens in a function body. *)
Inductive event := ESet (i : Z) | EEnter | ELeave.

(** The open blocks, innermost first, with the locals set in each so far. *)
Fixpoint scopes (st : list (list Z)) (h : list event) : option (list (list Z)) :=
  match h, st with
  | [], _ => Some st
  | ESet i :: h, sc :: st => scopes ((i :: sc) :: st) h
  | ESet _ :: _, [] => None
  | EEnter :: h, st => scopes ([] :: st) h
  | ELeave :: h, _ :: st => scopes st h
  | ELeave :: _, [] => None
  end.
