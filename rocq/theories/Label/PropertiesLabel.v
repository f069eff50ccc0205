(** C59: names of labels and locals in the text format. *)
From Coq Require Import List Arith Bool Lia.
Import ListNotations.
From Verif.Label Require Import Model Spec Proofs.

(** A structured body is accepted exactly when the names of its locals are distinct, every name of a label is that of a block around it,
    every name of a local is one of the function, and the labels repeated at the ends of blocks are theirs.  Each name is then replaced by
    the distance to the innermost block of that name, or by the place of the local, and nothing else changes. *)
Theorem C59_scopes : forall locals c l, resolve_body locals (flat c []) = Ok l <-> NoDup (names locals) /\ exists c', l = flat c' [] /\ means locals [] c c'.
Proof. exact body_iff. Qed.
Print Assumptions C59_scopes.

(** Whatever the instructions, nested well or not: no names are left, and resolving the result again changes nothing. *)
Theorem C59_numbers : forall locals body l, resolve_body locals body = Ok l -> Forall resolved l /\ length l = length body /\ resolve_body locals l = Ok l.
Proof.
  intros locals body l H. unfold resolve_body in *. destruct (register_all locals (mkNs [] 0)) as [s | e]; simpl in *; [| discriminate]. destruct (expr_number _ _ _ _ H) as (A & B & C). auto.
Qed.
Print Assumptions C59_numbers.

(** Names do not matter: with other names for labels and for locals, different ones for different ones, the verdict and all the numbers are the same. *)
Theorem C59_renaming : forall f g locals body, inj f -> inj g ->
  resolve_body (map (option_map g) locals) (map (rename f g) body) = rename_res f g (map (rename f g)) (resolve_body locals body).
Proof. intros f g locals body If Ig. exact (body_rename f g If Ig locals body). Qed.
Print Assumptions C59_renaming.

(** [(func (param $p i32) (local $q i32) block $a loop $b (try_table $a (catch_all $a)) br $a br $b end end $b br_table $a 0 local.get $q end $a)],
    a label that is hidden, a delegate, and a body with a label that is not in scope. *)
Definition case59 : code :=
  Blk 0 (Some 1) (Blk 2 (Some 2) (Try (Some 1) [Sym 1] (Br 0 [Sym 1] (Br 0 [Sym 2] Nil)) None Nil) (Some 2) (Br 1 [Sym 1; Num 0] (Loc 0 (Sym 8) Nil))) (Some 1)
    (IfElse 1 (Some 3) (Br 0 [Sym 3] Nil) (Some 3) (TryDelegate 3 (Some 3) (Br 0 [Sym 3] Nil) (Sym 3) Nil) None Nil).
Example C59_case :
  resolve_body [Some 7; Some 8] (flat case59 []) =
    Ok [Open 0 (Some 1); Open 2 (Some 2); TryTable (Some 1) [Num 1]; Branch 0 [Num 0]; Branch 0 [Num 1]; End None; End (Some 2); Branch 1 [Num 0; Num 0]; Local 0 (Num 1); End (Some 1);
        Open 1 (Some 3); Branch 0 [Num 0]; Else (Some 3); Open 3 (Some 3); Branch 0 [Num 0]; Delegate (Num 0); End None] /\
  resolve_body [] (flat (Blk 0 (Some 1) Nil None (Br 0 [Sym 1] Nil)) []) = Err (UnknownLabel 1) /\
  resolve_body [] (flat (Blk 0 (Some 1) Nil (Some 2) Nil) []) = Err (Mismatch 2) /\
  resolve_body [Some 7; None; Some 7] [] = Err (DuplicateLocal 7) /\ inj S.
Proof. repeat split. intros x y H. injection H as H. exact H. Qed.
