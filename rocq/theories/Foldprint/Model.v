(** Printing of function bodies with folded instructions (crates/wasmprinter/src/operator.rs:37-68, 1495-1596, 1648-1954). *)
From Coq Require Import List NArith Bool.
Import ListNotations.
From Verif.Folded Require Import Model Spec.

(** [FoldedInstruction] (operator.rs:37-46): the text of the instruction is one token, with its immediates. Offsets, which only matter for line breaks, are left out. *)
Inductive finst := FI (plain : tok) (folded : list finst) (results : N) (h : option nat).
Definition f_results (x : finst) : N := match x with FI _ _ r _ => r end.
(** [Block] (operator.rs:48-59), with [FrameKind]. *)
Inductive fkind := KBlock | KIf | KElse.
Record block := mkB { b_kind : fkind; b_plain : tok; b_folded : list finst; b_pred : option (list finst); b_cons : option (list finst); b_hint : option nat }.
(** An operator that is read: whether there is a branch hint at its offset, the instruction, and its numbers of operands and results as [operator_arity] gives them.
    Legacy exceptions, which are refused, are not among the instructions. *)
Record op := mkOp { o_hint : option bool; o_instr : instr; o_params : N; o_results : N }.

Definition u32max : N := 4294967295.
Definition sat_add (a b : N) : N := N.min (a + b) u32max.
(** The loop of [handle_plain] (operator.rs:1711-1725), over the instructions from the last one; [None] if it ends without a break. *)
Fixpoint search (rev_folded : list finst) (count params : N) : option (nat + unit) :=
  match rev_folded with
  | [] => None
  | x :: l =>
    let count := sat_add count (f_results x) in
    if (count =? params)%N then Some (inl (length l)) else if (params <? count)%N then Some (inr tt) else search l count params
  end.
(** [handle_plain] (operator.rs:1705-1737) on the instructions of the block. *)
Definition handle_plain (folded : list finst) (plain : tok) (params results : N) (h : option nat) : list finst :=
  let '(first_param, results) :=
    if (0 <? params)%N then
      match search (rev folded) 0 params with Some (inl pos) => (pos, results) | Some (inr _) => (length folded, u32max) | None => (length folded, results) end
    else (length folded, results) in
  firstn first_param folded ++ [FI plain (skipn first_param folded) results h].
Definition set_folded (b : block) (l : list finst) : block := mkB (b_kind b) (b_plain b) l (b_pred b) (b_cons b) (b_hint b).
(** [handle_end] (operator.rs:1866-1953): the instruction that a block becomes. *)
Definition close (b : block) (results : N) : option finst :=
  match b_kind b, b_pred b, b_cons b with
  | KBlock, _, _ => Some (FI (b_plain b) (b_folded b) results None)
  | KIf, Some pred, _ => Some (FI (b_plain b) (pred ++ [FI Then (b_folded b) results None]) results (b_hint b))
  | KElse, Some pred, Some conseq => Some (FI (b_plain b) (pred ++ [FI Then conseq results None; FI (Ins IElse) (b_folded b) results None]) results (b_hint b))
  | _, _, _ => None
  end.
(** [pop] of a vector. *)
Definition pop_last (l : list finst) : list finst * list finst := match rev l with [] => ([], []) | x :: r => (rev r, [x]) end.
(** [branch_hint] and [visit_operator] (operator.rs:1496-1573) with [push_block] (1795-1808), [push_if] (1810-1832) and [handle_else] (1834-1859); [control] from the innermost block. *)
Definition visit (o : op) (control : list block) (pending : option nat) : option (list block * option nat) :=
  let pending := match o_hint o with Some taken => Some (if taken then 1 else 0) | None => pending end in
  match o_instr o with
  | IBlock n => match pending with Some _ => None | None => Some (mkB KBlock (Ins (IBlock n)) [] None None None :: control, None) end
  | IIf n =>
    match control with
    | [] => None
    | b :: control => let (l, pred) := pop_last (b_folded b) in Some (mkB KIf (Ins (IIf n)) [] (Some pred) None pending :: set_folded b l :: control, None)
    end
  | IElse =>
    match pending, control with
    | None, mkB KIf plain folded pred _ h :: control => Some (mkB KElse plain [] pred (Some folded) h :: control, None)
    | _, _ => None
    end
  | IEnd =>
    match pending, control with
    | None, b :: control =>
      match close b (o_results o), control with
      | Some x, c :: control => Some (set_folded c (b_folded c ++ [x]) :: control, None)
      | _, _ => None
      end
    | _, _ => None
    end
  | IOther n =>
    match control with
    | [] => None
    | b :: control => Some (set_folded b (handle_plain (b_folded b) (Ins (IOther n)) (o_params o) (o_results o) pending) :: control, None)
    end
  end.
(** The loop of [print_operators] (lib.rs:1588-1642) up to the last [end]. *)
Fixpoint visit_all (ops : list op) (control : list block) (pending : option nat) : option (list block) :=
  match ops with
  | [] => Some control
  | o :: ops => match visit o control pending with Some (control, pending) => visit_all ops control pending | None => None end
  end.
(** [print] (operator.rs:1756-1785): tokens only, white space is left out. *)
Fixpoint print (x : finst) : list tok := match x with FI plain folded _ h => hint h ++ LP :: plain :: flat_map print folded ++ [RP] end.
(** [begin_function] and [begin_const_expr] (operator.rs:1668-1698), then the loop, then [finalize] (1576-1591). *)
Definition fold_print (ops : list op) : option (list tok) :=
  match visit_all ops [mkB KBlock RP [] None None None] None with Some [b] => Some (flat_map print (b_folded b)) | _ => None end.

(** Which operator gets which branch hint in [print_operators] (lib.rs:1588-1642): [hs] are the hints of the function, offsets from its start with the byte of each (0 or 1, as the reader of hints makes sure);
    an operator takes as many bytes as [enc] gives it, and [arity] are the arities at each offset. *)
Fixpoint attach (enc : instr -> list nat) (arity : nat -> N * N) (pos : nat) (is : list instr) (hs : list (nat * nat)) : list op :=
  match is with
  | [] => []
  | i :: is =>
    let '(h, hs) := match hs with (off, v) :: r => if Nat.eqb off pos then (Some (Nat.eqb v 1), r) else (None, hs) | [] => (None, []) end in
    mkOp h i (fst (arity pos)) (snd (arity pos)) :: attach enc arity (pos + length (enc i)) is hs
  end.
