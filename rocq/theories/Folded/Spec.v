(** Expressions as trees: how they are written, and what they mean. *)
From Coq Require Import List Arith Bool.
Import ListNotations.
From Verif.Folded Require Import Model.

(** A sequence of instructions, each with a branch hint or none: flat; folded with its operands; a folded block with its body; a folded [if] with its condition, its [then] and perhaps its [else]. *)
Inductive tree := Nil
  | Plain (h : option nat) (i : instr) (next : tree)
  | Fold (h : option nat) (i : instr) (operands next : tree)
  | Blk (h : option nat) (n : nat) (body next : tree)
  | IfThen (h : option nat) (n : nat) (cond then_ next : tree)
  | IfElse (h : option nat) (n : nat) (cond then_ else_ next : tree).
(** How it is written. *)
Definition hint (h : option nat) : list tok := match h with Some v => [LP; Hint v; RP] | None => [] end.
Fixpoint text (t : tree) : list tok :=
  match t with
  | Nil => []
  | Plain h i n => hint h ++ Ins i :: text n
  | Fold h i a n => hint h ++ LP :: Ins i :: text a ++ RP :: text n
  | Blk h i b n => hint h ++ LP :: Ins (IBlock i) :: text b ++ RP :: text n
  | IfThen h i c t n => hint h ++ LP :: Ins (IIf i) :: text c ++ LP :: Then :: text t ++ RP :: RP :: text n
  | IfElse h i c t e n => hint h ++ LP :: Ins (IIf i) :: text c ++ LP :: Then :: text t ++ RP :: LP :: Ins IElse :: text e ++ RP :: RP :: text n
  end.
(** What it means: operands and conditions before the instruction, [end] after each folded block. *)
Fixpoint flat (t : tree) : list (option nat * instr) :=
  match t with
  | Nil => []
  | Plain h i n => (h, i) :: flat n
  | Fold h i a n => flat a ++ (h, i) :: flat n
  | Blk h i b n => (h, IBlock i) :: flat b ++ (None, IEnd) :: flat n
  | IfThen h i c t n => flat c ++ (h, IIf i) :: flat t ++ (None, IEnd) :: flat n
  | IfElse h i c t e n => flat c ++ (h, IIf i) :: flat t ++ (None, IElse) :: flat e ++ (None, IEnd) :: flat n
  end.
(** The trees of the grammar: hints are 0 or 1; a folded instruction is no block; a condition has only folded instructions. *)
Definition hint_ok (h : option nat) : Prop := match h with Some v => v <= 1 | None => True end.
Definition no_block (i : instr) : Prop := match i with IBlock _ | IIf _ => False | _ => True end.
Fixpoint all_folded (t : tree) : Prop :=
  match t with Nil => True | Plain _ _ _ => False | Fold _ _ _ n | Blk _ _ _ n | IfThen _ _ _ _ n | IfElse _ _ _ _ _ n => all_folded n end.
Fixpoint wf (t : tree) : Prop :=
  match t with
  | Nil => True
  | Plain h _ n => hint_ok h /\ wf n
  | Fold h i a n => hint_ok h /\ no_block i /\ wf a /\ wf n
  | Blk h _ b n => hint_ok h /\ wf b /\ wf n
  | IfThen h _ c t n => hint_ok h /\ all_folded c /\ wf c /\ wf t /\ wf n
  | IfElse h _ c t e n => hint_ok h /\ all_folded c /\ wf c /\ wf t /\ wf e /\ wf n
  end.
(** The hints of a list of instructions, each with the place of its instruction. *)
Fixpoint hints_at (n : nat) (l : list (option nat * instr)) : list (nat * nat) :=
  match l with [] => [] | (Some v, _) :: l => (n, v) :: hints_at (S n) l | (None, _) :: l => hints_at (S n) l end.
Definition code_of (l : list (option nat * instr)) : code := mkCode (map snd l) (hints_at 0 l).
(** Where an expression ends: at the end of the input or at a parenthesis that closes something around it. *)
Definition ends (ts : list tok) : Prop := ts = [] \/ exists r, ts = RP :: r.
(** Annotations have nothing after their string. *)
Fixpoint closed (ts : list tok) : Prop :=
  match ts with [] => True | Hint _ :: r => (exists r', r = RP :: r') /\ closed r | _ :: r => closed r end.
(** Hints in the order of their instructions, one at most for each, all inside the code: what the encoder of hints needs. *)
Fixpoint ordered (from : nat) (l : list (nat * nat)) (upto : nat) : Prop :=
  match l with [] => from <= upto | (n, v) :: l => from <= n /\ v <= 1 /\ ordered (S n) l upto end.
(** The hints of a list of instructions with the offset of each one's instruction, if the first is at [at_]. *)
Fixpoint offsets (enc : instr -> list nat) (at_ : nat) (l : list (option nat * instr)) : list (nat * nat) :=
  match l with
  | [] => []
  | (h, i) :: l => match h with Some v => [(at_, v)] | None => [] end ++ offsets enc (at_ + length (enc i)) l
  end.
(** Folded instructions with operands that are folded in turn; blocks are not different here. *)
Inductive forest := FNil | FCons (i : instr) (operands next : forest).
Fixpoint ftext (f : forest) : list tok := match f with FNil => [] | FCons i a n => LP :: Ins i :: ftext a ++ RP :: ftext n end.
Fixpoint fflat (f : forest) : list instr := match f with FNil => [] | FCons i a n => fflat a ++ i :: fflat n end.
