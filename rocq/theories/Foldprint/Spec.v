(** What the printed text should be read as, and which bodies can be printed. *)
From Coq Require Import List NArith.
Import ListNotations.
From Verif.Folded Require Import Model Spec.
From Verif.Foldprint Require Import Model.

(** The instructions and hints of the operators. *)
Definition value (taken : bool) : nat := if taken then 1 else 0.
Definition meaning (ops : list op) : list (option nat * instr) := map (fun o => (option_map value (o_hint o), o_instr o)) ops.
(** The sum of results of instructions. *)
Fixpoint yields (l : list finst) : N := match l with [] => 0%N | x :: l => (f_results x + yields l)%N end.
(** Bodies in which blocks are nested as they should be, and hints are only at [if] and at instructions that open or close nothing. *)
Inductive nested : list (option nat * instr) -> Prop :=
  | N_nil : nested []
  | N_plain : forall h n l, nested l -> nested ((h, IOther n) :: l)
  | N_block : forall n b l, nested b -> nested l -> nested ((None, IBlock n) :: b ++ (None, IEnd) :: l)
  | N_if : forall h n t l, nested t -> nested l -> nested ((h, IIf n) :: t ++ (None, IEnd) :: l)
  | N_else : forall h n t e l, nested t -> nested e -> nested l -> nested ((h, IIf n) :: t ++ (None, IElse) :: e ++ (None, IEnd) :: l).
