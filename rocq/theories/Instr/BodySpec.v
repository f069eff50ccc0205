(** Which sequences of instructions are well nested. *)
From Verif.Base Require Import Prelude.
From Verif.Reader Require Import Model.
From Verif.Types Require Import RefModel CodecModel CodecSpec.
From Verif.Instr Require Import ImmModel ImmSpec Ops Imms BodyModel.

(** Instructions that neither open, divide nor close a block. *)
Definition plain (i : instr) : Prop :=
  match i with
  | In_Block _ | In_Loop _ | In_If _ | In_Else | In_Try _ | In_Catch _ | In_CatchAll | In_TryTable _ _ | In_Delegate _ | In_End => False
  | _ => True
  end.
(** The grammar of the specification (with the legacy forms of exception handling): [nested l] when [l] is
    a sequence of whole instructions, [handlers l] when [l] is what follows the body of a [try]. *)
Inductive nested : list instr -> Prop :=
| ne_nil : nested []
| ne_plain i l : plain i -> nested l -> nested (i :: l)
| ne_block t b l : nested b -> nested l -> nested (In_Block t :: b ++ In_End :: l)
| ne_loop t b l : nested b -> nested l -> nested (In_Loop t :: b ++ In_End :: l)
| ne_try_table t cs b l : nested b -> nested l -> nested (In_TryTable t cs :: b ++ In_End :: l)
| ne_if t b l : nested b -> nested l -> nested (In_If t :: b ++ In_End :: l)
| ne_if_else t b c l : nested b -> nested c -> nested l -> nested (In_If t :: b ++ In_Else :: c ++ In_End :: l)
| ne_try t b h l : nested b -> handlers h -> nested l -> nested (In_Try t :: b ++ h ++ l)
| ne_delegate t b d l : nested b -> nested l -> nested (In_Try t :: b ++ In_Delegate d :: l)
with handlers : list instr -> Prop :=
| ha_end : handlers [In_End]
| ha_catch t b h : nested b -> handlers h -> handlers (In_Catch t :: b ++ h)
| ha_catch_all b : nested b -> handlers (In_CatchAll :: b ++ [In_End]).
Scheme nested_mut := Induction for nested Sort Prop with handlers_mut := Induction for handlers Sort Prop.
Combined Scheme nested_ind2 from nested_mut, handlers_mut.

(** An expression: a well-nested sequence and [end]. *)
Definition expr_ok (ft : features) (l : list instr) : Prop := exists b, l = b ++ [In_End] /\ nested b /\ Forall (instr_ok ft) b.
(** The instructions of a constant expression: well nested with no [end]. *)
Definition const_ok (ft : features) (l : list instr) : Prop := nested l /\ ~ In In_End l /\ Forall (instr_ok ft) l.
(** Groups of locals: as many as a [u32] can count, one by one and in all. *)
Fixpoint total (l : list (Z * e_val)) : Z := match l with [] => 0 | (n, _) :: t => n + total t end.
Definition locals_ok (l : list (Z * e_val)) : Prop :=
  Forall (fun x => 0 <= fst x /\ val_ok (snd x)) l /\ total l < 2 ^ 32 /\ zlen l < 2 ^ 32.
Definition func_ok (ft : features) (f : e_func) : Prop := locals_ok (ef_locals f) /\ expr_ok ft (ef_body f).
(** The type of each local. *)
Fixpoint spread (l : list (Z * e_val)) : list e_val := match l with [] => [] | (n, v) :: t => repeat v (Z.to_nat n) ++ spread t end.
