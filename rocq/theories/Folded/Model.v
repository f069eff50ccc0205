(** The parser of expressions of the text format (crates/wast/src/core/expr.rs:96-480): a loop with a stack of its own, for folded and flat instructions and branch hints. *)
From Coq Require Import List Arith Bool.
Import ListNotations.

(** Instructions with their immediates, as one token: [block], [loop] and [try_table]; [if]; [else]; [end]; any other. Simplification: labels repeated at [else] are left out. *)
Inductive instr := IBlock (n : nat) | IIf (n : nat) | IElse | IEnd | IOther (n : nat).
(** Tokens: parentheses, instructions, the keyword [then], and the name of a branch hint annotation with the byte of its string. Spans are left out. *)
Inductive tok := LP | RP | Ins (i : instr) | Then | Hint (v : nat).
(** [If] (expr.rs:169-180) and [Level] (140-166). *)
Inductive ifst := Clause (i : instr) | InThen | InElse.
Inductive level := EndWith (i : instr) (h : option nat) | LIf (s : ifst) (h : option nat) | IfArm | BranchHint.
(** [raw_instrs] and [branch_hints] of [ExpressionParser] (expr.rs:103-130). *)
Record code := mkCode { raw : list instr; hints : list (nat * nat) }.
(** [push_instr_with_hint] (expr.rs:472-480). *)
Definition push (h : option nat) (i : instr) (o : code) : code :=
  mkCode (raw o ++ [i]) (match h with Some v => hints o ++ [(length (raw o), v)] | None => hints o end).
(** [check_hint_consumed] (expr.rs:457-462) at the end of the loop. *)
Definition finish (p : option nat) (o : code) (ts : list tok) : option (code * list tok) := match p with Some _ => None | None => Some (o, ts) end.

(** [ExpressionParser::parse] (expr.rs:197-318), with [paren] (351-362), [handle_if_lparen] (378-423) and [parse_branch_hint] (425-446); [p] is [pending_hint], and the last level is the head of [st].
    The answer is the code and what is left of the input, [None] for any error. *)
Fixpoint parse (ts : list tok) (o : code) (st : list level) (p : option nat) : option (code * list tok) :=
  match ts with
  | [] => match st with [] => finish p o [] | _ :: _ => None end
  | RP :: rest =>
    match st with
    | [] => finish p o ts
    | BranchHint :: st => parse rest o st p
    | l :: st =>
      match p with
      | Some _ => None
      | None =>
        match l with
        | EndWith i h => parse rest (push h i o) st None
        | IfArm | BranchHint => parse rest o st None
        | LIf (Clause _) _ => None
        | LIf _ _ => parse rest (push None IEnd o) st None
        end
      end
    end
  | Ins i :: rest => match st with LIf _ _ :: _ => None | _ => parse rest (push p i o) st None end
  | LP :: Then :: rest =>
    match st with
    | LIf (Clause i) h :: st => match p with Some _ => None | None => parse rest (push h i o) (IfArm :: LIf InThen None :: st) None end
    | _ => None
    end
  | LP :: Hint v :: rest =>
    match st with
    | LIf InThen _ :: _ | LIf InElse _ :: _ => None
    | _ => if v <=? 1 then match p with Some _ => None | None => parse rest o (BranchHint :: st) (Some v) end else None
    end
  | LP :: Ins i :: rest =>
    match st with
    | LIf InThen h :: st => match i with IElse => parse rest (push None IElse o) (IfArm :: LIf InElse h :: st) p | _ => None end
    | LIf InElse _ :: _ => None
    | _ =>
      match i with
      | IBlock _ => parse rest (push p i o) (EndWith IEnd None :: st) None
      | IIf _ => parse rest o (LIf (Clause i) p :: st) None
      | _ => parse rest o (EndWith i p :: st) None
      end
    end
  | _ => None
  end.
(** [Expression::parse] (expr.rs:49-58). *)
Definition expression (ts : list tok) : option (code * list tok) := parse ts (mkCode [] []) [] None.

(** [Expression::encode] (binary.rs:808-848): the bytes of the instructions, each given by [enc], and the hints with the offset of their instruction in the function, whose locals take [start] bytes.
    Simplification: functions of 4 GiB and more, for which it panics, are left out, and so is DWARF. *)
Fixpoint emit (enc : instr -> list nat) (start i : nat) (is : list instr) (next : list (nat * nat)) (tmp : list nat) (out : list (nat * nat)) : list nat * list (nat * nat) :=
  match is with
  | [] => (tmp, out)
  | x :: is =>
    match next with
    | (n, v) :: r => if n =? i then emit enc start (S i) is r (tmp ++ enc x) (out ++ [(start + length tmp, v)]) else emit enc start (S i) is next (tmp ++ enc x) out
    | [] => emit enc start (S i) is [] (tmp ++ enc x) out
    end
  end.
Definition encode (enc : instr -> list nat) (start : nat) (c : code) : list nat * list (nat * nat) := emit enc start 0 (raw c) (hints c) [] [].

(** [parse_folded_instruction] (expr.rs:84-93, 323-348), for the offset of a segment written as one folded instruction: every `(` takes an instruction, every `)` emits it. The stack has only [EndWith] here. An unmatched `)` is not seen as one by [paren]. *)
Fixpoint folded_loop (ts : list tok) (out st : list instr) : option (list instr * list tok) :=
  match ts with
  | LP :: Ins i :: rest => folded_loop rest out (i :: st)
  | RP :: rest => match st with [] => None | [i] => Some (out ++ [i], rest) | i :: st => folded_loop rest (out ++ [i]) st end
  | _ => None
  end.
Definition folded_instruction (ts : list tok) : option (list instr * list tok) := folded_loop ts [] [].
