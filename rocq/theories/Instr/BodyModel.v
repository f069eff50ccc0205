(** Model of the readers of instruction sequences, constant expressions and function bodies
    (crates/wasmparser/src/readers/core/operators.rs, init.rs, code.rs), of their writers
    (crates/wasm-encoder/src/core/code.rs) and of the translation between the two
    (crates/wasm-encoder/src/reencode.rs). *)
From Verif.Base Require Import Prelude.
From Verif.Reader Require Import Model.
From Verif.Leb Require Import Model.
From Verif.Codec Require Import Kit.
From Verif.Types Require Import RefModel CodecModel EntityModel.
From Verif.Instr Require Import ImmModel Ops Sink Visit Convert.

(** * The stack of open blocks *)
(** [struct ControlStack] (operators.rs:358-365).  The vector is kept with its last element first. *)
Record cstack := mkStack { cs_frames : list frame_kind; cs_top : option frame_kind }.
(** [push], [pop], [last] (operators.rs:381-396). *)
Definition cs_push (f : frame_kind) (s : cstack) : cstack :=
  match cs_top s with Some old => mkStack (old :: cs_frames s) (Some f) | None => mkStack (cs_frames s) (Some f) end.
Definition cs_pop (s : cstack) : cstack :=
  match cs_frames s with f :: t => mkStack t (Some f) | [] => mkStack [] None end.
Definition cs_last (s : cstack) : option frame_kind := cs_top s.
(** [OperatorsReader::new] (operators.rs:449-467): the stack it starts with. *)
Definition cs_new : cstack := cs_push FBlock (mkStack [] None).
(** [FrameStackAdapter] (operators.rs:1000-1073): what visiting an operator does to the stack. *)
Definition cs_visit (o : operator) (s : cstack) : cstack :=
  match o with
  | Op_Block _ => cs_push FBlock s
  | Op_Loop _ => cs_push FLoop s
  | Op_If _ => cs_push FIf s
  | Op_Else => cs_push FElse (cs_pop s)
  | Op_Try _ => cs_push FLegacyTry s
  | Op_Catch _ => cs_push FLegacyCatch (cs_pop s)
  | Op_CatchAll => cs_push FLegacyCatchAll (cs_pop s)
  | Op_TryTable _ => cs_push FTryTable s
  | Op_Delegate _ => cs_pop s
  | Op_End => cs_pop s
  | _ => s
  end.

(** [OperatorsReader::read] (operators.rs:501-503, 550-559): the operator and the new stack. *)
Definition ops_read (s : cstack) : R (operator * cstack) :=
  let* o := visit_operator (cs_last s) in ret (o, cs_visit o s).
(** [OperatorsIterator] collected (operators.rs:655-668): operators until the end of the bytes or the
    first error.  [fuel] bounds the number of operators: each takes a byte at least, so that the
    number of bytes is enough, and running out of it is an error that does not happen. *)
Fixpoint ops_collect (fuel : nat) (s : cstack) : R (list operator * cstack) := fun r =>
  if eof r then Ok (([], s), r)
  else match fuel with
       | O => fail_at "out of fuel" 0 r
       | S n => (let* x := ops_read s in let* y := ops_collect n (snd x) in ret (fst x :: fst y, snd y)) r
       end.
(** [OperatorsReader::finish], [finish_expression] (operators.rs:598-600, binary_reader.rs:796-810). *)
Definition ops_finish (s : cstack) : R unit := fun r =>
  match cs_last s with
  | Some _ => fail_at "control frames remain at end of function body or expression" 0 r
  | None => if eof r then Ok (tt, r) else fail_at "unexpected data at the end of operators" 0 r
  end.
(** All the operators of an expression, as a user reads them: [OperatorsReader::new], every operator,
    [finish]. *)
Definition read_expr : R (list operator) := fun r =>
  (let* x := ops_collect (List.length (r_rem r)) cs_new in let* _ := ops_finish (snd x) in ret (fst x)) r.

(** * Constant expressions *)
Definition is_end (o : operator) : bool := match o with Op_End => true | _ => false end.
(** [skip_const_expr] (operators.rs:575-589). *)
Fixpoint skip_const_expr (fuel : nat) (s : cstack) : R unit :=
  match fuel with
  | O => fail_at "out of fuel" 0
  | S n =>
      let* x := ops_read s in
      if is_end (fst x) then
        match cs_last (snd x) with
        | Some _ => fail_at "control frames remain at end of expression" 0
        | None => ret tt
        end
      else skip_const_expr n (snd x)
  end.
(** [FromReader for ConstExpr] (init.rs:48-59): the bytes of the expression. *)
Definition read_const : R (list Z) := skip_raw (fun r => skip_const_expr (List.length (r_rem r)) cs_new r).
(** [ConstExpr::encode] (wasm-encoder code.rs:2418-2423), for an expression made of these instructions. *)
Definition enc_const (l : list instr) : out := o_all enc_instr l +++ sink_end.
(** [is_end_then_eof] (binary_reader.rs:709-711). *)
Definition is_end_then_eof (r : reader) : bool := match r_rem r with [b] => b =? 0x0b | _ => false end.
(** [const_expr] (reencode.rs:1651-1664): instructions until only [end] is left.  The position the expression
    was read at is not kept: it only matters to the position of an error, which is not modelled here. *)
Fixpoint c_const_loop (fuel : nat) (s : cstack) (r : reader) : option (list instr) :=
  if is_end_then_eof r then Some []
  else
    match fuel with
    | O => None
    | S n =>
        match ops_read s r with
        | Err _ => None
        | Ok ((o, s'), r') => match c_op o, c_const_loop n s' r' with Some i, Some l => Some (i :: l) | _, _ => None end
        end
    end.
Definition c_const (ft : features) (bytes : list Z) : option (list instr) :=
  c_const_loop (List.length bytes) cs_new (new_reader ft bytes 0).

(** * Function bodies *)
(** [FromReader for FunctionBody] (code.rs:84-89): the bytes of the body. *)
Definition read_body : R (list Z) := let* size := read_var_u32 in read_bytes size.
(** [LocalsReader::read] (code.rs:108-117); the running total is the argument. *)
Definition read_local (total : Z) : R ((Z * p_val) * Z) :=
  let* count := read_var_u32 in
  if 2 ^ 32 <=? total + count then fail_at "too many locals" 0
  else let* ty := read_val in ret ((count, ty), total + count).
Fixpoint read_locals_loop (n : nat) (total : Z) : R (list (Z * p_val)) :=
  match n with
  | O => ret []
  | S k => let* x := read_local total in let* l := read_locals_loop k (snd x) in ret (fst x :: l)
  end.
(** [get_locals_reader] and the iteration over it (code.rs:46-54, 136-150). *)
Definition read_locals : R (list (Z * p_val)) := let* n := read_var_u32 in read_locals_loop (Z.to_nat n) 0.
(** [skip_locals] (code.rs:37-44). *)
Definition skip_locals : R unit :=
  let* n := read_var_u32 in
  let* _ := read_n (Z.to_nat n) (let* _ := read_var_u32 in let* _ := read_val in ret tt) in ret tt.
(** A body as a user reads it: its locals, and its operators until the end of the bytes with [finish]
    (code.rs:46-72). *)
Definition body_locals (ft : features) (off : Z) (bytes : list Z) : res (list (Z * p_val)) :=
  match read_locals (new_reader ft bytes off) with Ok (l, _) => Ok l | Err e => Err e end.
Definition body_ops (ft : features) (off : Z) (bytes : list Z) : res (list operator) :=
  match (let* _ := skip_locals in read_expr) (new_reader ft bytes off) with Ok (l, _) => Ok l | Err e => Err e end.

(** [Function::new] (wasm-encoder code.rs:170-183), instructions added to it, [Function::encode] (code.rs:286-290). *)
Definition enc_local (x : Z * e_val) : out := encode_u32 (fst x) +++ enc_val (snd x).
Record e_func := mkFunc { ef_locals : list (Z * e_val); ef_body : list instr }.
Definition func_bytes (f : e_func) : out := o_vec enc_local (ef_locals f) +++ o_all enc_instr (ef_body f).
Definition o_sized (o : out) : out := match o with Some b => encode_usize (zlen b) +++ Some b | None => None end.
Definition enc_func (f : e_func) : out := o_sized (func_bytes f).
(** [new_function_with_parsed_locals] and [parse_function_body] (reencode.rs:1795-1825). *)
Definition c_local (x : Z * p_val) : option (Z * e_val) := match c_val (snd x) with Some v => Some (fst x, v) | None => None end.
Definition c_func (ft : features) (bytes : list Z) : option e_func :=
  match body_locals ft 0 bytes with
  | Err _ => None
  | Ok ls =>
      match all_some c_local ls, (let* _ := skip_locals in fun r => ops_collect (List.length (r_rem r)) cs_new r) (new_reader ft bytes 0) with
      | Some ls, Ok ((ops, _), _) => match all_some c_op ops with Some l => Some (mkFunc ls l) | None => None end
      | _, _ => None
      end
  end.

(** [Function::new_with_locals_types] (wasm-encoder code.rs:200-221).  The list of runs is kept with its last
    element first; [None] is the overflow of the count. *)
Definition e_val_eq (a b : e_val) : {a = b} + {a <> b}.
Proof. repeat decide equality. Defined.
Fixpoint collect_locals (l : list e_val) (acc : list (Z * e_val)) : option (list (Z * e_val)) :=
  match l with
  | [] => Some (rev acc)
  | v :: t =>
      match acc with
      | (n, v') :: rest =>
          if e_val_eq v v' then (if 2 ^ 32 <=? n + 1 then None else collect_locals t ((n + 1, v') :: rest))
          else collect_locals t ((1, v) :: acc)
      | [] => collect_locals t [(1, v)]
      end
  end.
Definition locals_of_types (l : list e_val) : option (list (Z * e_val)) := collect_locals l [].
