(** Properties C15 and C42, and part of C05: binary form of instructions. *)
From Verif.Base Require Import Prelude.
From Verif.Reader Require Import Model Spec Mono.
From Verif.Leb Require Import Model.
From Verif.Codec Require Import Kit Local.
From Verif.Types Require Import RefModel CodecModel CodecSpec EntityModel.
From Verif.Instr Require Import ImmModel ImmSpec Ops Sink Visit Convert Imms InstrProofs HonestInstr BodyModel BodySpec BodyProofs AlignSpec BodyTop.
From Coq Require Import Lia.

(** C15: an instruction whose immediates are in range for the enabled proposals ([instr_ok]), met where
    it may occur ([frame_ok]: [else] in an [if], [catch] in a [try]...), is read back, whatever
    follows it and at any position, as the operator of the same name with the same immediates ([c_op]
    is the conversion of operators to instructions), and the reader stops where it ends. *)
Theorem C15_instructions_read : forall ft cur i, instr_ok ft i -> frame_ok cur i ->
  reads_as (eq ft) enc_instr (visit_operator (Some cur)) c_op i.
Proof. exact instr_reads. Qed.
Print Assumptions C15_instructions_read.
Example C15_instructions_read_case :
  let i := In_I64Load32U (mkEMem 1000 2 3) in
  instr_ok all_features i /\ frame_ok FBlock i /\ enc_instr i = Some [0x35; 0x42; 3; 0xe8; 7].
Proof. split; [|split; [exact I|vm_compute; reflexivity]]. vm_compute. repeat split; congruence. Qed.
(** And back: whatever the reader accepts is an operator that converts to an instruction, which is
    written as bytes that read as the same operator.  (The same: for [br_table], the same labels; the
    operator itself holds the bytes they were read from.) *)
Theorem C15_instructions_rewrite : forall ft cur r o r', r_feat r = ft -> bytes_ok (r_rem r) -> visit_operator (Some cur) r = Ok (o, r') ->
  exists i bs o', c_op o = Some i /\ instr_ok ft i /\ frame_ok cur i /\ enc_instr i = Some bs /\ c_op o' = Some i /\ same_op o o' /\
  forall rest pos off, bytes_ok rest -> visit_operator (Some cur) (mkReader (bs ++ rest) pos off ft) = Ok (o', mkReader rest (pos + zlen bs) off ft).
Proof. exact instr_rewrites. Qed.
Print Assumptions C15_instructions_rewrite.
Example C15_instructions_rewrite_case :
  match visit_operator (Some FBlock) (new_reader all_features [0x0e; 0x82; 0x00; 0x81; 0x80; 0x00; 0; 5; 9] 0) with
  | Ok (o, r') => c_op o = Some (In_BrTable [1; 0] 5) /\ enc_instr (In_BrTable [1; 0] 5) = Some [0x0e; 2; 1; 0; 5] /\ r_rem r' = [9]
  | Err _ => False
  end.
Proof. vm_compute. auto. Qed.
(** The largest alignment reported with a memory immediate is the size of the access. *)
Theorem C15_alignment : forall ft cur r o r' m b, r_feat r = ft -> bytes_ok (r_rem r) -> visit_operator (Some cur) r = Ok (o, r') ->
  access o = Some (m, b) -> b = 8 * 2 ^ pm_max_align m.
Proof. exact alignment. Qed.
Print Assumptions C15_alignment.
Example C15_alignment_case :
  match visit_operator (Some FBlock) (new_reader all_features [0xfd; 0x5d; 1; 0] 0) with
  | Ok (o, _) => match access o with Some (m, b) => b = 64 /\ pm_max_align m = 3 | None => False end
  | Err _ => False
  end.
Proof. vm_compute. auto. Qed.

(** C15 for sequences: the instructions of a well-nested expression are read back, and the end is
    recognised as such. *)
Theorem C15_expressions_read : forall ft l, expr_ok ft l -> exists bs ops, o_all enc_instr l = Some bs /\ all_some c_op ops = Some l /\
  forall pos off, read_expr (mkReader bs pos off ft) = Ok (ops, mkReader [] (pos + zlen bs) off ft).
Proof. exact expr_reads. Qed.
Print Assumptions C15_expressions_read.
(** And only those: bytes read to the end without error are the instructions of a well-nested
    expression. *)
Theorem C15_expressions_accepted : forall ft r ops r', r_feat r = ft -> bytes_ok (r_rem r) -> read_expr r = Ok (ops, r') ->
  exists l, expr_ok ft l /\ all_some c_op ops = Some l /\ r_rem r' = [].
Proof. exact expr_accepted. Qed.
Print Assumptions C15_expressions_accepted.
Definition sample : list instr :=
  [In_LocalGet 0; In_If EBEmpty; In_Block (EBFunc 3); In_Br 1; In_End; In_Else; In_Try EBEmpty; In_Nop; In_Catch 7; In_CatchAll; In_End; In_End; In_Return; In_End].
Example C15_expressions_case : expr_ok all_features sample /\
  match o_all enc_instr sample with
  | Some bs => match read_expr (new_reader all_features bs 100) with Ok (ops, _) => all_some c_op ops = Some sample | Err _ => False end
  | None => False
  end /\
  match read_expr (new_reader all_features [0x02; 0x40; 0x05; 0x0b; 0x0b] 0) with Ok _ => False | Err _ => True end.
Proof.
  split; [|split; vm_compute; auto].
  exists [In_LocalGet 0; In_If EBEmpty; In_Block (EBFunc 3); In_Br 1; In_End; In_Else; In_Try EBEmpty; In_Nop; In_Catch 7; In_CatchAll; In_End; In_End; In_Return].
  split; [reflexivity|]. split.
  - apply ne_plain; [exact I|].
    apply (ne_if_else EBEmpty [In_Block (EBFunc 3); In_Br 1; In_End] [In_Try EBEmpty; In_Nop; In_Catch 7; In_CatchAll; In_End] [In_Return]).
    + apply (ne_block (EBFunc 3) [In_Br 1] []); [apply ne_plain; [exact I|apply ne_nil]|apply ne_nil].
    + apply (ne_try EBEmpty [In_Nop] [In_Catch 7; In_CatchAll; In_End] []); [apply ne_plain; [exact I|apply ne_nil]| |apply ne_nil].
      apply (ha_catch 7 [] [In_CatchAll; In_End]); [apply ne_nil|]. apply (ha_catch_all []). apply ne_nil.
    + apply ne_plain; [exact I|apply ne_nil].
  - repeat constructor; cbn -[Z.pow]; unfold in_u; lia.
Qed.
(** C15 for constant expressions: the reader takes exactly the bytes of the expression, whatever
    follows, and they convert to the instructions written... *)
Theorem C15_constants_read : forall ft l, const_ok ft l -> exists bs, enc_const l = Some bs /\ c_const ft bs = Some l /\
  forall rest pos off, bytes_ok rest -> read_const (mkReader (bs ++ rest) pos off ft) = Ok (bs, mkReader rest (pos + zlen bs) off ft).
Proof. exact const_reads. Qed.
Print Assumptions C15_constants_read.
(** ...and whatever it accepts is such an expression, which converts, and written again converts to
    the same. *)
Theorem C15_constants_rewrite : forall ft r bytes r', r_feat r = ft -> bytes_ok (r_rem r) -> read_const r = Ok (bytes, r') ->
  consumes r bytes r' /\ exists l bs, const_ok ft l /\ c_const ft bytes = Some l /\ enc_const l = Some bs /\ c_const ft bs = Some l.
Proof. exact const_accepted. Qed.
Print Assumptions C15_constants_rewrite.
Example C15_constants_case :
  const_ok all_features [In_I32Const 11; In_GlobalGet 0; In_I32Add] /\
  read_const (new_reader all_features [0x41; 0x0b; 0x23; 0x80; 0; 0x6a; 0x0b; 0x0b; 1] 0) =
    Ok ([0x41; 0x0b; 0x23; 0x80; 0; 0x6a; 0x0b], mkReader [0x0b; 1] 7 0 all_features) /\
  c_const all_features [0x41; 0x0b; 0x23; 0x80; 0; 0x6a; 0x0b] = Some [In_I32Const 11; In_GlobalGet 0; In_I32Add].
Proof.
  split; [|split; vm_compute; reflexivity]. split; [repeat (apply ne_plain; [exact I|]); apply ne_nil|]. split.
  - cbn. intros [H|[H|[H|[]]]]; discriminate H.
  - repeat constructor; cbn -[Z.pow]; unfold in_u, in_s; lia.
Qed.
(** C15 for function bodies: locals and instructions are read back, and a body with its size in front
    is found whatever follows. *)
Theorem C15_bodies_read : forall ft f, func_ok ft f -> exists bs ls ops, func_bytes f = Some bs /\ bytes_ok bs /\ c_func ft bs = Some f /\
  all_some c_local ls = Some (ef_locals f) /\ all_some c_op ops = Some (ef_body f) /\
  (forall off, body_locals ft off bs = Ok ls /\ body_ops ft off bs = Ok ops) /\
  (zlen bs < 2 ^ 32 -> exists b, enc_func f = Some b /\
     forall rest pos off ft', bytes_ok rest -> read_body (mkReader (b ++ rest) pos off ft') = Ok (bs, mkReader rest (pos + zlen b) off ft')).
Proof. exact func_reads. Qed.
Print Assumptions C15_bodies_read.
Theorem C15_bodies_rewrite : forall ft off bytes ls ops, bytes_ok bytes -> body_locals ft off bytes = Ok ls -> body_ops ft off bytes = Ok ops ->
  exists f, c_func ft bytes = Some f /\ func_ok ft f /\ all_some c_local ls = Some (ef_locals f) /\ all_some c_op ops = Some (ef_body f).
Proof. exact func_accepted. Qed.
Print Assumptions C15_bodies_rewrite.
Example C15_bodies_case :
  body_ops all_features 0 [2; 3; 0x7f; 1; 0x7d; 0x20; 0; 0x1a; 0x0b] = Ok [Op_LocalGet 0; Op_Drop; Op_End] /\
  c_func all_features [2; 3; 0x7f; 1; 0x7d; 0x20; 0; 0x1a; 0x0b] = Some (mkFunc [(3, EI32); (1, EF32)] [In_LocalGet 0; In_Drop; In_End]).
Proof. vm_compute. auto. Qed.
(** Locals given one by one are grouped so that spreading the groups gives them back, neighbouring
    groups having different types. *)
Theorem C15_locals_grouped : forall l, zlen l < 2 ^ 32 ->
  exists g, locals_of_types l = Some g /\ spread g = l /\ grouped g /\ (Forall val_ok l -> locals_ok g).
Proof. exact locals_of_types_ok. Qed.
Print Assumptions C15_locals_grouped.
Example C15_locals_case : locals_of_types [EI32; EI32; EF64; EI32] = Some [(2, EI32); (1, EF64); (1, EI32)].
Proof. reflexivity. Qed.

(** C05 for operators. *)
Theorem C05_operators : forall cur, honest (visit_operator cur).
Proof. exact honest_operator. Qed.
Print Assumptions C05_operators.
Example C05_operators_case :
  match visit_operator (Some FBlock) (new_reader all_features [0x43; 0; 0] 0) with Err e => e_hint e = Some 2 | Ok _ => False end.
Proof. vm_compute. reflexivity. Qed.

(** C42: a value that was read depends on the bytes consumed only: the same bytes anywhere, followed by
    anything, give the same value and are consumed exactly. *)
Theorem C42_readers_local :
  local read_var_u32 /\ local read_var_u64 /\ local read_var_i32 /\ local read_var_i64 /\ local read_var_s33 /\ local read_string /\
  local read_heap /\ local read_ref /\ local read_val /\ local read_sub /\ local read_rec /\ local read_table /\ local read_memory /\
  local read_global /\ local read_tag /\ local read_entity /\ local read_export /\ local read_imports /\ (forall cur, local (visit_operator cur)).
Proof. exact local_readers. Qed.
Print Assumptions C42_readers_local.
Example C42_case :
  exists o, visit_operator (Some FLoop) (mkReader [0x41; 0xff; 0x7e; 0x41] 7 100 all_features) = Ok (o, mkReader [0x41] 10 100 all_features) /\
            visit_operator (Some FLoop) (mkReader [0x41; 0xff; 0x7e; 0; 0] 0 0 all_features) = Ok (o, mkReader [0; 0] 3 0 all_features).
Proof. eexists. split; vm_compute; reflexivity. Qed.
