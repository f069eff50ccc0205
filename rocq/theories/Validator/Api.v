(** The function validator as a client sees it: [OperatorValidator::new_func], [define_locals]
    (operators.rs:386-467) and [FuncValidator::op], [try_op] (func.rs:215-234). *)
From Verif.Base Require Import Prelude.
From Verif.Locals Require Import Model.
From Verif.Types Require Import RefModel CodecModel CanonModel.
From Verif.Instr Require Import ImmModel Ops.
From Verif.Validator Require Import State Checks Visit.

Section Env.
Variable E : env.
(** [new_func] (operators.rs:386-430); the result of [self.locals.define] for a parameter is ignored there too. *)
Definition new_func (ty : Z) : res vst :=
  match r_sub_type_at (e_res E) ty with
  | None => Err (err_new "unknown type: type index out of bounds" (e_at E))
  | Some t =>
    match c_inner (s_comp t) with
    | IFunc ps _ =>
      Ok (mkVst (fold_left (fun l p => snd (define l 1 p)) ps locals_empty)
            (Model.define_params inits_empty (zlen ps)) [] [mkFrame FBlock (BFunc ty) 0 false 0] (c_shared (s_comp t)) None [])
    | _ => Err (err_new "expected func type at index {ty}, found {sub_ty}" (e_at E))
    end
  end.
(** [new_const_expr] (435-449). *)
Definition new_const_expr (t : val) : vst :=
  mkVst locals_empty inits_empty [] [mkFrame FBlock (BType t) 0 false 0] false None [].
(** [define_locals] (451-467). *)
Definition define_locals (count : Z) (t : val) : V unit :=
  let! t := check_value_type E t in
  if count =? 0 then vret tt
  else fun s =>
    let '(ok, l) := define (vs_locals s) count t in
    if ok then
      VOk tt (mkVst l (Model.define_locals (vs_inits s) count (is_defaultable t)) (vs_operands s) (vs_control s) (vs_shared s) (vs_log s) (vs_trace s))
    else vfail E "too many locals: locals exceed maximum" s.

(** [op] (func.rs:215-217). *)
Definition op (o : operator) : V unit := visit E o.
(** [try_op] (func.rs:223-234). *)
Definition try_op (o : operator) : V unit := fun s =>
  match begin_try_op s with
  | None => VPanic
  | Some s =>
    match op o s with
    | VOk _ s => VOk tt (commit s)
    | VErr e s => match rollback s with Some s => VErr e s | None => VPanic end
    | VPanic => VPanic
    end
  end.
End Env.

(** The states a client can bring a validator to, whatever the module, the features, the offsets and the results of the calls. *)
Inductive reachable : vst -> Prop :=
| reach_func E ty s : new_func E ty = Ok s -> reachable s
| reach_const t : reachable (new_const_expr t)
| reach_locals E count t s r s' : reachable s -> define_locals E count t s = r -> (r = VOk tt s' \/ exists e, r = VErr e s') -> reachable s'
| reach_op E o s r s' : reachable s -> op E o s = r -> (r = VOk tt s' \/ exists e, r = VErr e s') -> reachable s'
| reach_try_op E o s r s' : reachable s -> try_op E o s = r -> (r = VOk tt s' \/ exists e, r = VErr e s') -> reachable s'.
