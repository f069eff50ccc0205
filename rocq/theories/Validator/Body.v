(** Validation of a whole function body, from its bytes: [FuncValidator::validate] (func.rs:117-183). *)
From Verif.Base Require Import Prelude.
From Verif.Reader Require Import Model.
From Verif.Types Require Import RefModel CodecModel CanonModel.
From Verif.Instr Require Import ImmModel Ops.
From Verif.Instr Require Visit.
From Verif.Validator Require Import State Checks Visit Api.

Inductive outcome (A : Type) := Done (a : A) | Rejected (e : error) | Panicked.
Arguments Done {A} a. Arguments Rejected {A} e. Arguments Panicked {A}.
Definition obind {A B} (x : outcome A) (k : A -> outcome B) : outcome B :=
  match x with Done a => k a | Rejected e => Rejected e | Panicked => Panicked end.
Definition of_read {A} (x : res A) : outcome A := match x with Ok a => Done a | Err e => Rejected e end.
Definition of_visit (x : vres unit) : outcome vst := match x with VOk _ s => Done s | VErr e _ => Rejected e | VPanic => Panicked end.

(** [current_frame] (operators.rs:4827-4837). *)
Definition current_frame (s : vst) : option frame_kind := match vs_control s with fr :: _ => Some (fr_kind fr) | [] => None end.

Section Body.
Variable R : resources.
Variable F : feature -> bool.
(** The loop of [read_locals] (func.rs:190-198).  [of_val] unpacks the type, which was packed when it was read. *)
Fixpoint locals_loop (n : nat) (r : reader) (s : vst) : outcome (reader * vst) :=
  match n with
  | O => Done (r, s)
  | S n =>
    let at_ := original_position r in
    obind (of_read (read_var_u32 r)) (fun '(count, r) =>
    obind (of_read (read_val r)) (fun '(ty, r) =>
    match of_val ty with
    | None => Panicked
    | Some ty => obind (of_visit (define_locals (mkEnv R F at_) count ty s)) (fun s => locals_loop n r s)
    end))
  end.
(** The loop over the operators (func.rs:124-181), without what debug builds check in it.  [fuel] bounds the number of operators: each
    takes a byte at least, so that the number of bytes is enough. *)
Fixpoint ops_loop (fuel : nat) (r : reader) (s : vst) : outcome (reader * vst) :=
  if eof r then Done (r, s)
  else match fuel with
       | O => Rejected (err_new "out of fuel" 0)
       | S n =>
         obind (of_read (Verif.Instr.Visit.visit_operator (current_frame s) r)) (fun '(o, r') =>
         obind (of_visit (op (mkEnv R F (original_position r)) o s)) (fun s => ops_loop n r' s))
       end.
(** [finish_expression] (binary_reader.rs:796-810). *)
Definition finish (r : reader) (s : vst) : outcome unit :=
  match current_frame s with
  | Some _ => Rejected (err_new "control frames remain at end of function body or expression" (original_position r))
  | None => if eof r then Done tt else Rejected (err_new "unexpected data at the end of operators" (original_position r))
  end.
(** [new_func] and [validate].  [ft] are the features of the reader of the body; [set_features] gives it those of the validator, which are
    the ones it was made with.  [start] is the offset given to [new_func], [off] the position of the body in its module. *)
Definition validate (ft : features) (start ty off : Z) (bytes : list Z) : outcome unit :=
  obind (of_read (new_func (mkEnv R F start) ty)) (fun s =>
  obind (of_read (read_var_u32 (new_reader ft bytes off))) (fun '(n, r) =>
  obind (locals_loop (Z.to_nat n) r s) (fun '(r, s) =>
  obind (ops_loop (List.length (r_rem r)) r s) (fun '(r, s) => finish r s)))).
End Body.
