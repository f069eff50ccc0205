(** Model of [Locals] and [LocalInits] (crates/wasmparser/src/validator/operators.rs).

    Value types are a parameter [A]; [LocalInits] only needs to know whether a type
    is defaultable.  Indices and counts are [u32]. *)
From Verif.Base Require Import Prelude Search.

(** [MAX_LOCALS_TO_TRACK] (operators.rs:188), [MAX_WASM_FUNCTION_LOCALS] (limits.rs:32). *)
Definition MAX_LOCALS_TO_TRACK : Z := 50.
Definition MAX_WASM_FUNCTION_LOCALS : Z := 50000.
Definition U32MAX : Z := 2 ^ 32 - 1.

Section Locals.
  Context {A : Type}.

  (** [struct Locals] (operators.rs:191-214). *)
  Record locals := mkLocals { num_locals : Z; l_first : list A; l_uncached : list (Z * A) }.
  (** As built by [OperatorValidator::new] (operators.rs:352-356). *)
  Definition locals_empty : locals := mkLocals 0 [] [].

  (** [Locals::define] (operators.rs:4742-4764). *)
  Definition define (l : locals) (count : Z) (ty : A) : bool * locals :=
    if count =? 0 then (true, l)
    else
      let vacant_first := Z.max 0 (MAX_LOCALS_TO_TRACK - num_locals l) in
      let num := num_locals l + count in
      if U32MAX <? num then (false, l)                                (* checked_add *)
      else if MAX_WASM_FUNCTION_LOCALS <? num then (false, l)
      else
        let push_to_first := Z.min vacant_first count in
        let first := l_first l ++ repeat ty (Z.to_nat push_to_first) in
        let num_uncached := count - push_to_first in
        let uncached := if 0 <? num_uncached then l_uncached l ++ [(num - 1, ty)] else l_uncached l in
        (true, mkLocals num first uncached).

  (** [Locals::get_bsearch] (operators.rs:4779-4793). *)
  Definition get_bsearch (l : locals) (idx : Z) : option A :=
    match binary_search fst (l_uncached l) idx with
    | FOk i => match nth_error (l_uncached l) i with Some (_, t) => Some t | None => None end
    | FErr i => if (i =? List.length (l_uncached l))%nat then None
                else match nth_error (l_uncached l) i with Some (_, t) => Some t | None => None end
    end.
  (** [Locals::get] (operators.rs:4772-4777). *)
  Definition get (l : locals) (idx : Z) : option A :=
    match nth_error (l_first l) (Z.to_nat idx) with
    | Some t => Some t
    | None => get_bsearch l idx
    end.
  (** [Locals::len_locals] (operators.rs:4767-4769). *)
  Definition len_locals (l : locals) : Z := num_locals l.
End Locals.
Arguments locals : clear implicits.

(** [struct LocalInits] (operators.rs:85-98). *)
Record inits_t := mkInits { li_bits : list bool; li_log : list Z; li_first : Z }.
Definition inits_empty : inits_t := mkInits [] [] U32MAX.

(** [define_params] (operators.rs:112-117) and [define_locals] (operators.rs:120-133);
    the lengths never come near [usize::MAX]. *)
Definition define_params (s : inits_t) (count : Z) : inits_t :=
  mkInits (li_bits s ++ repeat true (Z.to_nat count)) (li_log s) (li_first s).
Definition define_locals (s : inits_t) (count : Z) (defaultable : bool) : inits_t :=
  mkInits (li_bits s ++ repeat defaultable (Z.to_nat count)) (li_log s)
    (if negb defaultable && (li_first s =? U32MAX) then wrapu 32 (zlen (li_bits s)) else li_first s).

(** [is_uninit] (operators.rs:137-142); [None] is the panic of an index out of bounds. *)
Definition is_uninit (s : inits_t) (i : Z) : option bool :=
  if i <? li_first s then Some false
  else match nth_error (li_bits s) (Z.to_nat i) with Some b => Some (negb b) | None => None end.

Fixpoint set_bit (l : list bool) (i : nat) (b : bool) : list bool :=
  match l, i with
  | [], _ => []
  | _ :: l, O => b :: l
  | x :: l, S i => x :: set_bit l i b
  end.

(** [set_init] (operators.rs:146-151). *)
Definition set_init (s : inits_t) (i : Z) : option inits_t :=
  match is_uninit s i with
  | None => None
  | Some false => Some s
  | Some true => Some (mkInits (set_bit (li_bits s) (Z.to_nat i) true) (li_log s ++ [i]) (li_first s))
  end.

(** [height] (operators.rs:154-156). *)
Definition inits_height (s : inits_t) : nat := List.length (li_log s).

(** [pop_ctrl] (operators.rs:163-169): the state and the indices undone;
    [None] is the panic of [split_off] past the end. *)
Definition inits_pop (s : inits_t) (height : nat) : option (inits_t * list Z) :=
  if (List.length (li_log s) <? height)%nat then None
  else
    let inits := skipn height (li_log s) in
    Some (mkInits (fold_left (fun l i => set_bit l (Z.to_nat i) false) inits (li_bits s))
            (firstn height (li_log s)) (li_first s), inits).
