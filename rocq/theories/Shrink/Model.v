(** wasm-shrink: crates/wasm-shrink/src/lib.rs.

    What the run talks to is arbitrary and may remember what it was asked: the
    predicate, the mutator, the random numbers and the callback are functions of
    a world [W] which they may change.  The validator and the hash are any
    functions of the bytes.  The iterator of mutations is the list of its first
    elements (at most ten are asked for). *)
From Coq Require Import ZArith Lia List Bool.
From Verif Require Import Base.Prelude.
Import ListNotations.
Open Scope Z_scope.

Definition bytes := list Z.
(** lib.rs:12-18. *)
Definition EMPTY_WASM : bytes := [0; 97; 115; 109; 1; 0; 0; 0].

Section Shrink.
Context {W : Type}.
(** [None]: an error. *)
Variable predicate : W -> bytes -> W * option bool.
Variable mutate : W -> bytes -> W * option (list (option bytes)).
(** [random_ratio(1, 100)]. *)
Variable low_probability : W -> W * bool.
(** [false]: an error; [None]: no callback. *)
Variable on_new_smallest : option (W -> bytes -> W * bool).
Variable valid : bytes -> bool.
Variable hash : bytes -> Z.
(** lib.rs:66-84; [debug]: whether [debug_assert!] is compiled in. *)
Variable attempts : Z.
Variable allow_empty : bool.
Variable debug : bool.

(** lib.rs:150-168, with the history of the calls: what the predicate was asked
    and answered, and what the callback was given, the latest first. *)
Record state := State {
  world : W;
  best : bytes;
  already_tested : list Z;
  attempt : Z;
  asked : list (bytes * option bool);
  told : list bytes }.
Inductive outcome (A : Type) := Ok (a : A) | Error | Panic.
Arguments Ok {A} a. Arguments Error {A}. Arguments Panic {A}.
Definition beq (a b : bytes) : bool := if list_eq_dec Z.eq_dec a b then true else false.

Definition ask (b : bytes) (s : state) : state * option bool :=
  let '(w, r) := predicate (world s) b in
  (State w (best s) (already_tested s) (attempt s) ((b, r) :: asked s) (told s), r).
Definition set_world (w : W) (s : state) : state := State w (best s) (already_tested s) (attempt s) (asked s) (told s).
Definition add_attempt (s : state) : state := State (world s) (best s) (already_tested s) (attempt s + 1) (asked s) (told s).

(** lib.rs:185-196. *)
Definition on_new_best (new_best : bytes) (s : state) : outcome state :=
  if debug && negb ((zlen new_best <? zlen (best s)) || (beq new_best EMPTY_WASM && beq (best s) EMPTY_WASM)) then Panic else
  match on_new_smallest with
  | None => Ok (State (world s) new_best (already_tested s) 0 (asked s) (told s))
  | Some f =>
      let '(w, ok) := f (world s) new_best in
      if ok then Ok (State w new_best (already_tested s) 0 (asked s) (new_best :: told s)) else Error
  end.
(** lib.rs:198-203. *)
Definition should_accept (current new_interesting : bytes) (s : state) : state * bool :=
  if zlen new_interesting <? zlen current then (s, true)
  else let '(w, b) := low_probability (world s) in (set_world w s, b).
(** lib.rs:205-216. *)
Definition on_new_interesting (current new_interesting : bytes) (s : state) : outcome (state * bytes) :=
  if debug && negb (zlen (best s) <=? zlen current) then Panic else
  if zlen new_interesting <? zlen (best s) then
    match on_new_best new_interesting s with
    | Ok s => Ok (s, new_interesting)
    | Error => Error
    | Panic => Panic
    end
  else Ok (s, new_interesting).
(** lib.rs:325-364: the candidates of one call of the mutator. *)
Fixpoint candidates (i : nat) (current : bytes) (ms : list (option bytes)) (s : state) : outcome (state * option bytes) :=
  match ms with
  | [] => Ok (s, None)
  | m :: ms =>
      let s := match i with O => s | S _ => add_attempt s end in
      match m with
      | None => candidates (S i) current ms s
      | Some b =>
          if existsb (Z.eqb (hash b)) (already_tested s) then candidates (S i) current ms s else
          let s := State (world s) (best s) (hash b :: already_tested s) (attempt s) (asked s) (told s) in
          let '(s, r) := ask b s in
          match r with
          | None => Error
          | Some false => candidates (S i) current ms s
          | Some true =>
              let '(s, accepted) := should_accept current b s in
              if accepted then Ok (s, Some b) else candidates (S i) current ms s
          end
      end
  end.
(** lib.rs:291-369: one turn of the loop. *)
Definition turn (current : bytes) (s : state) : outcome (state * bytes) :=
  let s := add_attempt s in
  let '(w, ms) := mutate (world s) current in
  let s := set_world w s in
  match ms with
  | None => Ok (s, current)
  | Some ms =>
      match firstn (Z.to_nat (Z.min (attempts - attempt s) 10)) ms with
      | [] => Ok (s, current)
      | ms =>
          match candidates 0 current ms s with
          | Error => Error
          | Panic => Panic
          | Ok (s, None) => Ok (s, current)
          | Ok (s, Some new) => on_new_interesting current new s
          end
      end
  end.
(** [None]: the model's fuel ran out. *)
Fixpoint search (fuel : nat) (current : bytes) (s : state) : option (outcome state) :=
  match fuel with
  | O => None
  | S fuel =>
      if attempt s <? attempts then
        match turn current s with
        | Ok (s, current) => search fuel current s
        | Error => Some Error
        | Panic => Some Panic
        end
      else Some (Ok s)
  end.
(** lib.rs:387-397 and 224-230. *)
Record info := Info { input_size : Z; output_size : Z; output : bytes }.
Definition finish (input : bytes) (s : state) : info := Info (zlen input) (zlen (best s)) (best s).
(** lib.rs:171-183 and 232-372; the state is returned for its history. *)
Definition run (fuel : nat) (w : W) (input : bytes) : option (outcome (info * state)) :=
  let s := State w input [] 0 [] [] in
  if negb (valid input) then Some Error else
  let '(s, r) := ask input s in
  match r with
  | Some true =>
      let '(s, r) := ask EMPTY_WASM s in
      match r with
      | None => Some Error
      | Some true =>
          if allow_empty then
            Some (match on_new_best EMPTY_WASM s with
                  | Ok s => Ok (finish input s, s)
                  | Error => Error
                  | Panic => Panic
                  end)
          else Some Error
      | Some false =>
          match search fuel input s with
          | None => None
          | Some (Ok s) => Some (Ok (finish input s, s))
          | Some Error => Some Error
          | Some Panic => Some Panic
          end
      end
  | _ => Some Error
  end.
End Shrink.
Arguments Ok {A} a.
Arguments Error {A}.
Arguments Panic {A}.
