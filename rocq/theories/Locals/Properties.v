(** Properties C19, C20: locals of a function body. *)
From Verif.Base Require Import Prelude.
From Verif.Locals Require Import Model Spec Proofs.

(** C19: every look-up answers as the flat list of declared locals does, and
    declarations are refused exactly when the total would exceed the limit. *)
Theorem C19_locals : forall (A : Type) (ds : list (Z * A)), Forall (fun d => 0 <= fst d <= 2 ^ 32 - 1) ds ->
  let r := define_all locals_empty ds in
  fst r = fst (declare [] ds) /\ len_locals (snd r) = zlen (snd (declare [] ds)) /\
  forall idx, 0 <= idx -> get (snd r) idx = nth_error (snd (declare [] ds)) (Z.to_nat idx).
Proof. exact @locals_ok. Qed.
Print Assumptions C19_locals.
Example C19_case :
  let ds := [(30, 1); (0, 9); (40, 2); (60000, 3); (50000 - 70, 4); (1, 5)] in
  Forall (fun d => 0 <= fst d <= 2 ^ 32 - 1) ds /\
  let r := define_all locals_empty ds in
  fst r = [true; true; true; false; true; false] /\
  map (get (snd r)) [29; 30; 49; 50; 69; 70; 49999; 50000] = [Some 1; Some 2; Some 2; Some 2; Some 2; Some 4; Some 4; None].
Proof. split; [repeat constructor; vm_compute; congruence|]. vm_compute. split; reflexivity. Qed.

(** C20: after any history of sets and blocks, a declared local is reported
    uninitialised exactly when its type has no default and no open block has set it. *)
Theorem C20_inits : forall params groups h scs i, 0 <= params ->
  zlen (declared_defaults params groups) < 2 ^ 32 - 1 ->
  Forall (fun e => match e with ESet j => 0 <= j < zlen (declared_defaults params groups) | _ => True end) h ->
  scopes [[]] h = Some scs -> 0 <= i < zlen (declared_defaults params groups) ->
  exists s hs, run_events (init_of params groups) [inits_height (init_of params groups)] h = Some (s, hs) /\
    is_uninit s i = Some (negb (nth (Z.to_nat i) (declared_defaults params groups) true) &&
                          negb (if in_dec Z.eq_dec i (List.concat scs) then true else false)).
Proof. exact inits_ok. Qed.
Print Assumptions C20_inits.
Example C20_case :
  let groups := [(2, true); (3, false)] in
  let h := [ESet 3; EEnter; ESet 4; EEnter; ESet 5; ESet 0; ELeave; ESet 3] in
  Forall (fun e => match e with ESet j => 0 <= j < zlen (declared_defaults 1 groups) | _ => True end) h /\
  scopes [[]] h = Some [[3; 4]; [3]] /\
  match run_events (init_of 1 groups) [inits_height (init_of 1 groups)] h with
  | Some (s, _) => map (is_uninit s) [0; 1; 2; 3; 4; 5] = [Some false; Some false; Some false; Some false; Some false; Some true]
  | None => False
  end.
Proof. split; [repeat constructor; vm_compute; congruence|]. vm_compute. split; reflexivity. Qed.
