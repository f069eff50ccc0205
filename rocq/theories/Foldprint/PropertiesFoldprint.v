(** C63: folded printing. *)
From Coq Require Import List NArith Arith Bool Lia.
Import ListNotations.
From Verif.Folded Require Import Model Spec PropertiesFolded.
From Verif.Foldprint Require Import Model Spec Proofs.

(** What is printed with folded instructions is read back as the same instructions in the same order, with the same branch hints, for all bodies and whatever the arities
    of the instructions are taken to be. *)
Theorem C63_read_back : forall ops ts rest, fold_print ops = Some ts -> ends rest -> expression (ts ++ rest) = Some (code_of (meaning ops), rest).
Proof.
  intros ops ts rest H R. unfold fold_print in H. destruct (visit_all ops _ None) as [st |] eqn:E; [| discriminate]. apply (visit_all_inv _ _ _ [] (I_root _ _ _ _ _ dens_nil)) in E. cbn [app] in E.
  destruct st as [| b [| c st]]; try discriminate. injection H as <-. inversion E as [l o p c h D E1 E2 | b' o st' os' O I' E1 E2]; subst; [| inversion I'].
  apply dens_tree in D. destruct D as (t & W & _ & P & F). cbn [b_folded]. rewrite P, <- F. apply C62_meaning; assumption.
Qed.
Print Assumptions C63_read_back.

(** Every body with its blocks nested, and hints only where the printer can put them, is printed. *)
Theorem C63_prints : forall ops, nested (meaning ops) -> exists ts, fold_print ops = Some ts.
Proof.
  intros ops N. unfold fold_print. destruct (visit_nested _ N ops eq_refl (mkB KBlock RP [] None None None) [] []) as [l R]. rewrite app_nil_r in R. rewrite R. cbn [visit_all]. eauto.
Qed.
Print Assumptions C63_prints.

(** An instruction is folded with the instructions before it that yield exactly its operands, if there are such, and with none otherwise. *)
Theorem C63_operands : forall folded plain params results h, (params < u32max)%N ->
  exists before operands r, folded = before ++ operands /\ handle_plain folded plain params results h = before ++ [FI plain operands r h] /\ (operands = [] \/ (yields operands = params /\ r = results)) /\
    ((0 < params)%N -> (exists a c, folded = a ++ c /\ yields c = params) -> yields operands = params).
Proof.
  intros folded plain params results h U. unfold handle_plain. destruct (N.ltb_spec 0 params) as [P | P].
  - destruct (search (rev folded) 0 params) as [[k | u] |] eqn:E.
    + exists (firstn k folded), (skipn k folded), results. apply search_sum in E; [| exact U | lia]. rewrite rev_involutive in E. destruct E as [_ E]. rewrite firstn_skipn. repeat split; auto.
    + exists folded, [], u32max. rewrite firstn_all, skipn_all, app_nil_r. repeat split; auto. intros _ (a & c & -> & S). destruct (search_finds c a 0 params U P S) as [k K]. congruence.
    + exists folded, [], results. rewrite firstn_all, skipn_all, app_nil_r. repeat split; auto. intros _ (a & c & -> & S). destruct (search_finds c a 0 params U P S) as [k K]. congruence.
  - exists folded, [], results. rewrite firstn_all, skipn_all, app_nil_r. repeat split; auto. intros C. lia.
Qed.
Print Assumptions C63_operands.

(** [i1 i2 i3 (2 operands) (hint) if 4 i5 else block 6 end end]: the text, and what is read back. *)
Example C63_case :
  let ops := [mkOp None (IOther 1) 0 1; mkOp None (IOther 2) 0 1; mkOp None (IOther 3) 2 1; mkOp (Some true) (IIf 4) 1 0; mkOp None (IOther 5) 0 0; mkOp None IElse 0 0; mkOp None (IBlock 6) 0 0; mkOp None IEnd 0 0; mkOp None IEnd 0 0] in
  fold_print ops = Some [LP; Hint 1; RP; LP; Ins (IIf 4); LP; Ins (IOther 3); LP; Ins (IOther 1); RP; LP; Ins (IOther 2); RP; RP; LP; Then; LP; Ins (IOther 5); RP; RP; LP; Ins IElse; LP; Ins (IBlock 6); RP; RP; RP] /\
  nested (meaning ops) /\ fold_print [mkOp (Some true) (IBlock 0) 0 0; mkOp None IEnd 0 0] = None.
Proof.
  split; [reflexivity |]. split; [| reflexivity]. cbn. do 3 apply N_plain. apply (N_else (Some 1) 4 [(None, IOther 5)] [(None, IBlock 6); (None, IEnd)] []); [apply N_plain, N_nil | apply (N_block 6 [] []); apply N_nil | apply N_nil].
Qed.

(** From text to binary and back to folded text: the instructions and the branch hints are the same, for every encoding of instructions in at least one byte, and wherever the function starts. *)
Theorem C63_text_binary_text : forall enc arity start t rest, (forall i, enc i <> []) -> wf t -> nested (flat t) -> ends rest ->
  exists c ts, expression (text t ++ rest) = Some (c, rest) /\ fold_print (attach enc arity start (raw c) (snd (encode enc start c))) = Some ts /\ expression (ts ++ rest) = Some (c, rest).
Proof.
  intros enc arity start t rest NE W N R. destruct (C62_offsets enc start t rest W R) as (c & P & E). exists c. rewrite E. cbn [snd]. pose proof P as Q. rewrite (C62_meaning t rest W R) in Q. injection Q as <-. cbn [raw code_of].
  pose proof (attach_offsets enc arity (flat t) start NE (flat_hints t W)) as M. destruct (C63_prints (attach enc arity start (map snd (flat t)) (offsets enc start (flat t)))) as [ts T]; [rewrite M; exact N |].
  exists ts. split; [exact P |]. split; [exact T |]. rewrite (C63_read_back _ _ _ T R), M. reflexivity.
Qed.
Print Assumptions C63_text_binary_text.
Example C63_attach_case : meaning (attach (fun i => match i with IOther n => repeat n (S n) | _ => [0] end) (fun _ => (0%N, 0%N)) 3 [IOther 1; IIf 0; IOther 2; IEnd; IOther 3] [(5, 1); (10, 0)]) =
  [(None, IOther 1); (Some 1, IIf 0); (None, IOther 2); (None, IEnd); (Some 0, IOther 3)].
Proof. reflexivity. Qed.
