(** C62: expressions of the text format, folded and flat. *)
From Coq Require Import List Arith Bool Lia.
Import ListNotations.
From Verif.Folded Require Import Model Spec Proofs.

(** Every expression of the grammar, however deep, is read as what it means, up to where it ends; every branch hint goes to the instruction it is written at. *)
Theorem C62_meaning : forall t rest, wf t -> ends rest -> expression (text t ++ rest) = Some (code_of (flat t), rest).
Proof. intros t rest W E. unfold expression. rewrite (complete t W) by exact I. rewrite pushes_start. apply parse_ends. exact E. Qed.
Print Assumptions C62_meaning.

(** Nothing else is accepted, if annotations have nothing after their string. *)
Theorem C62_accepted_partial : forall ts c rest, closed ts -> expression ts = Some (c, rest) ->
  exists t, wf t /\ ts = text t ++ rest /\ ends rest /\ c = code_of (flat t).
Proof.
  intros ts c rest Cl H. destruct (sound (S (length ts)) ts ltac:(lia) Cl _ [] None _ H I I) as (t & ts2 & E & W & _ & S & P & _ & _). cbn [hint app stops] in E, S.
  rewrite (parse_ends _ _ S), pushes_start in P. injection P as <- <-. exists t. auto.
Qed.
Print Assumptions C62_accepted_partial.

(** What the text means does not depend on how it is cut into a tree. *)
Corollary C62_unambiguous : forall t t' rest rest', wf t -> wf t' -> ends rest -> ends rest' -> text t ++ rest = text t' ++ rest' -> map snd (flat t) = map snd (flat t') /\ hints_at 0 (flat t) = hints_at 0 (flat t') /\ rest = rest'.
Proof. intros t t' rest rest' W W' E E' H. pose proof (C62_meaning t rest W E) as A. rewrite H, (C62_meaning t' rest' W' E') in A. unfold code_of in A. injection A. auto. Qed.
Print Assumptions C62_unambiguous.

(** Without the condition it is false: an instruction inside a branch hint annotation, after its string, is compiled. *)
Theorem C62_accepted_refuted : ~ forall ts c rest, expression ts = Some (c, rest) -> exists t, wf t /\ ts = text t ++ rest /\ ends rest /\ c = code_of (flat t).
Proof.
  intro H. destruct (H [LP; Hint 0; Ins (IOther 7); RP] (mkCode [IOther 7] [(0, 0)]) [] eq_refl) as (t & _ & E & _). rewrite app_nil_r in E.
  destruct t as [| [v |] i n | [v |] i a n | [v |] i b n | [v |] i c t n | [v |] i c t e n]; discriminate E.
Qed.
Print Assumptions C62_accepted_refuted.

(** [(if (@hint "\01") ...] in full: [(@hint "\01") (if 5 (i1 (i2) i3) (then (block 4 i6)) (else i8)) i9] inside something. *)
Example C62_case :
  let t := IfElse (Some 1) 5 (Fold None (IOther 1) (Fold None (IOther 2) Nil (Plain (Some 0) (IOther 3) Nil)) Nil) (Blk None 4 (Plain None (IOther 6) Nil) Nil) (Plain None (IOther 8) Nil) (Plain None (IOther 9) Nil) in
  wf t /\ expression (text t ++ [RP]) = Some (mkCode [IOther 2; IOther 3; IOther 1; IIf 5; IBlock 4; IOther 6; IEnd; IElse; IOther 8; IEnd; IOther 9] [(1, 0); (3, 1)], [RP]) /\
  closed (text t) /\ expression [LP; Ins (IIf 0); RP] = None /\ expression [LP; Hint 1; RP] = None /\ expression [LP; Hint 1; RP; LP; Hint 1; RP; Ins IEnd] = None.
Proof. cbn. repeat split; auto; eexists; reflexivity. Qed.

(** For every input that is accepted, whatever is in its annotations: the hints are 0 or 1, in the order of their instructions, at most one for each, and all inside the code. *)
Theorem C62_hints : forall ts c rest, expression ts = Some (c, rest) -> ordered 0 (hints c) (length (raw c)) /\ forall n v, In (n, v) (hints c) -> n < length (raw c).
Proof.
  intros ts c rest H. assert (G : good c) by (apply (parse_good (S (length ts)) ts ltac:(lia) (mkCode [] []) [] None c rest (le_n 0) (Forall_nil _) I H)). split; [exact G |]. unfold good in G.
  revert G. generalize 0. generalize (hints c) as l. induction l as [| [a w] l IH]; intros k G n v Hin; [destruct Hin |]. destruct G as (A & _ & G). destruct Hin as [E | Hin].
  - injection E as <- <-. exact (ordered_bound _ _ _ G).
  - exact (IH _ G n v Hin).
Qed.
Print Assumptions C62_hints.

(** In the binary every hint has the offset of its instruction in the function, however instructions are encoded. *)
Theorem C62_offsets : forall enc start t rest, wf t -> ends rest -> exists c, expression (text t ++ rest) = Some (c, rest) /\
  encode enc start c = (flat_map (fun x => enc (snd x)) (flat t), offsets enc start (flat t)).
Proof.
  intros enc start t rest W E. exists (code_of (flat t)). split; [apply C62_meaning; assumption |]. unfold encode, code_of. cbn [raw hints]. rewrite emit_at. simpl. rewrite Nat.add_0_r. reflexivity.
Qed.
Print Assumptions C62_offsets.
Example C62_offsets_case : encode (fun i => match i with IOther n => repeat n n | _ => [0] end) 3 (mkCode [IOther 2; IIf 0; IOther 3; IOther 1] [(1, 1); (3, 0)]) = ([2; 2; 0; 3; 3; 3; 1], [(5, 1); (9, 0)]).
Proof. reflexivity. Qed.

(** One folded instruction, as offsets of segments are written: exactly the texts of one folded instruction are read, as their flat form, and nothing after them is taken. *)
Theorem C62_folded_instruction : forall ts l rest, folded_instruction ts = Some (l, rest) <-> exists i a, ts = LP :: Ins i :: ftext a ++ RP :: rest /\ l = fflat a ++ [i].
Proof.
  intros ts l rest. unfold folded_instruction. split.
  - intro H. destruct ts as [| [| | j | | v] ts]; try discriminate. destruct ts as [| [| | j | | v] ts]; try discriminate. cbn [folded_loop] in H.
    destruct (folded_sound (S (length ts)) ts ltac:(lia) _ _ _ _ H) as (a & r & E & P). cbn [folded_loop app] in P. injection P as <- <-. exists j, a. rewrite E. auto.
  - intros (i & a & -> & ->). cbn [folded_loop]. rewrite folded_complete. reflexivity.
Qed.
Print Assumptions C62_folded_instruction.
Example C62_folded_instruction_case : folded_instruction (LP :: Ins (IOther 1) :: ftext (FCons (IOther 2) FNil (FCons (IOther 3) (FCons (IOther 4) FNil FNil) FNil)) ++ [RP; LP]) = Some ([IOther 2; IOther 4; IOther 3; IOther 1], [LP]) /\
  folded_instruction [Ins (IOther 1)] = None /\ folded_instruction [LP; Ins (IOther 1); Ins (IOther 2); RP] = None.
Proof. repeat split. Qed.
