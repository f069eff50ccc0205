(** What a user sees in an expression, a body or a group of imports is what the translated one says. *)
From Verif.Base Require Import Prelude BitFacts.
From Verif.Reader Require Import Model Spec.
From Verif.Leb Require Import Model Top.
From Verif.Codec Require Import Kit Local.
From Verif.Types Require Import RefModel RefSpec CodecModel CodecSpec CodecProofs CodecTop EntityModel EntitySpec EntityProofs LocalTypes.
From Verif.Instr Require Import ImmModel ImmSpec ImmProofs Ops Sink Visit Convert Imms Den InstrProofs BodyModel BodySpec Nest BodyProofs BodyTop.
From Verif.Sections Require Import SegModel SegSpec Item SeeModel.
From Coq Require Import Lia.

(** What is seen of an instruction. *)
Definition v_op (i : instr) : seen := match i with In_BrTable l d => (Op_BrTable (mkPBr [] (zlen l) d), l) | _ => (den i, []) end.
Definition v_const (l : list instr) : list seen := map v_op (l ++ [In_End]).
Definition v_func (f : e_func) : list (Z * p_val) * list seen := (map d_local (ef_locals f), map v_op (ef_body f)).

Definition v_table_def (t : e_table_def) : table_ty Z * option (list seen) := (d_table (etd_ty t), option_map v_const (etd_init t)).
Definition v_global_def (g : e_global_def) : global_ty p_val * list seen := (d_global (egd_ty g), v_const (egd_init g)).
Definition v_elem_mode (m : e_elem_mode) : s_elem_kind :=
  match m with EPassive => SKPassive | EDeclared => SKDeclared | EActive t o => SKActive t (v_const o) end.
Definition v_elems (i : e_elems) : s_elem_items := match i with EFuncs l => SIFuncs l | EExprs ty l => SIExprs (d_ref ty) (map v_const l) end.
Definition v_elem (e : e_elem) : s_elem_kind * s_elem_items := (v_elem_mode (ee_mode e), v_elems (ee_items e)).
Definition v_data (d : e_data) : s_data_kind * list Z :=
  (match ed_mode d with EDPassive => SDPassive | EDActive m o => SDActive m (v_const o) end, ed_data d).

Section ft.
Context (ft : features).
Notation F := (eq ft).
Notation m64 := (f_memory64 ft).

Lemma see_den i : instr_ok ft i -> see_op (den i) = Some (v_op i).
Proof.
  intros H. destruct i; try reflexivity. cbn [den see_op v_op d_br pb_cnt pb_default]. unfold instr_ok in H. cbn [imms imms_ok imm_ok] in H.
  rewrite br_targets_d; [reflexivity|]. apply H.
Qed.
Lemma see_same o i : instr_ok ft i -> same_op o (den i) -> see_op o = Some (v_op i).
Proof.
  intros H [->|(x & y & -> & E & (l & E1 & E2 & E3 & E4))]; [apply see_den, H|]. rewrite <- (see_den i H), E. cbn [see_op]. rewrite E1, E2, E3, E4. reflexivity.
Qed.
Lemma see_all ops l : Forall (instr_ok ft) l -> Forall2 same_op ops (map den l) -> all_seen see_op ops = Some (map v_op l).
Proof.
  intros H. revert ops. induction H as [|i l Hi _ IH]; intros ops Hs; inversion Hs as [|o x ops' l' Ho Hs']; subst; [reflexivity|].
  cbn [all_seen map]. rewrite (see_same o i Hi Ho), (IH _ Hs'). reflexivity.
Qed.
Lemma k_const : keeps ft read_const (c_const ft) (see_const ft) v_const (const_ok ft).
Proof.
  intros r p r' Hf Hr E. destruct (const_read ft r p r' (eq_sym Hf) Hr E) as (l & H & C & Hr' & Cs & _ & ops & S & O). split; [|split; [exact Hr'|apply Cs]].
  exists l. split; [exact C|]. split; [exact H|]. unfold see_const, new_reader. rewrite O. apply see_all; [|exact S].
  apply Forall_app. split; [apply H|constructor; [exact I|constructor]].
Qed.
End ft.
