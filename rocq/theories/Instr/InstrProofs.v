(** Instructions: what is written is what is read, and back. *)
From Verif.Base Require Import Prelude BitFacts.
From Verif.Reader Require Import Model Spec Mono.
From Verif.Leb Require Import Model.
From Verif.Codec Require Import Kit.
From Verif.Types Require Import RefModel CodecModel CodecSpec CodecProofs CodecTop EntityModel.
From Verif.Instr Require Import ImmModel ImmSpec ImmProofs Ops Sink Visit Convert Imms Den.
From Coq Require Import Lia.

Section dec.
Context (ft : features).
Notation F := (eq ft).
Lemma dec_last {A B} o (d : R A) (k : A -> R B) a b : decodes F o d a -> decodes F o_nil (k a) b -> decodes F o (bind d k) b.
Proof. intros H1 H2. rewrite <- (oapp_nil_r o). eapply dec_bind; eauto. Qed.
(** The second number of a two-part opcode, written as a byte. *)
Lemma dec_sub_byte x : 0 <= x < 128 -> decodes F (o_byte x) read_var_u32 x.
Proof.
  intros H. replace (o_byte x) with (encode_u32 x); [apply dec_u32; unfold in_u; lia|].
  unfold encode_u32. cbn [enc_u]. rewrite land_7f, Z.mod_small by lia. replace (Z.shiftr x 7) with 0; [reflexivity|].
  rewrite Z.shiftr_div_pow2 by lia. symmetry. apply Z.div_small. change (2 ^ 7) with 128. lia.
Qed.
Lemma dec_select1 v : val_ok v -> decodes F (o_vec enc_val [v])
  (let* result_count := read_size MAX_WASM_SELECT_RESULT_SIZE "select types" in
   if result_count =? 1 then let* ty := read_val in ret (Op_TypedSelect ty)
   else let* tys := read_n (Z.to_nat result_count) read_val in ret (Op_TypedSelectMulti tys)) (Op_TypedSelect (d_val v)).
Proof.
  intros H. unfold o_vec. cbn [o_all]. rewrite oapp_nil_r. change (zlen [v]) with 1.
  eapply dec_bind; [apply dec_size; [split; vm_compute; congruence|vm_compute; congruence]|]. cbv beta. change (1 =? 1) with true. cbv iota.
  apply (dec_bind_ret F _ _ Op_TypedSelect), dec_val, H.
Qed.
Lemma dec_selectn l : Forall val_ok l /\ zlen l <= 10 /\ zlen l <> 1 -> decodes F (o_vec enc_val l)
  (let* result_count := read_size MAX_WASM_SELECT_RESULT_SIZE "select types" in
   if result_count =? 1 then let* ty := read_val in ret (Op_TypedSelect ty)
   else let* tys := read_n (Z.to_nat result_count) read_val in ret (Op_TypedSelectMulti tys)) (Op_TypedSelectMulti (map d_val l)).
Proof.
  intros (H & Hl & H1). unfold o_vec. eapply dec_bind; [apply dec_size; [eapply zlen_in_u; [exact Hl|lia]|unfold MAX_WASM_SELECT_RESULT_SIZE; lia]|]. cbv beta.
  destruct (Z.eqb_spec (zlen l) 1); [contradiction|]. unfold zlen. rewrite Nat2Z.id. apply (dec_bind_ret F _ _ Op_TypedSelectMulti), dec_vals_n, H.
Qed.

Ltac imm :=
  lazymatch goal with
  | |- decodes _ (o_byte _) read_u8 _ => apply dec_byte; byte
  | |- decodes _ (o_byte _) read_var_u32 _ => apply dec_sub_byte; lia
  | |- decodes _ _ read_var_u32 _ => apply dec_u32; first [assumption | solve [split; [vm_compute; congruence|vm_compute; reflexivity]]]
  | |- decodes _ _ (read_memarg _) _ => apply dec_memarg; assumption
  | |- decodes _ _ read_block _ => apply dec_block; assumption
  | |- decodes _ _ read_var_i32 _ => apply dec_i32; assumption
  | |- decodes _ _ read_var_i64 _ => apply dec_i64; assumption
  | |- decodes _ _ read_u32 _ => apply dec_f32; assumption
  | |- decodes _ _ read_u64 _ => apply dec_f64; assumption
  | |- decodes _ _ read_v128 _ => apply dec_v128
  | |- decodes _ _ read_lane _ => apply dec_lane; assumption
  | |- decodes _ _ read_lanes _ => apply dec_lanes; assumption
  | |- decodes _ _ read_ordering _ => apply dec_ordering
  | |- decodes _ _ read_memory_index _ => apply dec_mem_idx; assumption
  | |- decodes _ _ read_call_table _ => apply dec_call_table; assumption
  | |- decodes _ _ read_heap _ => apply dec_heap; assumption
  | |- decodes _ _ read_val _ => apply dec_val; assumption
  | |- decodes _ _ read_resume_table _ => apply dec_handlers; assumption
  end.
Ltac step :=
  lazymatch goal with
  | |- decodes _ _ (ret _) _ => apply dec_ret
  | |- decodes _ _ (arm_main _ _ _) _ => lazy beta iota delta [arm_main]
  | |- decodes _ _ (visit_fb _) _ => unfold visit_fb
  | |- decodes _ _ (visit_fc _) _ => unfold visit_fc
  | |- decodes _ _ (visit_fd _) _ => unfold visit_fd
  | |- decodes _ _ (visit_fe _) _ => unfold visit_fe
  | |- decodes _ _ (arm_fb _ _) _ => lazy beta iota delta [arm_fb]
  | |- decodes _ _ (arm_fc _ _) _ => lazy beta iota delta [arm_fc]
  | |- decodes _ _ (arm_fd _ _) _ => lazy beta iota delta [arm_fd]
  | |- decodes _ _ (arm_fe _ _) _ => lazy beta iota delta [arm_fe]
  | |- decodes _ _ (bind read_br_table _) _ => eapply dec_last; [apply dec_br; assumption|cbv beta]
  | |- decodes _ _ (bind read_try_table _) _ => eapply dec_last; [apply dec_try; assumption|cbv beta]
  | |- decodes _ _ (bind read_cast _) _ => eapply dec_last; [apply dec_cast; assumption|cbn [fst snd]]
  | |- decodes _ _ (bind (read_size _ _) _) _ => first [apply dec_select1; assumption | apply dec_selectn; assumption]
  | |- decodes _ _ (bind (require_legacy _) _) _ => apply dec_legacy; [assumption|]
  | |- decodes _ _ (bind (expect_frame _ _) _) _ => eapply dec_pure; [apply dec_ret|cbv beta]
  | |- decodes _ _ (bind (expect_either _ _ _) _) _ => eapply dec_pure; [apply dec_ret|cbv beta]
  | |- decodes _ _ (if 0 =? 0 then _ else _) _ => change (0 =? 0) with true; cbv iota
  | |- decodes _ (_ +++ _) (bind _ _) _ => eapply dec_bind; [imm|cbv beta]
  | |- decodes _ _ (bind _ _) _ => eapply dec_last; [imm|cbv beta]
  end.
Ltac hd t := lazymatch t with ?f _ => hd f | _ => t end.
Ltac prep :=
  unfold instr_ok, visit_operator; cbn [imms imms_ok imm_ok frame_ok enc_instr den]; intros;
  repeat match goal with H : _ /\ _ |- _ => lazymatch type of H with zlen _ = _ /\ _ => fail | bytes_ok _ /\ _ => fail | Forall _ _ /\ _ => fail | _ => destruct H end end;
  try match goal with H : _ \/ _ |- _ => destruct H end; try subst;
  match goal with |- decodes _ ?s _ _ => let h := hd s in try unfold h end;
  apply dec_get_pos; intros pos.
Lemma dec_instr i cur : instr_ok ft i -> frame_ok cur i -> decodes F (enc_instr i) (visit_operator (Some cur)) (den i).
Proof.
  destruct i; prep; repeat step.
Qed.

(** Converting what was read gives back what was written. *)
Lemma c_den i : instr_ok ft i -> c_op (den i) = Some i.
Proof.
  destruct i; unfold instr_ok; cbn [imms imms_ok imm_ok den c_op]; intros;
  repeat match goal with H : _ /\ _ |- _ => destruct H end;
  rewrite ?c_d_memarg, ?c_handles_id; unfold c_same, c_ordering; rewrite ?c_d_block, ?c_d_v128, ?c_d_try, ?c_d_vals, ?c_d_br, ?c_d_heap, ?c_d_ref, ?c_d_val by assumption;
  try reflexivity.
Qed.

(** * What the reader can return *)
(** Two operators that are equal, branch tables being compared by their labels. *)
Definition same_op (a b : operator) : Prop := a = b \/ exists x y, a = Op_BrTable x /\ b = Op_BrTable y /\ same_br x y.
Definition returns (cur : frame_kind) (o : operator) : Prop :=
  exists i, c_op o = Some i /\ instr_ok ft i /\ frame_ok cur i /\ same_op o (den i).
Lemma y_step {A B} (d : R A) (k : A -> R B) P Q : yields F d P -> (forall a, P a -> yields F (k a) Q) -> yields F (bind d k) Q.
Proof. apply y_bind. Qed.
Ltac yimm :=
  lazymatch goal with
  | |- yields _ read_u8 _ => apply y_u8
  | |- yields _ read_var_u32 _ => apply y_u32
  | |- yields _ (read_memarg _) _ => apply y_memarg
  | |- yields _ read_block _ => apply y_block
  | |- yields _ read_var_i32 _ => apply y_i32
  | |- yields _ read_var_i64 _ => apply y_i64
  | |- yields _ read_u32 _ => apply y_f32
  | |- yields _ read_u64 _ => apply y_f64
  | |- yields _ read_v128 _ => apply y_v128
  | |- yields _ read_lane _ => apply y_lane
  | |- yields _ read_lanes _ => apply y_lanes
  | |- yields _ read_ordering _ => apply y_ordering
  | |- yields _ read_memory_index _ => apply y_mem_idx
  | |- yields _ read_call_table _ => apply y_call_table
  | |- yields _ read_heap _ => apply y_heap
  | |- yields _ read_val _ => apply y_val
  | |- yields _ read_resume_table _ => apply y_handlers
  | |- yields _ read_br_table _ => apply y_br
  | |- yields _ read_try_table _ => apply y_try
  | |- yields _ read_cast _ => apply y_cast
  | |- yields _ (read_size _ _) _ => apply y_size
  | |- yields _ (read_n _ read_val) _ => apply y_vals
  | |- yields _ (require_legacy _) _ => apply y_legacy
  | |- yields _ (expect_frame _ _) _ => apply y_expect
  | |- yields _ (expect_either _ _ _) _ => apply y_either
  end.
Ltac open H :=
  lazymatch type of H with
  | from _ _ _ => let a := fresh "a" in let Ha := fresh "Ha" in destruct H as (a & Ha & ->)
  | exists b l, _ /\ _ /\ _ = d_try _ _ => destruct H as (? & ? & ? & ? & ->)
  | exists l d, _ /\ _ /\ same_br _ _ => destruct H as (? & ? & ? & ? & ?)
  | exists d from to, _ => destruct H as (? & ? & ? & ? & ? & ? & ->)
  | exists l, _ /\ _ = map d_val l /\ _ => destruct H as (? & ? & -> & ?)
  | _ => idtac
  end.
Ltac frames :=
  repeat match goal with
  | H : in_frame (Some ?c) _ = true |- _ => destruct c; try discriminate H; clear H
  | H : in_frame (Some ?c) _ || _ = true |- _ => destruct c; try discriminate H; clear H
  end; cbn [frame_ok]; auto.
Ltac leaf :=
  apply y_ret; unfold returns; eexists;
  split; [cbn [c_op fst snd]; rewrite ?c_d_memarg, ?c_handles_id; unfold c_same, c_ordering, c_br_table; rewrite ?c_d_block, ?c_d_v128, ?c_d_try, ?c_d_vals, ?c_d_heap, ?c_d_ref, ?c_d_val by assumption; reflexivity|];
  split; [unfold instr_ok; cbn [imms imms_ok imm_ok]; repeat (split; [first [assumption | exact I]|]); exact I|];
  split; [frames|left; reflexivity].
Ltac ystep :=
  lazymatch goal with
  | |- yields _ (ret _) _ => leaf
  | |- yields _ (fail_at _ _) _ => apply y_fail_at
  | |- yields _ (fail_pos _ _) _ => apply y_fail_pos
  | |- yields _ (if _ then _ else _) _ => apply y_if; intros _; ystep
  | |- yields _ (bind read_br_table _) _ => idtac
  | |- yields _ (bind (read_size _ _) _) _ => idtac
  | |- yields _ (bind _ _) _ => eapply y_step; [yimm|]; let a := fresh "x" in let H := fresh "Hx" in intros a H; cbv beta in H; open H; ystep
  end.
Ltac split_code := repeat lazymatch goal with |- yields _ (match ?x with _ => _ end) _ => is_var x; destruct x; try apply y_fail_at; try apply y_fail_pos end.
Lemma y_arm_fb cur pos code : yields F (arm_fb pos code) (returns cur).
Proof. unfold arm_fb. split_code. all: ystep. Qed.
Lemma y_arm_fc cur pos code : yields F (arm_fc pos code) (returns cur).
Proof. unfold arm_fc. split_code. all: ystep. Qed.
Lemma y_arm_fd cur pos code : yields F (arm_fd pos code) (returns cur).
Proof. unfold arm_fd. split_code. all: ystep. Qed.
Lemma y_arm_fe cur pos code : yields F (arm_fe pos code) (returns cur).
Proof. unfold arm_fe. split_code. all: ystep. Qed.
Lemma y_select cur : yields F
  (let* result_count := read_size MAX_WASM_SELECT_RESULT_SIZE "select types" in
   if result_count =? 1 then let* ty := read_val in ret (Op_TypedSelect ty)
   else let* tys := read_n (Z.to_nat result_count) read_val in ret (Op_TypedSelectMulti tys)) (returns cur).
Proof.
  eapply y_bind; [apply y_size|]. intros n [Hn Hl]. destruct (Z.eqb_spec n 1); [ystep|].
  eapply y_bind; [apply y_vals|]. intros l (l' & Hv & -> & E).
  assert (Hz : n = zlen l') by (unfold zlen; rewrite E; destruct Hn; lia). unfold MAX_WASM_SELECT_RESULT_SIZE in Hl.
  apply y_ret. exists (In_TypedSelectMulti l'). cbn [c_op den]. rewrite c_d_vals by exact Hv.
  unfold instr_ok. cbn [imms imms_ok imm_ok frame_ok]. repeat split; [exact Hv|lia|lia|left; reflexivity].
Qed.
Lemma y_br_op cur : yields F (let* targets := read_br_table in ret (Op_BrTable targets)) (returns cur).
Proof.
  eapply y_bind; [apply y_br|]. intros b (l & d & [Hl Hn] & Hd & Hs). apply y_ret. exists (In_BrTable l d). cbn [c_op den frame_ok].
  assert (E : c_br_table b = Some (l, d)).
  { destruct Hs as (l2 & E1 & E2 & _ & E4). unfold c_br_table. rewrite E1, E4. rewrite br_targets_d in E2 by exact Hl. injection E2 as <-. reflexivity. }
  rewrite E. split; [reflexivity|]. unfold instr_ok. cbn [imms imms_ok imm_ok]. split; [auto|]. split; [exact I|]. right. exists b, (d_br l d). auto.
Qed.
Lemma y_arm_main cur pos code : yields F (arm_main (Some cur) pos code) (returns cur).
Proof.
  unfold arm_main. split_code.
  all: lazymatch goal with
  | |- yields _ (visit_fb _) _ => unfold visit_fb; eapply y_bind; [apply y_u32|intros; apply y_arm_fb]
  | |- yields _ (visit_fc _) _ => unfold visit_fc; eapply y_bind; [apply y_u32|intros; apply y_arm_fc]
  | |- yields _ (visit_fd _) _ => unfold visit_fd; eapply y_bind; [apply y_u32|intros; apply y_arm_fd]
  | |- yields _ (visit_fe _) _ => unfold visit_fe; eapply y_bind; [apply y_u32|intros; apply y_arm_fe]
  | |- yields _ (bind read_br_table _) _ => apply y_br_op
  | |- yields _ (bind (read_size _ _) _) _ => apply y_select
  | _ => ystep
  end.
Qed.
Lemma y_instr cur : yields F (visit_operator (Some cur)) (returns cur).
Proof. unfold visit_operator. eapply y_bind; [apply y_get_pos|]. intros pos _. eapply y_bind; [apply y_u8|]. intros code _. apply y_arm_main. Qed.
End dec.
