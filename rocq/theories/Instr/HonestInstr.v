(** Operators read from truncated input fail with a hint that is not too large, and
    more input never changes another result. *)
From Verif.Base Require Import Prelude Utf8.
From Verif.Reader Require Import Model Spec Mono.
From Verif.Leb Require Import Model.
From Verif.Codec Require Import Kit.
From Verif.Types Require Import RefModel CodecModel CodecTop EntityModel EntityProofs.
From Verif.Instr Require Import ImmModel Ops Visit.

Lemma honest_switch {A} (c : features -> bool) (m n : R A) : honest m -> honest n -> honest (fun r => if c (r_feat r) then m r else n r).
Proof. intros H1 H2 r. cbn. destruct (c (r_feat r)) eqn:E; [pose proof (H1 r) as H|pose proof (H2 r) as H]; cbn [extend r_feat]; rewrite ?E; exact H. Qed.
Lemma honest_ask {A} (m : features -> R A) : (forall ft, honest (m ft)) -> honest (fun r => m (r_feat r) r).
Proof. intros H r. exact (H (r_feat r) r). Qed.
Lemma honest_block : honest read_block.
Proof. unfold read_block. honesty. Qed.
Lemma honest_memarg max : honest (read_memarg max).
Proof.
  unfold read_memarg. apply honest_bind; [apply honest_get_pos|]. intros p. apply honest_bind; [apply honest_read_var_u32|]. intros fl. apply honest_bind.
  - apply (honest_ask (fun ft => if f_multi_memory ft && negb (Z.land fl (Z.shiftl 1 6) =? 0) then let* m := read_var_u32 in ret (Z.lxor fl (Z.shiftl 1 6), m) else ret (fl, 0))).
    intros ft. honesty.
  - intros fm. apply honest_bind; [apply (honest_ask (fun ft => ret (if f_multi_memory ft then 6 else 5))); intros; apply honest_ret|]. intros bits. honesty.
Qed.
Lemma honest_ordering : honest read_ordering. Proof. unfold read_ordering. honesty. Qed.
Lemma honest_br : honest read_br_table.
Proof. unfold read_br_table. apply honest_bind; [apply honest_read_size|]. intros n. apply honest_bind; [apply honest_skip_raw; honesty|]. intros. honesty. Qed.
Lemma honest_lanes : honest read_lanes. Proof. unfold read_lanes, read_lane. honesty. Qed.
Lemma honest_zero : honest zero_byte. Proof. unfold zero_byte. honesty. Qed.
Lemma honest_mem_idx : honest read_memory_index. Proof. apply honest_switch; [apply honest_read_var_u32|apply honest_zero]. Qed.
Lemma honest_call_table : honest read_call_table. Proof. apply honest_switch; [apply honest_read_var_u32|apply honest_zero]. Qed.
Lemma honest_catch : honest read_catch. Proof. unfold read_catch. honesty. Qed.
Lemma honest_handle : honest read_handle. Proof. unfold read_handle. honesty. Qed.
Lemma honest_try : honest read_try_table. Proof. unfold read_try_table. apply honest_bind; [apply honest_block|]. intros. apply honest_bind; [apply honest_read_list, honest_catch|]. intros. apply honest_ret. Qed.
Lemma honest_handlers : honest read_resume_table. Proof. apply honest_read_list, honest_handle. Qed.
Lemma honest_cast : honest read_cast. Proof. unfold read_cast. honesty. Qed.
Lemma honest_legacy p : honest (require_legacy p).
Proof. apply (honest_switch f_legacy_exceptions (ret tt) (fail_pos _ p)); [apply honest_ret|apply honest_fail_pos]. Qed.
Lemma honest_expect cur k : honest (expect_frame cur k). Proof. unfold expect_frame. honesty. Qed.
Lemma honest_either cur a b : honest (expect_either cur a b). Proof. unfold expect_either, expect_frame. honesty. Qed.
Ltac himm :=
  lazymatch goal with
  | |- honest read_u8 => apply honest_read_u8
  | |- honest read_var_u32 => apply honest_read_var_u32
  | |- honest (read_memarg _) => apply honest_memarg
  | |- honest read_block => apply honest_block
  | |- honest read_var_i32 => apply honest_read_var_i32
  | |- honest read_var_i64 => apply honest_read_var_i64
  | |- honest read_u32 => apply honest_read_u32
  | |- honest read_u64 => apply honest_read_u64
  | |- honest read_v128 => apply honest_read_bytes
  | |- honest read_lane => apply honest_read_u8
  | |- honest read_lanes => apply honest_lanes
  | |- honest read_ordering => apply honest_ordering
  | |- honest read_memory_index => apply honest_mem_idx
  | |- honest read_call_table => apply honest_call_table
  | |- honest read_heap => apply honest_heap
  | |- honest read_val => apply honest_val
  | |- honest read_resume_table => apply honest_handlers
  | |- honest read_br_table => apply honest_br
  | |- honest read_try_table => apply honest_try
  | |- honest read_cast => apply honest_cast
  | |- honest (read_size _ _) => apply honest_read_size
  | |- honest (read_n _ read_val) => apply honest_read_n, honest_val
  | |- honest (require_legacy _) => apply honest_legacy
  | |- honest (expect_frame _ _) => apply honest_expect
  | |- honest (expect_either _ _ _) => apply honest_either
  end.
Ltac hstep :=
  lazymatch goal with
  | |- honest (ret _) => apply honest_ret
  | |- honest (fail_at _ _) => apply honest_fail_at
  | |- honest (fail_pos _ _) => apply honest_fail_pos
  | |- honest (if _ then _ else _) => apply honest_if; hstep
  | |- honest (bind _ _) => apply honest_bind; [himm|intros ?; hstep]
  end.
Ltac split_honest := repeat lazymatch goal with |- honest (match ?x with _ => _ end) => is_var x; destruct x; try apply honest_fail_at; try apply honest_fail_pos end.
Lemma honest_arm_fb p code : honest (arm_fb p code).
Proof. unfold arm_fb. split_honest. all: hstep. Qed.
Lemma honest_arm_fc p code : honest (arm_fc p code).
Proof. unfold arm_fc. split_honest. all: hstep. Qed.
Lemma honest_arm_fd p code : honest (arm_fd p code).
Proof. unfold arm_fd. split_honest. all: hstep. Qed.
Lemma honest_arm_fe p code : honest (arm_fe p code).
Proof. unfold arm_fe. split_honest. all: hstep. Qed.
Lemma honest_arm_main cur p code : honest (arm_main cur p code).
Proof.
  unfold arm_main. split_honest.
  all: lazymatch goal with
  | |- honest (visit_fb _) => apply honest_bind; [apply honest_read_var_u32|intros; apply honest_arm_fb]
  | |- honest (visit_fc _) => apply honest_bind; [apply honest_read_var_u32|intros; apply honest_arm_fc]
  | |- honest (visit_fd _) => apply honest_bind; [apply honest_read_var_u32|intros; apply honest_arm_fd]
  | |- honest (visit_fe _) => apply honest_bind; [apply honest_read_var_u32|intros; apply honest_arm_fe]
  | _ => hstep
  end.
Qed.
Lemma honest_operator cur : honest (visit_operator cur).
Proof.
  unfold visit_operator. destruct cur; [|apply honest_fail_at]. apply honest_bind; [apply honest_get_pos|]. intros p. apply honest_bind; [apply honest_read_u8|]. intros code. apply honest_arm_main.
Qed.
