(** Reading types and instructions depends only on the bytes consumed. *)
From Verif.Base Require Import Prelude Utf8.
From Verif.Reader Require Import Model Spec Mono.
From Verif.Leb Require Import Model.
From Verif.Codec Require Import Kit Local.
From Verif.Types Require Import RefModel CodecModel CodecTop EntityModel LocalTypes.
From Verif.Instr Require Import ImmModel Ops Visit.
From Coq Require Import Lia.

(** * Immediates *)
Lemma sim_block : sim read_block read_block.
Proof.
  apply sim_peek.
  - intros b. apply sim_if; [apply sim_if; (apply sim_bind; [first [apply sim_u8 | apply sim_val]|intros; apply sim_ret])|].
    apply sim_bind; [apply sim_s33|]. intros i. apply sim_if; [apply sim_ret|apply sim_fail_at].
  - intros b. apply eats_if; [apply eats_if|]; (apply eats_bind_l; [first [apply eats_u8 | apply eats_val | apply eats_s33]|intros]); try apply moves_ret.
    apply moves_if; [apply moves_ret|intros r x r' E; discriminate].
Qed.
Lemma sim_memarg max : sim (read_memarg max) (read_memarg max).
Proof.
  apply sim_get_pos. intros p p'. apply sim_bind; [apply sim_u32|]. intros fl. apply sim_bind.
  - apply (sim_ask (fun ft => if f_multi_memory ft && negb (Z.land fl (Z.shiftl 1 6) =? 0) then let* m := read_var_u32 in ret (Z.lxor fl (Z.shiftl 1 6), m) else ret (fl, 0))
                   (fun ft => if f_multi_memory ft && negb (Z.land fl (Z.shiftl 1 6) =? 0) then let* m := read_var_u32 in ret (Z.lxor fl (Z.shiftl 1 6), m) else ret (fl, 0))).
    intros ft. apply sim_if; [apply sim_bind; [apply sim_u32|intros; apply sim_ret]|apply sim_ret].
  - intros [a m]. apply sim_bind.
    + apply (sim_ask (fun ft => ret (if f_multi_memory ft then 6 else 5)) (fun ft => ret (if f_multi_memory ft then 6 else 5))). intros ft. apply sim_ret.
    + intros bits. apply sim_if; [apply sim_fail_pos|]. apply sim_bind; [apply sim_limit|intros; apply sim_ret].
Qed.
Lemma sim_ordering : sim read_ordering read_ordering.
Proof. apply sim_bind; [apply sim_u32|]. intros b. repeat (apply sim_if; [apply sim_ret|]). apply sim_fail_at. Qed.
Lemma sim_br : sim read_br_table read_br_table.
Proof.
  apply sim_bind; [apply sim_size|]. intros n. apply sim_bind; [apply sim_skip_raw, sim_read_n, sim_u32|]. intros bs. apply sim_bind; [apply sim_u32|intros; apply sim_ret].
Qed.
Lemma sim_lanes : sim read_lanes read_lanes.
Proof. apply sim_read_n, sim_u8. Qed.
Lemma sim_zero : sim zero_byte zero_byte.
Proof. apply sim_bind; [apply sim_u8|]. intros b. apply sim_if; [apply sim_ret|apply sim_fail_at]. Qed.
Lemma sim_mem_idx : sim read_memory_index read_memory_index.
Proof. apply sim_switch; [apply sim_u32|apply sim_zero]. Qed.
Lemma sim_call_table : sim read_call_table read_call_table.
Proof. apply sim_switch; [apply sim_u32|apply sim_zero]. Qed.
Lemma sim_catch : sim read_catch read_catch.
Proof.
  apply sim_bind; [apply sim_u8|]. intros b. repeat apply sim_if; try apply sim_fail_at;
  repeat (apply sim_bind; [apply sim_u32|intros ?]); apply sim_ret.
Qed.
Lemma sim_handle : sim read_handle read_handle.
Proof.
  apply sim_bind; [apply sim_u8|]. intros b. repeat apply sim_if; try apply sim_fail_at;
  repeat (apply sim_bind; [apply sim_u32|intros ?]); apply sim_ret.
Qed.
Lemma sim_try : sim read_try_table read_try_table.
Proof. apply sim_bind; [apply sim_block|]. intros ty. apply sim_bind; [apply sim_list, sim_catch|intros; apply sim_ret]. Qed.
Lemma sim_cast : sim read_cast read_cast.
Proof.
  apply sim_get_pos. intros p p'. apply sim_bind; [apply sim_u8|]. intros fl. apply sim_bind; [apply sim_u32|]. intros d. apply sim_bind.
  - repeat (apply sim_if; [apply sim_ret|]). apply sim_fail_pos.
  - intros nn. apply sim_bind; [apply sim_heap|]. intros h. apply sim_bind; [apply (sim_opt _ (fun r => r))|]. intros f.
    apply sim_bind; [apply sim_heap|]. intros h2. apply sim_bind; [apply (sim_opt _ (fun r => r))|]. intros t. apply sim_ret.
Qed.
Lemma sim_legacy p p' : sim (require_legacy p) (require_legacy p').
Proof. unfold require_legacy. apply (sim_switch f_legacy_exceptions (ret tt) (fail_pos _ p) (ret tt) (fail_pos _ p')); [apply sim_ret|apply sim_fail_pos]. Qed.
Lemma sim_expect cur k : sim (expect_frame cur k) (expect_frame cur k).
Proof. apply sim_if; [apply sim_ret|apply sim_fail_at]. Qed.
Lemma sim_either cur a b : sim (expect_either cur a b) (expect_either cur a b).
Proof. apply sim_if; [apply sim_ret|apply sim_expect]. Qed.

(** * Operators *)
Ltac simm :=
  lazymatch goal with
  | |- sim read_u8 _ => apply sim_u8
  | |- sim read_var_u32 _ => apply sim_u32
  | |- sim (read_memarg _) _ => apply sim_memarg
  | |- sim read_block _ => apply sim_block
  | |- sim read_var_i32 _ => apply sim_i32
  | |- sim read_var_i64 _ => apply sim_i64
  | |- sim read_u32 _ => apply sim_f32
  | |- sim read_u64 _ => apply sim_f64
  | |- sim read_v128 _ => apply sim_read_bytes
  | |- sim read_lane _ => apply sim_u8
  | |- sim read_lanes _ => apply sim_lanes
  | |- sim read_ordering _ => apply sim_ordering
  | |- sim read_memory_index _ => apply sim_mem_idx
  | |- sim read_call_table _ => apply sim_call_table
  | |- sim read_heap _ => apply sim_heap
  | |- sim read_val _ => apply sim_val
  | |- sim read_resume_table _ => apply sim_list, sim_handle
  | |- sim read_br_table _ => apply sim_br
  | |- sim read_try_table _ => apply sim_try
  | |- sim read_cast _ => apply sim_cast
  | |- sim (read_size _ _) _ => apply sim_size
  | |- sim (read_n _ read_val) _ => apply sim_read_n, sim_val
  | |- sim (require_legacy _) _ => apply sim_legacy
  | |- sim (expect_frame _ _) _ => apply sim_expect
  | |- sim (expect_either _ _ _) _ => apply sim_either
  end.
Ltac sstep :=
  lazymatch goal with
  | |- sim (ret _) _ => apply sim_ret
  | |- sim (fail_at _ _) _ => apply sim_fail_at
  | |- sim (fail_pos _ _) _ => apply sim_fail_pos
  | |- sim (if _ then _ else _) _ => apply sim_if; sstep
  | |- sim (bind _ _) _ => apply sim_bind; [simm|intros ?; sstep]
  end.
Ltac split_sim := repeat lazymatch goal with |- sim (match ?x with _ => _ end) _ => is_var x; destruct x; try apply sim_fail_at; try apply sim_fail_pos end.
Lemma sim_arm_fb p p' code : sim (arm_fb p code) (arm_fb p' code).
Proof. unfold arm_fb. split_sim. all: sstep. Qed.
Lemma sim_arm_fc p p' code : sim (arm_fc p code) (arm_fc p' code).
Proof. unfold arm_fc. split_sim. all: sstep. Qed.
Lemma sim_arm_fd p p' code : sim (arm_fd p code) (arm_fd p' code).
Proof. unfold arm_fd. split_sim. all: sstep. Qed.
Lemma sim_arm_fe p p' code : sim (arm_fe p code) (arm_fe p' code).
Proof. unfold arm_fe. split_sim. all: sstep. Qed.
Lemma sim_arm_main cur p p' code : sim (arm_main cur p code) (arm_main cur p' code).
Proof.
  unfold arm_main. split_sim.
  all: lazymatch goal with
  | |- sim (visit_fb _) _ => apply sim_bind; [apply sim_u32|intros; apply sim_arm_fb]
  | |- sim (visit_fc _) _ => apply sim_bind; [apply sim_u32|intros; apply sim_arm_fc]
  | |- sim (visit_fd _) _ => apply sim_bind; [apply sim_u32|intros; apply sim_arm_fd]
  | |- sim (visit_fe _) _ => apply sim_bind; [apply sim_u32|intros; apply sim_arm_fe]
  | _ => sstep
  end.
Qed.
Lemma sim_operator cur : sim (visit_operator cur) (visit_operator cur).
Proof.
  unfold visit_operator. destruct cur; [|apply sim_fail_at]. apply sim_get_pos. intros p p'. apply sim_bind; [apply sim_u8|]. intros code. apply sim_arm_main.
Qed.
Lemma eats_operator cur : eats (visit_operator cur).
Proof.
  unfold visit_operator. destruct cur; [|apply eats_fail_at]. apply eats_bind_r; [apply moves_get_pos|]. intros p. apply eats_bind_l; [apply eats_u8|]. intros code.
  apply moves_local, sim_arm_main.
Qed.
