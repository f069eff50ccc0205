(** Immediates: what is written is what is read, and back. *)
From Verif.Base Require Import Prelude BitFacts.
From Verif.Reader Require Import Model Spec Mono.
From Verif.Leb Require Import Model Spec Proofs ReaderProofs Top.
From Verif.Codec Require Import Kit.
From Verif.Types Require Import RefModel CodecModel CodecSpec CodecProofs CodecTop EntityModel EntityProofs.
From Verif.Instr Require Import ImmModel ImmSpec.
From Coq Require Import Lia.

(** * The parsed form of what is written *)
Definition d_block (b : e_block) : p_block := match b with EBEmpty => PBEmpty | EBResult v => PBType (d_val v) | EBFunc i => PBFunc i end.
Definition d_memarg (max : Z) (m : e_memarg) : p_memarg := mkPMem (em_align m) max (em_offset m) (em_memory m).
Definition d_br (l : list Z) (d : Z) : p_br_table := mkPBr (bytes_of (o_all encode_u32 l)) (zlen l) d.
Definition d_try (b : e_block) (l : list catch) : p_try_table := mkPTry (d_block b) l.
Definition d_v128 (v : Z) : list Z := to_le_bytes 16 v.

Ltac byte := first [split; vm_compute; congruence | assumption].
Lemma bits6 a : 0 <= a < 64 -> Z.lor a (Z.shiftl 1 6) = a + 64 /\ Z.land (a + 64) (Z.shiftl 1 6) = 64 /\ Z.lxor (a + 64) (Z.shiftl 1 6) = a /\ Z.land a (Z.shiftl 1 6) = 0.
Proof.
  intros Ha.
  assert (H : forallb (fun n => let a := Z.of_nat n in (Z.lor a (Z.shiftl 1 6) =? a + 64) && (Z.land (a + 64) (Z.shiftl 1 6) =? 64) && (Z.lxor (a + 64) (Z.shiftl 1 6) =? a) && (Z.land a (Z.shiftl 1 6) =? 0)) (seq 0 64) = true) by (vm_compute; reflexivity).
  rewrite forallb_forall in H. specialize (H (Z.to_nat a) ltac:(apply in_seq; lia)). cbv zeta in H. rewrite Z2Nat.id in H by lia.
  apply andb_prop in H. destruct H as [H H4]. apply andb_prop in H. destruct H as [H H3]. apply andb_prop in H. destruct H as [H1 H2].
  apply Z.eqb_eq in H1, H2, H3, H4. auto.
Qed.
(** Little-endian bytes. *)
Lemma le_len n v : List.length (to_le_bytes n v) = n.
Proof. revert v. induction n; intros; cbn [to_le_bytes List.length]; auto. Qed.
Lemma le_ok n v : bytes_ok (to_le_bytes n v).
Proof. revert v. induction n; intros; cbn [to_le_bytes]; constructor; [|apply IHn]. unfold is_byte. pose proof (Z.mod_pos_bound v 256). lia. Qed.
Lemma le_from n v : from_le_bytes (to_le_bytes n v) = v mod 256 ^ Z.of_nat n.
Proof.
  revert v. induction n as [|n IH]; intros v; [rewrite Z.mod_1_r; reflexivity|].
  cbn [to_le_bytes from_le_bytes]. rewrite IH, Nat2Z.inj_succ, Z.pow_succ_r by lia.
  rewrite Z.rem_mul_r by lia. reflexivity.
Qed.
Lemma from_le l : bytes_ok l -> to_le_bytes (List.length l) (from_le_bytes l) = l.
Proof.
  induction 1 as [|b l Hb _ IH]; [reflexivity|]. cbn [from_le_bytes List.length to_le_bytes]. f_equal.
  - rewrite (Z.mul_comm 256), Z.mod_add by lia. apply Z.mod_small. exact Hb.
  - rewrite (Z.mul_comm 256), Z.div_add by lia. rewrite (Z.div_small b) by exact Hb. exact IH.
Qed.
Lemma from_le_range l : bytes_ok l -> 0 <= from_le_bytes l < 256 ^ zlen l.
Proof.
  induction 1 as [|b l [Hb1 Hb2] _ IH]; [split; vm_compute; congruence|]. cbn [from_le_bytes]. unfold zlen in *. cbn [List.length]. rewrite Nat2Z.inj_succ, Z.pow_succ_r by lia. lia.
Qed.
Lemma le_mod n v k : to_le_bytes n (v + k * 256 ^ Z.of_nat n) = to_le_bytes n v.
Proof.
  revert v k. induction n as [|n IH]; intros v k; [reflexivity|]. cbn [to_le_bytes]. rewrite Nat2Z.inj_succ, Z.pow_succ_r by lia.
  replace (v + k * (256 * 256 ^ Z.of_nat n)) with (v + (k * 256 ^ Z.of_nat n) * 256) by lia.
  f_equal; [apply Z.mod_add; lia|]. rewrite Z.div_add by lia. apply IH.
Qed.

(** * Written, then read *)
Section dec.
Context (F : features -> Prop).
Lemma dec_le n : 0 <= n -> forall v, decodes F (o_le (Z.to_nat n) v) (read_bytes n) (to_le_bytes (Z.to_nat n) v).
Proof.
  intros Hn v. unfold o_le. replace n with (zlen (to_le_bytes (Z.to_nat n) v)) at 2; [apply dec_read_bytes, le_ok|].
  unfold zlen. rewrite le_len. lia.
Qed.
Lemma dec_f32 v : in_u 32 v -> decodes F (o_le 4 v) read_u32 v.
Proof.
  intros H. unfold read_u32. replace v with (from_le_bytes (to_le_bytes 4 v)) at 2; [apply (dec_bind_ret F _ _ from_le_bytes), (dec_le 4); lia|].
  rewrite le_from. apply Z.mod_small. exact H.
Qed.
Lemma dec_f64 v : in_u 64 v -> decodes F (o_le 8 v) read_u64 v.
Proof.
  intros H. unfold read_u64. replace v with (from_le_bytes (to_le_bytes 8 v)) at 2; [apply (dec_bind_ret F _ _ from_le_bytes), (dec_le 8); lia|].
  rewrite le_from. apply Z.mod_small. exact H.
Qed.
Lemma dec_v128 v : decodes F (o_le 16 v) read_v128 (d_v128 v).
Proof. apply (dec_le 16). lia. Qed.
Lemma dec_lane l : is_byte l -> decodes F (o_byte l) read_lane l.
Proof. apply dec_byte. Qed.
Lemma o_raw_all l : o_raw l = o_all o_byte l.
Proof. induction l as [|a l IH]; [reflexivity|]. cbn [o_all]. rewrite <- IH. reflexivity. Qed.
Lemma dec_lanes l : bytes_ok l /\ zlen l = 16 -> decodes F (o_raw l) read_lanes l.
Proof.
  intros [H Hl]. rewrite o_raw_all. unfold read_lanes. replace 16%nat with (List.length l) by (unfold zlen in Hl; lia).
  rewrite <- (map_id l) at 3. apply dec_read_n. eapply Forall_impl; [|exact H]. intros a. apply dec_byte.
Qed.
(** The lead bytes of a value type, and of an [s33] that is an index. *)
Definition type_lead (x : Z) : bool := (Z.land x 0x80 =? 0) && negb (Z.land x 0x40 =? 0).
Lemma type_lead_spec x : is_byte x -> type_lead x = (64 <=? x) && (x <? 128).
Proof.
  intros Hx. pose proof (byte_sweep (fun x => Bool.eqb (type_lead x) ((64 <=? x) && (x <? 128)))) as H.
  apply Bool.eqb_prop. apply H; [vm_compute; reflexivity|exact Hx].
Qed.
Lemma s33_index_lead i : in_u 32 i -> exists x t, encode_s64 i = o_byte x +++ Some t /\ type_lead x = false.
Proof.
  intros H. destruct (dec_s33 F i H) as (bs & E & Hb & _).
  assert (Hs : sN 64 bs i).
  { eapply enc_s_correct with (n := 64); [exact E| |lia]. unfold in_u, in_s in *. change (2 ^ (64 - 1)) with (2 ^ 63). assert (2 ^ 32 < 2 ^ 63) by (apply Z.pow_lt_mono_r; lia). lia. }
  destruct H as [H _].
  inversion Hs as [n b H1 H2|n b H1 H2|n b bs' m H1 H2 H3]; subst; [exists i, [] | exfalso; lia | exists b, bs']; (split; [exact E|]);
    inversion Hb; subst; rewrite type_lead_spec by assumption.
  - destruct (Z.leb_spec 64 i); [lia|reflexivity].
  - destruct (Z.ltb_spec b 128); [lia|]. apply andb_false_r.
Qed.
Lemma dec_block b : block_ok b -> decodes F (enc_block b) read_block (d_block b).
Proof.
  destruct b as [|v|i]; cbn [block_ok enc_block d_block]; intros H; unfold read_block; fold type_lead.
  - apply dec_peek1. change (decodes F (o_byte 0x40) (let* _ := read_u8 in ret PBEmpty) PBEmpty). apply (dec_bind_ret F _ _ (fun _ => PBEmpty) 0x40), dec_byte. byte.
  - destruct (enc_val_lead F v H) as (t & Ht & E). rewrite E. apply dec_peek. rewrite <- E. fold (type_lead (val_lead v)).
    pose proof (val_lead_range v) as Hr. rewrite type_lead_spec by (unfold is_byte; lia).
    destruct (Z.leb_spec 64 (val_lead v)); [|lia]. destruct (Z.ltb_spec (val_lead v) 128); [|lia]. cbn [andb].
    destruct (Z.eqb_spec (val_lead v) 0x40); [lia|]. apply (dec_bind_ret F _ _ PBType), dec_val, H.
  - destruct (s33_index_lead i H) as (x & t & E & Hx). rewrite E. apply dec_peek. rewrite <- E. fold (type_lead x). rewrite Hx.
    rewrite <- (oapp_nil_r (encode_s64 i)). eapply dec_bind; [apply dec_s33, H|]. cbv beta.
    replace (is_u32 i) with true; [apply dec_ret|]. symmetry. destruct H. unfold is_u32. apply andb_true_intro. split; [apply Z.leb_le; lia|apply Z.ltb_lt; lia].
Qed.
Lemma dec_ordering o : decodes F (enc_ordering o) read_ordering o.
Proof.
  unfold read_ordering. destruct o; [change (enc_ordering AcqRel) with (encode_u32 1)|change (enc_ordering SeqCst) with (encode_u32 0)];
    rewrite <- (oapp_nil_r (encode_u32 _)); (eapply dec_bind; [apply dec_u32; byte|]); apply dec_ret.
Qed.
Lemma dec_raw {A} o (d : R A) a : decodes F o d a -> decodes F o (skip_raw d) (bytes_of o).
Proof.
  intros (bs & -> & Hb & Hd). exists bs. split; [reflexivity|]. split; [exact Hb|]. intros rest pos off ft Hf Hr. unfold skip_raw.
  rewrite Hd by auto. cbn [r_pos r_rem bytes_of]. replace (pos + zlen bs - pos) with (zlen bs) by lia. unfold zlen. rewrite Nat2Z.id.
  rewrite firstn_app, Nat.sub_diag, firstn_all, firstn_O, app_nil_r. reflexivity.
Qed.
Lemma dec_br l d : Forall (in_u 32) l /\ zlen l <= 7654321 -> in_u 32 d -> decodes F (o_vec encode_u32 l +++ encode_u32 d) read_br_table (d_br l d).
Proof.
  intros [Hl Hn] Hd. unfold o_vec, read_br_table, d_br. rewrite oapp_assoc.
  assert (Hz : in_u 32 (zlen l)) by (eapply zlen_in_u; [exact Hn|lia]).
  eapply dec_bind; [apply dec_size; [exact Hz|unfold MAX_WASM_BR_TABLE_SIZE; lia]|]. cbv beta.
  rewrite wrapu_id by exact Hz. unfold zlen at 1. rewrite Nat2Z.id.
  eapply dec_bind; [eapply dec_raw, dec_read_n with (g := fun x => x)|].
  - eapply Forall_impl; [|exact Hl]. intros a. apply dec_u32.
  - cbv beta. apply (dec_bind_ret F _ _ (fun d => mkPBr _ (zlen l) d)), dec_u32, Hd.
Qed.
Lemma dec_catch c : catch_ok c -> decodes F (enc_catch c) read_catch c.
Proof.
  unfold read_catch. destruct c; cbn [catch_ok enc_catch]; intros H; (apply dec_byte_bind; [byte|]); cbv beta;
    match goal with |- context [if ?b then _ else _] => idtac end; repeat (match goal with |- context [?a =? ?b] => change (a =? b) with false || change (a =? b) with true end; cbv iota).
  - eapply dec_bind; [apply dec_u32, H|]. apply (dec_bind_ret F _ _ (COne tag)), dec_u32, H.
  - eapply dec_bind; [apply dec_u32, H|]. apply (dec_bind_ret F _ _ (COneRef tag)), dec_u32, H.
  - apply (dec_bind_ret F _ _ CAll), dec_u32, H.
  - apply (dec_bind_ret F _ _ CAllRef), dec_u32, H.
Qed.
Lemma dec_handle h : handle_ok h -> decodes F (enc_handle h) read_handle h.
Proof.
  unfold read_handle. destruct h; cbn [handle_ok enc_handle]; intros H; (apply dec_byte_bind; [byte|]); cbv beta;
    repeat (match goal with |- context [?a =? ?b] => change (a =? b) with false || change (a =? b) with true end; cbv iota).
  - eapply dec_bind; [apply dec_u32, H|]. apply (dec_bind_ret F _ _ (HOnLabel tag)), dec_u32, H.
  - apply (dec_bind_ret F _ _ HOnSwitch), dec_u32, H.
Qed.
Lemma dec_try b l : block_ok b -> Forall catch_ok l /\ zlen l <= 10000 -> decodes F (enc_block b +++ o_vec enc_catch l) read_try_table (d_try b l).
Proof.
  intros Hb [Hl Hn]. unfold read_try_table, d_try. eapply dec_bind; [apply dec_block, Hb|]. cbv beta.
  rewrite <- (map_id l) at 2. apply (dec_bind_ret F _ _ (mkPTry (d_block b))), dec_list; [unfold MAX_WASM_CATCHES; lia|unfold MAX_WASM_CATCHES; lia|].
  eapply Forall_impl; [|exact Hl]. intros a. apply dec_catch.
Qed.
Lemma dec_handlers l : Forall handle_ok l /\ zlen l <= 10000 -> decodes F (o_vec enc_handle l) read_resume_table l.
Proof.
  intros [Hl Hn]. unfold read_resume_table. rewrite <- (map_id l) at 2. apply dec_list; [unfold MAX_WASM_HANDLERS; lia|unfold MAX_WASM_HANDLERS; lia|].
  eapply Forall_impl; [|exact Hl]. intros a. apply dec_handle.
Qed.
Lemma dec_pure {A B} o (d : R A) (k : A -> R B) a b : decodes F o_nil d a -> decodes F o (k a) b -> decodes F o (bind d k) b.
Proof. intros H1 H2. rewrite <- (oapp_nil_l o). eapply dec_bind; eauto. Qed.
(** The flags, label and heap types of a cast. *)
Lemma dec_cast d from to : in_u 32 d -> ref_ok from -> ref_ok to ->
  decodes F (o_byte (cast_flags from to) +++ encode_u32 d +++ enc_heap (er_heap from) +++ enc_heap (er_heap to)) read_cast (d, d_ref from, d_ref to).
Proof.
  intros Hd H1 H2. unfold read_cast. apply dec_get_pos. intros pos. apply dec_byte_bind; [destruct from as [[|] ?], to as [[|] ?]; byte|].
  eapply dec_bind; [apply dec_u32, Hd|]. cbv beta.
  apply dec_pure with (a := (er_null from, er_null to)).
  { destruct from as [[|] ?], to as [[|] ?]; apply dec_ret. }
  cbn [fst snd]. eapply dec_bind; [apply dec_heap, ref_ok_heap, H1|]. cbv beta. rewrite (d_ref_new from H1).
  eapply dec_pure; [apply dec_ret|]. cbv beta.
  rewrite <- (oapp_nil_r (enc_heap (er_heap to))). eapply dec_bind; [apply dec_heap, ref_ok_heap, H2|]. cbv beta. rewrite (d_ref_new to H2).
  eapply dec_pure; [apply dec_ret|]. apply dec_ret.
Qed.
(** The types of a [select]. *)
Lemma dec_vals_n l : Forall val_ok l -> decodes F (o_all enc_val l) (read_n (List.length l) read_val) (map d_val l).
Proof. intros H. apply dec_read_n. eapply Forall_impl; [|exact H]. intros v. apply dec_val. Qed.
End dec.

(** With the proposals fixed. *)
Section feat.
Context (ft : features).
Notation F := (eq ft).
Lemma dec_ask {B} o (d d' : R B) b : (forall r, r_feat r = ft -> d r = d' r) -> decodes F o d' b -> decodes F o d b.
Proof. intros H (bs & E & Hb & Hd). exists bs. repeat split; auto. intros rest pos off f <- Hr. rewrite H by reflexivity. apply Hd; auto. Qed.
Lemma dec_mem_idx i : imm_ok ft (IMemIdx i) -> decodes F (encode_u32 i) read_memory_index i.
Proof.
  cbn [imm_ok]. intros H. apply dec_ask with (d' := if f_multi_memory ft then read_var_u32 else zero_byte).
  - intros r <-. unfold read_memory_index. destruct (f_multi_memory _); reflexivity.
  - destruct (f_multi_memory ft); [apply dec_u32, H|]. subst i. change (encode_u32 0) with (o_byte 0). unfold zero_byte.
    apply (dec_ext F (o_byte 0) (let* b := read_u8 in if b =? 0 then ret 0 else fail_at "zero byte expected" 1)); [reflexivity|].
    rewrite <- (oapp_nil_r (o_byte 0)). apply dec_byte_bind; [byte|apply dec_ret].
Qed.
Lemma dec_call_table i : imm_ok ft (ICallTable i) -> decodes F (encode_u32 i) read_call_table i.
Proof.
  cbn [imm_ok]. intros H. apply dec_ask with (d' := if f_call_indirect_overlong ft then read_var_u32 else zero_byte).
  - intros r <-. unfold read_call_table. destruct (f_call_indirect_overlong _); reflexivity.
  - destruct (f_call_indirect_overlong ft); [apply dec_u32, H|]. subst i. change (encode_u32 0) with (o_byte 0). unfold zero_byte.
    rewrite <- (oapp_nil_r (o_byte 0)). apply dec_byte_bind; [byte|apply dec_ret].
Qed.
Lemma dec_off v : in_u (if f_memory64 ft then 64 else 32) v -> decodes F (encode_u64 v) read_limit v.
Proof.
  intros H. destruct (dec_limit (f_memory64 ft) v H) as (bs & E & Hb & Hd). exists bs. split; [exact E|]. split; [exact Hb|].
  intros rest pos off f <- Hr. apply Hd; [reflexivity|exact Hr].
Qed.
Lemma dec_memarg max m : memarg_ok ft m -> decodes F (enc_memarg m) (read_memarg max) (d_memarg max m).
Proof.
  destruct m as [o a mm]. unfold memarg_ok, enc_memarg, read_memarg, d_memarg. cbn [em_align em_offset em_memory]. intros (Ha & Ho & Hm).
  apply dec_get_pos. intros pos.
  assert (Ha6 : 0 <= a < 64) by (destruct (f_multi_memory ft); lia).
  destruct (bits6 a Ha6) as (B1 & B2 & B3 & B4).
  assert (Hfin : decodes F (encode_u64 o) (let* bits := fun r => Ok (if f_multi_memory (r_feat r) then 6 else 5, r) in
     if Z.shiftl 1 bits <=? fst (a, mm) then fail_pos "malformed memop alignment: alignment too large" pos
     else let* offset := read_limit in ret (mkPMem (wrapu 8 (fst (a, mm))) max offset (snd (a, mm)))) (mkPMem a max o mm)).
  { apply dec_ask with (d' := let* offset := read_limit in ret (mkPMem (wrapu 8 a) max offset mm)).
    - intros r <-. unfold bind at 1. cbn [fst snd]. destruct (Z.leb_spec (Z.shiftl 1 (if f_multi_memory (r_feat r) then 6 else 5)) a) as [Hc|Hc]; [|reflexivity].
      exfalso. destruct (f_multi_memory (r_feat r)); [change (Z.shiftl 1 6) with 64 in Hc|change (Z.shiftl 1 5) with 32 in Hc]; lia.
    - rewrite wrapu_id by (unfold in_u; lia). apply (dec_bind_ret F _ _ (fun x => mkPMem a max x mm)), dec_off, Ho. }
  destruct (Z.eqb_spec mm 0) as [->|Hz].
  - eapply dec_bind; [apply dec_u32; unfold in_u; lia|]. cbv beta.
    apply dec_pure with (a := (a, 0)); [|exact Hfin].
    apply dec_ask with (d' := ret (a, 0)); [|apply dec_ret]. intros r _. rewrite B4. cbn [Z.eqb negb]. rewrite andb_false_r. reflexivity.
  - destruct (f_multi_memory ft) eqn:Em; [|contradiction]. rewrite B1. eapply dec_bind; [apply dec_u32; unfold in_u; lia|]. cbv beta.
    eapply dec_bind with (a := (a, mm)); [|exact Hfin].
    apply dec_ask with (d' := let* m := read_var_u32 in ret (a, m)); [|apply (dec_bind_ret F _ _ (fun m => (a, m))), dec_u32, Hm].
    intros r <-. rewrite Em, B2, B3. reflexivity.
Qed.
Lemma dec_legacy {B} pos o (d : R B) b : f_legacy_exceptions ft = true -> decodes F o d b -> decodes F o (bind (require_legacy pos) (fun _ => d)) b.
Proof. intros H. apply dec_ask. intros r Hr. unfold bind, require_legacy. rewrite Hr, H. reflexivity. Qed.
End feat.

(** * Conversion recovers what was written *)
Lemma c_d_block b : block_ok b -> c_block (d_block b) = Some b.
Proof. destruct b; cbn [block_ok d_block c_block]; intros H; [reflexivity| |reflexivity]. rewrite c_d_val by exact H. reflexivity. Qed.
Lemma c_d_memarg max m : c_memarg (d_memarg max m) = Some m.
Proof. destruct m. reflexivity. Qed.
Lemma c_d_v128 v : in_s 128 v -> c_v128 (d_v128 v) = Some v.
Proof.
  intros H. unfold c_v128, d_v128. rewrite le_from. change (256 ^ Z.of_nat 16) with (2 ^ 128). f_equal.
  replace (v mod 2 ^ 128) with (v + (- (v / 2 ^ 128)) * 2 ^ 128) by (rewrite (Z.mod_eq v (2 ^ 128)) by lia; lia).
  rewrite wraps_cong by lia. apply wraps_id; [lia|exact H].
Qed.
Lemma all_some_id {A} (l : list A) : all_some (fun a => Some a) l = Some l.
Proof. induction l as [|a l IH]; [reflexivity|]. cbn. rewrite IH. reflexivity. Qed.
Lemma c_d_try b l : block_ok b -> c_try_table (d_try b l) = Some (b, l).
Proof. intros H. unfold c_try_table, d_try. cbn [pt_ty pt_catches]. rewrite c_d_block by exact H. unfold c_catch. rewrite all_some_id. reflexivity. Qed.
Lemma c_handles_id l : c_handles l = Some l.
Proof. apply all_some_id. Qed.
Lemma c_d_vals l : Forall val_ok l -> c_vals (map d_val l) = Some l.
Proof. apply c_d_list. apply c_d_val. Qed.
Lemma bytes_of_targets n l pb cnt d : cnt = zlen l -> n = List.length l ->
  (forall rest pos off ft, bytes_ok rest -> read_n n read_var_u32 (mkReader (pb ++ rest) pos off ft) = Ok (l, mkReader rest (pos + zlen pb) off ft)) ->
  br_targets (mkPBr pb cnt d) = Ok l.
Proof.
  intros -> -> H. unfold br_targets. cbn [pb_cnt pb_bytes]. unfold zlen at 1. rewrite Nat2Z.id. unfold bind, new_reader.
  specialize (H [] 0 0 all_features ltac:(constructor)). rewrite app_nil_r in H. rewrite H. reflexivity.
Qed.
Lemma br_targets_d l d : Forall (in_u 32) l -> br_targets (d_br l d) = Ok l.
Proof.
  intros Hl. unfold d_br. destruct (dec_read_n any_ft encode_u32 read_var_u32 (fun x => x) l) as (bs & E & Hb & Hd).
  { eapply Forall_impl; [|exact Hl]. intros a. apply dec_u32. }
  rewrite E. cbn [bytes_of]. eapply bytes_of_targets; [reflexivity|reflexivity|]. intros. rewrite map_id in Hd. apply Hd; [exact I|assumption].
Qed.
Lemma c_d_br l d : Forall (in_u 32) l -> c_br_table (d_br l d) = Some (l, d).
Proof. intros H. unfold c_br_table. rewrite br_targets_d by exact H. reflexivity. Qed.

(** * What the readers can return *)
(** Two branch tables with the same labels. *)
Definition same_br (a b : p_br_table) : Prop := exists l, br_targets a = Ok l /\ br_targets b = Ok l /\ pb_cnt a = pb_cnt b /\ pb_default a = pb_default b.
Lemma same_br_refl l d : Forall (in_u 32) l -> same_br (d_br l d) (d_br l d).
Proof. intros H. exists l. rewrite br_targets_d by exact H. auto. Qed.
Section yld.
Context (F : features -> Prop).
Notation yields := (yields F).
Lemma y_block : yields read_block (from block_ok d_block).
Proof.
  unfold read_block. eapply y_bind; [apply y_peek|]. intros b _. apply y_if; intros _.
  - apply y_if; intros _.
    + eapply y_bind; [apply y_u8|]. intros _ _. apply y_ret. exists EBEmpty. cbn. auto.
    + eapply y_bind; [apply y_val|]. intros v (v' & Hv & ->). apply y_ret. exists (EBResult v'). cbn. auto.
  - eapply y_bind; [apply y_s33|]. intros i _. destruct (is_u32 i) eqn:E; [|apply y_fail_at]. apply is_u32_spec in E. apply y_ret. exists (EBFunc i). cbn. auto.
Qed.
Lemma y_ordering : yields read_ordering (fun _ => True).
Proof. unfold read_ordering. eapply y_bind; [apply y_u32|]. intros b _. repeat (apply y_if; intros _; [apply y_ret; exact I|]). apply y_fail_at. Qed.
Lemma y_f32 : yields read_u32 (in_u 32).
Proof.
  unfold read_u32. eapply y_bind; [apply y_read_bytes; lia|]. intros s [Hs Hl]. apply y_ret. pose proof (from_le_range s Hs) as H. rewrite Hl in H. exact H.
Qed.
Lemma y_f64 : yields read_u64 (in_u 64).
Proof.
  unfold read_u64. eapply y_bind; [apply y_read_bytes; lia|]. intros s [Hs Hl]. apply y_ret. pose proof (from_le_range s Hs) as H. rewrite Hl in H. exact H.
Qed.
Lemma y_v128 : yields read_v128 (from (in_s 128) d_v128).
Proof.
  unfold read_v128. eapply y_weaken; [|apply y_read_bytes; lia]. intros s [Hs Hl]. exists (wraps 128 (from_le_bytes s)).
  split; [apply wraps_range; lia|]. unfold d_v128. assert (Hn : List.length s = 16%nat) by (unfold zlen in Hl; lia).
  rewrite <- (from_le s Hs) at 1. rewrite Hn.
  assert (Hk : exists k, wraps 128 (from_le_bytes s) = from_le_bytes s + k * 256 ^ Z.of_nat 16).
  { change (256 ^ Z.of_nat 16) with (2 ^ 128). unfold wraps.
    rewrite (Z.mod_eq _ (2 ^ 128)) by lia. destruct (_ <? _); [exists (- (from_le_bytes s / 2 ^ 128))|exists (- (from_le_bytes s / 2 ^ 128) - 1)]; lia. }
  destruct Hk as [k ->]. symmetry. apply le_mod.
Qed.
Lemma y_lane : yields read_lane is_byte.
Proof. apply y_u8. Qed.
Lemma y_lanes : yields read_lanes (fun l => bytes_ok l /\ zlen l = 16).
Proof. eapply y_weaken; [|apply y_read_n, y_u8]. intros l [H E]. split; [exact H|]. unfold zlen. rewrite E. reflexivity. Qed.
Lemma y_catch : yields read_catch catch_ok.
Proof.
  unfold read_catch. eapply y_bind; [apply y_u8|]. intros b _.
  repeat (apply y_if; intros _); try apply y_fail_at; eapply y_bind; try apply y_u32; intros t Ht; try (apply y_ret; exact Ht).
  all: eapply y_bind; [apply y_u32|]; intros l Hl; apply y_ret; split; assumption.
Qed.
Lemma y_handle : yields read_handle handle_ok.
Proof.
  unfold read_handle. eapply y_bind; [apply y_u8|]. intros b _.
  repeat (apply y_if; intros _); try apply y_fail_at; eapply y_bind; try apply y_u32; intros t Ht; try (apply y_ret; exact Ht).
  eapply y_bind; [apply y_u32|]; intros l Hl; apply y_ret; split; assumption.
Qed.
Lemma y_try : yields read_try_table (fun t => exists b l, block_ok b /\ (Forall catch_ok l /\ zlen l <= 10000) /\ t = d_try b l).
Proof.
  unfold read_try_table. eapply y_bind; [apply y_block|]. intros ty (b & Hb & ->). eapply y_bind; [apply y_list, y_catch|]. intros l Hl. apply y_ret.
  exists b, l. auto.
Qed.
Lemma y_handlers : yields read_resume_table (fun l => Forall handle_ok l /\ zlen l <= 10000).
Proof. apply y_list, y_handle. Qed.
Lemma y_vals n : yields (read_n n read_val) (fun l => exists l', Forall val_ok l' /\ l = map d_val l' /\ List.length l' = n).
Proof.
  eapply y_weaken; [|apply y_read_n, y_val]. intros l [H E]. apply from_list in H. destruct H as (l' & Hl & ->). exists l'. rewrite map_length in E. auto.
Qed.
Lemma y_cast : yields read_cast (fun x => exists d from to, in_u 32 d /\ ref_ok from /\ ref_ok to /\ x = (d, d_ref from, d_ref to)).
Proof.
  unfold read_cast. eapply y_bind; [apply y_get_pos|]. intros pos _. eapply y_bind; [apply y_u8|]. intros fl _. eapply y_bind; [apply y_u32|]. intros d Hd.
  eapply y_bind with (P := fun _ => True). { repeat (apply y_if; intros _; [apply y_ret; exact I|]). apply y_fail_pos. }
  intros nn _. eapply y_bind; [apply y_heap|]. intros h Hh. eapply y_bind; [apply y_ref_new, Hh|]. intros r1 (f & Hf & ->).
  eapply y_bind; [apply y_heap|]. intros h2 Hh2. eapply y_bind; [apply y_ref_new, Hh2|]. intros r2 (t & Ht & ->). apply y_ret. exists d, f, t. auto.
Qed.
Lemma read_n_u32_again n : forall r l r', bytes_ok (r_rem r) -> read_n n read_var_u32 r = Ok (l, r') ->
  exists bs, consumes r bs r' /\ (forall rest pos off ft, bytes_ok rest -> read_n n read_var_u32 (mkReader (bs ++ rest) pos off ft) = Ok (l, mkReader rest (pos + zlen bs) off ft)).
Proof.
  induction n as [|n IH]; intros r l r' Hr E; cbn [read_n] in E.
  - injection E as <- <-. exists []. split; [unfold consumes, zlen; cbn; repeat split; lia|]. intros. cbn [read_n app]. unfold ret. change (zlen (@nil Z)) with 0. rewrite Z.add_0_r. reflexivity.
  - unfold bind in E. destruct (read_var_u32 r) as [[v r1]|e] eqn:E1; [|discriminate]. pose proof E1 as E1'. apply u32_exact in E1; [|exact Hr]. destruct E1 as (b1 & Hu & Hc).
    assert (Hr1 : bytes_ok (r_rem r1)) by (eapply y_consumes; eauto).
    destruct (read_n n read_var_u32 r1) as [[l2 r2]|e] eqn:E2; [|discriminate]. injection E as <- <-. destruct (IH _ _ _ Hr1 E2) as (b2 & Hc2 & Hd).
    exists (b1 ++ b2). split.
    + destruct Hc as (C1 & C2 & C3 & C4), Hc2 as (D1 & D2 & D3 & D4). unfold consumes. rewrite C1, D1, D2, C2, zlen_app, <- app_assoc. repeat split; [lia|congruence|congruence].
    + intros rest pos off ft Hrest. cbn [read_n]. unfold bind. rewrite <- app_assoc.
      assert (Hb2 : bytes_ok b2). { destruct Hc2 as (C1 & _). rewrite C1 in Hr1. apply bytes_ok_app in Hr1. apply Hr1. }
      assert (H1 : read_var_u32 (mkReader (b1 ++ b2 ++ rest) pos off ft) = Ok (v, mkReader (b2 ++ rest) (pos + zlen b1) off ft)).
      { apply u32_exact. - cbn [r_rem]. apply bytes_ok_app. split; [eapply uN_bytes; exact Hu|]. apply bytes_ok_app. auto.
        - exists b1. split; [exact Hu|]. unfold consumes. cbn. auto. }
      rewrite H1, Hd by exact Hrest. unfold ret. rewrite zlen_app, Z.add_assoc. reflexivity.
Qed.
Lemma y_br : yields read_br_table (fun b => exists l d, (Forall (in_u 32) l /\ zlen l <= 7654321) /\ in_u 32 d /\ same_br b (d_br l d)).
Proof.
  unfold read_br_table. eapply y_bind; [apply y_size|]. intros n [Hn Hl].
  eapply y_bind with (P := fun bs => exists l, Forall (in_u 32) l /\ List.length l = Z.to_nat n /\
    (forall rest pos off ft, bytes_ok rest -> read_n (Z.to_nat n) read_var_u32 (mkReader (bs ++ rest) pos off ft) = Ok (l, mkReader rest (pos + zlen bs) off ft))).
  - intros r b r' Hf Hr E. unfold skip_raw in E. destruct (read_n _ _ r) as [[l r1]|e] eqn:E1; [|discriminate]. injection E as <- <-.
    destruct (y_read_n F (Z.to_nat n) read_var_u32 _ (y_u32 F) _ _ _ Hf Hr E1) as ((Hl1 & Hl2) & Hl3). split; [|exact Hl3].
    destruct (read_n_u32_again _ _ _ _ Hr E1) as (bs & (C1 & C2 & _) & Hd). exists l. repeat split; auto.
    rewrite C2. replace (r_pos r + zlen bs - r_pos r) with (zlen bs) by lia. replace (Z.to_nat (zlen bs)) with (List.length bs) by (unfold zlen; lia).
    rewrite C1, firstn_app, Nat.sub_diag, firstn_all, firstn_O, app_nil_r. exact Hd.
  - intros bs (l & H1 & H2 & H3). eapply y_bind; [apply y_u32|]. intros d Hd. apply y_ret. exists l, d.
    assert (Hz : n = zlen l) by (unfold zlen; rewrite H2; destruct Hn; lia).
    unfold MAX_WASM_BR_TABLE_SIZE in Hl. split; [split; [exact H1|lia]|]. split; [exact Hd|]. exists l. rewrite br_targets_d by exact H1. rewrite wrapu_id by exact Hn.
    split; [eapply bytes_of_targets; [exact Hz|symmetry; exact H2|exact H3]|]. split; [reflexivity|]. split; [exact Hz|reflexivity].
Qed.
End yld.
Section yfeat.
Context (ft : features).
Notation F := (eq ft).
Lemma y_ask {B} (d d' : R B) P : (forall r, r_feat r = ft -> d r = d' r) -> yields F d' P -> yields F d P.
Proof. intros H Hy r b r' Hf Hr E. rewrite H in E by auto. apply (Hy _ _ _ Hf Hr E). Qed.
Lemma y_zero : yields F zero_byte (fun i => i = 0).
Proof. unfold zero_byte. eapply y_bind; [apply y_u8|]. intros b _. apply y_if; intros _; [apply y_ret; reflexivity|apply y_fail_at]. Qed.
Lemma y_mem_idx : yields F read_memory_index (fun i => imm_ok ft (IMemIdx i)).
Proof.
  cbn [imm_ok]. apply y_ask with (d' := if f_multi_memory ft then read_var_u32 else zero_byte).
  - intros r <-. unfold read_memory_index. destruct (f_multi_memory _); reflexivity.
  - destruct (f_multi_memory ft); [apply y_u32|apply y_zero].
Qed.
Lemma y_call_table : yields F read_call_table (fun i => imm_ok ft (ICallTable i)).
Proof.
  cbn [imm_ok]. apply y_ask with (d' := if f_call_indirect_overlong ft then read_var_u32 else zero_byte).
  - intros r <-. unfold read_call_table. destruct (f_call_indirect_overlong _); reflexivity.
  - destruct (f_call_indirect_overlong ft); [apply y_u32|apply y_zero].
Qed.
Lemma y_off : yields F read_limit (in_u (if f_memory64 ft then 64 else 32)).
Proof.
  apply y_ask with (d' := if f_memory64 ft then read_var_u64 else read_var_u32).
  - intros r <-. unfold read_limit. destruct (f_memory64 _); reflexivity.
  - destruct (f_memory64 ft); [apply y_u64|apply y_u32].
Qed.
Lemma y_memarg max : yields F (read_memarg max) (from (memarg_ok ft) (d_memarg max)).
Proof.
  unfold read_memarg. eapply y_bind; [apply y_get_pos|]. intros pos _. eapply y_bind; [apply y_u32|]. intros fl Hfl.
  eapply y_bind with (P := fun x => 0 <= fst x /\ if f_multi_memory ft then in_u 32 (snd x) else snd x = 0).
  { apply y_ask with (d' := if f_multi_memory ft && negb (Z.land fl (Z.shiftl 1 6) =? 0) then let* m := read_var_u32 in ret (Z.lxor fl (Z.shiftl 1 6), m) else ret (fl, 0)).
    - intros r <-. reflexivity.
    - destruct (f_multi_memory ft); cbn [andb].
      + apply y_if; intros _; [eapply y_bind; [apply y_u32|]; intros m Hm; apply y_ret; cbn [fst snd]; split; [|exact Hm]|].
        * apply Z.lxor_nonneg. destruct Hfl. split; intros; [vm_compute; congruence|lia].
        * apply y_ret. cbn [fst snd]. destruct Hfl. split; [lia|]. unfold in_u. lia.
      + apply y_ret. cbn [fst snd]. destruct Hfl. split; [lia|reflexivity]. }
  intros [a m] [Ha Hm]. cbn [fst snd] in *.
  eapply y_bind with (P := fun b => b = if f_multi_memory ft then 6 else 5). { apply y_ask with (d' := ret (if f_multi_memory ft then 6 else 5)); [intros r <-; reflexivity|apply y_ret; reflexivity]. }
  intros bits ->. destruct (Z.leb_spec (Z.shiftl 1 (if f_multi_memory ft then 6 else 5)) a) as [|Hlt]; [apply y_fail_pos|].
  eapply y_bind; [apply y_off|]. intros o Ho. apply y_ret. exists (mkEMem o a m).
  assert (Hb : 0 <= a < (if f_multi_memory ft then 64 else 32)) by (destruct (f_multi_memory ft); [change (Z.shiftl 1 6) with 64 in Hlt|change (Z.shiftl 1 5) with 32 in Hlt]; lia).
  split; [unfold memarg_ok; cbn; auto|]. unfold d_memarg. cbn. rewrite wrapu_id; [reflexivity|]. unfold in_u. destruct (f_multi_memory ft); lia.
Qed.
Lemma y_legacy pos : yields F (require_legacy pos) (fun _ => f_legacy_exceptions ft = true).
Proof.
  apply y_ask with (d' := if f_legacy_exceptions ft then ret tt else fail_pos "legacy_exceptions feature required" pos).
  - intros r <-. unfold require_legacy. destruct (f_legacy_exceptions _); reflexivity.
  - destruct (f_legacy_exceptions ft); [apply y_ret; reflexivity|apply y_fail_pos].
Qed.
Lemma y_expect cur k : yields F (expect_frame cur k) (fun _ => in_frame cur k = true).
Proof. unfold expect_frame. apply y_if; intros E; [apply y_ret; exact E|apply y_fail_at]. Qed.
Lemma y_either cur a b : yields F (expect_either cur a b) (fun _ => in_frame cur a || in_frame cur b = true).
Proof. unfold expect_either. apply y_if; intros E; [apply y_ret; rewrite E; reflexivity|]. rewrite E. cbn [orb]. apply y_expect. Qed.
End yfeat.
