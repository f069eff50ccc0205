(** The statements of [Properties.v], assembled from the lemmas. *)
From Verif.Base Require Import Prelude.
From Verif.Reader Require Import Model Spec Mono.
From Verif.Leb Require Import Model Top.
From Verif.Codec Require Import Kit Local.
From Verif.Types Require Import RefModel CodecModel CodecSpec CodecProofs EntityModel LocalTypes.
From Verif.Instr Require Import ImmModel ImmSpec ImmProofs Ops Sink Visit Convert Imms Den InstrProofs LocalInstr HonestInstr BodyModel BodySpec Nest BodyProofs AlignSpec.
From Coq Require Import Lia.

Lemma instr_reads ft cur i : instr_ok ft i -> frame_ok cur i -> reads_as (eq ft) enc_instr (visit_operator (Some cur)) c_op i.
Proof. intros Hi Hf. apply reads_as_intro with den; [apply dec_instr; assumption|apply (c_den ft), Hi]. Qed.
Lemma instr_rewrites ft cur r o r' : r_feat r = ft -> bytes_ok (r_rem r) -> visit_operator (Some cur) r = Ok (o, r') ->
  exists i bs o', c_op o = Some i /\ instr_ok ft i /\ frame_ok cur i /\ enc_instr i = Some bs /\ c_op o' = Some i /\ same_op o o' /\
  forall rest pos off, bytes_ok rest -> visit_operator (Some cur) (mkReader (bs ++ rest) pos off ft) = Ok (o', mkReader rest (pos + zlen bs) off ft).
Proof.
  intros Hf Hr E. destruct (y_instr ft cur r o r' (eq_sym Hf) Hr E) as ((i & C & Hi & Hk & Hs) & _). destruct (dec_instr ft i cur Hi Hk) as (bs & Eb & _ & D).
  exists i, bs, (den i). repeat (split; [first [assumption|apply (c_den ft), Hi]|]). intros. apply D; auto.
Qed.
Lemma map_c_den ft l : Forall (instr_ok ft) l -> all_some c_op (map den l) = Some l.
Proof. induction 1 as [|i l Hi _ IH]; [reflexivity|]. cbn [map all_some]. rewrite (c_den ft i Hi), IH. reflexivity. Qed.
Lemma expr_all ft l : expr_ok ft l -> Forall (instr_ok ft) l.
Proof. intros (b & -> & _ & H). apply Forall_app. split; [exact H|constructor; [exact I|constructor]]. Qed.
Lemma expr_reads ft l : expr_ok ft l -> exists bs ops, o_all enc_instr l = Some bs /\ all_some c_op ops = Some l /\
  forall pos off, read_expr (mkReader bs pos off ft) = Ok (ops, mkReader [] (pos + zlen bs) off ft).
Proof.
  intros H. destruct (expr_written ft l H) as (bs & E & _ & D). exists bs, (map den l). split; [exact E|]. split; [apply (map_c_den ft), (expr_all ft), H|]. apply D.
Qed.
Lemma expr_accepted ft r ops r' : r_feat r = ft -> bytes_ok (r_rem r) -> read_expr r = Ok (ops, r') ->
  exists l, expr_ok ft l /\ all_some c_op ops = Some l /\ r_rem r' = [].
Proof. intros Hf Hr E. destruct (expr_read ft r ops r' Hf Hr E) as (l & H1 & H2 & _ & H3 & _). eauto. Qed.
Lemma const_reads ft l : const_ok ft l -> exists bs, enc_const l = Some bs /\ c_const ft bs = Some l /\
  forall rest pos off, bytes_ok rest -> read_const (mkReader (bs ++ rest) pos off ft) = Ok (bs, mkReader rest (pos + zlen bs) off ft).
Proof.
  intros H. destruct (const_written ft l H) as (bs & E & _ & (bs' & Eb & _ & D) & C). injection Eb as <-. exists bs. repeat (split; [assumption|]). intros. apply D; auto.
Qed.
Lemma const_accepted ft r bytes r' : r_feat r = ft -> bytes_ok (r_rem r) -> read_const r = Ok (bytes, r') ->
  consumes r bytes r' /\ exists l bs, const_ok ft l /\ c_const ft bytes = Some l /\ enc_const l = Some bs /\ c_const ft bs = Some l.
Proof.
  intros Hf Hr E. destruct (const_read ft r bytes r' Hf Hr E) as (l & H1 & H2 & _ & H3 & _). split; [exact H3|].
  destruct (const_reads ft l H1) as (bs & E1 & E2 & _). exists l, bs. auto.
Qed.
Lemma sized_written bs : bytes_ok bs -> zlen bs < 2 ^ 32 -> exists b, o_sized (Some bs) = Some b /\ bytes_ok b /\
  forall rest pos off ft, bytes_ok rest -> read_body (mkReader (b ++ rest) pos off ft) = Ok (bs, mkReader rest (pos + zlen b) off ft).
Proof.
  intros Hb Hl. assert (D : decodes (fun _ => True) (o_sized (Some bs)) read_body bs).
  { unfold o_sized, read_body. eapply dec_bind; [apply dec_usize; unfold in_u; pose proof (zlen_nonneg bs); lia|]. apply dec_read_bytes, Hb. }
  destruct D as (b & E & Hbb & D). exists b. repeat (split; [assumption|]). intros. apply D; auto.
Qed.
Lemma func_reads ft f : func_ok ft f -> exists bs ls ops, func_bytes f = Some bs /\ bytes_ok bs /\ c_func ft bs = Some f /\
  all_some c_local ls = Some (ef_locals f) /\ all_some c_op ops = Some (ef_body f) /\
  (forall off, body_locals ft off bs = Ok ls /\ body_ops ft off bs = Ok ops) /\
  (zlen bs < 2 ^ 32 -> exists b, enc_func f = Some b /\
     forall rest pos off ft', bytes_ok rest -> read_body (mkReader (b ++ rest) pos off ft') = Ok (bs, mkReader rest (pos + zlen b) off ft')).
Proof.
  intros H. destruct (func_written ft f H) as (bs & E & Hb & C & D). destruct H as [Hl He]. exists bs, (map d_local (ef_locals f)), (map den (ef_body f)).
  repeat (split; [first [assumption|apply c_d_locals, Hl|apply (map_c_den ft), (expr_all ft), He]|]). intros Hz. unfold enc_func. rewrite E.
  destruct (sized_written bs Hb Hz) as (b & E1 & _ & D1). exists b. auto.
Qed.
Lemma func_accepted ft off bytes ls ops : bytes_ok bytes -> body_locals ft off bytes = Ok ls -> body_ops ft off bytes = Ok ops ->
  exists f, c_func ft bytes = Some f /\ func_ok ft f /\ all_some c_local ls = Some (ef_locals f) /\ all_some c_op ops = Some (ef_body f).
Proof.
  intros Hb E1 E2. destruct (func_read ft off bytes ls ops Hb E1 E2) as (f & C & H & -> & Hs). exists f. split; [exact C|]. split; [exact H|].
  destruct H as [Hl He]. split; [apply c_d_locals, Hl|]. clear -Hs He. pose proof (expr_all ft _ He) as Hi. clear He. revert ops Hs.
  induction Hi as [|i l Hi _ IH]; intros ops Hs; inversion Hs as [|o x ops' l' Ho Hs']; subst; [reflexivity|].
  cbn [all_some]. rewrite (IH _ Hs'). destruct Ho as [->|(x & y & -> & Ey & Hxy)]; [rewrite (c_den ft i Hi); reflexivity|].
  pose proof (c_den ft i Hi) as C. rewrite Ey in C. cbn [c_op] in *. unfold c_br_table in *. destruct Hxy as (l2 & X1 & X2 & X3 & X4). rewrite X1, X4. rewrite X2 in C. injection C as <-. reflexivity.
Qed.
Lemma align_den i m b : access (den i) = Some (m, b) -> b = 8 * 2 ^ pm_max_align m.
Proof. destruct i; cbn [den access]; intros H; try discriminate H; try (injection H as <- <-; reflexivity). all: revert H; unfold den; repeat match goal with |- context [match ?x with _ => _ end] => destruct x end; discriminate. Qed.
Lemma alignment ft cur r o r' m b : r_feat r = ft -> bytes_ok (r_rem r) -> visit_operator (Some cur) r = Ok (o, r') ->
  access o = Some (m, b) -> b = 8 * 2 ^ pm_max_align m.
Proof.
  intros Hf Hr E Ha. destruct (y_instr ft cur r o r' (eq_sym Hf) Hr E) as ((i & C & Hi & Hk & Hs) & _).
  destruct Hs as [->|(x & y & -> & _)]; [apply (align_den i), Ha|discriminate Ha].
Qed.
Lemma locals_of_types_ok l : zlen l < 2 ^ 32 -> exists g, locals_of_types l = Some g /\ spread g = l /\ grouped g /\ (Forall val_ok l -> locals_ok g).
Proof. intros H. destruct (locals_grouped l H) as (g & E & Es & Hg). exists g. repeat (split; [assumption|]). intros Hv. eapply locals_types_ok; eassumption. Qed.
Lemma local_readers :
  local read_var_u32 /\ local read_var_u64 /\ local read_var_i32 /\ local read_var_i64 /\ local read_var_s33 /\ local read_string /\
  local read_heap /\ local read_ref /\ local read_val /\ local read_sub /\ local read_rec /\ local read_table /\ local read_memory /\
  local read_global /\ local read_tag /\ local read_entity /\ local read_export /\ local read_imports /\ (forall cur, local (visit_operator cur)).
Proof.
  repeat split; [apply sim_u32|apply sim_u64|apply sim_i32|apply sim_i64|apply sim_s33|apply sim_string|apply sim_heap|apply sim_ref|apply sim_val|apply sim_sub|apply sim_rec|apply sim_table|apply sim_memory|apply sim_global|apply sim_tag|apply sim_entity|apply sim_export|apply sim_imports|intros cur; apply sim_operator].
Qed.
