(** Final lemmas behind Leb/Properties.v. *)
From Verif.Base Require Import Prelude BitFacts.
From Verif.Reader Require Import Model Spec Mono.
From Verif.Leb Require Import Spec Model Proofs ReaderProofs.

Lemma bytes_ok_app a b : bytes_ok (a ++ b) <-> bytes_ok a /\ bytes_ok b.
Proof. apply Forall_app. Qed.

Section U.
  Variables (m : R Z) (n : Z) (fuel : nat).
  Hypothesis Hn : 0 < n.
  Hypothesis Hfuel : n <= 7 * Z.of_nat (S fuel).
  Hypothesis Hm : u_char m n.

  Lemma u_roundtrip v : in_u n v ->
    exists bs, enc_u (S fuel) v = Some bs /\
      forall rest pos off ft, bytes_ok rest ->
        m (mkReader (bs ++ rest) pos off ft) = Ok (v, mkReader rest (pos + zlen bs) off ft).
  Proof.
    intros Hv. destruct (enc_u_total fuel v) as [bs E].
    { destruct Hv. split; [assumption|]. apply Z.lt_le_trans with (2 ^ n); [assumption|].
      apply Z.pow_le_mono_r; lia. }
    exists bs. split; [exact E|]. intros rest pos off ft Hr.
    pose proof (enc_u_correct _ _ _ _ E Hv Hn) as Hu.
    apply Hm.
    - cbn. apply bytes_ok_app. split; [|assumption]. eapply uN_bytes; eassumption.
    - exists bs. split; [exact Hu|]. repeat split.
  Qed.
End U.

Section S.
  Variables (m : R Z) (n : Z) (fuel : nat).
  Hypothesis Hn : 0 < n.
  Hypothesis Hfuel : n <= 7 * Z.of_nat (S fuel).
  Hypothesis Hm : s_char m n.

  Lemma s_roundtrip v : in_s n v ->
    exists bs, enc_s (S fuel) v = Some bs /\
      forall rest pos off ft, bytes_ok rest ->
        m (mkReader (bs ++ rest) pos off ft) = Ok (v, mkReader rest (pos + zlen bs) off ft).
  Proof.
    intros Hv. destruct (enc_s_total fuel v) as [bs E].
    { destruct Hv. assert (2 ^ (n - 1) <= 2 ^ (7 * Z.of_nat (S fuel) - 1))
        by (apply Z.pow_le_mono_r; lia). unfold in_s. lia. }
    exists bs. split; [exact E|]. intros rest pos off ft Hr.
    pose proof (enc_s_correct _ _ _ _ E Hv Hn) as Hu.
    apply Hm.
    - cbn. apply bytes_ok_app. split; [|assumption]. eapply sN_bytes; eassumption.
    - exists bs. split; [exact Hu|]. repeat split.
  Qed.
End S.

Lemma u32_roundtrip v : in_u 32 v ->
  exists bs, encode_u32 v = Some bs /\
    forall rest pos off ft, bytes_ok rest ->
      read_var_u32 (mkReader (bs ++ rest) pos off ft) = Ok (v, mkReader rest (pos + zlen bs) off ft).
Proof. apply u_roundtrip; [lia|lia|apply read_var_u32_char]. Qed.

Lemma u64_roundtrip v : in_u 64 v ->
  exists bs, encode_u64 v = Some bs /\
    forall rest pos off ft, bytes_ok rest ->
      read_var_u64 (mkReader (bs ++ rest) pos off ft) = Ok (v, mkReader rest (pos + zlen bs) off ft).
Proof. apply u_roundtrip; [lia|lia|apply read_var_u64_char]. Qed.

Lemma i32_roundtrip v : in_s 32 v ->
  exists bs, encode_s32 v = Some bs /\
    forall rest pos off ft, bytes_ok rest ->
      read_var_i32 (mkReader (bs ++ rest) pos off ft) = Ok (v, mkReader rest (pos + zlen bs) off ft).
Proof. apply s_roundtrip; [lia|lia|apply read_var_i32_char]. Qed.

Lemma i64_roundtrip v : in_s 64 v ->
  exists bs, encode_s64 v = Some bs /\
    forall rest pos off ft, bytes_ok rest ->
      read_var_i64 (mkReader (bs ++ rest) pos off ft) = Ok (v, mkReader rest (pos + zlen bs) off ft).
Proof. apply s_roundtrip; [lia|lia|apply read_var_i64_char]. Qed.

(** Indices are written as [i64] and read as [s33]. *)
Lemma s33_index_roundtrip v : in_u 32 v ->
  exists bs, encode_s64 v = Some bs /\
    forall rest pos off ft, bytes_ok rest ->
      read_var_s33 (mkReader (bs ++ rest) pos off ft) = Ok (v, mkReader rest (pos + zlen bs) off ft).
Proof.
  intros Hv. unfold in_u in Hv.
  destruct (enc_s_total 9 v) as [bs E].
  { unfold in_s. change (7 * Z.of_nat 10 - 1) with 69.
    assert (2 ^ 32 <= 2 ^ 69) by (apply pow2_le; lia). lia. }
  exists bs. split; [exact E|]. intros rest pos off ft Hr.
  pose proof (enc_s_correct _ _ _ 33 E ltac:(unfold in_s; change (33 - 1) with 32; lia) ltac:(lia)) as Hu.
  apply read_var_s33_char.
  - cbn. apply bytes_ok_app. split; [|assumption]. eapply sN_bytes; eassumption.
  - exists bs, v. split; [exact Hu|]. split; [repeat split|].
    destruct (Z.ltb_spec v 0); [lia|reflexivity].
Qed.

(** Short negative numbers (one to four bytes) are also read back exactly. *)
Lemma s33_short_roundtrip v : - 2 ^ 27 <= v < 2 ^ 32 ->
  exists bs, encode_s64 v = Some bs /\
    forall rest pos off ft, bytes_ok rest ->
      read_var_s33 (mkReader (bs ++ rest) pos off ft) = Ok (v, mkReader rest (pos + zlen bs) off ft).
Proof.
  intros Hv. destruct (Z_lt_ge_dec v 0); [|apply s33_index_roundtrip; unfold in_u; lia].
  destruct (enc_s_total 3 v) as [bs E].
  { unfold in_s. change (7 * Z.of_nat 4 - 1) with 27. lia. }
  assert (E10 : encode_s64 v = Some bs).
  { clear - E. assert (Mono : forall k v bs, enc_s k v = Some bs -> enc_s (S k) v = Some bs).
    { induction k as [|k IH]; intros v0 bs0 H0; [discriminate|].
      remember (S k) as k' eqn:Ek. cbn [enc_s]. subst k'. cbn [enc_s] in H0.
      destruct (_ || _); [exact H0|].
      destruct (enc_s k (Z.shiftr v0 7)) eqn:F; [|discriminate].
      rewrite (IH _ _ F). exact H0. }
    unfold encode_s64. do 6 apply Mono. exact E. }
  exists bs. split; [exact E10|]. intros rest pos off ft Hr.
  assert (Hin : in_s 28 v) by (unfold in_s; change (28 - 1) with 27; lia).
  pose proof (enc_s_correct _ _ _ 28 E Hin ltac:(lia)) as Hu28.
  pose proof (sN_length _ _ _ Hu28 ltac:(lia)) as Hl.
  assert (Hin' : in_s 33 v).
  { unfold in_s in *. change (28 - 1) with 27 in Hin. change (33 - 1) with 32.
    assert (2 ^ 27 <= 2 ^ 32) by (apply pow2_le; lia). lia. }
  pose proof (enc_s_correct _ _ _ 33 E Hin' ltac:(lia)) as Hu.
  apply read_var_s33_char.
  - cbn. apply bytes_ok_app. split; [|assumption]. eapply sN_bytes; eassumption.
  - exists bs, v. split; [exact Hu|]. split; [repeat split|].
    destruct (Z.eqb_spec (zlen bs) 5); [lia|]. rewrite andb_false_r. reflexivity.
Qed.

Lemma minimal_u32 v bs : in_u 32 v -> encode_u32 v = Some bs ->
  uN 32 bs v /\ zlen bs <= 5 /\ encoding_size v = Some (zlen bs) /\
  (forall n bs', uN n bs' v -> zlen bs <= zlen bs') /\
  (forall n bs', uN n bs' v -> zlen bs' = zlen bs -> bs' = bs).
Proof.
  intros Hv E. pose proof (enc_u_correct _ _ _ 32 E Hv ltac:(lia)) as Hu.
  pose proof (uN_length _ _ _ Hu ltac:(lia)).
  split; [exact Hu|]. split; [lia|].
  split; [unfold encoding_size; rewrite E; reflexivity|].
  split; [apply (enc_u_minimal _ _ _ E)|apply (enc_u_minimal_strict _ _ _ E)].
Qed.

Lemma minimal_u64 v bs : in_u 64 v -> encode_u64 v = Some bs ->
  uN 64 bs v /\ zlen bs <= 10 /\
  (forall n bs', uN n bs' v -> zlen bs <= zlen bs') /\
  (forall n bs', uN n bs' v -> zlen bs' = zlen bs -> bs' = bs).
Proof.
  intros Hv E. pose proof (enc_u_correct _ _ _ 64 E Hv ltac:(lia)) as Hu.
  pose proof (uN_length _ _ _ Hu ltac:(lia)).
  split; [exact Hu|]. split; [lia|].
  split; [apply (enc_u_minimal _ _ _ E)|apply (enc_u_minimal_strict _ _ _ E)].
Qed.

Lemma minimal_s32 v bs : in_s 32 v -> encode_s32 v = Some bs ->
  sN 32 bs v /\ zlen bs <= 5 /\ (forall n bs', sN n bs' v -> zlen bs <= zlen bs').
Proof.
  intros Hv E. pose proof (enc_s_correct _ _ _ 32 E Hv ltac:(lia)) as Hu.
  pose proof (sN_length _ _ _ Hu ltac:(lia)).
  split; [exact Hu|]. split; [lia|]. apply (enc_s_minimal _ _ _ E).
Qed.

Lemma minimal_s64 v bs : in_s 64 v -> encode_s64 v = Some bs ->
  sN 64 bs v /\ zlen bs <= 10 /\ (forall n bs', sN n bs' v -> zlen bs <= zlen bs').
Proof.
  intros Hv E. pose proof (enc_s_correct _ _ _ 64 E Hv ltac:(lia)) as Hu.
  pose proof (sN_length _ _ _ Hu ltac:(lia)).
  split; [exact Hu|]. split; [lia|]. apply (enc_s_minimal _ _ _ E).
Qed.

Lemma s33_refuted : exists bs rest v,
  sN 33 bs v /\
  (exists w r', read_var_s33 (mkReader (bs ++ rest) 0 0 all_features) = Ok (w, r') /\
                r_rem r' = rest /\ w <> v).
Proof.
  exists [255; 255; 255; 255; 127], [], (-1). split.
  - replace (-1) with (2 ^ 7 * (2 ^ 7 * (2 ^ 7 * (2 ^ 7 * (127 - 2 ^ 7) + (255 - 2 ^ 7)) + (255 - 2 ^ 7)) + (255 - 2 ^ 7)) + (255 - 2 ^ 7)) by (vm_compute; reflexivity).
    apply sN_more; [split; vm_compute; congruence|lia|].
    apply sN_more; [split; vm_compute; congruence|lia|].
    apply sN_more; [split; vm_compute; congruence|lia|].
    apply sN_more; [split; vm_compute; congruence|lia|].
    apply sN_neg; [split; vm_compute; congruence|vm_compute; congruence].
  - exists (2 ^ 35 - 1), (mkReader [] 5 0 all_features).
    split; [vm_compute; reflexivity|]. split; [reflexivity|]. vm_compute. congruence.
Qed.

Lemma u32_exact r v r' : bytes_ok (r_rem r) ->
  (read_var_u32 r = Ok (v, r') <-> exists bs, uN 32 bs v /\ consumes r bs r').
Proof. apply read_var_u32_char. Qed.
Lemma u64_exact r v r' : bytes_ok (r_rem r) ->
  (read_var_u64 r = Ok (v, r') <-> exists bs, uN 64 bs v /\ consumes r bs r').
Proof. apply read_var_u64_char. Qed.
Lemma i32_exact r v r' : bytes_ok (r_rem r) ->
  (read_var_i32 r = Ok (v, r') <-> exists bs, sN 32 bs v /\ consumes r bs r').
Proof. apply read_var_i32_char. Qed.
Lemma i64_exact r v r' : bytes_ok (r_rem r) ->
  (read_var_i64 r = Ok (v, r') <-> exists bs, sN 64 bs v /\ consumes r bs r').
Proof. apply read_var_i64_char. Qed.

(** What [uN] and [sN] mean, in closed form. *)
Fixpoint leb_digits (bs : list Z) : Z :=
  match bs with [] => 0 | b :: t => b mod 128 + 128 * leb_digits t end.

Lemma uN_value n bs v : uN n bs v -> v = leb_digits bs.
Proof.
  induction 1; cbn [leb_digits].
  - rewrite Z.mod_small by (change (2 ^ 7) with 128 in *; lia). lia.
  - change (2 ^ 7) with 128 in *. change (2 ^ 8) with 256 in *.
    rewrite mod128_hi by lia. lia.
Qed.

Lemma honest_varints :
  honest read_var_u32 /\ honest read_var_u64 /\ honest read_var_i32 /\
  honest read_var_i64 /\ honest read_var_s33.
Proof.
  split; [apply honest_read_var_u32|]. split; [apply honest_read_var_u64|].
  split; [apply honest_read_var_i32|]. split; [apply honest_read_var_i64|apply honest_read_var_s33].
Qed.

Lemma honest_fixed :
  honest read_u8 /\ honest peek /\ honest read_u7 /\ honest read_u32 /\ honest read_u64 /\
  (forall n, honest (read_bytes n)) /\
  (forall n, honest (peek_bytes n)) /\
  (forall n, honest (skip_bytes n)) /\
  (forall l d, honest (read_size l d)) /\
  honest read_string /\ honest read_unlimited_string /\ honest skip_string /\
  honest read_reader /\
  (forall A (item : R A), honest item -> forall l d, honest (read_list l d item)).
Proof.
  split; [apply honest_read_u8|]. split; [apply honest_peek|]. split; [apply honest_read_u7|].
  split; [apply honest_read_u32|]. split; [apply honest_read_u64|].
  split; [apply honest_read_bytes|]. split; [apply honest_peek_bytes|].
  split; [apply honest_skip_bytes|]. split; [apply honest_read_size|].
  split; [apply honest_read_string|]. split; [apply honest_read_unlimited_string|].
  split; [apply honest_skip_string|]. split; [apply honest_read_reader|].
  intros. apply honest_read_list. assumption.
Qed.
