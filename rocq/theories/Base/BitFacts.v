(** Arithmetic facts about masks and shifts used throughout. *)
From Verif.Base Require Import Prelude.

Definition all_bytes : list Z := map Z.of_nat (seq 0 256).

Lemma byte_sweep (P : Z -> bool) :
  forallb P all_bytes = true -> forall b, 0 <= b < 256 -> P b = true.
Proof.
  intros H b Hb. rewrite forallb_forall in H. apply H.
  unfold all_bytes. rewrite in_map_iff. exists (Z.to_nat b).
  split; [lia|]. apply in_seq. lia.
Qed.

Lemma land_7f v : Z.land v 127 = v mod 128.
Proof. change 127 with (Z.ones 7). rewrite Z.land_ones by lia. reflexivity. Qed.

Lemma land_80 b : 0 <= b < 256 -> (Z.land b 128 =? 0) = (b <? 128).
Proof.
  intros Hb.
  apply (byte_sweep (fun b => Bool.eqb (Z.land b 128 =? 0) (b <? 128))) in Hb.
  - apply Bool.eqb_prop in Hb. exact Hb.
  - vm_compute. reflexivity.
Qed.

Lemma lor_add_shift a m s :
  0 <= s -> 0 <= a < 2 ^ s -> Z.lor a (m * 2 ^ s) = a + m * 2 ^ s.
Proof.
  intros Hs Ha.
  assert (L : Z.land a (m * 2 ^ s) = 0).
  { rewrite <- Z.shiftl_mul_pow2 by lia.
    apply Z.bits_inj'. intros n Hn. rewrite Z.land_spec, Z.bits_0.
    destruct (Z_lt_ge_dec n s).
    - rewrite Z.shiftl_spec_low by lia. apply andb_false_r.
    - destruct (Z.eq_dec a 0) as [->|Hz]; [rewrite Z.bits_0; reflexivity|].
      rewrite Z.bits_above_log2; [reflexivity|lia|].
      apply Z.lt_le_trans with s; [|lia]. apply Z.log2_lt_pow2; lia. }
  rewrite <- Z.lxor_lor by exact L. rewrite <- Z.add_nocarry_lxor by exact L.
  reflexivity.
Qed.

Lemma lor_80 b : 0 <= b < 128 -> Z.lor b 128 = b + 128.
Proof.
  intros Hb. change 128 with (1 * 2 ^ 7) at 1.
  rewrite lor_add_shift by lia. lia.
Qed.

Lemma wraps_id n x : 0 < n -> in_s n x -> wraps n x = x.
Proof.
  intros Hn [H1 H2]. unfold wraps.
  assert (E : 2 ^ n = 2 * 2 ^ (n - 1)).
  { replace n with (1 + (n - 1)) at 1 by lia. rewrite Z.pow_add_r by lia. reflexivity. }
  assert (0 < 2 ^ (n - 1)) by (apply Z.pow_pos_nonneg; lia).
  destruct (Z_lt_ge_dec x 0).
  - replace (x mod 2 ^ n) with (x + 2 ^ n).
    + destruct (Z.ltb_spec (x + 2 ^ n) (2 ^ (n - 1))); lia.
    + apply Z.mod_unique with (-1); lia.
  - rewrite Z.mod_small by lia. destruct (Z.ltb_spec x (2 ^ (n - 1))); lia.
Qed.

Lemma wraps_range n x : 0 < n -> in_s n (wraps n x).
Proof.
  intros Hn. unfold wraps, in_s.
  assert (E : 2 ^ n = 2 * 2 ^ (n - 1)).
  { replace n with (1 + (n - 1)) at 1 by lia. rewrite Z.pow_add_r by lia. reflexivity. }
  assert (0 < 2 ^ (n - 1)) by (apply Z.pow_pos_nonneg; lia).
  pose proof (Z.mod_pos_bound x (2 ^ n) ltac:(lia)).
  destruct (Z.ltb_spec (x mod 2 ^ n) (2 ^ (n - 1))); lia.
Qed.

Lemma wraps_cong n x k : 0 < n -> wraps n (x + k * 2 ^ n) = wraps n x.
Proof.
  intros. unfold wraps. rewrite Z.mod_add; [reflexivity|].
  apply Z.pow_nonzero; lia.
Qed.

Lemma wrapu_id n x : in_u n x -> wrapu n x = x.
Proof. intros. unfold wrapu. apply Z.mod_small. exact H. Qed.

Lemma wrapu_range n x : 0 <= n -> in_u n (wrapu n x).
Proof. intros. unfold wrapu, in_u. apply Z.mod_pos_bound. apply Z.pow_pos_nonneg; lia. Qed.

(** Sign extension of a [s]-bit value through an [n]-bit register:
    [(x << (n-s)) >> (n-s)]. *)
Lemma sign_extend n s x :
  0 < s <= n -> 0 <= x < 2 ^ s ->
  Z.shiftr (wraps n (Z.shiftl x (n - s))) (n - s)
  = if x <? 2 ^ (s - 1) then x else x - 2 ^ s.
Proof.
  intros Hs Hx.
  rewrite Z.shiftl_mul_pow2, Z.shiftr_div_pow2 by lia.
  assert (E : 2 ^ s = 2 * 2 ^ (s - 1)).
  { replace s with (1 + (s - 1)) at 1 by lia. rewrite Z.pow_add_r by lia. reflexivity. }
  assert (En : 2 ^ n = 2 ^ s * 2 ^ (n - s)).
  { rewrite <- Z.pow_add_r by lia. f_equal. lia. }
  assert (En1 : 2 ^ (n - 1) = 2 ^ (s - 1) * 2 ^ (n - s)).
  { rewrite <- Z.pow_add_r by lia. f_equal. lia. }
  assert (Hp : 0 < 2 ^ (n - s)) by (apply Z.pow_pos_nonneg; lia).
  assert (Hq : 0 < 2 ^ (s - 1)) by (apply Z.pow_pos_nonneg; lia).
  destruct (Z.ltb_spec x (2 ^ (s - 1))).
  - rewrite wraps_id; [|lia|unfold in_s; nia]. apply Z.div_mul. lia.
  - replace (x * 2 ^ (n - s)) with ((x - 2 ^ s) * 2 ^ (n - s) + 1 * 2 ^ n) by nia.
    rewrite wraps_cong by lia.
    rewrite wraps_id; [|lia|unfold in_s; nia]. apply Z.div_mul. lia.
Qed.
