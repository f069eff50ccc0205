From Verif.Base Require Import Prelude BitFacts.
From Verif.Reader Require Import Model.
From Verif.Leb Require Import Spec Model.

Lemma mod128_hi b : 128 <= b < 256 -> b mod 128 = b - 128.
Proof. intros. symmetry. apply Z.mod_unique with 1; lia. Qed.

Lemma mod128_range b : 0 <= b mod 128 < 128.
Proof. apply Z.mod_pos_bound. lia. Qed.

Lemma pow_split a b : 0 <= a -> 0 <= b -> 2 ^ (a + b) = 2 ^ a * 2 ^ b.
Proof. intros. apply Z.pow_add_r; lia. Qed.

Lemma pow2_pos a : 0 <= a -> 0 < 2 ^ a.
Proof. intros. apply Z.pow_pos_nonneg; lia. Qed.

Lemma pow2_le a b : 0 <= a <= b -> 2 ^ a <= 2 ^ b.
Proof. intros. apply Z.pow_le_mono_r; lia. Qed.

(** ** Specification facts *)

Lemma uN_bytes n bs v : uN n bs v -> bytes_ok bs.
Proof.
  induction 1; constructor; auto; unfold is_byte; lia.
Qed.

Lemma uN_range n bs v : uN n bs v -> 0 <= v < 2 ^ n.
Proof.
  induction 1.
  - lia.
  - replace (2 ^ n) with (2 ^ 7 * 2 ^ (n - 7))
      by (rewrite <- Z.pow_add_r by lia; f_equal; lia).
    lia.
Qed.

Lemma uN_nonempty n bs v : uN n bs v -> bs <> [].
Proof. destruct 1; discriminate. Qed.

Lemma sN_bytes n bs v : sN n bs v -> bytes_ok bs.
Proof. induction 1; constructor; auto; unfold is_byte; lia. Qed.

Lemma sN_range n bs v : sN n bs v -> in_s n v.
Proof.
  unfold in_s. induction 1.
  - split; [|lia]. assert (0 <= 2 ^ (n - 1)) by (apply Z.pow_nonneg; lia). lia.
  - split; [lia|]. assert (0 <= 2 ^ (n - 1)) by (apply Z.pow_nonneg; lia). lia.
  - replace (2 ^ (n - 1)) with (2 ^ 7 * 2 ^ (n - 7 - 1))
      by (rewrite <- Z.pow_add_r by lia; f_equal; lia).
    lia.
Qed.

Lemma uN_functional n bs v : uN n bs v -> forall n' v', uN n' bs v' -> v = v'.
Proof.
  induction 1; intros n' v' H'; inversion H'; subst; try lia.
  rewrite (IHuN _ _ ltac:(eassumption)). reflexivity.
Qed.

Lemma sN_functional n bs v : sN n bs v -> forall n' v', sN n' bs v' -> v = v'.
Proof.
  induction 1; intros n' v' H'; inversion H'; subst; try lia.
  rewrite (IHsN _ _ ltac:(eassumption)). reflexivity.
Qed.

(** Encodings are prefix-free: two encodings at the front of the same input are
    the same encoding. *)
Lemma uN_prefix_free n bs v : uN n bs v ->
  forall n' bs' v' r r', uN n' bs' v' -> bs ++ r = bs' ++ r' -> bs = bs'.
Proof.
  induction 1; intros n' bs' v' r r' H' E; inversion H'; subst; cbn in E;
    injection E as -> E; try lia; auto.
  f_equal. eapply IHuN; eauto.
Qed.

Lemma sN_prefix_free n bs v : sN n bs v ->
  forall n' bs' v' r r', sN n' bs' v' -> bs ++ r = bs' ++ r' -> bs = bs'.
Proof.
  induction 1; intros n' bs' v' r r' H' E; inversion H'; subst; cbn in E;
    injection E as -> E; try lia; auto.
  f_equal. eapply IHsN; eauto.
Qed.

Lemma digit_bounds b P acc : 0 <= b < 128 -> 0 <= acc < P ->
  0 <= b * P /\ b * P < P * 128 /\ 0 <= acc + b * P < P * 128.
Proof. intros. nia. Qed.

(** ** The unsigned loop *)

Section ULoop.
  Variables (bits thr : Z) (tl tg : string).
  (* the threshold tests exactly for "at most seven bits left" *)
  Hypothesis Hbits : 7 < bits.
  Hypothesis Hthr : thr = bits - 7.

  Lemma var_u_loop_sound l : forall pos off ft acc shift v r',
    bytes_ok l -> 0 <= shift -> 0 < bits - shift -> 0 <= acc < 2 ^ shift ->
    var_u_loop bits thr tl tg l pos off ft acc shift = Ok (v, r') ->
    exists bs m rest, l = bs ++ rest /\ uN (bits - shift) bs m /\
       v = acc + 2 ^ shift * m /\ r' = mkReader rest (pos + zlen bs) off ft.
  Proof.
    induction l as [|b t IH]; intros pos off ft acc shift v r' Hl Hs Hn Hacc; cbn [var_u_loop].
    { discriminate. }
    inversion Hl as [|? ? Hb Ht]; subst.
    unfold is_byte in Hb.
    rewrite land_7f, land_80 by lia. rewrite Z.shiftl_mul_pow2 by lia.
    pose proof (pow2_pos shift Hs) as Hp.
    pose proof (mod128_range b) as Hm128.
    destruct (Z.leb_spec (bits - 7) shift) as [Hge|Hlt]; cbn [andb].
    - rewrite Z.shiftr_div_pow2 by lia.
      destruct (Z.eqb_spec (b / 2 ^ (bits - shift)) 0) as [E0|]; cbn [negb];
        [|destruct (b <? 128); discriminate].
      pose proof (pow2_pos (bits - shift) ltac:(lia)) as Hq.
      assert (Hblt : b < 2 ^ (bits - shift)).
      { destruct (Z_lt_ge_dec b (2 ^ (bits - shift))); [assumption|].
        assert (1 <= b / 2 ^ (bits - shift)) by (apply Z.div_le_lower_bound; lia). lia. }
      assert (2 ^ (bits - shift) <= 2 ^ 7) by (apply pow2_le; lia).
      change (2 ^ 7) with 128 in *.
      destruct (Z.ltb_spec b 128); [|lia].
      intros [= <- <-]. exists [b], b, t. split; [reflexivity|].
      split; [apply uN_last; change (2 ^ 7) with 128; lia|]. split; [|reflexivity].
      rewrite Z.mod_small by lia.
      unfold wrapu. rewrite Z.mod_small.
      + rewrite lor_add_shift by lia. lia.
      + split; [nia|]. replace bits with (shift + (bits - shift)) by lia.
        rewrite Z.pow_add_r by lia. nia.
    - assert (H7 : 2 ^ (shift + 7) = 2 ^ shift * 128) by (rewrite Z.pow_add_r by lia; reflexivity).
      assert (H8 : 2 ^ (shift + 7) <= 2 ^ bits) by (apply pow2_le; lia).
      assert (Ew : wrapu bits (b mod 128 * 2 ^ shift) = b mod 128 * 2 ^ shift).
      { apply wrapu_id. unfold in_u. nia. }
      rewrite Ew, lor_add_shift by lia.
      destruct (Z.ltb_spec b 128) as [Hlo|Hhi].
      + intros [= <- <-]. exists [b], b, t. split; [reflexivity|].
        assert (2 ^ 7 <= 2 ^ (bits - shift)) by (apply pow2_le; lia).
        split; [apply uN_last; change (2 ^ 7) with 128 in *; lia|].
        split; [|reflexivity]. rewrite Z.mod_small by lia. lia.
      + intros H. apply IH in H; [|assumption|lia|lia|nia].
        destruct H as (bs & m & rest & -> & Hu & -> & ->).
        exists (b :: bs), (2 ^ 7 * m + (b - 2 ^ 7)), rest.
        split; [reflexivity|]. split.
        * apply uN_more; [change (2^7) with 128; change (2^8) with 256; lia|lia|].
          replace (bits - shift - 7) with (bits - (shift + 7)) by lia. exact Hu.
        * split; [|rewrite zlen_cons; f_equal; lia].
          rewrite H7. change (2 ^ 7) with 128.
          pose proof (mod128_hi b ltac:(lia)). nia.
  Qed.

  Lemma var_u_loop_complete n bs m : uN n bs m ->
    forall rest pos off ft acc shift,
    n = bits - shift -> 0 <= shift -> 0 < n -> 0 <= acc < 2 ^ shift ->
    var_u_loop bits thr tl tg (bs ++ rest) pos off ft acc shift
      = Ok (acc + 2 ^ shift * m, mkReader rest (pos + zlen bs) off ft).
  Proof.
    induction 1 as [n b Hb1 Hb2|n b bs m Hb Hn7 Hu IH];
      intros rest pos off ft acc shift -> Hs Hn Hacc; cbn [var_u_loop app];
      change (2 ^ 7) with 128 in *; change (2 ^ 8) with 256 in *;
      rewrite land_7f, land_80 by lia; rewrite Z.shiftl_mul_pow2 by lia;
      pose proof (pow2_pos shift Hs) as Hp.
    - destruct (Z.ltb_spec b 128); [|lia]. rewrite Z.mod_small by lia.
      assert (Hle : 0 <= b * 2 ^ shift < 2 ^ bits).
      { split; [nia|]. replace bits with (shift + (bits - shift)) by lia.
        rewrite Z.pow_add_r by lia. nia. }
      rewrite wrapu_id by exact Hle. rewrite lor_add_shift by lia.
      rewrite Z.shiftr_div_pow2 by lia. rewrite Z.div_small by lia.
      rewrite Z.eqb_refl. cbn [negb]. rewrite andb_false_r.
      rewrite (Z.mul_comm b). reflexivity.
    - destruct (Z.leb_spec thr shift); [lia|]. cbn [andb].
      destruct (Z.ltb_spec b 128); [lia|].
      assert (H7 : 2 ^ (shift + 7) = 2 ^ shift * 128) by (rewrite Z.pow_add_r by lia; reflexivity).
      assert (H8 : 2 ^ (shift + 7) <= 2 ^ bits) by (apply pow2_le; lia).
      rewrite wrapu_id by (unfold in_u; nia).
      rewrite lor_add_shift by lia.
      pose proof (mod128_hi b ltac:(lia)).
      rewrite IH; [|lia|lia|lia|nia].
      rewrite zlen_cons. f_equal. f_equal; [rewrite H7; nia|f_equal; lia].
  Qed.
End ULoop.

(** ** The signed loop *)

(** What [read_var_s33] does to a five-byte negative number: the accumulator is
    not sign extended, so [2^35] is added. *)
Definition s_adjust (bits mbits thr shift : Z) (bs : list Z) (m : Z) : Z :=
  if (bits <? mbits) && (m <? 0) && (thr <=? shift + 7 * (zlen bs - 1))
  then 2 ^ (shift + 7 * zlen bs) else 0.

Lemma shl_i8_test b k : 0 <= b < 128 -> 1 <= k <= 7 ->
  let s := Z.shiftr (wraps 8 (wrapu 8 (Z.shiftl b 1))) k in
  (s = 0 <-> (b < 64 /\ b < 2 ^ (k - 1))) /\
  (s = -1 <-> (64 <= b /\ 128 - 2 ^ (k - 1) <= b)).
Proof.
  intros Hb Hk s.
  assert (Hs : s = (if b <? 64 then 2 * b else 2 * b - 256) / 2 ^ k).
  { unfold s. rewrite Z.shiftr_div_pow2 by lia. f_equal.
    rewrite Z.shiftl_mul_pow2 by lia. change (2 ^ 1) with 2.
    rewrite wrapu_id by (unfold in_u; change (2 ^ 8) with 256; lia).
    unfold wraps. change (2 ^ 8) with 256. change (2 ^ (8 - 1)) with 128.
    rewrite Z.mod_small by lia.
    destruct (Z.ltb_spec (b * 2) 128), (Z.ltb_spec b 64); lia. }
  assert (E : 2 ^ k = 2 * 2 ^ (k - 1)).
  { replace k with (1 + (k - 1)) at 1 by lia. rewrite Z.pow_add_r by lia. reflexivity. }
  assert (P1 : 2 ^ (k - 1) <= 2 ^ 6) by (apply pow2_le; lia). change (2 ^ 6) with 64 in P1.
  pose proof (pow2_pos (k - 1) ltac:(lia)) as P0.
  rewrite Hs, E. clear Hs E s. remember (2 ^ (k - 1)) as q eqn:Eq. clear Eq.
  destruct (Z.ltb_spec b 64).
  - split; split; intros; try lia; try nia.
  - split; split; intros; try lia; try nia.
Qed.

Section SLoop.
  Variables (bits mbits thr : Z) (tl tg : string).
  Hypothesis Hbits : 7 < bits <= mbits.
  Hypothesis Hmb : bits < mbits -> bits + 7 <= mbits.
  (* for shifts that are multiples of seven, the threshold says "at most seven
     bits left" *)
  Hypothesis Hthr : forall k, 0 <= k -> (thr <= 7 * k <-> bits - 7 * k <= 7).

  (* the byte that ends the encoding once the threshold is reached *)
  Lemma last_byte shift b :
    0 <= shift -> 1 <= bits - shift <= 7 -> 0 <= b < 128 ->
    (exists m, sN (bits - shift) [b] m) <->
    (let s := Z.shiftr (wraps 8 (wrapu 8 (Z.shiftl b 1))) (bits - shift) in
     (s =? 0) || (s =? -1) = true).
  Proof.
    intros Hs Hn Hb. pose proof (shl_i8_test b (bits - shift) Hb Hn) as T.
    cbv zeta in *. destruct T as [T0 T1].
    change 64 with (2 ^ 6) in *. change 128 with (2 ^ 7) in *.
    rewrite orb_true_iff, !Z.eqb_eq. split.
    - intros [m H]. inversion H; subst.
      + left. apply T0. lia.
      + right. apply T1. lia.
      + match goal with H : sN _ [] _ |- _ => inversion H end.
    - intros [H|H].
      + apply T0 in H. exists b. apply sN_pos; lia.
      + apply T1 in H. exists (b - 2 ^ 7). apply sN_neg; lia.
  Qed.

  Lemma last_value shift b m acc :
    0 <= shift -> 1 <= bits - shift <= 7 -> 0 <= acc < 2 ^ shift ->
    sN (bits - shift) [b] m ->
    Z.lor acc (wraps mbits (b * 2 ^ shift)) =
    acc + 2 ^ shift * m + (if (bits <? mbits) && (m <? 0) then 2 ^ (shift + 7) else 0).
  Proof.
    intros Hs Hn Hacc H. pose proof (pow2_pos shift Hs) as Hp.
    assert (H7 : 2 ^ (shift + 7) = 2 ^ shift * 128) by (rewrite Z.pow_add_r by lia; reflexivity).
    assert (Hm : 2 ^ (bits - 1) = 2 ^ shift * 2 ^ (bits - shift - 1)).
    { rewrite <- Z.pow_add_r by lia. f_equal. lia. }
    inversion H; subst; change (2 ^ 7) with 128 in *; change (2 ^ 6) with 64 in *;
      [| |match goal with H : sN _ [] _ |- _ => inversion H end].
    - assert (2 ^ (bits - 1) <= 2 ^ (mbits - 1)) by (apply pow2_le; lia).
      rewrite wraps_id by (unfold in_s; nia || lia).
      rewrite lor_add_shift by lia.
      destruct (Z.ltb_spec m 0); [lia|]. rewrite andb_false_r. lia.
    - destruct (Z.ltb_spec (b - 128) 0); [|lia]. rewrite andb_true_r.
      destruct (Z.ltb_spec bits mbits).
      + specialize (Hmb ltac:(assumption)).
        assert (2 ^ (shift + 7) <= 2 ^ (mbits - 1)) by (apply pow2_le; lia).
        rewrite wraps_id by (unfold in_s; nia || lia).
        rewrite lor_add_shift by lia. nia.
      + assert (bits = mbits) by lia. subst mbits.
        assert (Hk : 2 ^ (shift + 7) = 2 ^ (7 - (bits - shift)) * 2 ^ bits).
        { rewrite <- Z.pow_add_r by lia. f_equal. lia. }
        replace (b * 2 ^ shift) with ((b - 128) * 2 ^ shift + 2 ^ (7 - (bits - shift)) * 2 ^ bits) by nia.
        rewrite wraps_cong by lia.
        rewrite wraps_id by (unfold in_s; nia || lia).
        rewrite lor_add_shift by lia. nia.
  Qed.

  (* a byte below the threshold: sign extension *)
  Lemma mid_value shift b m acc :
    0 <= shift -> 7 < bits - shift -> 0 <= acc < 2 ^ shift -> 0 <= b < 128 ->
    sN (bits - shift) [b] m ->
    Z.shiftr (wraps mbits (Z.shiftl (acc + b * 2 ^ shift) (mbits - (shift + 7)))) (mbits - (shift + 7))
    = acc + 2 ^ shift * m.
  Proof.
    intros Hs Hn Hacc Hb H.
    assert (H7 : 2 ^ (shift + 7) = 2 ^ shift * 128) by (rewrite Z.pow_add_r by lia; reflexivity).
    assert (H6 : 2 ^ (shift + 7 - 1) = 2 ^ shift * 64).
    { replace (shift + 7 - 1) with (shift + 6) by lia. rewrite Z.pow_add_r by lia. reflexivity. }
    pose proof (pow2_pos shift Hs) as Hp.
    rewrite sign_extend by nia. rewrite H6, H7.
    inversion H; subst; change (2 ^ 7) with 128 in *; change (2 ^ 6) with 64 in *;
      [| |match goal with H : sN _ [] _ |- _ => inversion H end].
    - destruct (Z.ltb_spec (acc + m * 2 ^ shift) (2 ^ shift * 64)); nia.
    - destruct (Z.ltb_spec (acc + b * 2 ^ shift) (2 ^ shift * 64)); nia.
  Qed.

  Lemma mid_exists shift b : 7 < bits - shift -> 0 <= b < 128 ->
    exists m, sN (bits - shift) [b] m.
  Proof.
    intros Hn Hb. assert (2 ^ 7 <= 2 ^ (bits - shift - 1)) by (apply pow2_le; lia).
    destruct (Z_lt_ge_dec b 64).
    - exists b. apply sN_pos; change (2 ^ 6) with 64; change (2 ^ 7) with 128 in *; lia.
    - exists (b - 2 ^ 7). apply sN_neg; change (2 ^ 6) with 64; change (2 ^ 7) with 128 in *; lia.
  Qed.

  Lemma var_s_loop_sound l : forall pos off ft acc k v r',
    bytes_ok l -> 0 <= k -> 0 < bits - 7 * k -> 0 <= acc < 2 ^ (7 * k) ->
    var_s_loop bits mbits thr tl tg l pos off ft acc (7 * k) = Ok (v, r') ->
    exists bs m rest, l = bs ++ rest /\ sN (bits - 7 * k) bs m /\
       v = acc + 2 ^ (7 * k) * m + s_adjust bits mbits thr (7 * k) bs m /\
       r' = mkReader rest (pos + zlen bs) off ft.
  Proof.
    induction l as [|b t IH]; intros pos off ft acc k v r' Hl Hk Hn Hacc; cbn [var_s_loop].
    { discriminate. }
    inversion Hl as [|? ? Hb Ht]; subst. unfold is_byte in Hb.
    rewrite land_7f, land_80 by lia. rewrite (Z.shiftl_mul_pow2 (b mod 128)) by lia.
    pose proof (pow2_pos (7 * k) ltac:(lia)) as Hp.
    pose proof (Hthr k Hk) as Ht7.
    pose proof (mod128_range b) as Hm128.
    destruct (Z.leb_spec thr (7 * k)) as [Hge|Hlt].
    - destruct (Z.ltb_spec b 128) as [Hlo|Hhi]; cbn [negb orb]; [|discriminate].
      pose proof (proj2 (last_byte (7 * k) b ltac:(lia) ltac:(lia) ltac:(lia))) as Hex.
      cbv zeta in Hex. revert Hex.
      set (s := Z.shiftr _ (bits - 7 * k)).
      destruct (Z.eqb_spec s 0) as [E0|E0], (Z.eqb_spec s (-1)) as [E1|E1]; cbn [negb andb orb];
        intros Hex; try (intros; discriminate);
        specialize (Hex eq_refl); destruct Hex as [m Hm];
        intros [= <- <-]; exists [b], m, t;
        (split; [reflexivity|]; split; [exact Hm|]; split; [|reflexivity]);
        rewrite (Z.mod_small b 128) by lia;
        rewrite (last_value (7 * k) b m acc) by (assumption || lia);
        unfold s_adjust; change (zlen [b]) with 1;
        replace (7 * k + 7 * (1 - 1)) with (7 * k) by lia;
        (destruct (Z.leb_spec thr (7 * k)); [|lia]); rewrite andb_true_r; reflexivity.
    - assert (H7 : 2 ^ (7 * k + 7) = 2 ^ (7 * k) * 128) by (rewrite Z.pow_add_r by lia; reflexivity).
      assert (H8 : 2 ^ (7 * k + 7) <= 2 ^ (mbits - 1)) by (apply pow2_le; lia).
      pose proof (digit_bounds (b mod 128) _ acc (mod128_range b) Hacc) as Hdb.
      rewrite (wraps_id mbits (b mod 128 * 2 ^ (7 * k))) by (unfold in_s; lia).
      rewrite lor_add_shift by lia.
      destruct (Z.ltb_spec b 128) as [Hlo|Hhi].
      + intros [= <- <-].
        destruct (mid_exists (7 * k) b ltac:(lia) ltac:(lia)) as [m Hm].
        exists [b], m, t. split; [reflexivity|]. split; [exact Hm|]. split; [|reflexivity].
        rewrite (Z.mod_small b 128) by lia. rewrite (mid_value (7 * k) b m acc) by (assumption || lia).
        unfold s_adjust. change (zlen [b]) with 1.
        destruct (Z.leb_spec thr (7 * k + 7 * (1 - 1))); [lia|]. rewrite andb_false_r. lia.
      + intros H. replace (7 * k + 7) with (7 * (k + 1)) in * by lia.
        apply IH in H; [|assumption|lia|lia|lia].
        destruct H as (bs & m & rest & -> & Hu & -> & ->).
        exists (b :: bs), (2 ^ 7 * m + (b - 2 ^ 7)), rest.
        split; [reflexivity|]. split.
        * apply sN_more; [change (2^7) with 128; change (2^8) with 256; lia|lia|].
          replace (bits - 7 * k - 7) with (bits - 7 * (k + 1)) by lia. exact Hu.
        * split; [|rewrite zlen_cons; f_equal; lia].
          unfold s_adjust. rewrite zlen_cons.
          replace (7 * k + 7 * (1 + zlen bs - 1)) with (7 * (k + 1) + 7 * (zlen bs - 1)) by lia.
          replace (7 * k + 7 * (1 + zlen bs)) with (7 * (k + 1) + 7 * zlen bs) by lia.
          change (2 ^ 7) with 128.
          replace (128 * m + (b - 128) <? 0) with (m <? 0) by lia.
          pose proof (mod128_hi b ltac:(lia)).
          rewrite H7. nia.
  Qed.

  Lemma var_s_loop_complete n bs m : sN n bs m ->
    forall rest pos off ft acc k,
    n = bits - 7 * k -> 0 <= k -> 0 < n -> 0 <= acc < 2 ^ (7 * k) ->
    var_s_loop bits mbits thr tl tg (bs ++ rest) pos off ft acc (7 * k)
      = Ok (acc + 2 ^ (7 * k) * m + s_adjust bits mbits thr (7 * k) bs m,
            mkReader rest (pos + zlen bs) off ft).
  Proof.
    assert (Base : forall n b m, sN n [b] m -> 0 <= b < 128 ->
      forall rest pos off ft acc k,
      n = bits - 7 * k -> 0 <= k -> 0 < n -> 0 <= acc < 2 ^ (7 * k) ->
      var_s_loop bits mbits thr tl tg ([b] ++ rest) pos off ft acc (7 * k)
      = Ok (acc + 2 ^ (7 * k) * m + s_adjust bits mbits thr (7 * k) [b] m,
            mkReader rest (pos + zlen [b]) off ft)).
    { intros n0 b m' Hm Hb rest pos off ft acc k -> Hk Hn Hacc. cbn [var_s_loop app].
      rewrite land_7f, land_80 by lia. rewrite (Z.shiftl_mul_pow2 (b mod 128)) by lia.
      pose proof (pow2_pos (7 * k) ltac:(lia)) as Hp.
      pose proof (Hthr k Hk) as Ht7.
      destruct (Z.ltb_spec b 128); [|lia]. cbn [negb orb].
      destruct (Z.leb_spec thr (7 * k)) as [Hge|Hlt].
      - pose proof (proj1 (last_byte (7 * k) b ltac:(lia) ltac:(lia) ltac:(lia))
                      (ex_intro _ m' Hm)) as Hex.
        cbv zeta in Hex. rewrite <- negb_orb, Hex. cbn [negb].
        rewrite (Z.mod_small b 128) by lia.
        rewrite (last_value (7 * k) b m' acc) by (assumption || lia).
        unfold s_adjust. change (zlen [b]) with 1.
        replace (7 * k + 7 * (1 - 1)) with (7 * k) by lia.
        destruct (Z.leb_spec thr (7 * k)); [|lia]. rewrite andb_true_r.
        replace (7 * k + 7 * 1) with (7 * k + 7) by lia. f_equal.
      - assert (H7 : 2 ^ (7 * k + 7) = 2 ^ (7 * k) * 128) by (rewrite Z.pow_add_r by lia; reflexivity).
        assert (H8 : 2 ^ (7 * k + 7) <= 2 ^ (mbits - 1)) by (apply pow2_le; lia).
        pose proof (digit_bounds (b mod 128) _ acc (mod128_range b) Hacc) as Hdb.
        rewrite (wraps_id mbits (b mod 128 * 2 ^ (7 * k))) by (unfold in_s; lia).
        rewrite lor_add_shift by lia. rewrite (Z.mod_small b 128) by lia.
        rewrite (mid_value (7 * k) b m' acc) by (assumption || lia).
        unfold s_adjust. change (zlen [b]) with 1.
        destruct (Z.leb_spec thr (7 * k + 7 * (1 - 1))); [lia|]. rewrite andb_false_r.
        f_equal. f_equal. lia. }
    induction 1 as [n b Hb1 Hb2|n b Hb1 Hb2|n b bs m Hb Hn7 Hu IH];
      intros rest pos off ft acc k En Hk Hn Hacc.
    - apply Base with n; auto; [apply sN_pos; assumption|].
      change (2 ^ 6) with 64 in *; lia.
    - apply Base with n; auto; [apply sN_neg; assumption|].
      change (2 ^ 6) with 64 in *; change (2 ^ 7) with 128 in *; lia.
    - subst n. cbn [var_s_loop app].
      change (2 ^ 7) with 128 in *; change (2 ^ 8) with 256 in *.
      rewrite land_7f, land_80 by lia. rewrite (Z.shiftl_mul_pow2 (b mod 128)) by lia.
      pose proof (pow2_pos (7 * k) ltac:(lia)) as Hp.
      pose proof (Hthr k Hk) as Ht7.
      destruct (Z.leb_spec thr (7 * k)); [lia|].
      destruct (Z.ltb_spec b 128); [lia|].
      assert (H7 : 2 ^ (7 * k + 7) = 2 ^ (7 * k) * 128) by (rewrite Z.pow_add_r by lia; reflexivity).
      assert (H8 : 2 ^ (7 * k + 7) <= 2 ^ (mbits - 1)) by (apply pow2_le; lia).
      pose proof (digit_bounds (b mod 128) _ acc (mod128_range b) Hacc) as Hdb.
      rewrite (wraps_id mbits (b mod 128 * 2 ^ (7 * k))) by (unfold in_s; lia).
      rewrite lor_add_shift by lia.
      replace (7 * k + 7) with (7 * (k + 1)) in * by lia.
      rewrite IH; [|lia|lia|lia|lia].
      unfold s_adjust. rewrite zlen_cons.
      replace (7 * k + 7 * (1 + zlen bs - 1)) with (7 * (k + 1) + 7 * (zlen bs - 1)) by lia.
      replace (7 * k + 7 * (1 + zlen bs)) with (7 * (k + 1) + 7 * zlen bs) by lia.
      replace (128 * m + (b - 128) <? 0) with (m <? 0) by lia.
      pose proof (mod128_hi b ltac:(lia)).
      rewrite H7. f_equal. f_equal; [nia|f_equal; lia].
  Qed.
End SLoop.
