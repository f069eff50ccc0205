From Verif.Base Require Import Prelude BitFacts.
From Verif.Reader Require Import Model Spec.
From Verif.Leb Require Import Spec Model Proofs.

Lemma consumes_eq r bs rest :
  r_rem r = bs ++ rest ->
  consumes r bs (mkReader rest (r_pos r + zlen bs) (r_off r) (r_feat r)).
Proof. intros. repeat split; assumption. Qed.

Lemma consumes_inv r bs r' : consumes r bs r' ->
  r_rem r = bs ++ r_rem r' /\
  r' = mkReader (r_rem r') (r_pos r + zlen bs) (r_off r) (r_feat r).
Proof.
  destruct r' as [a b c d]. unfold consumes. cbn. intros (H1 & H2 & H3 & H4). subst. auto.
Qed.

Definition as_u_loop (bits thr : Z) (tl tg : string) (r : reader) :=
  var_u_loop bits thr tl tg (r_rem r) (r_pos r) (r_off r) (r_feat r) 0 0.
Definition as_s_loop (bits mbits thr : Z) (tl tg : string) (r : reader) :=
  var_s_loop bits mbits thr tl tg (r_rem r) (r_pos r) (r_off r) (r_feat r) 0 (7 * 0).

Lemma u_first bits thr tl tg l p o ft b :
  7 < bits -> 0 < thr -> 0 <= b < 256 ->
  var_u_loop bits thr tl tg (b :: l) p o ft 0 0 =
  if Z.land b 128 =? 0 then Ok (b, mkReader l (p + 1) o ft)
  else var_u_loop bits thr tl tg l (p + 1) o ft (Z.land b 127) 7.
Proof.
  intros Hbits Hthr Hb. cbn [var_u_loop].
  destruct (Z.leb_spec thr 0); [lia|]. cbn [andb].
  rewrite Z.lor_0_l, Z.shiftl_0_r.
  assert (2 ^ 7 <= 2 ^ bits) by (apply pow2_le; lia). change (2 ^ 7) with 128 in *.
  rewrite land_80, land_7f by lia. pose proof (mod128_range b).
  rewrite wrapu_id by (unfold in_u; lia).
  destruct (Z.ltb_spec b 128); [rewrite Z.mod_small by lia|]; reflexivity.
Qed.

Lemma s_first bits mbits thr tl tg l p o ft b :
  7 < mbits -> 0 < thr -> 0 <= b < 256 ->
  var_s_loop bits mbits thr tl tg (b :: l) p o ft 0 0 =
  if Z.land b 128 =? 0 then Ok (Z.shiftr (wraps mbits (Z.shiftl b (mbits - 7))) (mbits - 7), mkReader l (p + 1) o ft)
  else var_s_loop bits mbits thr tl tg l (p + 1) o ft (Z.land b 127) 7.
Proof.
  intros Hbits Hthr Hb. cbn [var_s_loop].
  destruct (Z.leb_spec thr 0); [lia|].
  rewrite Z.lor_0_l, Z.shiftl_0_r.
  assert (2 ^ 7 <= 2 ^ (mbits - 1)) by (apply pow2_le; lia). change (2 ^ 7) with 128 in *.
  rewrite land_80, land_7f by lia. pose proof (mod128_range b).
  rewrite (wraps_id mbits (b mod 128)) by (unfold in_s; lia).
  destruct (Z.ltb_spec b 128); [rewrite Z.mod_small by lia|]; reflexivity.
Qed.

Ltac unfold_bind := unfold bind, read_u8, ret, advance.

Lemma read_var_u32_loop r : bytes_ok (r_rem r) ->
  read_var_u32 r = as_u_loop 32 25 "invalid var_u32: integer representation too long"
                  "invalid var_u32: integer too large" r.
Proof.
  intros H. unfold read_var_u32, as_u_loop. unfold_bind.
  destruct r as [[|b t] p o ft]; cbn [r_rem r_pos r_off r_feat] in *; [reflexivity|].
  inversion H; subst. unfold is_byte in *.
  rewrite u_first by lia. destruct (_ =? 0); reflexivity.
Qed.

Lemma read_var_u64_loop r : bytes_ok (r_rem r) ->
  read_var_u64 r = as_u_loop 64 57 "invalid var_u64: integer representation too long"
                  "invalid var_u64: integer too large" r.
Proof.
  intros H. unfold read_var_u64, as_u_loop. unfold_bind.
  destruct r as [[|b t] p o ft]; cbn [r_rem r_pos r_off r_feat] in *; [reflexivity|].
  inversion H; subst. unfold is_byte in *.
  rewrite u_first by lia. destruct (_ =? 0); reflexivity.
Qed.

Lemma read_var_i32_loop r : bytes_ok (r_rem r) ->
  read_var_i32 r = as_s_loop 32 32 25 "invalid var_i32: integer representation too long"
                  "invalid var_i32: integer too large" r.
Proof.
  intros H. unfold read_var_i32, as_s_loop. unfold_bind.
  destruct r as [[|b t] p o ft]; cbn [r_rem r_pos r_off r_feat] in *; [reflexivity|].
  inversion H; subst. unfold is_byte in *. change (7 * 0) with 0.
  rewrite s_first by lia. destruct (_ =? 0); reflexivity.
Qed.

Lemma read_var_s33_loop r : bytes_ok (r_rem r) ->
  read_var_s33 r = as_s_loop 33 64 25 "invalid var_s33: integer representation too long"
                  "invalid var_s33: integer representation too long" r.
Proof.
  intros H. unfold read_var_s33, as_s_loop. unfold_bind.
  destruct r as [[|b t] p o ft]; cbn [r_rem r_pos r_off r_feat] in *; [reflexivity|].
  inversion H; subst. unfold is_byte in *. change (7 * 0) with 0.
  rewrite s_first by lia. rewrite land_80 by lia.
  destruct (Z.ltb_spec b 128); [|reflexivity].
  f_equal. f_equal.
  change 57 with (64 - 7); rewrite (sign_extend 64 7 b) by (change (2 ^ 7) with 128; lia).
  rewrite (wraps_id 8 b) by (unfold in_s; change (2 ^ (8 - 1)) with 128; lia).
  exact (sign_extend 8 7 b ltac:(lia) ltac:(change (2 ^ 7) with 128; lia)).
Qed.

Definition u_char (m : R Z) (n : Z) : Prop := forall r v r', bytes_ok (r_rem r) ->
  (m r = Ok (v, r') <-> exists bs, uN n bs v /\ consumes r bs r').

Lemma u_loop_char bits thr tl tg r v r' :
  7 < bits -> thr = bits - 7 -> bytes_ok (r_rem r) ->
  (as_u_loop bits thr tl tg r = Ok (v, r') <-> exists bs, uN bits bs v /\ consumes r bs r').
Proof.
  intros Hb Ht Hok. unfold as_u_loop. split.
  - intros H. apply var_u_loop_sound in H; auto; try lia.
    destruct H as (bs & m & rest & El & Hu & -> & ->).
    exists bs. rewrite Z.sub_0_r in Hu. change (2 ^ 0) with 1.
    replace (0 + 1 * m) with m by lia. split; [exact Hu|]. apply consumes_eq. exact El.
  - intros (bs & Hu & Hc). apply consumes_inv in Hc. destruct Hc as [El ->].
    rewrite El. cbn [r_rem r_pos r_off r_feat].
    rewrite (var_u_loop_complete bits thr tl tg ltac:(lia) ltac:(lia) bits bs v Hu);
      [|lia|lia|lia|change (2 ^ 0) with 1; lia].
    change (2 ^ 0) with 1. replace (0 + 1 * v) with v by lia. reflexivity.
Qed.

Lemma read_var_u32_char : u_char read_var_u32 32.
Proof. intros r v r' H. rewrite read_var_u32_loop by assumption. apply u_loop_char; auto; lia. Qed.
Lemma read_var_u64_char : u_char read_var_u64 64.
Proof. intros r v r' H. rewrite read_var_u64_loop by assumption. apply u_loop_char; auto; lia. Qed.

Lemma s_loop_char bits mbits thr tl tg r v r' :
  7 < bits <= mbits -> (bits < mbits -> bits + 7 <= mbits) ->
  (forall k, 0 <= k -> (thr <= 7 * k <-> bits - 7 * k <= 7)) -> bytes_ok (r_rem r) ->
  (as_s_loop bits mbits thr tl tg r = Ok (v, r') <->
   exists bs m, sN bits bs m /\ v = m + s_adjust bits mbits thr 0 bs m /\ consumes r bs r').
Proof.
  intros Hb Hm Ht Hok. unfold as_s_loop. split.
  - intros H. apply var_s_loop_sound in H; auto; try lia.
    destruct H as (bs & m & rest & El & Hu & -> & ->).
    exists bs, m. change (7 * 0) with 0 in *. rewrite Z.sub_0_r in Hu. change (2 ^ 0) with 1.
    split; [exact Hu|]. split; [lia|]. apply consumes_eq. exact El.
  - intros (bs & m & Hu & -> & Hc). apply consumes_inv in Hc. destruct Hc as [El ->].
    rewrite El. cbn [r_rem r_pos r_off r_feat].
    rewrite (var_s_loop_complete bits mbits thr tl tg ltac:(lia) ltac:(lia) ltac:(assumption) bits bs m Hu);
      [|lia|lia|lia|change (2 ^ (7 * 0)) with 1; lia].
    change (7 * 0) with 0. change (2 ^ 0) with 1.
    replace (0 + 1 * m) with m by lia. reflexivity.
Qed.

Lemma s_adjust_same bits thr s bs m : s_adjust bits bits thr s bs m = 0.
Proof. unfold s_adjust. rewrite Z.ltb_irrefl. reflexivity. Qed.

Definition s_char (m : R Z) (n : Z) : Prop := forall r v r', bytes_ok (r_rem r) ->
  (m r = Ok (v, r') <-> exists bs, sN n bs v /\ consumes r bs r').

Lemma read_var_i32_char : s_char read_var_i32 32.
Proof.
  intros r v r' H. rewrite read_var_i32_loop by assumption.
  rewrite s_loop_char; try lia; auto.
  split.
  - intros (bs & m & ? & -> & ?). rewrite s_adjust_same, Z.add_0_r. eauto.
  - intros (bs & ? & ?). exists bs, v. rewrite s_adjust_same, Z.add_0_r. auto.
Qed.

Lemma read_var_i64_char : s_char read_var_i64 64.
Proof.
  intros r v r' H.
  change (read_var_i64 r) with (as_s_loop 64 64 57 "invalid var_i64: integer representation too long"
             "invalid var_i64: integer too large" r).
  rewrite s_loop_char; try lia; auto.
  split.
  - intros (bs & m & ? & -> & ?). rewrite s_adjust_same, Z.add_0_r. eauto.
  - intros (bs & ? & ?). exists bs, v. rewrite s_adjust_same, Z.add_0_r. auto.
Qed.

Lemma sN_length n bs v : sN n bs v -> 0 < n -> 7 * (zlen bs - 1) < n.
Proof.
  induction 1; intros Hn; rewrite zlen_cons.
  - change (zlen (@nil Z)) with 0; lia.
  - change (zlen (@nil Z)) with 0; lia.
  - specialize (IHsN ltac:(lia)). lia.
Qed.

Lemma uN_length n bs v : uN n bs v -> 0 < n -> 7 * (zlen bs - 1) < n.
Proof.
  induction 1; intros Hn; rewrite zlen_cons.
  - change (zlen (@nil Z)) with 0; lia.
  - specialize (IHuN ltac:(lia)). lia.
Qed.

(** [read_var_s33]: the specification's value, except that a five-byte negative
    number comes back with 2^35 added. *)
Lemma read_var_s33_char r v r' : bytes_ok (r_rem r) ->
  (read_var_s33 r = Ok (v, r') <->
   exists bs m, sN 33 bs m /\ consumes r bs r' /\
     v = if (m <? 0) && (zlen bs =? 5) then m + 2 ^ 35 else m).
Proof.
  intros H. rewrite read_var_s33_loop by assumption.
  rewrite s_loop_char; try lia; auto.
  assert (Q : forall bs m, sN 33 bs m ->
    m + s_adjust 33 64 25 0 bs m = if (m <? 0) && (zlen bs =? 5) then m + 2 ^ 35 else m).
  { intros bs m Hs. pose proof (sN_length _ _ _ Hs ltac:(lia)).
    unfold s_adjust. change (33 <? 64) with true. cbn [andb].
    destruct (m <? 0); cbn [andb]; [|lia].
    destruct (Z.leb_spec 25 (0 + 7 * (zlen bs - 1))), (Z.eqb_spec (zlen bs) 5); try lia.
    rewrite e. change (0 + 7 * 5) with 35. reflexivity. }
  split.
  - intros (bs & m & Hs & -> & Hc). exists bs, m. rewrite Q by assumption. auto.
  - intros (bs & m & Hs & Hc & ->). exists bs, m. rewrite Q by assumption. auto.
Qed.

(** ** The writers *)

Lemma enc_u_total fuel : forall v, 0 <= v < 2 ^ (7 * Z.of_nat (S fuel)) ->
  exists bs, enc_u (S fuel) v = Some bs.
Proof.
  induction fuel as [|k IH]; intros v Hv.
  - cbn [enc_u]. change (2 ^ (7 * Z.of_nat 1)) with 128 in Hv.
    rewrite Z.shiftr_div_pow2 by lia. rewrite Z.div_small by (change (2 ^ 7) with 128; lia). rewrite Z.eqb_refl. eauto.
  - remember (S k) as k' eqn:E. cbn [enc_u].
    destruct (Z.shiftr v 7 =? 0); [eauto|].
    destruct (IH (Z.shiftr v 7)) as [t ->]; [|eauto].
    rewrite Z.shiftr_div_pow2 by lia.
    replace (7 * Z.of_nat (S k')) with (7 + 7 * Z.of_nat k') in Hv by lia.
    rewrite Z.pow_add_r in Hv by lia.
    split; [apply Z.div_pos; lia|]. apply Z.div_lt_upper_bound; lia.
Qed.

Lemma enc_u_correct fuel : forall v bs n, enc_u fuel v = Some bs -> 0 <= v < 2 ^ n -> 0 < n -> uN n bs v.
Proof.
  induction fuel as [|k IH]; intros v bs n H Hv Hn; cbn [enc_u] in H; [discriminate|].
  rewrite land_7f, Z.shiftr_div_pow2 in H by lia. change (2 ^ 7) with 128 in H.
  pose proof (Z.div_mod v 128 ltac:(lia)) as D. pose proof (mod128_range v) as M.
  destruct (Z.eqb_spec (v / 128) 0) as [E|E].
  - injection H as <-. assert (v mod 128 = v) as -> by lia.
    apply uN_last; change (2 ^ 7) with 128; lia.
  - destruct (enc_u k (v / 128)) as [t|] eqn:Ek; [|discriminate]. injection H as <-.
    rewrite lor_80 by lia.
    assert (0 < v / 128) by (pose proof (Z.div_pos v 128); lia).
    assert (7 < n).
    { destruct (Z_lt_ge_dec 7 n); [assumption|].
      assert (2 ^ n <= 2 ^ 7) by (apply pow2_le; lia). change (2 ^ 7) with 128 in *. lia. }
    replace v with (2 ^ 7 * (v / 128) + ((v mod 128 + 128) - 2 ^ 7)) at 2
      by (change (2 ^ 7) with 128; lia).
    apply uN_more; [change (2^7) with 128; change (2^8) with 256; lia|lia|].
    apply IH; auto; [|lia]. split; [lia|].
    apply Z.div_lt_upper_bound; [lia|].
    change 128 with (2 ^ 7). rewrite <- Z.pow_add_r by lia.
    replace (7 + (n - 7)) with n by lia. lia.
Qed.

Lemma enc_u_minimal fuel : forall v bs, enc_u fuel v = Some bs ->
  forall n bs', uN n bs' v -> zlen bs <= zlen bs'.
Proof.
  induction fuel as [|k IH]; intros v bs H n bs' Hu; cbn [enc_u] in H; [discriminate|].
  rewrite land_7f, Z.shiftr_div_pow2 in H by lia. change (2 ^ 7) with 128 in H.
  destruct (Z.eqb_spec (v / 128) 0) as [E|E].
  - injection H as <-. pose proof (uN_nonempty _ _ _ Hu).
    destruct bs' as [|? t]; [contradiction|]. rewrite !zlen_cons.
    pose proof (zlen_nonneg t). change (zlen (@nil Z)) with 0. lia.
  - destruct (enc_u k (v / 128)) as [t|] eqn:Ek; [|discriminate]. injection H as <-.
    inversion Hu; subst; change (2 ^ 7) with 128 in *; change (2 ^ 8) with 256 in *.
    + rewrite Z.div_small in E by lia. lia.
    + assert (Em : (128 * m + (b - 128)) / 128 = m).
      { rewrite Z.add_comm, Z.mul_comm, Z.div_add by lia.
        rewrite Z.div_small by lia. lia. }
      rewrite Em in Ek. rewrite !zlen_cons.
      specialize (IH _ _ Ek _ _ ltac:(eassumption)). lia.
Qed.

Lemma enc_u_minimal_strict fuel v bs : enc_u fuel v = Some bs ->
  forall n bs', uN n bs' v -> zlen bs' = zlen bs -> bs' = bs.
Proof.
  revert v bs. induction fuel as [|k IH]; intros v bs H n bs' Hu Hl; cbn [enc_u] in H; [discriminate|].
  rewrite land_7f, Z.shiftr_div_pow2 in H by lia. change (2 ^ 7) with 128 in H.
  destruct (Z.eqb_spec (v / 128) 0) as [E|E].
  - injection H as <-. inversion Hu; subst; change (2 ^ 7) with 128 in *.
    + rewrite Z.mod_small by lia. reflexivity.
    + rewrite !zlen_cons in Hl. change (zlen (@nil Z)) with 0 in Hl.
      match goal with H : uN _ ?l _ |- _ => destruct l; [inversion H|] end.
      rewrite zlen_cons in Hl.
      match type of Hl with context [zlen ?x] => pose proof (zlen_nonneg x) end. lia.
  - destruct (enc_u k (v / 128)) as [t|] eqn:Ek; [|discriminate]. injection H as <-.
    inversion Hu; subst; change (2 ^ 7) with 128 in *; change (2 ^ 8) with 256 in *.
    + rewrite Z.div_small in E by lia. lia.
    + assert (Em : (128 * m + (b - 128)) / 128 = m).
      { rewrite Z.add_comm, Z.mul_comm, Z.div_add by lia.
        rewrite Z.div_small by lia. lia. }
      assert (Er : (128 * m + (b - 128)) mod 128 = b - 128).
      { rewrite Z.add_comm, Z.mul_comm, Z.mod_add by lia. apply Z.mod_small. lia. }
      rewrite Em in Ek. rewrite Er. rewrite lor_80 by lia.
      rewrite !zlen_cons in Hl.
      rewrite (IH _ _ Ek _ _ ltac:(eassumption)) by lia. f_equal. lia.
Qed.

Lemma div64 v : v / 64 = 0 \/ v / 64 = -1 <-> -64 <= v < 64.
Proof.
  pose proof (Z.div_mod v 64 ltac:(lia)). pose proof (Z.mod_pos_bound v 64 ltac:(lia)). lia.
Qed.

Lemma enc_s_total fuel : forall v, in_s (7 * Z.of_nat (S fuel)) v ->
  exists bs, enc_s (S fuel) v = Some bs.
Proof.
  unfold in_s. induction fuel as [|k IH]; intros v Hv.
  - cbn [enc_s]. change (2 ^ (7 * Z.of_nat 1 - 1)) with 64 in Hv.
    rewrite Z.shiftr_div_pow2 by lia. change (2 ^ 6) with 64.
    destruct (proj2 (div64 v) ltac:(lia)) as [-> | ->]; cbn; eauto.
  - remember (S k) as k' eqn:E. cbn [enc_s].
    destruct (_ || _); [eauto|].
    destruct (IH (Z.shiftr v 7)) as [t ->]; [|eauto].
    rewrite Z.shiftr_div_pow2 by lia. change (2 ^ 7) with 128.
    replace (7 * Z.of_nat (S k') - 1) with (7 + (7 * Z.of_nat k' - 1)) in Hv by lia.
    rewrite Z.pow_add_r in Hv by lia. change (2 ^ 7) with 128 in Hv.
    split; [apply Z.div_le_lower_bound; lia|]. apply Z.div_lt_upper_bound; lia.
Qed.

Lemma enc_s_correct fuel : forall v bs n, enc_s fuel v = Some bs -> in_s n v -> 0 < n -> sN n bs v.
Proof.
  unfold in_s. induction fuel as [|k IH]; intros v bs n H Hv Hn; cbn [enc_s] in H; [discriminate|].
  rewrite land_7f, !Z.shiftr_div_pow2 in H by lia.
  change (2 ^ 7) with 128 in H. change (2 ^ 6) with 64 in H.
  pose proof (Z.div_mod v 128 ltac:(lia)) as D. pose proof (mod128_range v) as M.
  pose proof (div64 v) as D64.
  destruct ((v / 64 =? 0) || (v / 64 =? -1)) eqn:E.
  - injection H as <-. assert (R64 : -64 <= v < 64) by (apply D64; lia).
    destruct (Z_lt_ge_dec v 0).
    + assert (v mod 128 = v + 128) as -> by (symmetry; apply Z.mod_unique with (-1); lia).
      replace v with (v + 128 - 2 ^ 7) at 2 by (change (2 ^ 7) with 128; lia).
      apply sN_neg; change (2 ^ 7) with 128; change (2 ^ 6) with 64; lia.
    + rewrite Z.mod_small by lia. apply sN_pos; change (2 ^ 6) with 64; lia.
  - destruct (enc_s k (v / 128)) as [t|] eqn:Ek; [|discriminate]. injection H as <-.
    rewrite lor_80 by lia.
    assert (N64 : ~ (-64 <= v < 64)) by (rewrite <- D64; lia).
    assert (7 < n).
    { destruct (Z_lt_ge_dec 7 n); [assumption|].
      assert (2 ^ (n - 1) <= 2 ^ 6) by (apply pow2_le; lia). change (2 ^ 6) with 64 in *. lia. }
    replace v with (2 ^ 7 * (v / 128) + ((v mod 128 + 128) - 2 ^ 7)) at 2
      by (change (2 ^ 7) with 128; lia).
    apply sN_more; [change (2^7) with 128; change (2^8) with 256; lia|lia|].
    apply IH; auto; [|lia].
    assert (E2 : 2 ^ (n - 1) = 128 * 2 ^ (n - 7 - 1)).
    { change 128 with (2 ^ 7). rewrite <- Z.pow_add_r by lia. f_equal. lia. }
    split; [apply Z.div_le_lower_bound; lia|apply Z.div_lt_upper_bound; lia].
Qed.

Lemma enc_s_minimal fuel : forall v bs, enc_s fuel v = Some bs ->
  forall n bs', sN n bs' v -> zlen bs <= zlen bs'.
Proof.
  induction fuel as [|k IH]; intros v bs H n bs' Hu; cbn [enc_s] in H; [discriminate|].
  rewrite land_7f, !Z.shiftr_div_pow2 in H by lia.
  change (2 ^ 7) with 128 in H. change (2 ^ 6) with 64 in H.
  pose proof (div64 v) as D64.
  destruct ((v / 64 =? 0) || (v / 64 =? -1)) eqn:E.
  - injection H as <-. destruct Hu; rewrite ?zlen_cons; change (zlen (@nil Z)) with 0; try lia.
    pose proof (zlen_nonneg bs). lia.
  - destruct (enc_s k (v / 128)) as [t|] eqn:Ek; [|discriminate]. injection H as <-.
    assert (N64 : ~ (-64 <= v < 64)) by (rewrite <- D64; lia).
    inversion Hu; subst; change (2 ^ 7) with 128 in *; change (2 ^ 8) with 256 in *;
      change (2 ^ 6) with 64 in *; try lia.
    assert (Em : (128 * m + (b - 128)) / 128 = m).
    { rewrite Z.add_comm, Z.mul_comm, Z.div_add by lia.
      rewrite Z.div_small by lia. lia. }
    rewrite Em in Ek. rewrite !zlen_cons.
    specialize (IH _ _ Ek _ _ ltac:(eassumption)). lia.
Qed.

Lemma enc_u_bytes fuel v bs n : enc_u fuel v = Some bs -> 0 <= v < 2 ^ n -> 0 < n -> bytes_ok bs.
Proof. intros. eapply uN_bytes, enc_u_correct; eauto. Qed.
