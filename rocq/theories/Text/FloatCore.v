(** Rounding a significand and an exponent to a float, in units of the smallest
    positive float. *)
From Coq Require Import ZArith Lia List Bool.
From Verif Require Import Base.Prelude Base.BitFacts Text.Spec Text.Numbers.
Import ListNotations.
Open Scope Z_scope.

Lemma p2 : forall n, 0 <= n -> 0 < 2 ^ n. Proof. intros. apply Z.pow_pos_nonneg; lia. Qed.
Lemma p2_add : forall a b, 0 <= a -> 0 <= b -> 2 ^ (a + b) = 2 ^ a * 2 ^ b. Proof. intros. apply Z.pow_add_r; lia. Qed.
Lemma p2_le : forall a b, a <= b -> 2 ^ a <= 2 ^ b. Proof. intros. apply Z.pow_le_mono_r; lia. Qed.
Lemma p2_lt : forall a b, 0 <= b -> a < b -> 2 ^ a < 2 ^ b. Proof. intros. apply Z.pow_lt_mono_r; lia. Qed.
Lemma p2_1 : 2 ^ 1 = 2. Proof. reflexivity. Qed.
Lemma shl : forall a n, 0 <= n -> Z.shiftl a n = a * 2 ^ n. Proof. intros. apply Z.shiftl_mul_pow2. lia. Qed.
Lemma shr : forall a n, 0 <= n -> Z.shiftr a n = a / 2 ^ n. Proof. intros. apply Z.shiftr_div_pow2. lia. Qed.
Lemma land_mask : forall a n, 0 <= n -> Z.land a (2 ^ n - 1) = a mod 2 ^ n.
Proof. intros a n N. replace (2 ^ n - 1) with (Z.ones n) by (rewrite Z.ones_equiv; lia). apply Z.land_ones. exact N. Qed.
Lemma lor_plus : forall a m s, 0 <= s -> 0 <= a < 2 ^ s -> Z.lor (m * 2 ^ s) a = m * 2 ^ s + a.
Proof. intros. rewrite Z.lor_comm, lor_add_shift by assumption. lia. Qed.
(** Testing the bit [n] of a number of [n + 1] bits. *)
Lemma land_top : forall a n, 0 <= n -> 0 <= a < 2 * 2 ^ n -> (Z.land a (2 ^ n) =? 0) = (a <? 2 ^ n).
Proof.
  intros a n N A. destruct (a <? 2 ^ n) eqn:E.
  - apply Z.ltb_lt in E. apply Z.eqb_eq. apply Z.bits_inj'. intros k K. rewrite Z.land_spec, Z.bits_0.
    destruct (Z.eq_dec k n) as [-> |NE].
    + destruct (Z.eq_dec a 0) as [-> |A0]; [rewrite Z.bits_0; reflexivity|]. rewrite (Z.bits_above_log2 a n); [reflexivity|lia|]. apply Z.log2_lt_pow2; lia.
    + rewrite Z.pow2_bits_eqb by lia. assert ((n =? k) = false) as -> by (apply Z.eqb_neq; lia). apply andb_false_r.
  - apply Z.ltb_ge in E. apply Z.eqb_neq. intros H. assert (B : Z.testbit (Z.land a (2 ^ n)) n = true).
    { rewrite Z.land_spec, Z.pow2_bits_true by lia. rewrite andb_true_r. rewrite Z.testbit_true by lia.
      pose proof (p2 n N). assert (a / 2 ^ n = 1) as ->; [|reflexivity]. symmetry. apply (Z.div_unique a (2 ^ n) 1 (a - 2 ^ n)); lia. }
    rewrite H, Z.bits_0 in B. discriminate.
Qed.
Lemma land_one : forall a, negb (Z.land a 1 =? 0) = Z.odd a.
Proof. intros a. change 1 with (2 ^ 1 - 1). rewrite land_mask by lia. change (2 ^ 1) with 2. rewrite Zmod_odd. destruct (Z.odd a); reflexivity. Qed.
Lemma div_pow : forall a i j, 0 <= i -> 0 <= j -> a / 2 ^ (i + j) = a / 2 ^ i / 2 ^ j.
Proof. intros a i j I J. rewrite p2_add by lia. pose proof (p2 i I). pose proof (p2 j J). rewrite Z.div_div by lia. reflexivity. Qed.
Lemma mod_pow : forall a i j, 0 <= i -> 0 <= j -> a mod 2 ^ (i + j) = (a / 2 ^ i) mod 2 ^ j * 2 ^ i + a mod 2 ^ i.
Proof.
  intros a i j I J. pose proof (p2 i I). pose proof (p2 j J). rewrite p2_add by lia. rewrite Z.rem_mul_r by lia. lia.
Qed.

Section Core.
Variables w e : Z.
Hypothesis W : fmt_ok w e.
Notation mm := (mant w e).
Lemma fmt_facts : 1 <= mm /\ 8 <= e <= 11 /\ w = mm + e + 1 /\ mm = w - 1 - e /\ e + 3 < w /\ 2 ^ e = 2 * 2 ^ (e - 1) /\ 2 <= 2 ^ (e - 1) <= 2048.
Proof. unfold mant. destruct W as [[-> ->]|[-> ->]]; repeat split; try lia; discriminate. Qed.
Ltac ff := let H := fresh "FF" in pose proof fmt_facts as H; decompose [and] H; clear H.
Lemma inf_pos : 0 < inf_bits w e.
Proof. ff. unfold inf_bits. pose proof (p2 mm ltac:(lia)). nia. Qed.
(** Units grow by the gap of the binade. *)
Definition gap (b : Z) : Z := 2 ^ Z.max 0 (b / 2 ^ mm - 1).
Lemma units_step : forall b, 0 <= b -> units w e (b + 1) = units w e b + gap b.
Proof.
  intros b B. ff. pose proof (p2 mm ltac:(lia)) as P. unfold units, gap.
  pose proof (Z.div_mod b (2 ^ mm) ltac:(lia)) as DM. pose proof (Z.mod_pos_bound b (2 ^ mm) P) as MB.
  assert (BE : 0 <= b / 2 ^ mm) by (apply Z.div_pos; lia).
  set (be := b / 2 ^ mm) in *. set (m := b mod 2 ^ mm) in *.
  destruct (Z.eq_dec (m + 1) (2 ^ mm)) as [C|C].
  - assert (D1 : (b + 1) / 2 ^ mm = be + 1) by (symmetry; apply (Z.div_unique _ _ _ 0); lia).
    assert (M1 : (b + 1) mod 2 ^ mm = 0) by (symmetry; apply (Z.mod_unique _ _ (be + 1)); lia).
    rewrite D1, M1. assert ((be + 1 =? 0) = false) as -> by (apply Z.eqb_neq; lia).
    destruct (be =? 0) eqn:Z0.
    + apply Z.eqb_eq in Z0. rewrite Z0. rewrite Z.max_l by lia. change (2 ^ (0 + 1 - 1)) with 1. change (2 ^ 0) with 1. lia.
    + apply Z.eqb_neq in Z0. rewrite Z.max_r by lia. replace (be + 1 - 1) with (be - 1 + 1) by lia. rewrite p2_add by lia. rewrite p2_1.
      replace (2 ^ mm) with (m + 1) by lia. nia.
  - assert (D1 : (b + 1) / 2 ^ mm = be) by (symmetry; apply (Z.div_unique _ _ _ (m + 1)); lia).
    assert (M1 : (b + 1) mod 2 ^ mm = m + 1) by (symmetry; apply (Z.mod_unique _ _ be); lia).
    rewrite D1, M1. destruct (be =? 0) eqn:Z0.
    + apply Z.eqb_eq in Z0. rewrite Z0. rewrite Z.max_l by lia. change (2 ^ 0) with 1. lia.
    + apply Z.eqb_neq in Z0. rewrite Z.max_r by lia. nia.
Qed.
Lemma gap_pos : forall b, 0 < gap b. Proof. intros. apply p2. lia. Qed.
Lemma units_mono : forall a b, 0 <= a < b -> units w e a < units w e b.
Proof.
  intros a b H. replace b with (a + (b - a)) by lia. remember (b - a) as k. assert (K : 1 <= k) by lia. clear Heqk. destruct H as [H _].
  revert k K. apply (Zlt_lower_bound_ind (fun k => units w e a < units w e (a + k)) 1). intros k IH K1.
  destruct (Z.eq_dec k 1) as [-> |NE].
  - rewrite units_step by lia. pose proof (gap_pos a). lia.
  - specialize (IH (k - 1) ltac:(lia)). replace (a + k) with (a + (k - 1) + 1) by lia. rewrite units_step by lia.
    pose proof (gap_pos (a + (k - 1))). lia.
Qed.
Lemma units_mono_le : forall a b, 0 <= a <= b -> units w e a <= units w e b.
Proof. intros a b H. destruct (Z.eq_dec a b) as [-> |N]; [lia|]. pose proof (units_mono a b ltac:(lia)). lia. Qed.
Lemma units_inj : forall a b, 0 <= a -> 0 <= b -> units w e a = units w e b -> a = b.
Proof.
  intros a b A B H. destruct (Z.lt_trichotomy a b) as [L|[L|L]]; [|exact L|].
  - pose proof (units_mono a b ltac:(lia)). lia.
  - pose proof (units_mono b a ltac:(lia)). lia.
Qed.
Lemma units_nonneg : forall b, 0 <= b -> 0 <= units w e b.
Proof.
  intros b B. pose proof (units_mono_le 0 b ltac:(lia)) as H. assert (E : units w e 0 = 0); [|lia].
  ff. pose proof (p2 mm ltac:(lia)). unfold units. rewrite Z.div_0_l, Z.mod_0_l by lia. reflexivity.
Qed.

(** Between two neighbours, the nearer one; the even one if equally near. *)
Lemma round_pick : forall n d b, 0 < d -> 0 <= b < inf_bits w e ->
  units w e b * d <= n < units w e (b + 1) * d ->
  rounds_to w e n d (if (units w e b * d + units w e (b + 1) * d <? 2 * n) ||
                       ((units w e b * d + units w e (b + 1) * d =? 2 * n) && Z.odd b) then b + 1 else b).
Proof.
  intros n d b D B N.
  assert (LO : forall b', 0 <= b' < b -> units w e b' * d < units w e b * d).
  { intros b' H. pose proof (units_mono b' b ltac:(lia)). nia. }
  assert (HI : forall b', b + 1 < b' -> units w e (b + 1) * d < units w e b' * d).
  { intros b' H. pose proof (units_mono (b + 1) b' ltac:(lia)). nia. }
  set (x := units w e b * d) in *. set (y := units w e (b + 1) * d) in *.
  destruct (x + y <? 2 * n) eqn:E1; cbn [orb].
  - apply Z.ltb_lt in E1. split; [lia|]. intros b' R NE. fold y. left.
    destruct (Z.eq_dec b' b) as [-> |NE']; [fold x; lia|]. destruct (Z.lt_ge_cases b' b) as [L|L].
    + specialize (LO b' ltac:(lia)). lia.
    + specialize (HI b' ltac:(lia)). lia.
  - apply Z.ltb_ge in E1. destruct ((x + y =? 2 * n) && Z.odd b) eqn:E2.
    + apply andb_true_iff in E2. destruct E2 as [E2 O]. apply Z.eqb_eq in E2. split; [lia|]. intros b' R NE. fold y.
      destruct (Z.eq_dec b' b) as [-> |NE'].
      * right. fold x. split; [lia|]. rewrite Z.add_1_r, Z.even_succ. exact O.
      * left. destruct (Z.lt_ge_cases b' b) as [L|L]; [specialize (LO b' ltac:(lia)); lia|specialize (HI b' ltac:(lia)); lia].
    + apply andb_false_iff in E2. split; [lia|]. intros b' R NE. fold x.
      destruct (Z.eq_dec b' (b + 1)) as [-> |NE'].
      * fold y. destruct (Z.eq_dec (x + y) (2 * n)) as [Q|Q]; [|left; lia]. right. split; [lia|].
        destruct E2 as [E2|E2]; [apply Z.eqb_neq in E2; lia|]. rewrite <- Z.negb_odd, E2. reflexivity.
      * left. destruct (Z.lt_ge_cases b' b) as [L|L]; [specialize (LO b' ltac:(lia)); lia|specialize (HI b' ltac:(lia)); lia].
Qed.
(** At or above what would follow the largest finite number. *)
Lemma round_over : forall n d, 0 < d -> units w e (inf_bits w e) * d <= n -> rounds_to w e n d (inf_bits w e).
Proof.
  intros n d D N. pose proof inf_pos. split; [lia|]. intros b' R NE. left.
  pose proof (units_mono b' (inf_bits w e) ltac:(lia)). assert (units w e b' * d < units w e (inf_bits w e) * d) by nia. lia.
Qed.
Lemma round_exact : forall d b b', 0 < d -> 0 <= b <= inf_bits w e -> rounds_to w e (units w e b * d) d b' -> b' = b.
Proof.
  intros d b b' D B [R H]. destruct (Z.eq_dec b' b) as [Q|Q]; [exact Q|]. exfalso. specialize (H b B (fun E => Q (eq_sym E))).
  rewrite Z.sub_diag in H. assert (U : units w e b' <> units w e b) by (intros U; apply Q; apply units_inj; lia).
  destruct H as [H|[H _]]; [lia|]. change (Z.abs 0) with 0 in H. nia.
Qed.
(** The spec is a function. *)
Lemma round_unique : forall n d b b', 0 < d -> rounds_to w e n d b -> rounds_to w e n d b' -> b = b'.
Proof.
  assert (A : forall n d b b', 0 < d -> b < b' -> rounds_to w e n d b -> rounds_to w e n d b' -> False).
  { intros n d b b' D L [R H] [R' H']. pose proof (H b' ltac:(lia) ltac:(lia)) as P. pose proof (H' b ltac:(lia) ltac:(lia)) as Q.
    destruct P as [P|[P E]]; [lia|]. destruct Q as [Q|[_ E']]; [lia|].
    destruct (Z.eq_dec b' (b + 1)) as [NE|NE].
    - rewrite NE in E'. rewrite Z.add_1_r, Z.even_succ, <- Z.negb_even, E in E'. discriminate.
    - pose proof (units_mono b (b + 1) ltac:(lia)). pose proof (units_mono (b + 1) b' ltac:(lia)).
      assert (units w e b * d < units w e (b + 1) * d) by nia. assert (units w e (b + 1) * d < units w e b' * d) by nia.
      pose proof (H (b + 1) ltac:(lia) ltac:(lia)) as P1. lia. }
  intros n d b b' D R R'. destruct (Z.lt_trichotomy b b') as [L|[L|L]]; [exfalso; eapply A; eassumption|exact L|exfalso; eapply A; eassumption].
Qed.
Lemma units_normal : forall x t, 1 <= x -> 2 ^ mm <= t < 2 * 2 ^ mm -> units w e ((x - 1) * 2 ^ mm + t) = t * 2 ^ (x - 1).
Proof.
  intros x t X T. unfold units. ff. pose proof (p2 mm ltac:(lia)).
  assert (((x - 1) * 2 ^ mm + t) / 2 ^ mm = x) as -> by (symmetry; apply (Z.div_unique _ _ _ (t - 2 ^ mm)); nia).
  assert (((x - 1) * 2 ^ mm + t) mod 2 ^ mm = t - 2 ^ mm) as -> by (symmetry; apply (Z.mod_unique _ _ x); nia).
  assert ((x =? 0) = false) as -> by (apply Z.eqb_neq; lia). f_equal. lia.
Qed.
Lemma units_sub : forall t, 0 <= t <= 2 ^ mm -> units w e t = t.
Proof.
  intros t T. ff. pose proof (p2 mm ltac:(lia)). destruct (Z.eq_dec t (2 ^ mm)) as [-> |N].
  - pose proof (units_normal 1 (2 ^ mm) ltac:(lia) ltac:(lia)) as U. replace ((1 - 1) * 2 ^ mm + 2 ^ mm) with (2 ^ mm) in U by lia.
    rewrite U. change (2 ^ (1 - 1)) with 1. lia.
  - unfold units. rewrite Z.div_small, Z.mod_small by lia. reflexivity.
Qed.

(** What is rounded: the bits of [M * 2 ^ w] above [J], by what is below. *)
Lemma round_bits : forall M exp2 J G b0 t, 0 < M -> 0 <= w -> 0 <= J -> 0 <= G ->
  exp2 + scale w e = w - J + G -> t = M * 2 ^ w / 2 ^ J ->
  0 <= b0 < inf_bits w e -> units w e b0 = t * 2 ^ G -> units w e (b0 + 1) = (t + 1) * 2 ^ G ->
  let r := (M * 2 ^ w) mod 2 ^ J in
  rounds_to w e (M * 2 ^ Z.max 0 (exp2 + scale w e)) (2 ^ Z.max 0 (- (exp2 + scale w e)))
    (if (2 ^ J <? 2 * r) || ((2 ^ J =? 2 * r) && Z.odd b0) then b0 + 1 else b0).
Proof.
  intros M exp2 J G b0 t MP WP JP GP K T B U0 U1 r.
  set (kp := Z.max 0 (exp2 + scale w e)). set (kn := Z.max 0 (- (exp2 + scale w e))).
  assert (KK : kp + J = G + kn + w) by (unfold kp, kn; lia). assert (0 <= kp /\ 0 <= kn) as [KP KN] by (unfold kp, kn; lia). clearbody kp kn.
  pose proof (p2 J JP). pose proof (Z.div_mod (M * 2 ^ w) (2 ^ J) ltac:(lia)) as DM. rewrite <- T in DM. fold r in DM.
  pose proof (Z.mod_pos_bound (M * 2 ^ w) (2 ^ J) ltac:(lia)) as RB. fold r in RB.
  assert (E2 : 2 ^ kp * 2 ^ J = 2 ^ G * 2 ^ kn * 2 ^ w) by (rewrite <- !p2_add by lia; f_equal; lia).
  pose proof (p2 kp KP). pose proof (p2 kn KN). pose proof (p2 G GP). pose proof (p2 w WP).
  pose proof (round_pick (M * 2 ^ kp) (2 ^ kn) b0 ltac:(lia) B) as RP. rewrite U0, U1 in RP.
  (* multiply by 2^w *)
  assert (V0 : t * 2 ^ G * 2 ^ kn * 2 ^ w = t * 2 ^ J * 2 ^ kp) by (rewrite <- !Z.mul_assoc; rewrite (Z.mul_assoc (2 ^ G)); rewrite <- E2; ring).
  assert (V1 : (t + 1) * 2 ^ G * 2 ^ kn * 2 ^ w = (t + 1) * 2 ^ J * 2 ^ kp) by (rewrite <- !Z.mul_assoc; rewrite (Z.mul_assoc (2 ^ G)); rewrite <- E2; ring).
  assert (VN : M * 2 ^ kp * 2 ^ w = (2 ^ J * t + r) * 2 ^ kp) by (rewrite <- DM; ring).
  assert (C1 : forall a b c d, 0 < 2 ^ w -> 0 < 2 ^ kp -> a * 2 ^ w = c * 2 ^ kp -> b * 2 ^ w = d * 2 ^ kp -> ((a <? b) = (c <? d)) /\ ((a =? b) = (c =? d)) /\ (a <= b <-> c <= d)).
  { intros a b c d P Q A B'. assert (L : (a - b) * 2 ^ w = (c - d) * 2 ^ kp) by lia.
    assert (S : (a < b <-> c < d) /\ (a = b <-> c = d)) by (split; split; intros; nia). destruct S as [S1 S2].
    split; [|split].
    - destruct (a <? b) eqn:Q1; destruct (c <? d) eqn:Q2; try reflexivity; rewrite ?Z.ltb_lt, ?Z.ltb_ge in *; lia.
    - destruct (a =? b) eqn:Q1; destruct (c =? d) eqn:Q2; try reflexivity; rewrite ?Z.eqb_eq, ?Z.eqb_neq in *; tauto.
    - lia. }
  destruct (C1 (t * 2 ^ G * 2 ^ kn) (M * 2 ^ kp) (t * 2 ^ J) (2 ^ J * t + r) ltac:(lia) ltac:(lia) V0 VN) as (_ & _ & A1).
  destruct (C1 (M * 2 ^ kp) ((t + 1) * 2 ^ G * 2 ^ kn) (2 ^ J * t + r) ((t + 1) * 2 ^ J) ltac:(lia) ltac:(lia) VN V1) as (A2 & _ & _).
  destruct (C1 (t * 2 ^ G * 2 ^ kn + (t + 1) * 2 ^ G * 2 ^ kn) (2 * (M * 2 ^ kp)) (t * 2 ^ J + (t + 1) * 2 ^ J) (2 * (2 ^ J * t + r)) ltac:(lia) ltac:(lia)) as (A3 & A4 & _); [lia|lia|].
  rewrite A3, A4 in RP.
  assert (Q3 : (t * 2 ^ J + (t + 1) * 2 ^ J <? 2 * (2 ^ J * t + r)) = (2 ^ J <? 2 * r)).
  { destruct (2 ^ J <? 2 * r) eqn:Q; rewrite ?Z.ltb_lt, ?Z.ltb_ge in *; lia. }
  assert (Q4 : (t * 2 ^ J + (t + 1) * 2 ^ J =? 2 * (2 ^ J * t + r)) = (2 ^ J =? 2 * r)).
  { destruct (2 ^ J =? 2 * r) eqn:Q; rewrite ?Z.eqb_eq, ?Z.eqb_neq in *; lia. }
  rewrite Q3, Q4 in RP. apply RP. split.
  - apply A1. lia.
  - apply Z.ltb_lt. rewrite A2. apply Z.ltb_lt. lia.
Qed.
End Core.
