(** The order of floats is that of the numbers they stand for. *)
From Coq Require Import ZArith Lia List Bool SpecFloat.
From Verif Require Import Base.Prelude Peephole.Flt Peephole.Machine Smith.Structured.
Open Scope Z_scope.

Section Order.
Variables prec emax : Z.
Hypothesis Hp : 1 < prec.
Hypothesis Hm : prec < emax.
Let emin := emin prec emax.

Definition finite (x : spec_float) : bool := match x with S754_zero _ | S754_finite _ _ _ => true | _ => false end.

(** A finite float as a number of its smallest units. *)
Definition num (x : spec_float) : Z :=
  match x with
  | S754_finite s m e => (if s then Zneg m else Zpos m) * 2 ^ (e - emin)
  | _ => 0
  end.

Lemma emin_neg : emin < 0. Proof. unfold emin, SpecFloat.emin. lia. Qed.

Lemma valid_exp : forall s m e, valid_binary prec emax (S754_finite s m e) = true ->
  emin <= e /\ Zpos m < 2 ^ prec /\ (emin < e -> 2 ^ (prec - 1) <= Zpos m).
Proof.
  intros s m e H. cbn [valid_binary] in H. destruct (bounded_spec prec emax m e H) as [F _].
  destruct (digits_bounds m) as [L U]. set (d := Zpos (digits2_pos m)) in *.
  unfold fexp in F. fold emin in F. assert (0 < d) by (unfold d; lia).
  split; [lia|]. split.
  - eapply Z.lt_le_trans; [exact U|]. apply Z.pow_le_mono_r; lia.
  - intros G. replace (prec - 1) with (d - 1) by lia. exact L.
Qed.

Lemma pos_lt : forall s1 m1 e1 s2 m2 e2, valid_binary prec emax (S754_finite s1 m1 e1) = true ->
  valid_binary prec emax (S754_finite s2 m2 e2) = true -> e1 < e2 ->
  Zpos m1 * 2 ^ (e1 - emin) < Zpos m2 * 2 ^ (e2 - emin).
Proof.
  intros s1 m1 e1 s2 m2 e2 V1 V2 H.
  destruct (valid_exp _ _ _ V1) as (A1 & B1 & _). destruct (valid_exp _ _ _ V2) as (A2 & B2 & C2).
  assert (0 < 2 ^ (e1 - emin)) by (apply Z.pow_pos_nonneg; lia).
  apply Z.lt_le_trans with (2 ^ prec * 2 ^ (e1 - emin)); [apply Z.mul_lt_mono_pos_r; assumption|].
  apply Z.le_trans with (2 ^ (prec - 1) * 2 ^ (e2 - emin)).
  - rewrite <- !Z.pow_add_r by lia. apply Z.pow_le_mono_r; lia.
  - apply Z.mul_le_mono_nonneg_r; [apply Z.pow_nonneg; lia|]. apply C2. lia.
Qed.

Lemma num_compare : forall x y, valid_binary prec emax x = true -> valid_binary prec emax y = true ->
  finite x = true -> finite y = true -> SFcompare x y = Some (num x ?= num y).
Proof.
  intros [sx|sx| |sx mx ex] [sy|sy| |sy my ey] Vx Vy Fx Fy; try discriminate; cbn [SFcompare num].
  - reflexivity.
  - destruct (valid_exp _ _ _ Vy) as (A & _ & _). pose proof (Z.pow_pos_nonneg 2 (ey - emin) ltac:(lia) ltac:(lia)).
    f_equal. symmetry. destruct sy; [apply Z.compare_gt_iff|apply Z.compare_lt_iff]; nia.
  - destruct (valid_exp _ _ _ Vx) as (A & _ & _). pose proof (Z.pow_pos_nonneg 2 (ex - emin) ltac:(lia) ltac:(lia)).
    f_equal. symmetry. destruct sx; [apply Z.compare_lt_iff|apply Z.compare_gt_iff]; nia.
  - destruct (valid_exp _ _ _ Vx) as (A & _ & _). pose proof (Z.pow_pos_nonneg 2 (ex - emin) ltac:(lia) ltac:(lia)) as P.
    destruct (valid_exp _ _ _ Vy) as (A' & _ & _). pose proof (Z.pow_pos_nonneg 2 (ey - emin) ltac:(lia) ltac:(lia)) as P'.
    f_equal. symmetry. destruct sx, sy.
    + destruct (Z.compare_spec ex ey) as [E|E|E].
      * subst. change (Pos.compare_cont Datatypes.Eq mx my) with (mx ?= my)%positive.
        rewrite <- Zmult_compare_compat_r by lia. reflexivity.
      * apply Z.compare_gt_iff. pose proof (pos_lt _ _ _ _ _ _ Vx Vy E). lia.
      * apply Z.compare_lt_iff. pose proof (pos_lt _ _ _ _ _ _ Vy Vx E). lia.
    + apply Z.compare_lt_iff. nia.
    + apply Z.compare_gt_iff. nia.
    + destruct (Z.compare_spec ex ey) as [E|E|E].
      * subst. change (Pos.compare_cont Datatypes.Eq mx my) with (mx ?= my)%positive.
        rewrite <- Zmult_compare_compat_r by lia. reflexivity.
      * apply Z.compare_lt_iff. exact (pos_lt _ _ _ _ _ _ Vx Vy E).
      * apply Z.compare_gt_iff. exact (pos_lt _ _ _ _ _ _ Vy Vx E).
Qed.

Lemma num_ltb : forall x y, valid_binary prec emax x = true -> valid_binary prec emax y = true ->
  finite x = true -> finite y = true -> SFltb x y = (num x <? num y).
Proof.
  intros x y Vx Vy Fx Fy. unfold SFltb. rewrite (num_compare x y Vx Vy Fx Fy). unfold Z.ltb. destruct (num x ?= num y); reflexivity.
Qed.

Lemma ftrunc_num : forall x, valid_binary prec emax x = true -> finite x = true ->
  ftrunc x = Some (Z.quot (num x) (2 ^ (- emin))).
Proof.
  intros [sx|sx| |sx mx ex] Vx Fx; try discriminate; cbn [ftrunc num].
  - rewrite Z.quot_0_l; [reflexivity|]. pose proof emin_neg. pose proof (Z.pow_pos_nonneg 2 (- emin) ltac:(lia) ltac:(lia)). lia.
  - destruct (valid_exp _ _ _ Vx) as (A & _ & _). pose proof emin_neg.
    pose proof (Z.pow_pos_nonneg 2 (- emin) ltac:(lia) ltac:(lia)) as P.
    assert (Q : Z.quot (Zpos mx * 2 ^ (ex - emin)) (2 ^ (- emin)) = if 0 <=? ex then Zpos mx * 2 ^ ex else Zpos mx / 2 ^ (- ex)).
    { rewrite Z.quot_div_nonneg; [|apply Z.mul_nonneg_nonneg; [lia|apply Z.pow_nonneg; lia]|exact P].
      destruct (Z.leb_spec 0 ex).
      - replace (ex - emin) with (ex + (- emin)) by lia. rewrite Z.pow_add_r, Z.mul_assoc by lia. apply Z.div_mul. lia.
      - replace (2 ^ (- emin)) with (2 ^ (- ex) * 2 ^ (ex - emin)) by (rewrite <- Z.pow_add_r by lia; f_equal; lia).
        apply Z.div_mul_cancel_r; [|]; pose proof (Z.pow_pos_nonneg 2 (- ex) ltac:(lia) ltac:(lia));
          pose proof (Z.pow_pos_nonneg 2 (ex - emin) ltac:(lia) ltac:(lia)); lia. }
    destruct sx.
    + change (Zneg mx) with (- Zpos mx). rewrite Z.mul_opp_l, Z.quot_opp_l by lia. rewrite Q. reflexivity.
    + rewrite Q. reflexivity.
Qed.

(** Truncation keeps the order. *)
Lemma ftrunc_mono : forall x y a b, valid_binary prec emax x = true -> valid_binary prec emax y = true ->
  finite x = true -> finite y = true -> num x <= num y -> ftrunc x = Some a -> ftrunc y = Some b -> a <= b.
Proof.
  intros x y a b Vx Vy Fx Fy H A B. rewrite ftrunc_num in A, B by assumption. inversion A; inversion B; subst.
  apply Z.quot_le_mono; [|exact H]. pose proof emin_neg. apply Z.pow_pos_nonneg; lia.
Qed.
End Order.
