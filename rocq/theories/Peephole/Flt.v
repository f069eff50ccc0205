(** Facts about the standard library's IEEE-754 arithmetic [SpecFloat] that the
    peephole rules rely on: the results of addition and multiplication are
    canonical ("valid"), both operations commute, and multiplying by one is the
    identity.  All of it is proved on the integers of the representation; no
    real numbers are involved, so nothing here has assumptions. *)
From Coq Require Import ZArith Lia Bool SpecFloat.
Open Scope Z_scope.

Section Flt.
Variables prec emax : Z.
Hypothesis Hprec : 1 < prec.
Hypothesis Hemax : prec < emax.

Notation fexp := (fexp prec emax).
Notation emin := (emin prec emax).
Notation valid := (valid_binary prec emax).

Lemma digits_bounds : forall p,
  2 ^ (Zpos (digits2_pos p) - 1) <= Zpos p < 2 ^ Zpos (digits2_pos p).
Proof.
  induction p; cbn [digits2_pos].
  - rewrite Pos2Z.inj_succ. unfold Z.succ.
    replace (Z.pos (digits2_pos p) + 1 - 1) with (Z.pos (digits2_pos p) - 1 + 1) by lia.
    rewrite !Z.pow_add_r, Z.pow_1_r by lia. lia.
  - rewrite Pos2Z.inj_succ. unfold Z.succ.
    replace (Z.pos (digits2_pos p) + 1 - 1) with (Z.pos (digits2_pos p) - 1 + 1) by lia.
    rewrite !Z.pow_add_r, Z.pow_1_r by lia. lia.
  - cbn. lia.
Qed.

Lemma digits_unique : forall p d, 0 < d -> 2 ^ (d - 1) <= Zpos p < 2 ^ d -> Zpos (digits2_pos p) = d.
Proof.
  intros p d Hd [L U].
  destruct (digits_bounds p) as [L' U'].
  assert (d - 1 < Zpos (digits2_pos p)).
  { apply (Z.pow_lt_mono_r_iff 2); lia. }
  assert (Zpos (digits2_pos p) - 1 < d).
  { apply (Z.pow_lt_mono_r_iff 2); lia. }
  lia.
Qed.

Lemma digits_le : forall p d, 0 <= d -> Zpos p < 2 ^ d -> Zpos (digits2_pos p) <= d.
Proof.
  intros p d Hd U. destruct (digits_bounds p) as [L' U'].
  assert (Zpos (digits2_pos p) - 1 < d).
  { apply (Z.pow_lt_mono_r_iff 2); lia. }
  lia.
Qed.

Lemma digits_ge : forall p d, 0 <= d -> 2 ^ (d - 1) <= Zpos p -> d <= Zpos (digits2_pos p).
Proof.
  intros p d Hd L. destruct (digits_bounds p) as [L' U'].
  destruct (Z.eq_dec d 0) as [->|N]; [lia|].
  assert (d - 1 < Zpos (digits2_pos p)).
  { apply (Z.pow_lt_mono_r_iff 2); lia. }
  lia.
Qed.

(** Shifting a nonnegative record right. *)
Lemma shr_1_m : forall r, 0 <= shr_m r -> shr_m (shr_1 r) = shr_m r / 2 /\ 0 <= shr_m (shr_1 r).
Proof.
  intros [m r s]; cbn. destruct m as [|[p|p|]|p]; intros H; cbn; try lia.
  - split; [|lia]. apply Z.div_unique with (r := 1); lia.
  - split; [|lia]. apply Z.div_unique with (r := 0); lia.
Qed.

Lemma iter_plus : forall (A : Type) (f : A -> A) n m x,
  Nat.iter (n + m) f x = Nat.iter n f (Nat.iter m f x).
Proof. intros A f n m x. induction n; [reflexivity|]. cbn. f_equal. exact IHn. Qed.

Lemma iter_succ_r : forall (A : Type) (f : A -> A) n x,
  Nat.iter (S n) f x = Nat.iter n f (f x).
Proof. intros. replace (S n) with (n + 1)%nat by lia. rewrite iter_plus. reflexivity. Qed.

Lemma iter_add : forall (A : Type) (f : A -> A) p x,
  iter_pos f p x = Nat.iter (Pos.to_nat p) f x.
Proof.
  intros A f p. induction p; intros x; cbn [iter_pos].
  - rewrite !IHp. replace (Pos.to_nat p~1) with (Pos.to_nat p + (Pos.to_nat p + 1))%nat by lia.
    rewrite !iter_plus. reflexivity.
  - rewrite !IHp. replace (Pos.to_nat p~0) with (Pos.to_nat p + Pos.to_nat p)%nat by lia.
    rewrite !iter_plus. reflexivity.
  - reflexivity.
Qed.

Lemma iter_shr_m : forall n r, 0 <= shr_m r ->
  shr_m (Nat.iter n shr_1 r) = shr_m r / 2 ^ Z.of_nat n /\ 0 <= shr_m (Nat.iter n shr_1 r).
Proof.
  induction n; intros r H.
  - cbn [Nat.iter nat_rect]. change (Z.of_nat 0) with 0. rewrite Z.pow_0_r, Z.div_1_r. auto.
  - cbn [Nat.iter nat_rect]. destruct (IHn r H) as [E P].
    fold (Nat.iter n shr_1 r) in *.
    destruct (shr_1_m _ P) as [E2 P2]. split; [|exact P2].
    rewrite E2, E. rewrite Nat2Z.inj_succ. unfold Z.succ.
    rewrite Z.pow_add_r by lia. rewrite Z.div_div by lia. reflexivity.
Qed.

Lemma shr_m_loc : forall m l, shr_m (shr_record_of_loc m l) = m.
Proof. intros m [|[]]; reflexivity. Qed.

Lemma shr_spec : forall r e n, 0 <= shr_m r -> 0 <= n ->
  shr_m (fst (shr r e n)) = shr_m r / 2 ^ n /\ snd (shr r e n) = e + n.
Proof.
  intros r e n Hr Hn. destruct n as [|p|p]; cbn [shr fst snd].
  - rewrite Z.pow_0_r, Z.div_1_r. split; [reflexivity|lia].
  - rewrite iter_add. destruct (iter_shr_m (Pos.to_nat p) r Hr) as [E _].
    rewrite E, positive_nat_Z. auto.
  - lia.
Qed.

Lemma round_ne_cases : forall m l, round_nearest_even m l = m \/ round_nearest_even m l = m + 1.
Proof. intros m [|[]]; cbn; auto. destruct (Z.even m); auto. Qed.

Lemma fexp_ge : forall e, emin <= fexp e /\ e - prec <= fexp e.
Proof. intros e. unfold fexp, SpecFloat.fexp. lia. Qed.

Lemma fexp_cases : forall e, (fexp e = emin /\ e - prec <= emin) \/ (fexp e = e - prec /\ emin <= e - prec).
Proof. intros e. unfold fexp, SpecFloat.fexp. lia. Qed.

(** Rounding an aligned positive mantissa gives a canonical result. *)
Lemma binary_round_aux_valid : forall sx m ex l,
  ex <= fexp (Zpos (digits2_pos m) + ex) ->
  valid (binary_round_aux prec emax sx (Zpos m) ex l) = true.
Proof.
  intros sx m ex l Ha. unfold binary_round_aux.
  unfold shr_fexp at 1.
  set (d := Zpos (digits2_pos m)) in *.
  change (Zdigits2 (Zpos m)) with d.
  set (n := fexp (d + ex) - ex).
  destruct (shr (shr_record_of_loc (Zpos m) l) ex n) as [r e'] eqn:Es.
  assert (Hn : 0 <= n) by (unfold n; lia).
  destruct (shr_spec (shr_record_of_loc (Zpos m) l) ex n) as [Em Ee];
    [rewrite shr_m_loc; lia|exact Hn|].
  rewrite Es in Em, Ee. cbn [fst snd] in Em, Ee. rewrite shr_m_loc in Em.
  assert (He' : e' = fexp (d + ex)) by (unfold n in Ee; lia).
  destruct (digits_bounds m) as [Lm Um]. fold d in Lm, Um.
  set (m' := shr_m r) in *.
  assert (Hdn : d - n <= prec).
  { destruct (fexp_ge (d + ex)). unfold n. lia. }
  assert (Um' : d - n < 0 -> m' = 0).
  { intros H. rewrite Em. apply Z.div_small. split; [lia|].
    eapply Z.lt_le_trans; [exact Um|]. apply Z.pow_le_mono_r; lia. }
  assert (Um'' : 0 <= d - n -> m' < 2 ^ (d - n)).
  { intros H. rewrite Em. apply Z.div_lt_upper_bound; [lia|].
    rewrite <- Z.pow_add_r by lia. replace (n + (d - n)) with d by lia. exact Um. }
  assert (P' : 0 <= m') by (rewrite Em; apply Z.div_pos; lia).
  set (m2 := round_nearest_even m' (loc_of_shr_record r)).
  assert (Hm2 : m2 = m' \/ m2 = m' + 1) by apply round_ne_cases.
  destruct (shr_fexp prec emax m2 e' loc_Exact) as [r2 e2] eqn:Es2.
  unfold shr_fexp in Es2.
  destruct (fexp_ge (d + ex)) as [G1 G2].
  destruct m2 as [|p|p] eqn:Em2; [| |lia].
  - cbn [Zdigits2 shr_record_of_loc] in Es2.
    assert (shr_m r2 = 0) as ->; [|reflexivity].
    destruct (fexp (0 + e') - e') as [|q|q]; cbn [shr] in Es2; inversion Es2; subst; try reflexivity.
    rewrite iter_add. destruct (iter_shr_m (Pos.to_nat q) {| shr_m := 0; shr_r := false; shr_s := false |}) as [E _]; [cbn; lia|].
    rewrite E. cbn [shr_m]. apply Z.div_0_l. lia.
  - cbn [Zdigits2 shr_record_of_loc] in Es2.
    set (d2 := Zpos (digits2_pos p)) in *.
    destruct (digits_bounds p) as [L2 U2]. fold d2 in L2, U2.
    assert (Hd2 : d2 <= prec \/ (d2 = prec + 1 /\ Zpos p = 2 ^ prec)).
    { destruct (Z_lt_le_dec (d - n) 0) as [C|C].
      - specialize (Um' C). assert (Zpos p = 1) by lia. left.
        unfold d2. inversion H. cbn [digits2_pos]. lia.
      - specialize (Um'' C).
        assert (Zpos p <= 2 ^ prec).
        { transitivity (2 ^ (d - n)); [lia|apply Z.pow_le_mono_r; lia]. }
        destruct (Z.eq_dec (Zpos p) (2 ^ prec)) as [E|E].
        + right. split; [|exact E]. unfold d2. apply digits_unique; [lia|].
          rewrite E. replace (prec + 1 - 1) with prec by lia. rewrite Z.pow_add_r by lia. lia.
        + left. unfold d2. apply digits_le; lia. }
    assert (He2 : e' = emin \/ (prec <= d2 /\ emin <= e')).
    { destruct (fexp_cases (d + ex)) as [[F1 F2]|[F1 F2]]; [left; lia|right].
      split; [|lia].
      assert (d - n = prec) by (unfold n; lia).
      unfold d2. apply digits_ge; [lia|].
      assert (2 ^ (prec - 1) <= m').
      { rewrite Em. apply Z.div_le_lower_bound; [lia|]. rewrite <- Z.pow_add_r by lia.
        replace (n + (prec - 1)) with (d - 1) by lia. exact Lm. }
      lia. }
    assert (Gm : emin <= e') by lia.
    destruct Hd2 as [Hd2|[Hd2 Ep]].
    + (* no further shift *)
      assert (F : fexp (d2 + e') = e').
      { destruct (fexp_cases (d2 + e')) as [[F1 F2]|[F1 F2]]; lia. }
      rewrite F, Z.sub_diag in Es2. cbn [shr] in Es2. inversion Es2; subst r2 e2.
      cbn [shr_m]. destruct (Z.leb e' (emax - prec)) eqn:El; [|reflexivity].
      cbn [valid_binary]. unfold bounded, canonical_mantissa. fold d2. rewrite F, El.
      rewrite (proj1 (Zeq_is_eq_bool e' e') eq_refl). reflexivity.
    + (* the carry made a power of two *)
      assert (F : fexp (d2 + e') = e' + 1).
      { destruct (fexp_cases (d2 + e')) as [[F1 F2]|[F1 F2]]; lia. }
      rewrite F in Es2. replace (e' + 1 - e') with 1 in Es2 by lia.
      cbn [shr iter_pos] in Es2.
      pose proof (shr_1_m {| shr_m := Zpos p; shr_r := false; shr_s := false |}) as [E _]; [cbn; lia|].
      pose proof (f_equal fst Es2) as Er. pose proof (f_equal snd Es2) as E2. cbn [fst snd] in Er, E2.
      subst r2 e2. rewrite E. cbn [shr_m]. rewrite Ep.
      assert (E1 : 2 ^ prec / 2 = 2 ^ (prec - 1)).
      { replace prec with (prec - 1 + 1) at 1 by lia. rewrite Z.pow_add_r by lia. apply Z.div_mul. lia. }
      rewrite E1. destruct (2 ^ (prec - 1)) as [|q|q] eqn:Eq; try (pose proof (Z.pow_pos_nonneg 2 (prec - 1)); lia).
      destruct (Z.leb (e' + 1) (emax - prec)) eqn:El; [|reflexivity].
      cbn [valid_binary]. unfold bounded, canonical_mantissa.
      assert (Hq : Zpos (digits2_pos q) = prec).
      { apply digits_unique; [lia|]. rewrite <- Eq. split; [lia|]. apply Z.pow_lt_mono_r; lia. }
      rewrite Hq, El.
      assert (fexp (prec + (e' + 1)) = e' + 1) as ->.
      { destruct (fexp_cases (prec + (e' + 1))) as [[F1 F2]|[F1 F2]]; lia. }
      rewrite (proj1 (Zeq_is_eq_bool (e' + 1) (e' + 1)) eq_refl). reflexivity.
Qed.

Lemma bounded_spec : forall m e, bounded prec emax m e = true ->
  fexp (Zpos (digits2_pos m) + e) = e /\ e <= emax - prec.
Proof.
  intros m e H. unfold bounded, canonical_mantissa in H.
  apply andb_true_iff in H as [H1 H2]. apply Zeq_bool_eq in H1. apply Z.leb_le in H2. auto.
Qed.

Lemma SFmul_valid : forall x y, valid x = true -> valid y = true ->
  valid (SFmul prec emax x y) = true.
Proof.
  intros [sx|sx| |sx mx ex] [sy|sy| |sy my ey] Hx Hy; try reflexivity.
  cbn [valid_binary] in Hx, Hy. cbn [SFmul].
  apply bounded_spec in Hx as [X1 X2]. apply bounded_spec in Hy as [Y1 Y2].
  apply binary_round_aux_valid.
  destruct (digits_bounds mx) as [Lx Ux]. destruct (digits_bounds my) as [Ly Uy].
  set (dx := Zpos (digits2_pos mx)) in *. set (dy := Zpos (digits2_pos my)) in *.
  assert (D : dx + dy - 1 <= Zpos (digits2_pos (mx * my))).
  { apply digits_ge; [lia|]. rewrite Pos2Z.inj_mul.
    replace (dx + dy - 1 - 1) with ((dx - 1) + (dy - 1)) by lia.
    rewrite Z.pow_add_r by lia. apply Z.mul_le_mono_nonneg; lia. }
  set (d := Zpos (digits2_pos (mx * my))) in *.
  destruct (fexp_ge (d + (ex + ey))) as [G1 G2].
  destruct (fexp_cases (dx + ex)) as [[A1 A2]|[A1 A2]];
  destruct (fexp_cases (dy + ey)) as [[B1 B2]|[B1 B2]]; try lia.
  assert (emin <= 0) by (unfold emin, SpecFloat.emin; lia). lia.
Qed.

Lemma shift_pos_spec : forall d m, Zpos (shift_pos d m) = Zpos m * 2 ^ Zpos d.
Proof. intros. rewrite shift_pos_correct. rewrite Zpower_pos_nat, Zpower_nat_Z, positive_nat_Z. lia. Qed.

Lemma digits_shift : forall m k, Zpos (digits2_pos (shift_pos k m)) = Zpos (digits2_pos m) + Zpos k.
Proof.
  intros m k. apply digits_unique; [lia|]. rewrite shift_pos_spec.
  destruct (digits_bounds m) as [L U].
  replace (Z.pos (digits2_pos m) + Z.pos k - 1) with ((Z.pos (digits2_pos m) - 1) + Z.pos k) by lia.
  rewrite !Z.pow_add_r by lia. split; [apply Z.mul_le_mono_nonneg_r|apply Z.mul_lt_mono_pos_r]; lia.
Qed.

Lemma binary_round_valid : forall s m e, valid (binary_round prec emax s m e) = true.
Proof.
  intros s m e. unfold binary_round, shl_align.
  set (f := fexp (Zpos (digits2_pos m) + e)).
  destruct (f - e) as [|q|q] eqn:E; apply binary_round_aux_valid.
  - fold f. lia.
  - fold f. lia.
  - rewrite digits_shift. replace (Zpos (digits2_pos m) + Zpos q + f) with (Zpos (digits2_pos m) + e) by lia.
    fold f. lia.
Qed.

Lemma SFadd_valid : forall x y, valid x = true -> valid y = true ->
  valid (SFadd prec emax x y) = true.
Proof.
  intros [sx|sx| |sx mx ex] [sy|sy| |sy my ey] Hx Hy; try reflexivity; try assumption; cbn [SFadd].
  - destruct (Bool.eqb sx sy); reflexivity.
  - destruct (Bool.eqb sx sy); reflexivity.
  - unfold binary_normalize. destruct (_ + _)%Z; [reflexivity| |]; apply binary_round_valid.
Qed.

Lemma SFadd_comm : forall x y, SFadd prec emax x y = SFadd prec emax y x.
Proof.
  intros [sx|sx| |sx mx ex] [sy|sy| |sy my ey]; try reflexivity; cbn [SFadd].
  - destruct sx, sy; reflexivity.
  - destruct sx, sy; reflexivity.
  - rewrite (Z.min_comm ey ex). rewrite (Z.add_comm (cond_Zopp sx _)). reflexivity.
Qed.

Lemma SFmul_comm : forall x y, SFmul prec emax x y = SFmul prec emax y x.
Proof.
  intros [sx|sx| |sx mx ex] [sy|sy| |sy my ey]; try reflexivity; cbn [SFmul];
    rewrite ?(xorb_comm sx sy); try reflexivity.
  rewrite (Pos.mul_comm mx my), (Z.add_comm ex ey). reflexivity.
Qed.

(** One, as the format represents it: mantissa 2^(prec-1), exponent 1-prec. *)
Definition SFone : spec_float := S754_finite false (shift_pos (Z.to_pos (prec - 1)) 1) (1 - prec).

Lemma iter_shr_exact : forall n m, 
  Nat.iter n shr_1 {| shr_m := Zpos (Nat.iter n xO m); shr_r := false; shr_s := false |}
  = {| shr_m := Zpos m; shr_r := false; shr_s := false |}.
Proof.
  induction n; intros m; [reflexivity|].
  rewrite iter_succ_r. change (Nat.iter (S n) xO m) with (xO (Nat.iter n xO m)). cbn [shr_1 orb]. apply IHn.
Qed.

Lemma SFmul_one : forall x, valid x = true -> SFmul prec emax x SFone = x.
Proof.
  intros [sx|sx| |sx mx ex] Hx; unfold SFone; cbn [SFmul]; rewrite ?xorb_false_r; try reflexivity.
  cbn [valid_binary] in Hx. pose proof Hx as Hb. apply bounded_spec in Hx as [X1 X2].
  set (k := Z.to_pos (prec - 1)).
  assert (Hk : Zpos k = prec - 1) by (unfold k; rewrite Z2Pos.id; lia).
  assert (Em : (mx * shift_pos k 1)%positive = Nat.iter (Pos.to_nat k) xO mx).
  { apply Pos2Z.inj. rewrite Pos2Z.inj_mul, shift_pos_spec.
    rewrite <- (positive_nat_Z k) at 1. generalize (Pos.to_nat k) as n. clear.
    induction n; [cbn; lia|]. change (Nat.iter (S n) xO mx) with (xO (Nat.iter n xO mx)). rewrite Nat2Z.inj_succ, Z.pow_succ_r by lia.
    rewrite (Pos2Z.inj_xO (Nat.iter n xO mx)), <- IHn. lia. }
  assert (Es : (mx * shift_pos k 1)%positive = shift_pos k mx).
  { apply Pos2Z.inj. rewrite Pos2Z.inj_mul, !shift_pos_spec. lia. }
  unfold binary_round_aux, shr_fexp at 1. cbn [Zdigits2 shr_record_of_loc].
  assert (Zpos (digits2_pos (mx * shift_pos k 1)) = Zpos (digits2_pos mx) + Zpos k) as ->.
  { rewrite Es. apply digits_shift. }
  replace (Z.pos (digits2_pos mx) + Z.pos k + (ex + (1 - prec))) with (Z.pos (digits2_pos mx) + ex) by lia.
  rewrite X1. replace (ex - (ex + (1 - prec))) with (Zpos k) by lia.
  cbn [shr]. rewrite iter_add, Em, iter_shr_exact.
  cbn [shr_m loc_of_shr_record round_nearest_even].
  unfold shr_fexp. cbn [Zdigits2 shr_record_of_loc].
  replace (ex + (1 - prec) + Z.pos k) with ex by lia.
  rewrite X1, Z.sub_diag. cbn [shr shr_m].
  rewrite (proj2 (Z.leb_le ex (emax - prec)) X2). reflexivity.
Qed.

Lemma SFone_valid : valid SFone = true.
Proof.
  unfold SFone. cbn [valid_binary]. unfold bounded, canonical_mantissa.
  rewrite digits_shift, Z2Pos.id by lia. cbn [digits2_pos].
  assert (SpecFloat.fexp prec emax (1 + (prec - 1) + (1 - prec)) = 1 - prec) as ->.
  { unfold SpecFloat.fexp, SpecFloat.emin. lia. }
  rewrite (proj1 (Zeq_is_eq_bool (1 - prec) (1 - prec)) eq_refl). apply Z.leb_le. lia.
Qed.

End Flt.
