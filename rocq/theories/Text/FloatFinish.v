(** [finish] rounds correctly what [hexfloat] hands to it. *)
From Coq Require Import ZArith Lia List Bool.
From Verif Require Import Base.Prelude Base.BitFacts Text.Spec Text.Numbers Text.FloatCore.
Import ListNotations.
Open Scope Z_scope.

Lemma cmp_parts : forall P h q rho, 0 < P -> 0 <= rho < P ->
  (2 * h * P < 2 * (q * P + rho) <-> h < q \/ (h = q /\ 0 < rho)) /\ (2 * h * P = 2 * (q * P + rho) <-> h = q /\ rho = 0).
Proof.
  intros P h q rho PP R. destruct (Z.lt_trichotomy h q) as [L|[L|L]].
  - assert (h * P + P <= q * P) by (replace (h * P + P) with ((h + 1) * P) by ring; apply Z.mul_le_mono_nonneg_r; lia). split; split; lia.
  - subst q. split; split; lia.
  - assert (q * P + P <= h * P) by (replace (q * P + P) with ((q + 1) * P) by ring; apply Z.mul_le_mono_nonneg_r; lia). split; split; lia.
Qed.

(** Keeps a fact from the arithmetic tactics. *)
Definition hold (P : Prop) : Prop := P.
Definition below (a b c d : Z) : Prop := a < b -> c <= d.
Definition same (a b c d : Z) : Prop := a = b -> c = d.
Definition zero_iff (a b : Z) : Prop := a = 0 <-> b = 0.
(** What is below the significand is summed up correctly. *)
Definition sticky (low : Z) (extra : bool) (rest : Z) : Prop := low <> 0 \/ extra = true <-> rest <> 0.

Section Finish.
Variables w e : Z.
Hypothesis W : fmt_ok w e.
Notation mm := (mant w e).
Ltac ff := let H := fresh "FF" in pose proof (fmt_facts w e W) as H; decompose [and] H; clear H.

(** The rounding decision, from the bits below position [c + 3] of [S]. *)
Lemma up_eq : forall M m S extra c odd, 0 <= m -> 0 <= S < 2 ^ w -> 1 <= c <= w - 3 ->
  S / 8 = M * 2 ^ w / 2 ^ (m + 3) -> sticky (S mod 8) extra ((M * 2 ^ w) mod 2 ^ (m + 3)) ->
  let ds := wrapu w (Z.shiftl S (w - 3 - c)) in
  let J := m + 3 + c in
  let r := (M * 2 ^ w) mod 2 ^ J in
  S / 2 ^ (c + 3) = M * 2 ^ w / 2 ^ J /\
  negb (Z.land ds (msb w) =? 0) && (negb (Z.land ds (msb w - 1) =? 0) || extra || odd) = (2 ^ J <? 2 * r) || ((2 ^ J =? 2 * r) && odd).
Proof.
  intros M m S extra c odd MP SB C Q ST ds J r. ff.
  set (V := M * 2 ^ w) in *.
  split.
  { replace (c + 3) with (3 + c) by lia. unfold J. rewrite (div_pow S 3 c), (div_pow V (m + 3) c) by lia. change (2 ^ 3) with 8. rewrite Q. reflexivity. }
  set (k := w - 3 - c). assert (K : 0 <= k) by (unfold k; lia).
  pose proof (p2 k K) as PK. pose proof (p2 c ltac:(lia)) as PC. pose proof (p2 (c - 1) ltac:(lia)) as PH. pose proof (p2 (m + 3) ltac:(lia)) as PP.
  assert (CH : 2 ^ c = 2 * 2 ^ (c - 1)) by (replace c with (c - 1 + 1) at 1 by lia; rewrite p2_add by lia; rewrite p2_1; lia).
  assert (DS : ds = (S mod 2 ^ (3 + c)) * 2 ^ k).
  { unfold ds, wrapu. fold k. rewrite shl by exact K. replace w with (3 + c + k) by (unfold k; lia). rewrite (p2_add (3 + c) k) by lia.
    apply Z.mul_mod_distr_r; [apply Z.pow_nonzero; lia|lia]. }
  pose proof (mod_pow S 3 c ltac:(lia) ltac:(lia)) as MS. change (2 ^ 3) with 8 in MS. rewrite Q in MS.
  assert (R : r = ((V / 2 ^ (m + 3)) mod 2 ^ c) * 2 ^ (m + 3) + V mod 2 ^ (m + 3)) by (unfold r, J; apply mod_pow; lia).
  rewrite MS in DS. set (qc := (V / 2 ^ (m + 3)) mod 2 ^ c) in *.
  assert (QC : 0 <= qc < 2 ^ c) by (apply Z.mod_pos_bound; lia).
  pose proof (Z.mod_pos_bound S 8 ltac:(lia)) as SM. pose proof (Z.mod_pos_bound V (2 ^ (m + 3)) PP) as VM.
  set (s := S mod 8) in *. set (rho := V mod 2 ^ (m + 3)) in *.
  assert (WP : 2 ^ (w - 1) = 4 * (2 * 2 ^ (c - 1)) * 2 ^ k).
  { rewrite <- CH. change 4 with (2 ^ 2). rewrite <- !p2_add by lia. f_equal. unfold k. lia. }
  assert (JP : 2 ^ J = 2 * 2 ^ (c - 1) * 2 ^ (m + 3)) by (rewrite <- CH, <- p2_add by lia; f_equal; unfold J; lia).
  assert (DB : 0 <= ds < 2 * 2 ^ (w - 1)).
  { rewrite DS, WP. assert (0 <= qc * 8 + s < 8 * (2 * 2 ^ (c - 1))) by lia. split; [apply Z.mul_nonneg_nonneg; lia|].
    replace (2 * (4 * (2 * 2 ^ (c - 1)) * 2 ^ k)) with (8 * (2 * 2 ^ (c - 1)) * 2 ^ k) by ring. apply Z.mul_lt_mono_pos_r; lia. }
  assert (W1 : 0 <= w - 1) by lia. clear - DB W1 DS WP JP R QC CH SM VM ST PK PC PH PP.
  unfold msb. rewrite land_top by assumption. rewrite land_mask by assumption. rewrite JP, R. clear R JP.
  set (h := 2 ^ (c - 1)) in *. set (P := 2 ^ (m + 3)) in *. set (T := 2 ^ k) in *.
  destruct (cmp_parts P h qc rho PP VM) as [CP1 CP2].
  assert (CL : (2 * h * P <? 2 * (qc * P + rho)) = (h <? qc) || ((h =? qc) && (0 <? rho))).
  { destruct (2 * h * P <? 2 * (qc * P + rho)) eqn:Q1; symmetry.
    - apply Z.ltb_lt, CP1 in Q1. destruct Q1 as [Q1|[Q1 Q2]]; [apply Z.ltb_lt in Q1; rewrite Q1; reflexivity|].
      apply Z.eqb_eq in Q1. apply Z.ltb_lt in Q2. rewrite Q1, Q2. apply orb_true_r.
    - apply Z.ltb_ge in Q1. destruct (h <? qc) eqn:Q2; [apply Z.ltb_lt in Q2; assert (2 * h * P < 2 * (qc * P + rho)) by (apply CP1; auto); lia|].
      destruct (h =? qc) eqn:Q3; [|reflexivity]. destruct (0 <? rho) eqn:Q4; [|reflexivity]. apply Z.eqb_eq in Q3. apply Z.ltb_lt in Q4.
      assert (2 * h * P < 2 * (qc * P + rho)) by (apply CP1; auto). lia. }
  assert (CE : (2 * h * P =? 2 * (qc * P + rho)) = (h =? qc) && (rho =? 0)).
  { destruct (2 * h * P =? 2 * (qc * P + rho)) eqn:Q1; symmetry.
    - apply Z.eqb_eq, CP2 in Q1. destruct Q1 as [-> ->]. rewrite !Z.eqb_refl. reflexivity.
    - apply Z.eqb_neq in Q1. apply andb_false_iff. destruct (h =? qc) eqn:Q2; [|left; reflexivity]. right. apply Z.eqb_eq in Q2. apply Z.eqb_neq. intros Q3. apply Q1. apply CP2. auto. }
  rewrite CL, CE. clear CL CE CP1 CP2 PC PP. clearbody s rho qc T ds. set (w1 := 2 ^ (w - 1)) in *. clearbody w1.
  (* the same for the bits of the significand *)
  assert (DD : ds = qc * (8 * T) + s * T) by (rewrite DS; ring). assert (WW : w1 = h * (8 * T)) by (rewrite WP; ring). clear DS WP CH. clearbody h.
  set (T8 := 8 * T) in *.
  assert (ST8 : 0 <= s * T < T8) by (unfold T8; split; [apply Z.mul_nonneg_nonneg; lia|apply Z.mul_lt_mono_pos_r; lia]).
  assert (P8 : 0 < T8) by (unfold T8; lia).
  destruct (cmp_parts T8 h qc (s * T) P8 ST8) as [CP1 CP2].
  assert (SZ : zero_iff (s * T) s) by (split; [intros Z0; apply Z.mul_eq_0 in Z0; lia|intros ->; reflexivity]).
  set (sT := s * T) in *. clearbody sT T8. clear PK T.
  assert (QC8 : below h qc (h * T8 + T8) (qc * T8)) by (intros ?; replace (h * T8 + T8) with ((h + 1) * T8) by ring; apply Z.mul_le_mono_nonneg_r; lia).
  assert (QC9 : below qc h (qc * T8 + T8) (h * T8)) by (intros ?; replace (qc * T8 + T8) with ((qc + 1) * T8) by ring; apply Z.mul_le_mono_nonneg_r; lia).
  assert (QC0 : same h qc (h * T8) (qc * T8)) by (intros ->; reflexivity). clear CP1 CP2.
  set (x1 := h * T8) in *. set (x2 := qc * T8) in *. clearbody x1 x2. clear PH QC.
  destruct (ds <? w1) eqn:E.
  - apply Z.ltb_lt in E. cbn [negb andb].
    assert (L : qc < h) by (destruct (Z.lt_trichotomy qc h) as [L|[L|L]]; [exact L|specialize (QC0 (eq_sym L)); lia|specialize (QC8 L); lia]).
    assert ((h <? qc) = false) as -> by (apply Z.ltb_ge; lia). assert ((h =? qc) = false) as -> by (apply Z.eqb_neq; lia). reflexivity.
  - apply Z.ltb_ge in E. cbn [negb andb].
    assert (DM : ds mod w1 = ds - w1) by (symmetry; apply (Z.mod_unique _ _ 1); lia). rewrite DM.
    assert (LE : h <= qc). { destruct (Z.le_gt_cases h qc) as [L|L]; [exact L|]. specialize (QC9 L). lia. }
    assert (SUB : (ds - w1 =? 0) = (h =? qc) && (s =? 0)).
    { destruct ((h =? qc) && (s =? 0)) eqn:B.
      - apply andb_true_iff in B. destruct B as [B1 B2]. apply Z.eqb_eq in B1, B2. apply Z.eqb_eq. apply SZ in B2. specialize (QC0 B1). lia.
      - apply Z.eqb_neq. intros Q. apply andb_false_iff in B. destruct B as [B|B]; apply Z.eqb_neq in B.
        + assert (L : h < qc) by lia. specialize (QC8 L). lia.
        + assert (sT <> 0) by (intros Z0; apply B; apply SZ; exact Z0). destruct (Z.eq_dec h qc) as [L|L]; [specialize (QC0 L); lia|].
          assert (L' : h < qc) by lia. specialize (QC8 L'). lia. }
    rewrite SUB.
    destruct (h =? qc) eqn:HQ; cbn [andb orb].
    + apply Z.eqb_eq in HQ. assert ((h <? qc) = false) as -> by (apply Z.ltb_ge; lia). cbn [orb].
      destruct (s =? 0) eqn:S0; cbn [negb orb].
      * apply Z.eqb_eq in S0. destruct extra; cbn [orb].
        -- assert (rho <> 0) by (apply ST; auto). assert ((0 <? rho) = true) as -> by (apply Z.ltb_lt; lia). reflexivity.
        -- assert (rho = 0). { destruct (Z.eq_dec rho 0) as [Z0|Z0]; [exact Z0|]. apply ST in Z0. destruct Z0 as [Z0|Z0]; [contradiction|discriminate]. }
           assert ((0 <? rho) = false) as -> by (apply Z.ltb_ge; lia). assert ((rho =? 0) = true) as -> by (apply Z.eqb_eq; assumption). reflexivity.
      * apply Z.eqb_neq in S0. assert (rho <> 0) by (apply ST; auto). assert ((0 <? rho) = true) as -> by (apply Z.ltb_lt; lia). reflexivity.
    + apply Z.eqb_neq in HQ. assert ((h <? qc) = true) as -> by (apply Z.ltb_lt; lia). reflexivity.
Qed.

(** The sign, and no infinity. *)
Lemma sign_bits : forall (neg : bool) b, 0 <= b <= inf_bits w e ->
  (if is_infinite w e (if neg then Z.lor b (msb w) else b) then None else Some (if neg then Z.lor b (msb w) else b)) =
  if b =? inf_bits w e then None else Some (b + (if neg then 2 ^ (w - 1) else 0)).
Proof.
  intros neg b B. ff. assert (IB : inf_bits w e < 2 ^ (w - 1)).
  { unfold inf_bits. replace (w - 1) with (e + mm) by lia. rewrite p2_add by lia. pose proof (p2 mm ltac:(lia)). nia. }
  assert (E : (if neg then Z.lor b (msb w) else b) = b + (if neg then 2 ^ (w - 1) else 0)).
  { destruct neg; [|lia]. unfold msb. pose proof (lor_add_shift b 1 (w - 1) ltac:(lia) ltac:(lia)) as L. rewrite Z.mul_1_l in L. exact L. }
  rewrite E. unfold is_infinite, msb, exp_offset. rewrite land_mask by lia. rewrite shl by lia. 
  assert (M : (b + (if neg then 2 ^ (w - 1) else 0)) mod 2 ^ (w - 1) = b).
  { destruct neg; [|rewrite Z.add_0_r; apply Z.mod_small; lia]. symmetry. apply (Z.mod_unique _ _ 1); lia. }
  rewrite M. fold (mant w e). unfold inf_bits. reflexivity.
Qed.

Lemma small_div : forall V b J, 0 <= V < 2 ^ b -> 0 <= b -> 0 <= J -> 0 <= V / 2 ^ J < 2 ^ Z.max 0 (b - J).
Proof.
  intros V b J H B JP. pose proof (p2 J JP). split; [apply Z.div_pos; lia|]. apply Z.div_lt_upper_bound; [lia|].
  rewrite <- p2_add by lia. eapply Z.lt_le_trans; [exact (proj2 H)|]. apply p2_le. lia.
Qed.
Lemma low_div : forall V a J, 2 ^ a <= V -> 0 <= J <= a -> 2 ^ (a - J) <= V / 2 ^ J.
Proof.
  intros V a J H JP. pose proof (p2 J ltac:(lia)). apply Z.div_le_lower_bound; [lia|]. rewrite <- p2_add by lia.
  replace (J + (a - J)) with a by lia. exact H.
Qed.
Definition goal (neg : bool) (M exp2 : Z) (res : option Z) : Prop :=
  exists b, rounds_to w e (M * 2 ^ Z.max 0 (exp2 + scale w e)) (2 ^ Z.max 0 (- (exp2 + scale w e))) b /\
    res = if b =? inf_bits w e then None else Some (b + (if neg then 2 ^ (w - 1) else 0)).
Lemma goal_intro : forall neg M exp2 b0 (up : bool) res, 0 <= b0 < inf_bits w e ->
  rounds_to w e (M * 2 ^ Z.max 0 (exp2 + scale w e)) (2 ^ Z.max 0 (- (exp2 + scale w e))) (if up then b0 + 1 else b0) ->
  res = (let bits := b0 + b2z up in if is_infinite w e (if neg : bool then Z.lor bits (msb w) else bits) then None else Some (if neg then Z.lor bits (msb w) else bits)) ->
  goal neg M exp2 res.
Proof.
  intros neg M exp2 b0 up res B R ->. eexists. split; [exact R|]. cbv zeta.
  replace (b0 + b2z up) with (if up then b0 + 1 else b0) by (destruct up; cbn [b2z]; lia). apply sign_bits. destruct up; lia.
Qed.
Lemma pow_bounds : forall M m, 2 ^ (m - 1) <= M < 2 ^ m -> 1 <= m -> 0 <= w -> 2 ^ (m - 1 + w) <= M * 2 ^ w < 2 ^ (m + w) /\ 0 <= M * 2 ^ w.
Proof.
  intros M m B M1 WP. pose proof (p2 w WP). pose proof (p2 (m - 1) ltac:(lia)). rewrite !p2_add by lia.
  split; [split; [apply Z.mul_le_mono_nonneg_r; lia|apply Z.mul_lt_mono_pos_r; lia]|apply Z.mul_nonneg_nonneg; lia].
Qed.
(** Subnormal, or nothing. *)
Lemma finish_sub : forall neg M exp2 S extra m, 0 < M -> 1 <= m -> 2 ^ (m - 1) <= M < 2 ^ m ->
  0 <= S < 2 ^ w -> S / 8 = M * 2 ^ w / 2 ^ (m + 3) -> sticky (S mod 8) extra ((M * 2 ^ w) mod 2 ^ (m + 3)) ->
  m - 1 + exp2 <= - bias e -> goal neg M exp2 (finish w e neg (m - 1 + exp2) S extra).
Proof.
  intros neg M exp2 S extra m MP M1 LB SB Q ST C1. pose proof (fmt_facts w e W) as (F1 & F2 & F3 & _ & F5 & _ & F7).
  destruct (pow_bounds M m LB M1 ltac:(clear - F1 F2 F3; lia)) as [VB V0]. 
  assert (SC : exp2 + scale w e = exp2 + bias e - 1 + mm) by (unfold scale, bias; clear; lia).
  assert (IM : 2 ^ mm <= inf_bits w e).
  { unfold inf_bits. pose proof (p2 mm ltac:(clear - F1; lia)) as PM. pose proof (fmt_facts w e W) as (_ & _ & _ & _ & _ & F6 & _).
    rewrite <- (Z.mul_1_l (2 ^ mm)) at 1. apply Z.mul_le_mono_nonneg_r; [clear - PM; lia|clear - F6 F7; lia]. }
  unfold finish, encode. assert ((m - 1 + exp2 <=? - bias e) = true) as -> by (apply Z.leb_le; exact C1).
  replace (exp_offset w e) with mm by reflexivity.
  assert (SH : exists shift, shift = mm + (m - 1 + exp2) + bias e) by eauto. destruct SH as [shift SE]. rewrite <- SE.
  assert (SH : shift <= mm) by (clear - SE C1; lia).
  assert (CE : exists c, c = w - 3 - shift) by eauto. destruct CE as [c CE]. assert (CC : 1 <= c) by (clear - CE SH F2 F3; lia).
  assert (JE : exists J, J = m + 3 + c) by eauto. destruct JE as [J JE]. assert (J0 : 0 <= J) by (clear - JE M1 CC; lia).
  assert (TE : exists t, t = M * 2 ^ w / 2 ^ J) by eauto. destruct TE as [t TE].
  assert (TB : 0 <= t < 2 ^ Z.max 0 shift).
  { rewrite TE. replace shift with (m + w - J) by (clear - JE CE; lia). apply small_div; [clear - VB V0; lia|clear - M1 F1 F2 F3; lia|exact J0]. }
  assert (TM : t < 2 ^ mm) by (eapply Z.lt_le_trans; [exact (proj2 TB)|]; apply p2_le; clear - SH F1; lia).
  assert (TI : 0 <= t < inf_bits w e) by (clear - TB TM IM; lia).
  pose proof (round_bits w e W M exp2 J 0 t t MP ltac:(clear - F1 F2 F3; lia) J0 ltac:(clear; lia)
    ltac:(clear - SC JE CE SE F3; lia) TE TI) as RB.
  change (2 ^ 0) with 1 in RB. rewrite (units_sub w e W t), (units_sub w e W (t + 1)) in RB by (clear - TB TM; lia).
  specialize (RB ltac:(clear; lia) ltac:(clear; lia)). cbv zeta in RB.
  destruct (shift <? 0) eqn:N0.
  - (* too small *)
    apply Z.ltb_lt in N0. cbn [orb]. assert ((shift =? 0) = false) as -> by (apply Z.eqb_neq; clear - N0; lia).
    assert (T0 : t = 0) by (rewrite Z.max_l in TB by (clear - N0; lia); change (2 ^ 0) with 1 in TB; clear - TB; lia).
    assert (R2 : 2 * ((M * 2 ^ w) mod 2 ^ J) < 2 ^ J).
    { assert (PP : 2 * 2 ^ (m + w) <= 2 ^ J).
      { change 2 with (2 ^ 1) at 1. rewrite <- p2_add by (clear - M1 F1 F2 F3; lia). apply p2_le. clear - JE CE N0. lia. }
      pose proof (p2 (m + w) ltac:(clear - M1 F1 F2 F3; lia)) as PQ.
      rewrite Z.mod_small; clear - VB V0 PP PQ; lia. }
    apply (goal_intro neg M exp2 t false); [exact TI| |].
    + assert ((2 ^ J <? 2 * ((M * 2 ^ w) mod 2 ^ J)) = false) as Q1 by (apply Z.ltb_ge; clear - R2; lia).
      assert ((2 ^ J =? 2 * ((M * 2 ^ w) mod 2 ^ J)) = false) as Q2 by (apply Z.eqb_neq; clear - R2; lia).
      rewrite Q1, Q2 in RB. exact RB.
    + rewrite T0. rewrite Z.land_0_l. reflexivity.
  - apply Z.ltb_ge in N0. cbn [orb].
    destruct (up_eq M m S extra c (Z.odd t) ltac:(clear - M1; lia) SB ltac:(clear - CE CC N0; lia) Q ST) as [TQ UP]. cbv zeta in UP. rewrite <- JE in UP, TQ. rewrite <- TE in TQ.
    replace (w - 3 - c) with shift in UP by (clear - CE; lia). replace (c + 3) with (w - shift) in TQ by (clear - CE; lia).
    rewrite <- UP in RB. eapply goal_intro; [exact TI|exact RB|].
    assert (ENC : (if shift =? 0 then (0, 0, S) else if shift >=? w then (0, 0, 0) else (0, Z.shiftr S (w - shift), wrapu w (Z.shiftl S shift)))
      = (0, t, wrapu w (Z.shiftl S shift))).
    { destruct (shift =? 0) eqn:S0.
      - apply Z.eqb_eq in S0. rewrite S0 in *. rewrite Z.max_l in TB by (clear; lia). change (2 ^ 0) with 1 in TB. assert (t = 0) as -> by (clear - TB; lia).
        rewrite Z.shiftl_0_r. rewrite wrapu_id by exact SB. reflexivity.
      - assert ((shift >=? w) = false) as -> by (rewrite Z.geb_leb; apply Z.leb_gt; clear - SH F1 F2 F3; lia).
        rewrite shr by (clear - SH F2 F3; lia). rewrite TQ. reflexivity. }
    rewrite ENC. rewrite Z.lor_0_l, land_one. reflexivity.
Qed.
Lemma finish_normal : forall neg M exp2 S extra m, 0 < M -> 1 <= m -> 2 ^ (m - 1) <= M < 2 ^ m ->
  0 <= S < 2 ^ w -> S / 8 = M * 2 ^ w / 2 ^ (m + 3) -> sticky (S mod 8) extra ((M * 2 ^ w) mod 2 ^ (m + 3)) ->
  - bias e < m - 1 + exp2 <= bias e -> goal neg M exp2 (finish w e neg (m - 1 + exp2) S extra).
Proof.
  intros neg M exp2 S extra m MP M1 LB SB Q ST C1. pose proof (fmt_facts w e W) as (F1 & F2 & F3 & _ & F5 & F6 & F7).
  destruct (pow_bounds M m LB M1 ltac:(clear - F1 F2 F3; lia)) as [VB V0]. 
  assert (SC : exp2 + scale w e = exp2 + bias e - 1 + mm) by (unfold scale, bias; clear; lia).
  unfold finish, encode. assert ((m - 1 + exp2 <=? - bias e) = false) as -> by (apply Z.leb_gt; clear - C1; lia).
  assert ((m - 1 + exp2 <=? bias e) = true) as -> by (apply Z.leb_le; clear - C1; lia).
  replace (exp_offset w e) with mm by reflexivity.
  assert (CE : exists c, c = e - 3) by eauto. destruct CE as [c CE]. assert (CC : 1 <= c) by (clear - CE F2; lia).
  assert (JE : exists J, J = m + 3 + c) by eauto. destruct JE as [J JE]. assert (J0 : 0 <= J) by (clear - JE M1 CC; lia).
  assert (TE : exists t, t = M * 2 ^ w / 2 ^ J) by eauto. destruct TE as [t TE].
  pose proof (p2 mm ltac:(clear - F1; lia)) as PM.
  assert (TB : 2 ^ mm <= t < 2 * 2 ^ mm).
  { rewrite TE. split.
    - replace mm with (m - 1 + w - J) by (clear - JE CE F3; lia). apply low_div; [exact (proj1 VB)|clear - JE CE F1 F2 F3 M1; lia].
    - eapply Z.lt_le_trans; [apply (small_div _ (m + w) J); [clear - VB V0; lia|clear - M1 F1 F2 F3; lia|exact J0]|].
      change 2 with (2 ^ 1) at 2. rewrite <- p2_add by (clear - F1; lia). apply p2_le. clear - JE CE F1 F2 F3 M1. lia. }
  assert (XE : exists x, x = m - 1 + exp2 + bias e) by eauto. destruct XE as [x XE]. rewrite <- XE.
  assert (X1 : 1 <= x) by (clear - XE C1; lia).
  assert (XI : (x + 1) * 2 ^ mm <= inf_bits w e).
  { unfold inf_bits. apply Z.mul_le_mono_nonneg_r; [clear - PM; lia|]. unfold bias in *. clear - XE C1 F6. lia. }
  assert (BE : exists b0, b0 = (x - 1) * 2 ^ mm + t) by eauto. destruct BE as [b0 BE].
  assert (B0 : 0 <= b0 < inf_bits w e).
  { assert (0 <= (x - 1) * 2 ^ mm) by (apply Z.mul_nonneg_nonneg; clear - X1 PM; lia).
    split; [clear - H BE TB PM; lia|]. eapply Z.lt_le_trans; [|exact XI]. rewrite BE. clear - TB. nia. }
  assert (U0 : units w e b0 = t * 2 ^ (x - 1)) by (rewrite BE; apply units_normal; assumption).
  assert (U1 : units w e (b0 + 1) = (t + 1) * 2 ^ (x - 1)).
  { rewrite units_step by (try assumption; exact (proj1 B0)). rewrite U0. unfold gap.
    assert (b0 / 2 ^ mm = x) as -> by (symmetry; apply (Z.div_unique _ _ _ (t - 2 ^ mm)); [left; clear - TB; lia|rewrite BE; clear; ring]).
    rewrite Z.max_r by (clear - X1; lia). clear. ring. }
  pose proof (round_bits w e W M exp2 J (x - 1) b0 t MP ltac:(clear - F1 F2 F3; lia) J0 ltac:(clear - X1; lia)
    ltac:(clear - SC JE CE XE F3; lia) TE B0 U0 U1) as RB. cbv zeta in RB.
  destruct (up_eq M m S extra c (Z.odd b0) ltac:(clear - M1; lia) SB ltac:(clear - CE CC F5; lia) Q ST) as [TQ UP]. cbv zeta in UP. rewrite <- JE in UP, TQ. rewrite <- TE in TQ.
  replace (w - 3 - c) with (mm + 1) in UP by (clear - CE F3; lia). replace (c + 3) with e in TQ by (clear - CE; lia). rewrite <- UP in RB.
  assert (ES : Z.land (Z.shiftr S (w - mm - 1)) (signif_mask w e) = t - 2 ^ mm).
  { unfold signif_mask. replace (exp_offset w e) with mm by reflexivity. rewrite land_mask by (clear - F1; lia). replace (w - mm - 1) with e by (clear - F3; lia).
    rewrite shr by (clear - F2; lia). rewrite TQ. symmetry. apply (Z.mod_unique _ _ 1); [left; clear - TB; lia|clear; ring]. }
  assert (EE : Z.lor (Z.shiftl x mm) (t - 2 ^ mm) = b0).
  { rewrite shl by (clear - F1; lia). rewrite lor_plus by (clear - F1 TB; lia). rewrite BE. clear. ring. }
  assert (OD : Z.odd (t - 2 ^ mm) = Z.odd b0).
  { rewrite BE. rewrite Z.odd_sub, Z.odd_add, Z.odd_mul. assert (Z.odd (2 ^ mm) = false) as ->.
    { replace mm with (mm - 1 + 1) by (clear; lia). rewrite p2_add by (clear - F1; lia). rewrite p2_1, Z.odd_mul. change (Z.odd 2) with false. apply andb_false_r. }
    rewrite andb_false_r. rewrite xorb_false_r, xorb_false_l. reflexivity. }
  eapply goal_intro; [exact B0|exact RB|]. rewrite ES, EE, land_one, OD. reflexivity.
Qed.
Lemma finish_over : forall neg M exp2 S extra m, 0 < M -> 1 <= m -> 2 ^ (m - 1) <= M < 2 ^ m ->
  bias e < m - 1 + exp2 -> goal neg M exp2 (finish w e neg (m - 1 + exp2) S extra).
Proof.
  intros neg M exp2 S extra m MP M1 LB C2. pose proof (fmt_facts w e W) as (F1 & F2 & F3 & _ & F5 & F6 & F7).
  pose proof (p2 mm ltac:(clear - F1; lia)) as PM. pose proof (inf_pos w e W) as IP.
  assert (SC : exp2 + scale w e = exp2 + bias e - 1 + mm) by (unfold scale, bias; clear; lia).
  unfold finish, encode. assert (BP : 0 < bias e) by (unfold bias; clear - F7; lia).
  assert ((m - 1 + exp2 <=? - bias e) = false) as -> by (apply Z.leb_gt; clear - C2 BP; lia).
  assert ((m - 1 + exp2 <=? bias e) = false) as -> by (apply Z.leb_gt; clear - C2; lia).
  exists (inf_bits w e). split.
  - apply round_over; [exact W|apply p2; clear; lia|].
    assert (UI : units w e (inf_bits w e) = 2 ^ (mm + (2 ^ e - 2))).
    { unfold inf_bits. pose proof (units_normal w e W (2 ^ e - 1) (2 ^ mm) ltac:(clear - F6 F7; lia) ltac:(clear - PM; lia)) as U.
      replace ((2 ^ e - 1 - 1) * 2 ^ mm + 2 ^ mm) with ((2 ^ e - 1) * 2 ^ mm) in U by (clear; ring). rewrite U.
      rewrite p2_add by (clear - F1 F6 F7; lia). f_equal. f_equal. clear. lia. }
    rewrite UI. rewrite <- p2_add by (clear - F1 F6 F7; lia). apply Z.le_trans with (2 ^ (m - 1) * 2 ^ Z.max 0 (exp2 + scale w e)).
    + rewrite <- p2_add by (clear - M1; lia). apply p2_le. rewrite SC in *. unfold bias in *. clear - C2 F6. lia.
    + apply Z.mul_le_mono_nonneg_r; [pose proof (p2 (Z.max 0 (exp2 + scale w e)) ltac:(clear; lia)) as PZ; clear - PZ; lia|exact (proj1 LB)].
  - rewrite Z.lor_0_r, Z.land_0_l. change (b2z (negb (0 =? 0) && (negb (Z.land 0 (msb w - 1) =? 0) || extra || negb (Z.land 0 1 =? 0)))) with 0.
    rewrite Z.add_0_r. replace (exp_offset w e) with mm by reflexivity. rewrite shl by (clear - F1; lia). fold (inf_bits w e). apply sign_bits. clear - IP. lia.
Qed.
Theorem finish_correct : forall neg M exp2 S extra m, 0 < M -> m = Z.log2 M + 1 ->
  0 <= S < 2 ^ w -> S / 8 = M * 2 ^ w / 2 ^ (m + 3) -> sticky (S mod 8) extra ((M * 2 ^ w) mod 2 ^ (m + 3)) ->
  exists b, rounds_to w e (M * 2 ^ Z.max 0 (exp2 + scale w e)) (2 ^ Z.max 0 (- (exp2 + scale w e))) b /\
    finish w e neg (m - 1 + exp2) S extra = if b =? inf_bits w e then None else Some (b + (if neg then 2 ^ (w - 1) else 0)).
Proof.
  intros neg M exp2 S extra m MP ME SB Q ST.
  pose proof (Z.log2_spec M MP) as LB. pose proof (Z.log2_nonneg M) as LN. replace (Z.succ (Z.log2 M)) with m in LB by (clear - ME; lia).
  replace (Z.log2 M) with (m - 1) in LB by (clear - ME; lia). assert (M1 : 1 <= m) by (clear - ME LN; lia).
  destruct (Z.le_gt_cases (m - 1 + exp2) (- bias e)) as [C1|C1]; [eapply finish_sub; eassumption|].
  destruct (Z.le_gt_cases (m - 1 + exp2) (bias e)) as [C2|C2]; [eapply finish_normal; try eassumption; split; assumption|].
  eapply finish_over; eassumption.
Qed.
End Finish.
