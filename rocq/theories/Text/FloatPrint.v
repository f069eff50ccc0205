(** Printed floats are literals for exactly the value they were printed from. *)
From Coq Require Import ZArith Lia List Bool String Arith.
From Verif Require Import Base.Prelude Base.BitFacts Base.Utf8 Names.Kebab Names.Name Names.NameProofs Text.Lexer Text.Spec Text.LexProofs Text.Print Text.PrintProofs
  Text.Numbers Text.IntProofs Text.FloatCore Text.FloatFinish Text.HexFloat Text.FloatText.
Import ListNotations.
Open Scope Z_scope.

Lemma digit_char_hex : forall d, 0 <= d < 16 -> is_hex (digit_char d) = true /\ to_hex (digit_char d) = d.
Proof. intros d D. pose proof (digit_char_value d D) as V. apply digit_value_hex in V. destruct V as [A B]. auto. Qed.
Lemma digits_number : forall base t, Forall (is_digit base) t -> t <> [] -> number base t.
Proof.
  intros base t. induction t as [|d t IH] using rev_ind; intros F N; [contradiction|]. apply Forall_app in F. destruct F as [F D].
  assert (is_digit base d) by (inversion D; assumption). destruct t as [|y t]; [apply N_one; assumption|]. apply N_more; [apply IH; [exact F|discriminate]|assumption].
Qed.
(** The digits of a fraction of [w] bits of which the last [w - 4 * n] are zero. *)
Lemma fraction_digits : forall w n fuel F, (n <= fuel)%nat -> 0 <= w - 4 * Z.of_nat n -> 4 <= w -> 0 <= F < 2 ^ w -> F mod 2 ^ (w - 4 * Z.of_nat n) = 0 ->
  let D := fraction_loop fuel w F in
  Forall (fun c => is_hex c = true) D /\ zlen D <= Z.of_nat n /\ val (vals D) * 2 ^ (w - 4 * zlen D) = F /\ (D = [] -> F = 0).
Proof.
  intros w. induction n as [|n IH]; intros fuel F LE WN W4 B M.
  - replace (w - 4 * Z.of_nat 0) with w in M by lia. rewrite Z.mod_small in M by exact B. subst F.
    assert (fraction_loop fuel w 0 = []) as -> by (destruct fuel; reflexivity). cbv zeta. split; [constructor|]. split; [change (zlen []) with 0; lia|]. split; [reflexivity|auto].
  - destruct fuel as [|fuel]; [lia|]. cbn [fraction_loop]. destruct (F >? 0) eqn:E.
    2:{ assert (F = 0) as -> by lia. cbv zeta. split; [constructor|]. split; [change (zlen []) with 0; lia|]. split; [reflexivity|auto]. }
    assert (P4 : 2 ^ w = 16 * 2 ^ (w - 4)) by (replace w with (4 + (w - 4)) at 1 by lia; rewrite p2_add by lia; reflexivity).
    pose proof (p2 (w - 4) ltac:(lia)) as PP.
    rewrite shr, shl by lia. unfold wl, wrapu. change (2 ^ 4) with 16.
    pose proof (Z.div_mod F (2 ^ (w - 4)) ltac:(lia)) as DM. pose proof (Z.mod_pos_bound F (2 ^ (w - 4)) PP) as MB.
    assert (DB : 0 <= F / 2 ^ (w - 4) < 16) by (split; [apply Z.div_pos; lia|apply Z.div_lt_upper_bound; lia]).
    set (d := F / 2 ^ (w - 4)) in *. set (r := F mod 2 ^ (w - 4)) in *.
    assert (F16 : (F * 16) mod 2 ^ w = r * 16) by (rewrite P4; symmetry; apply (Z.mod_unique _ _ d); [left; lia|lia]).
    rewrite F16. destruct (digit_char_hex d DB) as [DH DT].
    assert (Q : (r * 16) mod 2 ^ (w - 4 * Z.of_nat n) = 0).
    { replace (w - 4 * Z.of_nat n) with (w - 4 * Z.of_nat (S n) + 4) by lia. rewrite p2_add by lia. change (2 ^ 4) with 16.
      rewrite Z.mul_mod_distr_r by (pose proof (p2 (w - 4 * Z.of_nat (S n)) WN); lia).
      assert (X : r mod 2 ^ (w - 4 * Z.of_nat (S n)) = F mod 2 ^ (w - 4 * Z.of_nat (S n))).
      { unfold r. replace (w - 4) with ((w - 4 * Z.of_nat (S n)) + 4 * Z.of_nat n) by lia. rewrite mod_pow by lia.
        pose proof (p2 (w - 4 * Z.of_nat (S n)) WN). rewrite Z.add_comm, Z.mod_add by lia. apply Z.mod_mod. lia. }
      rewrite X, M. reflexivity. }
    destruct (IH fuel (r * 16) ltac:(lia) ltac:(lia) W4 ltac:(lia) Q) as (A1 & A2 & A3 & A4). clear IH Q F16.
    set (D := fraction_loop fuel w (r * 16)) in *. split; [constructor; [exact DH|exact A1]|]. rewrite zlen_cons. split; [lia|]. split; [|discriminate].
    pose proof (zlen_nonneg D) as L0. unfold vals. cbn [map]. fold (vals D). rewrite DT. change (d :: vals D) with ([d] ++ vals D). rewrite val_app.
    assert (zlen (vals D) = zlen D) as -> by (unfold zlen, vals; rewrite map_length; reflexivity).
    change (val [d]) with (0 * 16 + d). rewrite Z.mul_0_l, Z.add_0_l. rewrite pow16 by exact L0.
    replace (w - 4 * zlen D) with (w - 4 * (1 + zlen D) + 4) in A3 by lia. rewrite p2_add in A3 by lia. change (2 ^ 4) with 16 in A3.
    assert (R : val (vals D) * 2 ^ (w - 4 * (1 + zlen D)) = r) by lia.
    rewrite Z.mul_add_distr_r, R. rewrite <- Z.mul_assoc, <- p2_add by lia. replace (4 * zlen D + (w - 4 * (1 + zlen D))) with (w - 4) by lia. lia.
Qed.
Lemma xor_top : forall n b, 0 <= n -> 2 ^ n <= b < 2 * 2 ^ n -> Z.lxor b (2 ^ n) = b - 2 ^ n.
Proof.
  intros n b N B. pose proof (land_top (b - 2 ^ n) n N ltac:(lia)) as L. assert ((b - 2 ^ n <? 2 ^ n) = true) as Q by (apply Z.ltb_lt; lia). rewrite Q in L.
  apply Z.eqb_eq in L. pose proof (Z.add_nocarry_lxor _ _ L) as A. replace (b - 2 ^ n + 2 ^ n) with b in A by lia. rewrite A at 1.
  rewrite Z.lxor_assoc, Z.lxor_nilpotent, Z.lxor_0_r. reflexivity.
Qed.

Section Print.
Variables w e : Z.
Hypothesis W : fmt_ok w e.
Notation mm := (mant w e).
Notation bias := (2 ^ (e - 1) - 1).
Lemma exponent_eq : forall b, 0 <= b < inf_bits w e ->
  Z.shiftr (sx w (Z.shiftl (sx w (Z.shiftr (sx w (Z.shiftl b 1)) (mm + 1) - bias)) (w - e))) (w - e) = b / 2 ^ mm - bias /\ 0 <= b / 2 ^ mm <= 2 ^ e - 2.
Proof.
  intros b B. pose proof (fmt_facts w e W) as (F1 & F2 & F3 & F4 & F5 & F6 & F7). unfold inf_bits in B.
  pose proof (p2 mm ltac:(lia)) as PM.
  assert (BE : 0 <= b / 2 ^ mm <= 2 ^ e - 2).
  { split; [apply Z.div_pos; lia|]. assert (b / 2 ^ mm < 2 ^ e - 1); [|lia]. apply Z.div_lt_upper_bound; [exact PM|]. rewrite Z.mul_comm. apply B. }
  split; [|exact BE]. rewrite shl, !shr, shl by lia. change (2 ^ 1) with 2. unfold sx.
  assert (PW : 2 ^ w = 2 * (2 ^ e * 2 ^ mm)) by (rewrite F3 at 1; replace (mm + e + 1) with (1 + (e + mm)) by lia; rewrite !p2_add by lia; reflexivity).
  assert (PW1 : 2 ^ (w - 1) = 2 ^ e * 2 ^ mm) by (replace (w - 1) with (e + mm) by lia; apply p2_add; lia).
  assert (PM1 : 2 ^ (mm + 1) = 2 * 2 ^ mm) by (rewrite p2_add by lia; change (2 ^ 1) with 2; lia).
  assert (Y : exists j, wraps w (b * 2) / 2 ^ (mm + 1) = b / 2 ^ mm + j * 2 ^ e /\ -1 <= j <= 0).
  { assert (B2 : b * 2 < 2 ^ w) by (rewrite PW; clear - B PM; nia).
    unfold wraps. rewrite (Z.mod_small (b * 2)) by lia. destruct (Z.ltb_spec (b * 2) (2 ^ (w - 1))) as [L|L].
    - exists 0. split; [|lia]. rewrite PM1, (Z.mul_comm b 2), Z.div_mul_cancel_l by lia. lia.
    - exists (-1). split; [|lia]. rewrite PM1, PW. replace (b * 2 - 2 * (2 ^ e * 2 ^ mm)) with (2 * (b + (- 2 ^ e) * 2 ^ mm)) by lia.
      rewrite Z.div_mul_cancel_l, Z.div_add by lia. lia. }
  destruct Y as (j & -> & J). assert (PM2 : 2 <= 2 ^ mm) by (change 2 with (2 ^ 1) at 1; apply p2_le; lia).
  assert (JE : - 2 ^ e <= j * 2 ^ e <= 0) by (clear - F6 F7 J; nia). assert (P2E : 2 ^ e * 2 <= 2 ^ e * 2 ^ mm) by (apply Z.mul_le_mono_nonneg_l; lia).
  rewrite (wraps_id w (b / 2 ^ mm + j * 2 ^ e - bias)) by (try lia; unfold in_s; rewrite PW1; lia).
  pose proof (p2 (w - e) ltac:(lia)) as PWE.
  assert (PX : 2 ^ w = 2 ^ e * 2 ^ (w - e)) by (rewrite <- p2_add by lia; f_equal; lia).
  replace ((b / 2 ^ mm + j * 2 ^ e - bias) * 2 ^ (w - e)) with ((b / 2 ^ mm - bias) * 2 ^ (w - e) + j * 2 ^ w) by (rewrite PX; ring).
  rewrite wraps_cong by lia. rewrite wraps_id; [|lia|].
  - apply Z.div_mul. lia.
  - assert (PX1 : 2 ^ (w - 1) = 2 ^ (e - 1) * 2 ^ (w - e)) by (rewrite <- p2_add by lia; f_equal; lia). unfold in_s. rewrite PX1.
    clear - F6 BE PWE. set (P := 2 ^ (w - e)) in *. set (Q := 2 ^ (e - 1)) in *. set (t := b / 2 ^ mm) in *. rewrite F6 in BE. nia.
Qed.
(** The literal which is printed. *)
Definition lit_of (neg : bool) (point : bool) (D : str) (x : Z) : hex_lit :=
  HexLit (if neg then IMinus else INone) (lit "1") (if point then Some D else None)
         (Some (false, if x <? 0 then IMinus else IPlus, fmt_uint 10 (Z.abs x))).
Lemma plus_text : forall x, fmt_plus x = sign_text (if x <? 0 then IMinus else IPlus) ++ fmt_uint 10 (Z.abs x).
Proof.
  intros x. unfold fmt_plus. destruct (x <? 0) eqn:E; [apply Z.ltb_lt in E; rewrite (Z.abs_neq x) by lia; reflexivity|apply Z.ltb_ge in E; rewrite (Z.abs_eq x) by lia; reflexivity].
Qed.
Lemma lit_text : forall (neg pt : bool) D x, hl_text (lit_of neg pt D x) =
  (if neg then [45] else []) ++ lit "0x" ++ lit "1" ++ (if pt then lit "." ++ D else []) ++ lit "p" ++ fmt_plus x.
Proof. intros neg pt D x. rewrite hl_text_eq, plus_text. unfold lit_of. cbn [hl_sign hl_int hl_frac hl_exp exp_text]. destruct pt, neg; reflexivity. Qed.
Lemma lit_wf : forall neg pt D x, Forall (fun c => is_hex c = true) D -> hl_wf (lit_of neg pt D x).
Proof.
  intros neg pt D x F. unfold hl_wf, lit_of. cbn [hl_int hl_frac hl_exp]. split; [apply N_one; exists 1; split; [reflexivity|lia]|]. split.
  - destruct pt; [|exact Logic.I]. destruct D as [|c D]; [exact Logic.I|]. apply digits_number; [|discriminate]. eapply Forall_impl; [|exact F]. intros d. apply is_digit_16.
  - apply fmt_number; lia.
Qed.
Lemma fmt_len : forall b n, 2 <= b -> 0 <= n -> zlen (fmt_uint b n) <= Z.log2 n + 1.
Proof.
  intros b n B N. revert n N. apply (well_founded_induction (Z.lt_wf 0) (fun n => 0 <= n -> zlen (fmt_uint b n) <= Z.log2 n + 1)).
  intros n IH N. destruct (Z.lt_ge_cases n b) as [L|L].
  - rewrite fmt_small by exact L. change (zlen [digit_char n]) with 1. pose proof (Z.log2_nonneg n). lia.
  - rewrite fmt_step by lia. rewrite zlen_app. change (zlen [digit_char (n mod b)]) with 1. pose proof (log2_div b n B L).
    assert (0 <= n / b < n) by (split; [apply Z.div_pos; lia|apply Z.div_lt; lia]). specialize (IH (n / b) ltac:(lia) ltac:(lia)). lia.
Qed.
Lemma scale_bound : 0 <= scale w e <= 2000.
Proof. unfold scale, mant. destruct W as [[-> ->]|[-> ->]]; vm_compute; split; discriminate. Qed.
Lemma lit_reads : forall dec (neg pt : bool) D x F y b, (pt = false -> D = []) ->
  Forall (fun c => is_hex c = true) D -> zlen D < w / 4 -> val (vals D) * 2 ^ (w - 4 * zlen D) = F ->
  y = x + scale w e -> 0 <= y -> Z.abs x < 5000 ->
  0 <= b < inf_bits w e -> (2 ^ w + F) * 2 ^ y = units w e b * 2 ^ w ->
  parse_float dec w e (hl_kind (lit_of neg pt D x)) (hl_text (lit_of neg pt D x)) = Some (b + if neg then 2 ^ (w - 1) else 0).
Proof.
  intros dec neg pt D x F y b PT FD LD FV Y Y0 XB B U. pose proof (lit_wf neg pt D x FD) as WF.
  pose proof (zlen_nonneg D) as L0. assert (W4 : w = 4 * (w / 4) /\ w / 4 <= 16) by (destruct W as [[-> _]|[-> _]]; vm_compute; split; [reflexivity|discriminate|reflexivity|discriminate]).
  assert (VL : zlen (vals D) = zlen D) by (unfold zlen, vals; rewrite map_length; reflexivity).
  assert (FDG : hl_fdigits (lit_of neg pt D x) = D) by (unfold hl_fdigits, lit_of; cbn [hl_frac]; destruct pt; [reflexivity|rewrite PT; reflexivity]).
  assert (X10 : hl_exp10 (lit_of neg pt D x) = x).
  { unfold hl_exp10, lit_of. cbn [hl_exp]. rewrite fmt_magnitude by lia. destruct (x <? 0) eqn:E; [apply Z.ltb_lt in E|apply Z.ltb_ge in E]; lia. }
  assert (ALL : Forall (fun c => is_hex c = true) (lit "1" ++ D)) by (apply Forall_app; split; [repeat constructor|exact FD]).
  destruct (hex_lit_value dec w e (lit_of neg pt D x) W WF) as (b' & R & P).
  - rewrite lit_text, plus_text. rewrite !zlen_app.
    assert (zlen (if neg then [45] else []) <= 1) by (destruct neg; vm_compute; discriminate).
    assert (zlen (if pt then lit "." ++ D else []) <= 1 + zlen D) by (destruct pt; [|change (zlen []) with 0; lia]; rewrite zlen_app; change (zlen (lit ".")) with 1; lia).
    assert (zlen (sign_text (if x <? 0 then IMinus else IPlus)) <= 1) by (destruct (x <? 0); vm_compute; discriminate).
    change (zlen (lit "0x")) with 2. change (zlen (lit "1")) with 1. change (zlen (lit "p")) with 1.
    pose proof (fmt_len 10 (Z.abs x) ltac:(lia) ltac:(lia)). assert (Z.log2 (Z.abs x) <= 13) by (change 13 with (Z.log2 (2 ^ 13)); apply Z.log2_le_mono; lia). lia.
  - rewrite X10. lia.
  - unfold counted, hl_digits. rewrite FDG. unfold lit_of. cbn [hl_int]. rewrite values_hex by exact ALL.
    change (vals (lit "1" ++ D)) with (1 :: vals D). change (drop_zeros (1 :: vals D)) with (1 :: vals D). right. left. apply nth_overflow. cbn [List.length].
    unfold zlen in *. lia.
  - rewrite P.
    assert (MV : hl_num (lit_of neg pt D x) * 2 ^ w = (2 ^ w + F) * 2 ^ (4 * zlen D)).
    { unfold hl_num. rewrite FDG. unfold lit_of. cbn [hl_int]. rewrite vals_magnitude by exact ALL.
      change (vals (lit "1" ++ D)) with ([1] ++ vals D). rewrite val_app, VL. change (val [1]) with 1. rewrite Z.mul_1_l, pow16 by exact L0.
      rewrite <- FV. replace w with (4 * zlen D + (w - 4 * zlen D)) at 1 2 by lia. rewrite p2_add by lia. ring. }
    assert (NU : no_underscores D = D) by (apply drop_id; destruct (has_us D) eqn:E; [|reflexivity]; exfalso; apply existsb_exists in E; destruct E as (c & IN & Q);
       apply Z.eqb_eq in Q; subst c; rewrite Forall_forall in FD; discriminate (FD _ IN)).
    assert (EX : hl_exp2 (lit_of neg pt D x) + scale w e = y - 4 * zlen D) by (unfold hl_exp2; rewrite X10, FDG, NU; lia).
    unfold hl_units_num, hl_units_den in R. rewrite EX in R. set (M := hl_num (lit_of neg pt D x)) in *.
    pose proof (p2 w ltac:(lia)) as PW. pose proof (p2 y Y0) as PY. pose proof (p2 (4 * zlen D) ltac:(lia)) as PN.
    assert (MU : M * 2 ^ y = units w e b * 2 ^ (4 * zlen D)).
    { apply (Z.mul_reg_r _ _ (2 ^ w)); [lia|]. transitivity (M * 2 ^ w * 2 ^ y); [ring|]. rewrite MV. transitivity ((2 ^ w + F) * 2 ^ y * 2 ^ (4 * zlen D)); [ring|].
      rewrite U. ring. }
    assert (MD : M * 2 ^ Z.max 0 (y - 4 * zlen D) = units w e b * 2 ^ Z.max 0 (- (y - 4 * zlen D))).
    { destruct (Z.le_gt_cases 0 (y - 4 * zlen D)) as [L|L].
      - rewrite Z.max_r, Z.max_l by lia. change (2 ^ 0) with 1. apply (Z.mul_reg_r _ _ (2 ^ (4 * zlen D))); [lia|].
        rewrite <- Z.mul_assoc, <- p2_add by lia. replace (y - 4 * zlen D + 4 * zlen D) with y by lia. rewrite MU. ring.
      - rewrite Z.max_l, Z.max_r by lia. change (2 ^ 0) with 1. apply (Z.mul_reg_r _ _ (2 ^ y)); [lia|].
        rewrite <- (Z.mul_assoc (units w e b)), <- p2_add by lia. replace (- (y - 4 * zlen D) + y) with (4 * zlen D) by lia. rewrite <- MU. ring. }
    rewrite MD in R. pose proof (p2 (Z.max 0 (- (y - 4 * zlen D))) ltac:(lia)) as PD.
    apply (round_exact w e W) in R; [|exact PD|lia]. subst b'.
    assert ((b =? inf_bits w e) = false) as -> by (apply Z.eqb_neq; lia). unfold lit_of. cbn [hl_sign]. destruct neg; reflexivity.
Qed.
(** What a printed float is read as. *)
Definition reads (dec : str -> option Z) (t : str) (bits : Z) : Prop :=
  exists k, classify_number t = Some k /\ parse_float dec w e k t = Some bits /\ Forall (fun c => idchar c = true) t /\ t <> [].
Lemma finite_reads : forall dec (neg : bool) b, 0 <= b < inf_bits w e ->
  reads dec (print_float w e (b + if neg then 2 ^ (w - 1) else 0)) (b + if neg then 2 ^ (w - 1) else 0).
Proof.
  intros dec neg b B. pose proof (fmt_facts w e W) as (F1 & F2 & F3 & F4 & F5 & F6 & F7). destruct (exponent_eq b B) as [EX BE].
  pose proof (p2 mm ltac:(lia)) as PM. pose proof (inf_pos w e W) as IP.
  assert (PW1 : 2 ^ (w - 1) = 2 ^ e * 2 ^ mm) by (replace (w - 1) with (e + mm) by lia; apply p2_add; lia).
  assert (BW : b < 2 ^ (w - 1)) by (rewrite PW1; unfold inf_bits in B; clear - B PM; nia).
  assert (NB : negb (Z.shiftr (b + if neg then 2 ^ (w - 1) else 0) (w - 1) =? 0) = neg).
  { rewrite shr by lia. destruct neg.
    - assert ((b + 2 ^ (w - 1)) / 2 ^ (w - 1) = 1) as ->; [|reflexivity]. symmetry. apply (Z.div_unique _ _ _ b); lia.
    - rewrite Z.add_0_r, Z.div_small by lia. reflexivity. }
  unfold print_float. rewrite NB.
  assert (BB : (if neg then Z.lxor (b + if neg then 2 ^ (w - 1) else 0) (2 ^ (w - 1)) else b + (if neg then 2 ^ (w - 1) else 0)) = b).
  { destruct neg; [|lia]. rewrite xor_top by lia. lia. }
  rewrite BB. clear BB NB. change (w - 1 - e) with mm. rewrite (land_mask b mm), (shr b mm) by lia.
  assert ((b / 2 ^ mm =? 2 ^ e - 1) = false) as -> by (apply Z.eqb_neq; lia). cbn [andb]. cbv iota. rewrite EX. cbv zeta.
  pose proof (Z.mod_pos_bound b (2 ^ mm) PM) as PB. pose proof (Z.div_mod b (2 ^ mm) ltac:(lia)) as DM.
  set (p := b mod 2 ^ mm) in *. set (be := b / 2 ^ mm) in *.
  assert (MB : mm <= 60) by (unfold mant; destruct W as [[-> ->]|[-> ->]]; vm_compute; discriminate).
  assert (XB : Z.abs (be - bias) < 2100) by (rewrite F6 in BE; lia).
  assert (SC : scale w e = bias - 1 + mm) by (unfold scale; lia).
  assert (WN : exists n, (n <= Z.to_nat w)%nat /\ 0 <= w - 4 * Z.of_nat n <= w - mm /\ Z.of_nat n < w / 4 /\ 4 <= w).
  { exists (Z.to_nat ((mm + 3) / 4)). unfold mant. destruct W as [[-> ->]|[-> ->]]; repeat split; vm_compute; try discriminate; try reflexivity; repeat constructor. }
  destruct WN as (n & N1 & N2 & N3 & N4).
  assert (PWM : 2 ^ w = 2 ^ mm * 2 ^ (w - mm)) by (rewrite <- p2_add by lia; f_equal; lia). pose proof (p2 (w - mm) ltac:(lia)) as PWM0.
  assert (MULT : forall q, (q * 2 ^ (w - mm)) mod 2 ^ (w - 4 * Z.of_nat n) = 0).
  { intros q. replace (w - mm) with (w - mm - (w - 4 * Z.of_nat n) + (w - 4 * Z.of_nat n)) by lia. rewrite p2_add by lia. rewrite Z.mul_assoc. apply Z.mod_mul.
    pose proof (p2 (w - 4 * Z.of_nat n) ltac:(lia)). lia. }
  assert (FIN : forall (pt : bool) D x F, (pt = false -> D = []) -> Forall (fun c => is_hex c = true) D -> zlen D < w / 4 -> val (vals D) * 2 ^ (w - 4 * zlen D) = F ->
     0 <= x + scale w e -> Z.abs x < 5000 -> (2 ^ w + F) * 2 ^ (x + scale w e) = units w e b * 2 ^ w ->
     reads dec (hl_text (lit_of neg pt D x)) (b + if neg then 2 ^ (w - 1) else 0)).
  { intros pt D x F H0 H1 H2 H3 H4 H5 H6. exists (hl_kind (lit_of neg pt D x)). pose proof (lit_wf neg pt D x H1) as WF.
    split; [apply hl_class; exact WF|]. split; [eapply lit_reads; try eassumption; reflexivity|]. apply hl_idchars. exact WF. }
  destruct (b =? 0) eqn:B0.
  { apply Z.eqb_eq in B0. rewrite B0. clear - W IP PM. pose (l := HexLit (if neg then IMinus else INone) (lit "0") None (Some (false, IPlus, lit "0"))).
    assert (TX : (if neg then [45] else []) ++ lit "0x" ++ lit "0p+0" = hl_text l) by (destruct neg; reflexivity). rewrite TX.
    assert (D0 : is_digit 16 48) by (exists 0; split; [reflexivity|lia]). assert (D1 : is_digit 10 48) by (exists 0; split; [reflexivity|lia]).
    assert (WF : hl_wf l) by (unfold hl_wf, l; cbn [hl_int hl_frac hl_exp]; split; [apply N_one; exact D0|split; [exact Logic.I|apply N_one; exact D1]]).
    exists (hl_kind l). split; [apply hl_class; exact WF|]. split; [|apply hl_idchars; exact WF].
    destruct (hex_lit_value dec w e l W WF) as (b' & R & P).
    - destruct neg; vm_compute; reflexivity.
    - destruct neg; vm_compute; split; reflexivity.
    - destruct neg; exact Logic.I.
    - rewrite P. assert (Q : hl_units_num w e l = units w e 0 * hl_units_den w e l).
      { rewrite (units_sub w e W 0) by lia. unfold hl_units_num. assert (hl_num l = 0) as -> by (destruct neg; reflexivity). lia. }
      rewrite Q in R. apply (round_exact w e W) in R; [|apply p2; lia|lia]. subst b'.
      assert ((0 =? inf_bits w e) = false) as -> by (apply Z.eqb_neq; lia). unfold l. cbn [hl_sign]. destruct neg; reflexivity. }
  apply Z.eqb_neq in B0.
  assert (NZ : p = 0 -> 1 <= be). { intros P0. destruct (Z.eq_dec be 0) as [Q|Q]; [|lia]. exfalso. apply B0. rewrite DM, P0, Q. lia. }
  assert (UN : 1 <= be -> units w e b = (2 ^ mm + p) * 2 ^ (be - 1)).
  { intros H. rewrite <- (units_normal w e W be (2 ^ mm + p)) by lia. f_equal. rewrite DM. ring. }
  destruct (p >? 0) eqn:P0.
  - assert (PP : 0 < p) by lia. clear P0. rewrite shl by lia.
    assert (FB : 0 <= p * 2 ^ (w - mm) < 2 ^ w) by (rewrite PWM; split; [apply Z.mul_nonneg_nonneg; lia|apply Z.mul_lt_mono_pos_r; lia]).
    unfold wl. rewrite (wrapu_id w (p * 2 ^ (w - mm))) by exact FB.
    destruct (be - bias =? - 2 ^ (e - 1) + 1) eqn:MIN.
    + apply Z.eqb_eq in MIN. assert (BE0 : be = 0) by lia. assert (BP : b = p) by (rewrite DM, BE0; lia).
      assert (LG : Z.log2 (p * 2 ^ (w - mm)) = Z.log2 p + (w - mm)) by (rewrite Z.log2_mul_pow2 by lia; lia).
      assert (LP : 0 <= Z.log2 p < mm) by (split; [apply Z.log2_nonneg|apply Z.log2_lt_pow2; lia]).
      assert (LZ : leading_zeros w (p * 2 ^ (w - mm)) = mm - 1 - Z.log2 p).
      { unfold leading_zeros. assert ((p * 2 ^ (w - mm) =? 0) = false) as -> by (apply Z.eqb_neq; clear - PP PWM0; nia). rewrite LG. lia. }
      rewrite LZ. assert ((mm - 1 - Z.log2 p <? w - 1) = true) as -> by (apply Z.ltb_lt; lia). cbv beta iota. rewrite shl by lia.
      set (lp := Z.log2 p) in *. pose proof (Z.log2_spec p PP) as LS. fold lp in LS. replace (Z.succ lp) with (1 + lp) in LS by lia. rewrite (p2_add 1 lp) in LS by lia. change (2 ^ 1) with 2 in LS.
      pose proof (p2 lp ltac:(lia)) as PL. pose proof (p2 (w - lp) ltac:(lia)) as PWL.
      assert (E1 : p * 2 ^ (w - mm) * 2 ^ (mm - 1 - lp + 1) = p * 2 ^ (w - lp)) by (rewrite <- Z.mul_assoc, <- p2_add by lia; do 2 f_equal; lia).
      assert (PWL2 : 2 ^ w = 2 ^ lp * 2 ^ (w - lp)) by (rewrite <- p2_add by lia; f_equal; lia).
      assert (E2 : wrapu w (p * 2 ^ (w - mm) * 2 ^ (mm - 1 - lp + 1)) = (p - 2 ^ lp) * 2 ^ (w - lp)).
      { rewrite E1. unfold wrapu. symmetry. apply (Z.mod_unique _ _ 1); [left; rewrite PWL2; split; [apply Z.mul_nonneg_nonneg; lia|apply Z.mul_lt_mono_pos_r; lia]|].
        rewrite PWL2. ring. }
      rewrite E2. set (F := (p - 2 ^ lp) * 2 ^ (w - lp)).
      assert (FB' : 0 <= F < 2 ^ w) by (unfold F; rewrite PWL2; split; [apply Z.mul_nonneg_nonneg; lia|apply Z.mul_lt_mono_pos_r; lia]).
      assert (FM : F mod 2 ^ (w - 4 * Z.of_nat n) = 0).
      { unfold F. replace (w - lp) with (mm - lp + (w - mm)) by lia. rewrite p2_add by lia. rewrite Z.mul_assoc. apply MULT. }
      destruct (fraction_digits w n (Z.to_nat w) F N1 ltac:(lia) N4 FB' FM) as (A1 & A2 & A3 & A4). cbv zeta in *.
      set (D := fraction_loop (Z.to_nat w) w F) in *.
      assert (TX : (if neg then [45] else []) ++ lit "0x" ++ lit "1" ++ lit "." ++ D ++ lit "p" ++ fmt_plus (be - bias - (mm - 1 - lp)) = hl_text (lit_of neg true D (be - bias - (mm - 1 - lp)))).
      { rewrite lit_text. rewrite <- !app_assoc. reflexivity. }
      rewrite TX. apply (FIN true D _ F); [discriminate|exact A1|lia|exact A3|lia|lia|]. rewrite SC, BE0. replace (0 - bias - (mm - 1 - lp) + (bias - 1 + mm)) with lp by lia.
      rewrite BP, (units_sub w e W p) by lia. unfold F. rewrite PWL2. ring.
    + apply Z.eqb_neq in MIN. assert (BE1 : 1 <= be) by lia. cbv beta iota. set (F := p * 2 ^ (w - mm)) in *.
      destruct (fraction_digits w n (Z.to_nat w) F N1 ltac:(lia) N4 FB (MULT p)) as (A1 & A2 & A3 & A4). cbv zeta in *.
      set (D := fraction_loop (Z.to_nat w) w F) in *.
      assert (TX : (if neg then [45] else []) ++ lit "0x" ++ lit "1" ++ lit "." ++ D ++ lit "p" ++ fmt_plus (be - bias) = hl_text (lit_of neg true D (be - bias))).
      { rewrite lit_text. rewrite <- !app_assoc. reflexivity. }
      rewrite TX. apply (FIN true D _ F); [discriminate|exact A1|lia|exact A3|lia|lia|]. rewrite SC. replace (be - bias + (bias - 1 + mm)) with (be - 1 + mm) by lia.
      rewrite (UN BE1). unfold F. rewrite (p2_add (be - 1) mm) by lia. rewrite PWM. ring.
  - assert (p = 0) as P00 by lia. specialize (NZ P00). 
    assert (TX : (if neg then [45] else []) ++ lit "0x" ++ lit "1" ++ lit "p" ++ fmt_plus (be - bias) = hl_text (lit_of neg false [] (be - bias))) by (rewrite lit_text; reflexivity).
    rewrite TX. apply (FIN false [] _ 0); [auto|constructor|change (zlen []) with 0; lia|reflexivity|lia|lia|].
    rewrite SC. replace (be - bias + (bias - 1 + mm)) with (be - 1 + mm) by lia. rewrite (UN NZ), P00. rewrite (p2_add (be - 1) mm) by lia. rewrite PWM. ring.
Qed.
Lemma special_reads : forall dec (neg : bool) p, 0 <= p < 2 ^ mm ->
  let bits := inf_bits w e + p + (if neg then 2 ^ (w - 1) else 0) in reads dec (print_float w e bits) bits.
Proof.
  intros dec neg p P bits. pose proof (fmt_facts w e W) as (F1 & F2 & F3 & F4 & F5 & F6 & F7). pose proof (p2 mm ltac:(lia)) as PM.
  assert (PW1 : 2 ^ (w - 1) = 2 ^ e * 2 ^ mm) by (replace (w - 1) with (e + mm) by lia; apply p2_add; lia).
  assert (BW : 0 <= inf_bits w e + p < 2 ^ (w - 1)) by (rewrite PW1; unfold inf_bits; clear - P PM F6 F7; nia).
  assert (NB : negb (Z.shiftr bits (w - 1) =? 0) = neg).
  { unfold bits. rewrite shr by lia. destruct neg.
    - assert ((inf_bits w e + p + 2 ^ (w - 1)) / 2 ^ (w - 1) = 1) as ->; [|reflexivity]. symmetry. apply (Z.div_unique _ _ _ (inf_bits w e + p)); lia.
    - rewrite Z.add_0_r, Z.div_small by lia. reflexivity. }
  unfold print_float. rewrite NB.
  assert (BB : (if neg then Z.lxor bits (2 ^ (w - 1)) else bits) = inf_bits w e + p).
  { unfold bits. destruct neg; [|lia]. rewrite xor_top by lia. lia. }
  rewrite BB. clear BB NB. change (w - 1 - e) with mm. rewrite land_mask, (shr (inf_bits w e + p) mm) by lia.
  assert (DV : (inf_bits w e + p) / 2 ^ mm = 2 ^ e - 1) by (unfold inf_bits; symmetry; apply (Z.div_unique _ _ _ p); lia).
  assert (MD : (inf_bits w e + p) mod 2 ^ mm = p) by (unfold inf_bits; symmetry; apply (Z.mod_unique _ _ (2 ^ e - 1)); lia).
  rewrite DV, MD, Z.eqb_refl. cbn [andb]. cbv zeta.
  assert (SB : Z.lor (Z.shiftl (b2z neg) (w - 1)) (Z.shiftl (2 ^ e - 1) (exp_offset w e)) = inf_bits w e + if neg then 2 ^ (w - 1) else 0).
  { change (exp_offset w e) with mm. rewrite !shl by lia. fold (inf_bits w e). pose proof (inf_pos w e W). rewrite lor_plus by lia. destruct neg; cbn [b2z]; lia. }
  assert (LO : forall q, 0 <= q < 2 ^ mm -> Z.lor (inf_bits w e + if neg then 2 ^ (w - 1) else 0) q = inf_bits w e + q + if neg then 2 ^ (w - 1) else 0).
  { intros q Q. assert (X : inf_bits w e + (if neg then 2 ^ (w - 1) else 0) = (2 ^ e - 1 + if neg then 2 ^ e else 0) * 2 ^ mm).
    { unfold inf_bits. rewrite PW1. destruct neg; ring. }
    rewrite X, lor_plus, <- X by lia. lia. }
  assert (MN : Forall (fun c => idchar c = true) (if neg then [45] else [])) by (destruct neg; repeat constructor).
  assert (MX : exists q, forall s, no_sign s -> split_sign ((if neg then [45] else []) ++ s) = (q, s) /\ is_minus q = neg).
  { destruct neg; [exists (Some Minus); intros s N; split; [exact (split_text IMinus s N)|reflexivity]|exists None; intros s N; split; [exact (split_text INone s N)|reflexivity]]. }
  destruct MX as (q & MX).
  destruct (p =? 0) eqn:P0.
  - apply Z.eqb_eq in P0. exists (TFloat (FInf neg)). split.
    { unfold classify_number. destruct (MX (lit "inf") ltac:(cbn; lia)) as [-> ->]. reflexivity. }
    split; [|split; [apply Forall_app; split; [exact MN|repeat constructor]|destruct neg; discriminate]].
    cbn [parse_float token_float strto]. rewrite SB. f_equal. unfold bits. lia.
  - apply Z.eqb_neq in P0.
    assert (CHK : Z.land p (2 ^ w - 1 - signif_mask w e) = 0).
    { unfold signif_mask. change (exp_offset w e) with mm. apply Z.bits_inj'. intros k K. rewrite Z.land_spec, Z.bits_0.
      destruct (Z.lt_ge_cases k mm) as [L|L].
      - replace (2 ^ w - 1 - (2 ^ mm - 1)) with ((2 ^ (w - mm) - 1) * 2 ^ mm).
        + rewrite Z.mul_pow2_bits_low by lia. apply andb_false_r.
        + assert (2 ^ w = 2 ^ (w - mm) * 2 ^ mm) as -> by (rewrite <- p2_add by lia; f_equal; lia). ring.
      - rewrite (Z.bits_above_log2 p k); [reflexivity|lia|]. assert (Z.log2 p < mm) by (apply Z.log2_lt_pow2; lia). lia. }
    destruct (p =? 2 ^ (mm - 1)) eqn:P1.
    + apply Z.eqb_eq in P1. exists (TFloat (FNan neg)). split.
      { unfold classify_number. destruct (MX (lit "nan") ltac:(cbn; lia)) as [-> ->]. reflexivity. }
      split; [|split; [apply Forall_app; split; [exact MN|repeat constructor]|destruct neg; discriminate]].
      cbn [parse_float token_float strto]. change (exp_offset w e) with mm in *. rewrite (shl 1 (mm - 1)) by lia. rewrite Z.mul_1_l, <- P1, CHK.
      assert ((p =? 0) = false) as -> by (apply Z.eqb_neq; exact P0). cbn [Z.eqb negb orb]. rewrite SB, LO by lia. reflexivity.
    + set (t := fmt_uint 16 p). pose proof (fmt_number 16 ltac:(lia) p ltac:(lia)) as NT. fold t in NT.
      pose proof (fmt_chars 16 ltac:(lia) p ltac:(lia)) as FT. fold t in FT.
      assert (HU : has_us t = false).
      { destruct (has_us t) eqn:E; [|reflexivity]. exfalso. apply existsb_exists in E. destruct E as (c & IN & Q). apply Z.eqb_eq in Q. subst c.
        rewrite Forall_forall in FT. discriminate (FT _ IN). }
      exists (TFloat (FNanVal neg false)). split.
      { unfold classify_number. destruct (MX (lit "nan:0x" ++ t) ltac:(cbn; lia)) as [-> ->].
        change (seqb (lit "nan:0x" ++ t) (lit "inf")) with false. change (seqb (lit "nan:0x" ++ t) (lit "nan")) with false. cbv iota. rewrite strip_app.
        pose proof (skip_number 16 t [] b16 NT Logic.I) as SK. rewrite app_nil_r, HU in SK. change (good 16) with is_hex in SK. rewrite SK. reflexivity. }
      split; [|split; [apply Forall_app; split; [exact MN|apply Forall_app; split; [repeat constructor|eapply Forall_impl; [|exact FT]; intros c; apply hex_idchar]]|destruct neg; discriminate]].
      cbn [parse_float token_float].
      assert (ST : (if starts 110 ((if neg then [45] else []) ++ lit "nan:0x" ++ t) then (if neg then [45] else []) ++ lit "nan:0x" ++ t else tl ((if neg then [45] else []) ++ lit "nan:0x" ++ t)) = lit "nan:0x" ++ t)
        by (destruct neg; reflexivity).
      match goal with |- context [strip_or _ ?x] => assert (x = lit "nan:0x" ++ t) as -> by exact ST end. unfold strip_or. rewrite strip_app. cbn [strto].
      assert (DG : Forall (is_digit 16) t) by (eapply Forall_impl; [|exact FT]; intros c; apply is_digit_16).
      assert (NE : t <> []) by (destruct (number_start _ _ NT) as (d & r & -> & _); discriminate).
      assert (PX : p < 2 ^ w). { assert (2 ^ (w - 1) <= 2 ^ w) by (apply p2_le; lia). unfold inf_bits in BW. clear - BW P H F6 F7 PM. nia. }
      pose proof (radix_text 0 (2 ^ w - 1) 16 INone t b16 ltac:(pose proof (p2 w ltac:(lia)); lia) DG NE) as RT. cbn [minus_text app] in RT.
      assert (AC : accum 16 0 t = p) by (apply (fmt_magnitude 16); lia). rewrite AC in RT.
      assert ((p <=? 2 ^ w - 1) = true) as LE by (apply Z.leb_le; lia). rewrite LE in RT. unfold u_from. rewrite RT, CHK.
      assert ((p =? 0) = false) as -> by (apply Z.eqb_neq; exact P0). cbn [Z.eqb negb orb]. rewrite SB, LO by lia. reflexivity.
Qed.
Theorem print_reads : forall dec bits, in_u w bits -> reads dec (print_float w e bits) bits.
Proof.
  intros dec bits [B0 B1]. pose proof (fmt_facts w e W) as (F1 & F2 & F3 & F4 & F5 & F6 & F7). pose proof (p2 mm ltac:(lia)) as PM.
  assert (PW : 2 ^ w = 2 * 2 ^ (w - 1)) by (replace w with (1 + (w - 1)) at 1 by lia; apply p2_add; lia).
  assert (PW1 : 2 ^ (w - 1) = 2 ^ e * 2 ^ mm) by (replace (w - 1) with (e + mm) by lia; apply p2_add; lia).
  assert (D : exists (neg : bool) b, 0 <= b < 2 ^ (w - 1) /\ bits = b + if neg then 2 ^ (w - 1) else 0).
  { destruct (Z.lt_ge_cases bits (2 ^ (w - 1))); [exists false, bits|exists true, (bits - 2 ^ (w - 1))]; split; lia. }
  destruct D as (neg & b & B & ->). destruct (Z.lt_ge_cases b (inf_bits w e)) as [L|L].
  - apply finite_reads. lia.
  - replace b with (inf_bits w e + (b - inf_bits w e)) by lia. apply special_reads. split; [lia|]. unfold inf_bits. rewrite PW1 in B. lia.
Qed.
End Print.
