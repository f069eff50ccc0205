(** The digits of a hexadecimal float, and what is made of them. *)
From Coq Require Import ZArith Lia List Bool String.
From Verif Require Import Base.Prelude Base.BitFacts Names.Kebab Names.Name Text.Lexer Text.Spec Text.LexProofs Text.Numbers Text.IntProofs Text.FloatCore Text.FloatFinish.
Import ListNotations.
Open Scope Z_scope.

Definition val (l : list Z) : Z := fold_left (fun n d => n * 16 + d) l 0.
Definition digit (d : Z) : Prop := 0 <= d < 16.
Definition nz (d : Z) : bool := negb (d =? 0).
Lemma val_app : forall a b, val (a ++ b) = val a * 16 ^ zlen b + val b.
Proof.
  intros a b. unfold val. rewrite fold_left_app. generalize (fold_left (fun n d => n * 16 + d) a 0) as n.
  induction b as [|d b IH]; intros n; [cbn [fold_left]; rewrite zlen_nil; change (16 ^ 0) with 1; lia|].
  cbn [fold_left]. rewrite IH. rewrite (IH (0 * 16 + d)). rewrite zlen_cons. rewrite Z.pow_add_r by (pose proof (zlen_nonneg b); lia). change (16 ^ 1) with 16. ring.
Qed.
Lemma val_snoc : forall a d, val (a ++ [d]) = val a * 16 + d.
Proof. intros. unfold val. rewrite fold_left_app. reflexivity. Qed.
Lemma val_bounds : forall l, Forall digit l -> 0 <= val l < 16 ^ zlen l.
Proof.
  intros l. induction l as [|d l IH] using rev_ind; intros F; [change (0 <= 0 < 1); lia|]. apply Forall_app in F. destruct F as [F D]. inversion_clear D as [|? ? D' _].
  specialize (IH F). rewrite val_snoc, zlen_app. change (zlen [d]) with 1. rewrite Z.pow_add_r by (pose proof (zlen_nonneg l); lia). change (16 ^ 1) with 16. unfold digit in D'. lia.
Qed.
Lemma val_nz : forall l, Forall digit l -> (val l <> 0 <-> existsb nz l = true).
Proof.
  intros l. induction l as [|d l IH] using rev_ind; intros F; [split; [intros H; exfalso; apply H; reflexivity|discriminate]|]. apply Forall_app in F. destruct F as [F D]. inversion_clear D as [|? ? D' _].
  specialize (IH F). pose proof (val_bounds l F). rewrite val_snoc, existsb_app. cbn [existsb]. rewrite orb_false_r. unfold digit in D'. unfold nz at 2.
  destruct (d =? 0) eqn:E; [apply Z.eqb_eq in E|apply Z.eqb_neq in E]; cbn [negb]; [rewrite orb_false_r|rewrite orb_true_r].
  - subst d. rewrite <- IH. lia.
  - split; [reflexivity|lia].
Qed.
Lemma pow16 : forall n, 0 <= n -> 16 ^ n = 2 ^ (4 * n). Proof. intros n N. change 16 with (2 ^ 4). rewrite <- Z.pow_mul_r by lia. reflexivity. Qed.

Section Loop.
Variables w k lz : Z.
Hypothesis W : (w = 32 \/ w = 64) /\ w = 4 * k.
Hypothesis LZ : 0 <= lz <= 3.
Definition skipped : Z := if lz =? 0 then k else k + 1.
Definition inv (P : list Z) (st : hstate) : Prop :=
  if zlen P <=? k then
    hs_pos st = w - 4 * zlen P + lz /\ hs_sig st = val P * 2 ^ hs_pos st /\ hs_extra st = false
  else
    hs_sig st = val (firstn (Z.to_nat k) P) * 2 ^ lz /\
    hs_extra st = existsb nz (skipn (Z.to_nat skipped) P) /\
    (if zlen P =? k + 1 then hs_pos st = lz - 4 else hs_pos st <= -4).
Lemma straddle : forall d, digit d -> lz <> 0 ->
  Z.shiftr d (4 - (lz - 4)) = 0 /\ negb (Z.land d (2 ^ w - 1 - Z.shiftr (2 ^ w - 1) (4 - (lz - 4))) =? 0) = false.
Proof.
  intros d D L.
  assert (C : forallb (fun w => forallb (fun lz => forallb (fun d => (Z.shiftr d (4 - (lz - 4)) =? 0) && (Z.land d (2 ^ w - 1 - Z.shiftr (2 ^ w - 1) (4 - (lz - 4))) =? 0))
     (map Z.of_nat (seq 0 16))) [1; 2; 3]) [32; 64] = true) by (vm_compute; reflexivity).
  rewrite forallb_forall in C. specialize (C w ltac:(destruct W as [[-> | ->] _]; cbn; auto)).
  rewrite forallb_forall in C. specialize (C lz ltac:(cbn; lia)).
  rewrite forallb_forall in C. specialize (C d ltac:(unfold digit in D; apply in_map_iff; exists (Z.to_nat d); split; [lia|apply in_seq; lia])).
  apply andb_true_iff in C. destruct C as [C1 C2]. apply Z.eqb_eq in C1. rewrite C2. auto.
Qed.
Lemma step_inv : forall P st d fr, 1 <= zlen P -> Forall digit P -> digit d -> inv P st -> inv (P ++ [d]) (digit_step w st (d, fr)).
Proof.
  intros P st d fr N F D I. unfold inv in *. rewrite zlen_app. change (zlen [d]) with 1. unfold digit_step. unfold digit in D.
  assert (KP : 0 < k) by lia.
  destruct (zlen P <=? k) eqn:E.
  - apply Z.leb_le in E. destruct I as (IP & IS & IE).
    assert ((hs_pos st >? -4) = true) as -> by (rewrite Z.gtb_ltb; apply Z.ltb_lt; lia).
    destruct (zlen P + 1 <=? k) eqn:E1.
    + apply Z.leb_le in E1. assert ((hs_pos st - 4 >=? 0) = true) as -> by (rewrite Z.geb_leb; apply Z.leb_le; lia).
      cbn [hs_pos hs_sig hs_extra]. split; [lia|]. split; [|exact IE].
      set (q := hs_pos st - 4) in *. assert (0 <= q) by (unfold q; lia). assert (HQ : hs_pos st = q + 4) by (unfold q; lia).
      rewrite shl by lia. assert (DB : 0 <= d * 2 ^ q < 2 ^ (q + 4)).
      { rewrite p2_add by lia. pose proof (p2 q ltac:(lia)). change (2 ^ 4) with 16. nia. }
      assert (DW : wrapu w (d * 2 ^ q) = d * 2 ^ q).
      { apply wrapu_id. unfold in_u. pose proof (p2_le (q + 4) w ltac:(lia)). lia. }
      rewrite DW, IS, HQ. rewrite lor_plus by lia. rewrite p2_add by lia. rewrite val_snoc. change (2 ^ 4) with 16. ring.
    + apply Z.leb_gt in E1. assert (EN : zlen P = k) by lia. assert ((zlen P + 1 =? k + 1) = true) as -> by (apply Z.eqb_eq; lia).
      assert ((hs_pos st - 4 >=? 0) = false) as -> by (rewrite Z.geb_leb; apply Z.leb_gt; lia).
      assert (LEN : List.length P = Z.to_nat k) by (unfold zlen in EN; lia).
      assert (FN : firstn (Z.to_nat k) (P ++ [d]) = P) by (rewrite <- LEN, firstn_app, Nat.sub_diag, firstn_all, app_nil_r; reflexivity).
      rewrite FN. assert (HP : hs_pos st = lz) by lia. unfold skipped.
      destruct (Z.eq_dec lz 0) as [Z0|Z0].
      * assert ((hs_pos st - 4 >? -4) = false) as -> by (rewrite Z.gtb_ltb; apply Z.ltb_ge; lia).
        cbn [hs_pos hs_sig hs_extra]. split; [rewrite IS, HP; reflexivity|]. split; [|lia].
        assert ((lz =? 0) = true) as -> by (apply Z.eqb_eq; exact Z0). rewrite <- LEN, skipn_app, skipn_all, Nat.sub_diag. cbn [skipn app existsb].
        unfold nz. rewrite IE. destruct (d =? 0); reflexivity.
      * assert ((hs_pos st - 4 >? -4) = true) as -> by (rewrite Z.gtb_ltb; apply Z.ltb_lt; lia).
        cbn [hs_pos hs_sig hs_extra]. rewrite HP. destruct (straddle d D Z0) as [-> ->]. rewrite Z.lor_0_r.
        split; [rewrite IS, HP; reflexivity|]. split; [|reflexivity].
        assert ((lz =? 0) = false) as -> by (apply Z.eqb_neq; exact Z0). rewrite skipn_all2; [reflexivity|]. rewrite app_length. cbn. lia.
  - apply Z.leb_gt in E. destruct I as (IS & IE & IP).
    assert ((zlen P + 1 <=? k) = false) as -> by (apply Z.leb_gt; lia).
    assert ((zlen P + 1 =? k + 1) = false) as -> by (apply Z.eqb_neq; lia).
    set (pos := if hs_pos st >? -4 then hs_pos st - 4 else hs_pos st).
    assert (PB : pos <= -4).
    { unfold pos. destruct (hs_pos st >? -4) eqn:G; [|rewrite Z.gtb_ltb in G; apply Z.ltb_ge in G; exact G].
      destruct (zlen P =? k + 1); lia. }
    assert ((pos >=? 0) = false) as -> by (rewrite Z.geb_leb; apply Z.leb_gt; lia).
    assert ((pos >? -4) = false) as -> by (rewrite Z.gtb_ltb; apply Z.ltb_ge; lia).
    cbn [hs_pos hs_sig hs_extra]. assert (LEN : (Z.to_nat k < List.length P)%nat) by (unfold zlen in E; lia).
    assert (SK : (Z.to_nat skipped <= List.length P)%nat) by (unfold skipped; unfold zlen in E; destruct (lz =? 0); lia).
    split; [|split; [|exact PB]].
    + rewrite firstn_app. replace (Z.to_nat k - List.length P)%nat with 0%nat by lia. rewrite firstn_O, app_nil_r. exact IS.
    + rewrite skipn_app. replace (Z.to_nat skipped - List.length P)%nat with 0%nat by lia. rewrite skipn_O, existsb_app. cbn [existsb].
      rewrite orb_false_r, IE. unfold nz at 3. destruct (d =? 0); cbn [negb]; [rewrite orb_false_r|rewrite orb_true_r]; reflexivity.
Qed.
Lemma loop_inv : forall ds P st, 1 <= zlen P -> Forall digit P -> Forall (fun x => digit (fst x)) ds -> inv P st ->
  inv (P ++ map fst ds) (fold_left (digit_step w) ds st).
Proof.
  induction ds as [|[d fr] ds IH]; intros P st N F D I; [rewrite app_nil_r; exact I|].
  cbn [fold_left map fst]. inversion_clear D as [|? ? D1 D2]. cbn [fst] in D1.
  replace (P ++ d :: map fst ds) with ((P ++ [d]) ++ map fst ds) by (rewrite <- app_assoc; reflexivity).
  apply IH.
  - rewrite zlen_app. change (zlen [d]) with 1. lia.
  - apply Forall_app. split; [exact F|constructor; [exact D1|constructor]].
  - exact D2.
  - apply step_inv; assumption.
Qed.
Lemma loop_exp : forall ds st, - 2 ^ 31 <= hs_exp st -> hs_exp st + 4 * zlen ds < 2 ^ 31 ->
  hs_exp (fold_left (digit_step w) ds st) = hs_exp st + 4 * zlen (filter (fun x => negb (snd x)) ds).
Proof.
  induction ds as [|[d fr] ds IH]; intros st L H; [cbn [fold_left filter]; change (hs_exp st = hs_exp st + 4 * 0); lia|].
  rewrite zlen_cons in H. pose proof (zlen_nonneg ds). cbn [fold_left filter snd].
  assert (E : hs_exp (digit_step w st (d, fr)) = if fr then hs_exp st else hs_exp st + 4).
  { unfold digit_step. destruct (_ >=? 0); [|destruct (_ >? -4)]; cbn [hs_exp]; destruct fr; try reflexivity; apply wraps_id; unfold in_s; change (2 ^ (32 - 1)) with (2 ^ 31); lia. }
  rewrite IH; rewrite E; destruct fr; cbn [negb]; rewrite ?zlen_cons; lia.
Qed.
(** What the loop leaves, against the number the digits write. *)
Definition clean (l : list Z) : Prop := lz = 0 \/ nth (Z.to_nat k) l 0 = 0 \/ existsb nz (skipn (Z.to_nat (k + 1)) l) = true.
Lemma loop_sum : forall d0 l st, digit d0 -> Z.log2 d0 = 3 - lz -> 0 < d0 -> Forall digit l -> clean (d0 :: l) -> inv (d0 :: l) st ->
  let M := val (d0 :: l) in let m := Z.log2 M + 1 in
  0 < M /\ m = 4 * zlen (d0 :: l) - lz /\ 0 <= hs_sig st < 2 ^ w /\
  hs_sig st / 8 = M * 2 ^ w / 2 ^ (m + 3) /\ sticky (hs_sig st mod 8) (hs_extra st) ((M * 2 ^ w) mod 2 ^ (m + 3)).
Proof.
  intros d0 l st D0 LG DP F CL I M m.
  assert (F0 : Forall digit (d0 :: l)) by (constructor; assumption).
  pose proof (zlen_nonneg l) as NL. set (n := zlen (d0 :: l)). assert (NE : n = zlen l + 1) by (unfold n; rewrite zlen_cons; lia).
  assert (LB : 2 ^ (3 - lz) <= d0 < 2 ^ (4 - lz)).
  { pose proof (Z.log2_spec d0 DP) as S. rewrite LG in S. replace (Z.succ (3 - lz)) with (4 - lz) in S by lia. exact S. }
  (* bounds of a prefix *)
  assert (PB : forall x, Forall digit x -> 2 ^ (4 * (zlen x + 1) - lz - 1) <= val (d0 :: x) < 2 ^ (4 * (zlen x + 1) - lz)).
  { intros x FX. pose proof (zlen_nonneg x). pose proof (val_bounds x FX) as B. change (d0 :: x) with ([d0] ++ x). rewrite val_app. change (val [d0]) with (0 * 16 + d0).
    rewrite pow16 in * by lia. set (p := 2 ^ (4 * zlen x)) in *.
    replace (4 * (zlen x + 1) - lz - 1) with (4 * zlen x + (3 - lz)) by lia. replace (4 * (zlen x + 1) - lz) with (4 * zlen x + (4 - lz)) by lia.
    rewrite !p2_add by lia. fold p. pose proof (p2 (4 * zlen x) ltac:(lia)) as PP. fold p in PP. clear - LB B PP. nia. }
  pose proof (PB l F) as MB. fold M in MB. rewrite <- NE in MB.
  assert (MP : 0 < M) by (pose proof (p2 (4 * n - lz - 1) ltac:(lia)); lia).
  assert (ME : m = 4 * n - lz) by (unfold m; rewrite (Z.log2_unique M (4 * n - lz - 1)); [lia|lia|replace (Z.succ (4 * n - lz - 1)) with (4 * n - lz) by lia; exact MB]).
  split; [exact MP|]. split; [exact ME|]. rewrite ME. clear m ME. unfold inv in I. fold n in I.
  destruct (n <=? k) eqn:E.
  - apply Z.leb_le in E. destruct I as (IP & IS & IE). fold M in IS. rewrite IP in IS. set (p := w - 4 * n + lz) in *.
    assert (P0 : 0 <= p) by (unfold p; lia).
    assert (V : M * 2 ^ w = hs_sig st * 2 ^ (4 * n - lz)).
    { rewrite IS, <- Z.mul_assoc, <- p2_add by lia. f_equal. f_equal. unfold p. lia. }
    pose proof (p2 (4 * n - lz) ltac:(lia)) as PQ. rewrite V. rewrite p2_add by lia. change (2 ^ 3) with 8.
    rewrite (Z.mul_comm (2 ^ (4 * n - lz)) 8).
    split; [|split].
    + rewrite IS. split; [apply Z.mul_nonneg_nonneg; [lia|apply Z.pow_nonneg; lia]|].
      apply Z.lt_le_trans with (2 ^ (4 * n - lz) * 2 ^ p); [apply Z.mul_lt_mono_pos_r; [apply p2; exact P0|lia]|].
      rewrite <- p2_add by lia. apply p2_le. unfold p. lia.
    + rewrite Z.div_mul_cancel_r by lia. reflexivity.
    + rewrite Z.mul_mod_distr_r by lia. rewrite IE. unfold sticky. split.
      * intros [H|H]; [|discriminate]. intros Q. apply Z.mul_eq_0 in Q. lia.
      * intros H. left. intros Q. apply H. rewrite Q. reflexivity.
  - apply Z.leb_gt in E. destruct I as (IS & IE & _).
    set (A := firstn (Z.to_nat k) (d0 :: l)) in *. set (B := skipn (Z.to_nat k) (d0 :: l)).
    assert (AB : d0 :: l = A ++ B) by (symmetry; apply firstn_skipn).
    assert (KP : 0 < k) by lia.
    assert (LA : zlen A = k). { unfold A, zlen. rewrite firstn_length. unfold n, zlen in E. lia. }
    assert (LBN : zlen B = n - k) by (unfold n; rewrite AB, zlen_app; lia).
    assert (FB : Forall digit B) by (rewrite AB in F0; apply Forall_app in F0; tauto).
    pose proof (val_bounds B FB) as BB. rewrite LBN, pow16 in BB by lia.
    assert (MV : M = val A * 2 ^ (4 * (n - k)) + val B) by (unfold M; rewrite AB, val_app, LBN, pow16 by lia; reflexivity).
    assert (AB' : 0 <= val A < 2 ^ (4 * k - lz)).
    { unfold A. replace (Z.to_nat k) with (S (Z.to_nat (k - 1))) by lia. cbn [firstn].
      assert (FX : Forall digit (firstn (Z.to_nat (k - 1)) l)) by (apply Forall_forall; intros x X; rewrite Forall_forall in F; apply F; revert X; clear; revert l; induction (Z.to_nat (k - 1)) as [|j IHj]; intros [|y l]; cbn; [tauto|tauto|tauto|]; intros [X|X]; [left; exact X|right; apply IHj; exact X]).
      pose proof (PB _ FX) as Q. assert (LX : zlen (firstn (Z.to_nat (k - 1)) l) = k - 1) by (unfold zlen; rewrite firstn_length; unfold zlen in NE; lia).
      rewrite LX in Q. replace (4 * (k - 1 + 1) - lz) with (4 * k - lz) in Q by lia. pose proof (p2 (4 * k - lz - 1) ltac:(lia)). lia. }
    set (H := 2 ^ (4 * (n - k))) in *. assert (HP : 0 < H) by (apply p2; lia).
    (* divide by the common power *)
    set (c := 4 * k - lz). pose proof (p2 c ltac:(unfold c; lia)) as PC. pose proof (p2 lz ltac:(lia)) as PL.
    assert (VV : M * 2 ^ w = (hs_sig st * H + val B * 2 ^ lz) * 2 ^ c).
    { replace w with (lz + c) by (unfold c; lia). rewrite p2_add by (unfold c; lia). rewrite IS, MV. ring. }
    assert (DD : 2 ^ (4 * n - lz + 3) = H * 8 * 2 ^ c).
    { unfold H. change 8 with (2 ^ 3). rewrite <- !p2_add by (unfold c; lia). f_equal. unfold c. lia. }
    assert (L8 : exists g, 8 = g * 2 ^ lz /\ 0 < g).
    { exists (2 ^ (3 - lz)). split; [rewrite <- p2_add by lia; replace (3 - lz + lz) with 3 by lia; reflexivity|apply p2; lia]. }
    destruct L8 as (g & G8 & GP).
    set (S := hs_sig st) in *. set (s := S mod 8). assert (SD : S = 8 * (S / 8) + s) by (unfold s; apply Z.div_mod; lia).
    assert (SB : 0 <= s /\ s + 2 ^ lz <= 8).
    { pose proof (Z.mod_pos_bound S 8 ltac:(lia)) as SM. fold s in SM. split; [lia|].
      assert (ES : s = (val A mod g) * 2 ^ lz) by (unfold s; rewrite IS, G8; apply Z.mul_mod_distr_r; lia).
      pose proof (Z.mod_pos_bound (val A) g GP) as GM. rewrite ES. clear - GM G8 PL. nia. }
    set (rem := s * H + val B * 2 ^ lz).
    assert (RB : 0 <= rem < H * 8).
    { unfold rem. clear - SB BB HP PL. split; [nia|]. assert (val B * 2 ^ lz < H * 2 ^ lz) by nia. nia. }
    assert (TOT : S * H + val B * 2 ^ lz = H * 8 * (S / 8) + rem) by (unfold rem; rewrite SD at 1; ring).
    assert (W' : w = 4 * k - lz + lz) by (clear - W; lia). assert (K0 : 0 <= 4 * k - lz) by (clear - KP LZ; lia). destruct LZ as [LZ0 LZ3].
    assert (C0 : 2 ^ c <> 0) by (clear - PC; lia). assert (H8 : H * 8 <> 0) by (clear - HP; lia).
    rewrite VV, DD. split; [|split].
    + rewrite IS. split; [apply Z.mul_nonneg_nonneg; [exact (proj1 AB')|clear - PL; lia]|]. rewrite W'. rewrite p2_add by assumption.
      apply Z.mul_lt_mono_pos_r; [exact PL|exact (proj2 AB')].
    + rewrite Z.div_mul_cancel_r by assumption. rewrite TOT. apply (Z.div_unique (H * 8 * (S / 8) + rem) (H * 8) (S / 8) rem); [left; exact RB|reflexivity].
    + rewrite Z.mul_mod_distr_r by assumption. rewrite TOT. replace ((H * 8 * (S / 8) + rem) mod (H * 8)) with rem by (apply Z.mod_unique with (S / 8); [left; exact RB|reflexivity]).
      fold s. unfold sticky.
      assert (EB : hs_extra st = true <-> val B <> 0).
      { rewrite (val_nz B FB), IE. unfold skipped. destruct (lz =? 0) eqn:L0; [tauto|]. apply Z.eqb_neq in L0.
        assert (SKB : B = nth (Z.to_nat k) (d0 :: l) 0 :: skipn (Z.to_nat (k + 1)) (d0 :: l)).
        { unfold B. replace (Z.to_nat (k + 1)) with (Datatypes.S (Z.to_nat k)) by (clear - KP; lia).
          assert (LL : (Z.to_nat k < List.length (d0 :: l))%nat) by (clear - E KP; unfold n, zlen in E; lia). revert LL. generalize (Z.to_nat k) (d0 :: l). clear.
          intros j x. revert j. induction x as [|y x IH]; intros j LL; [cbn in LL; lia|]. destruct j as [|j]; [reflexivity|]. cbn [skipn nth]. apply IH. cbn in LL. lia. }
        rewrite SKB. cbn [existsb]. destruct CL as [CL|[CL|CL]]; [contradiction| |].
        - rewrite CL. change (nz 0) with false. cbn [orb]. tauto.
        - rewrite CL, orb_true_r. tauto. }
      rewrite EB. unfold rem. clear - SB BB HP PL PC. split.
      * intros Q Z0. apply Z.mul_eq_0 in Z0. destruct Z0 as [Z0|Z0]; [|lia].
        assert (0 <= s * H) by (apply Z.mul_nonneg_nonneg; lia). assert (0 <= val B * 2 ^ lz) by (apply Z.mul_nonneg_nonneg; lia).
        assert (Z1 : s * H = 0) by lia. assert (Z2 : val B * 2 ^ lz = 0) by lia. apply Z.mul_eq_0 in Z1, Z2. lia.
      * intros Q. destruct (Z.eq_dec s 0) as [S0|S0]; [|left; exact S0]. right. intros B0. apply Q. rewrite S0, B0. reflexivity.
Qed.
End Loop.

(** Leading zeros. *)
Definition trim (s : str) : str := trim_start 48 s.
Lemma trim_app : forall a b, trim (a ++ b) = match trim a with [] => trim b | t => t ++ b end.
Proof.
  unfold trim, trim_start. induction a as [|c a IH]; intros b; [reflexivity|]. cbn [app skip_while]. destruct (48 =? c); [apply IH|reflexivity].
Qed.
Lemma trim_suffix : forall s, exists z, s = repeat 48 z ++ trim s.
Proof.
  unfold trim, trim_start. induction s as [|c s [z IH]]; [exists 0%nat; reflexivity|]. cbn [skip_while]. destruct (48 =? c) eqn:E; [|exists 0%nat; reflexivity].
  apply Z.eqb_eq in E. subst c. exists (S z). cbn [repeat app]. f_equal. exact IH.
Qed.
Lemma trim_len : forall s, zlen (trim s) <= zlen s.
Proof. intros s. destruct (trim_suffix s) as [z E]. rewrite E at 2. rewrite zlen_app. pose proof (zlen_nonneg (repeat 48 z)). lia. Qed.
Lemma trim_head : forall s c t, trim s = c :: t -> c <> 48.
Proof.
  unfold trim, trim_start. induction s as [|c s IH]; intros d t H; [discriminate|]. cbn [skip_while] in H. destruct (48 =? c) eqn:E; [exact (IH _ _ H)|].
  injection H as <- _. apply Z.eqb_neq in E. auto.
Qed.
Lemma trim_hex : forall (P : Z -> Prop) s, Forall P s -> Forall P (trim s).
Proof. intros P s F. destruct (trim_suffix s) as [z E]. rewrite E in F. apply Forall_app in F. tauto. Qed.
Definition vals (s : str) : list Z := map to_hex s.
Lemma vals_digits : forall s, Forall (fun c => is_hex c = true) s -> Forall digit (vals s).
Proof. intros s F. apply Forall_forall. intros d D. apply in_map_iff in D. destruct D as (c & <- & C). rewrite Forall_forall in F. apply to_hex_range. apply F. exact C. Qed.
Lemma vals_magnitude : forall s, Forall (fun c => is_hex c = true) s -> magnitude 16 s = val (vals s).
Proof.
  intros s F. unfold magnitude, val, vals. generalize 0. induction F as [|c s H F IH]; intros n; [reflexivity|]. cbn [fold_left map].
  assert (digit_value c = Some (to_hex c)) as -> by (apply digit_value_hex; split; [exact H|reflexivity]). apply IH.
Qed.
Lemma val_zeros : forall z l, val (vals (repeat 48 z) ++ l) = val l.
Proof.
  intros z l. rewrite val_app. assert (val (vals (repeat 48 z)) = 0) as ->; [|lia]. unfold val, vals. induction z as [|z IH]; [reflexivity|]. exact IH.
Qed.
Lemma val_trim : forall s, val (vals s) = val (vals (trim s)).
Proof. intros s. destruct (trim_suffix s) as [z E]. rewrite E at 1. unfold vals at 1. rewrite map_app. fold (vals (repeat 48 z)). rewrite val_zeros. reflexivity. Qed.
Lemma trim45 : forall s, Forall (fun c => is_hex c = true) s -> trim_start 45 s = s /\ starts 45 s = false.
Proof.
  intros [|c s] F; [split; reflexivity|]. inversion_clear F as [|? ? H _]. unfold trim_start, starts. cbn [skip_while].
  assert (c <> 45) by (intros ->; discriminate H). assert ((45 =? c) = false) as -> by (apply Z.eqb_neq; lia).
  split; [reflexivity|]. apply Z.eqb_neq. lia.
Qed.
Lemma hex_zero : forall c, is_hex c = true -> to_hex c = 0 -> c = 48.
Proof.
  intros c H Z0. unfold is_hex, in_range in H. unfold to_hex in Z0. 
  repeat match type of H with context [?a <=? ?b] => let E := fresh in destruct (a <=? b) eqn:E; [apply Z.leb_le in E|apply Z.leb_gt in E] end; cbn in H; try discriminate H;
  repeat match type of Z0 with context [in_range ?a ?b ?c] => let E := fresh in destruct (in_range a b c) eqn:E; unfold in_range in E; [apply andb_true_iff in E|apply andb_false_iff in E]; rewrite ?Z.leb_le, ?Z.leb_gt in E end; lia.
Qed.

Section Hex.
Variables w e : Z.
Hypothesis W : fmt_ok w e.
(** The digits of which none but the first few are lost. *)
Definition safe (s : str) : Prop :=
  match s with [] => True | c :: _ => clean (w / 4) (3 - Z.log2 (to_hex c)) (vals s) end.
Theorem hexfloat_correct : forall (neg : bool) (i f : str) (fr es : option str) x,
  Forall (fun c => is_hex c = true) i -> Forall (fun c => is_hex c = true) f ->
  match fr with Some f' => f' = f | None => f = [] end -> zlen i < 2 ^ 28 -> zlen f < 2 ^ 28 ->
  match es with Some s => i_from 32 s 10 = Some x | None => x = 0 end -> - 2 ^ 30 < x < 2 ^ 30 ->
  safe (trim (i ++ f)) ->
  let M := val (vals (i ++ f)) in
  let exp2 := x - 4 * zlen f in
  exists b, rounds_to w e (M * 2 ^ Z.max 0 (exp2 + scale w e)) (2 ^ Z.max 0 (- (exp2 + scale w e))) b /\
    hexfloat w e ((if neg then [45] else []) ++ i) fr es = if b =? inf_bits w e then None else Some (b + (if neg then 2 ^ (w - 1) else 0)).
Proof.
  intros neg i f fr es x FI FF FR LI LF ES XB SF M exp2.
  unfold hexfloat. destruct (trim45 i FI) as [T45 S45].
  assert (starts 45 ((if neg then [45] else []) ++ i) = neg) as -> by (destruct neg; [reflexivity|exact S45]).
  assert (trim_start 45 ((if neg then [45] else []) ++ i) = i) as -> by (destruct neg; [unfold trim_start; cbn [app skip_while]; change (45 =? 45) with true; exact T45|exact T45]).
  assert ((match fr with Some f' => f' | None => [] end) = f) as -> by (destruct fr; auto).
  change (trim_start 48 i) with (trim i). change (trim_start 48 f) with (trim f).
  pose proof (trim_hex _ i FI) as FTI. pose proof (trim_hex _ f FF) as FTF.
  assert (TA : trim (i ++ f) = match trim i with [] => trim f | t => t ++ f end) by apply trim_app.
  (* the list of digits *)
  set (frac := match trim i with [] => trim f | _ => f end).
  assert (DS : trim (i ++ f) = trim i ++ frac) by (rewrite TA; unfold frac; destruct (trim i); reflexivity).
  assert (FFR : Forall (fun c => is_hex c = true) frac) by (unfold frac; destruct (trim i); assumption).
  assert (MV : M = val (vals (trim i ++ frac))) by (unfold M; rewrite val_trim, DS; reflexivity).
  assert (FALL : Forall (fun c => is_hex c = true) (trim i ++ frac)) by (apply Forall_app; split; assumption).
  destruct (trim i ++ frac) as [|c0 rest] eqn:EL.
  - apply app_eq_nil in EL. destruct EL as [E1 E2]. rewrite E1, E2. cbn [map app]. exists 0. split.
    + rewrite MV. change (val (vals [])) with 0. rewrite Z.mul_0_l.
      pose proof (inf_pos w e W) as IP. pose proof (round_pick w e W 0 (2 ^ Z.max 0 (- (exp2 + scale w e))) 0) as RP.
      pose proof (p2 (Z.max 0 (- (exp2 + scale w e))) ltac:(lia)) as PD.
      assert (U0 : units w e 0 = 0) by (pose proof (p2 (mant w e) ltac:(pose proof (fmt_facts w e W); lia)); apply units_sub; [exact W|lia]).
      pose proof (units_mono w e W 0 1 ltac:(lia)) as U1. rewrite U0 in *. change (0 + 1) with 1 in *.
      specialize (RP PD ltac:(lia) ltac:(split; [lia|apply Z.mul_pos_pos; lia])).
      assert (0 < units w e 1 * 2 ^ Z.max 0 (- (exp2 + scale w e))) by (apply Z.mul_pos_pos; lia).
      assert ((0 * 2 ^ Z.max 0 (- (exp2 + scale w e)) + units w e 1 * 2 ^ Z.max 0 (- (exp2 + scale w e)) <? 2 * 0) = false) as Q1 by (apply Z.ltb_ge; lia).
      change (Z.odd 0) with false in RP. rewrite andb_false_r, orb_false_r, Q1 in RP. exact RP.
    + pose proof (inf_pos w e W) as IP. assert ((0 =? inf_bits w e) = false) as -> by (apply Z.eqb_neq; lia). unfold msb. destruct neg; reflexivity.
  - assert (C48 : c0 <> 48) by (eapply trim_head; exact DS).
    assert (HC : is_hex c0 = true) by (inversion FALL; assumption).
    pose proof (to_hex_range c0 HC) as DB. set (d0 := to_hex c0) in *.
    assert (DP : 0 < d0). { destruct (Z.eq_dec d0 0) as [Z0|Z0]; [|lia]. exfalso. apply C48. apply hex_zero; assumption. }
    assert (MAP : exists tl, map (fun c => (to_hex c, false)) (trim i) ++ map (fun c => (to_hex c, true)) frac = (d0, match trim i with [] => true | _ => false end) :: tl /\
      map fst tl = vals rest /\ zlen (filter (fun p => negb (snd p)) tl) = match trim i with [] => 0 | _ :: t => zlen t end).
    { destruct (trim i) as [|y ti] eqn:TI.
      - cbn [app] in EL. cbn [map app]. rewrite EL. exists (map (fun c => (to_hex c, true)) rest). split; [reflexivity|]. split; [rewrite map_map; reflexivity|].
        assert (filter (fun p : Z * bool => negb (snd p)) (map (fun c => (to_hex c, true)) rest) = []) as ->; [|reflexivity].
        clear. induction rest as [|r rest IH]; [reflexivity|exact IH].
      - cbn [app] in EL. injection EL as -> <-. exists (map (fun c => (to_hex c, false)) ti ++ map (fun c => (to_hex c, true)) frac). split; [reflexivity|]. split; [rewrite map_app, !map_map; unfold vals; rewrite map_app; reflexivity|].
        rewrite filter_app. assert (filter (fun p : Z * bool => negb (snd p)) (map (fun c => (to_hex c, true)) frac) = []) as ->.
        { clear. induction frac as [|r fr0 IH]; [reflexivity|exact IH]. }
        rewrite app_nil_r. assert (filter (fun p : Z * bool => negb (snd p)) (map (fun c => (to_hex c, false)) ti) = map (fun c => (to_hex c, false)) ti) as ->.
        { clear. induction ti as [|r ti IH]; [reflexivity|]. cbn [map filter snd negb]. f_equal. exact IH. }
        unfold zlen. rewrite map_length. reflexivity. }
    destruct MAP as (tl & MT & MF & MC). rewrite MT.
    set (lz := 8 - 1 - Z.log2 d0 - 4). assert (LZ : 0 <= lz <= 3).
    { pose proof (Z.log2_nonneg d0). assert (Z.log2 d0 < 4) by (apply Z.log2_lt_pow2; lia). unfold lz. lia. }
    assert (LG : Z.log2 d0 = 3 - lz) by (unfold lz; lia).
    set (k := w / 4). assert (WK : (w = 32 \/ w = 64) /\ w = 4 * k) by (unfold k; destruct W as [[-> _]|[-> _]]; split; auto).
    assert (FD : Forall digit (vals rest)) by (apply vals_digits; inversion FALL; assumption).
    (* lengths *)
    pose proof (trim_len i) as LTI.
    pose proof (trim_len f) as LTF.
    assert (LR : zlen rest + 1 = zlen (trim i) + zlen frac) by (rewrite <- zlen_app, EL, zlen_cons; lia).
    assert (LFR : zlen frac <= zlen f) by (unfold frac; destruct (trim i); lia).
    pose proof (zlen_nonneg rest) as LR0. pose proof (zlen_nonneg (trim f)) as LTF0.
    assert (LTL : zlen tl = zlen rest) by (apply (f_equal (@zlen Z)) in MF; unfold zlen, vals in *; rewrite !map_length in MF; exact MF).
    set (ex0 := match trim i with [] => wraps 32 (- wraps 32 (zlen f - zlen (trim f) + 1) + 1) | _ => 1 end).
    assert (EX0 : ex0 = match trim i with [] => - (zlen f - zlen (trim f)) | _ => 1 end).
    { unfold ex0. destruct (trim i); [|reflexivity]. rewrite (wraps_id 32 (zlen f - zlen (trim f) + 1)) by (try lia; unfold in_s; change (2 ^ (32 - 1)) with (2 ^ 31); lia).
      rewrite wraps_id by (try lia; unfold in_s; change (2 ^ (32 - 1)) with (2 ^ 31); lia). lia. }
    assert (EB : - 2 ^ 28 <= ex0 <= 1) by (rewrite EX0; destruct (trim i); lia). clearbody ex0.
    assert (OK : forall y, - 2 ^ 31 <= y < 2 ^ 31 -> i32_ok y = Some y).
    { intros y Y. unfold i32_ok. assert ((- 2 ^ 31 <=? y) = true) as -> by (apply Z.leb_le; lia). assert ((y <? 2 ^ 31) = true) as -> by (apply Z.ltb_lt; lia). reflexivity. }
    rewrite OK by lia. rewrite OK by lia.
    set (st0 := HState (ex0 * 4 - (lz + 1)) (w - (4 - lz)) (wrapu w (Z.shiftl d0 (w - (4 - lz)))) false).
    assert (I0 : inv w k lz [d0] st0).
    { unfold inv. change (zlen [d0]) with 1. assert ((1 <=? k) = true) as -> by (apply Z.leb_le; lia). cbn [hs_pos hs_sig hs_extra st0].
      split; [lia|]. split; [|reflexivity]. rewrite shl by lia. change (val [d0]) with (0 * 16 + d0). rewrite Z.mul_0_l, Z.add_0_l. apply wrapu_id. unfold in_u.
      pose proof (Z.log2_spec d0 DP) as S. rewrite LG in S. pose proof (p2 (w - (4 - lz)) ltac:(lia)).
      split; [apply Z.mul_nonneg_nonneg; lia|]. replace w with (4 - lz + (w - (4 - lz))) at 2 by lia. rewrite p2_add by lia.
      apply Z.mul_lt_mono_pos_r; [lia|]. replace (4 - lz) with (Z.succ (3 - lz)) by lia. exact (proj2 S). }
    assert (FT : Forall (fun x => digit (fst x)) tl).
    { apply Forall_forall. intros p P. rewrite Forall_forall in FD. apply FD. rewrite <- MF. apply in_map. exact P. }
    pose proof (loop_inv w k lz WK LZ tl [d0] st0 ltac:(change (zlen [d0]) with 1; lia) ltac:(constructor; [exact DB|constructor]) FT I0) as IL.
    cbn [app] in IL. rewrite MF in IL. fold st0.
    pose proof (loop_exp w tl st0 ltac:(cbn [hs_exp st0]; lia) ltac:(cbn [hs_exp st0]; lia)) as HE. rewrite MC in HE. cbn [hs_exp st0] in HE.
    set (st := fold_left (digit_step w) tl st0) in *.
    assert (SF' : clean k lz (d0 :: vals rest)).
    { rewrite DS in SF. cbn [safe] in SF. fold d0 in SF. unfold k, lz. replace (8 - 1 - Z.log2 d0 - 4) with (3 - Z.log2 d0) by lia. exact SF. }
    destruct (loop_sum w k lz WK LZ d0 (vals rest) st DB LG DP FD SF' IL) as (MP & ME & SB & SQ & SS). cbv zeta in *.
    assert (MV' : M = val (d0 :: vals rest)) by (rewrite MV; reflexivity). rewrite <- MV' in *.
    destruct (finish_correct w e W neg M exp2 (hs_sig st) (hs_extra st) _ MP eq_refl SB SQ SS) as (b & RB & FB).
    exists b. split; [exact RB|]. rewrite <- FB.
    assert ((match es with Some s => i_from 32 s 10 | None => Some 0 end) = Some x) as -> by (destruct es; [exact ES|rewrite ES; reflexivity]).
    assert (EXP : hs_exp st + x = Z.log2 M + 1 - 1 + exp2).
    { rewrite HE, ME, zlen_cons. assert (zlen (vals rest) = zlen rest) as -> by (unfold zlen, vals; rewrite map_length; reflexivity).
      unfold exp2. rewrite EX0. unfold frac in LR. destruct (trim i) as [|y ti]; rewrite ?zlen_cons, ?zlen_nil in *; lia. }
    rewrite EXP. rewrite OK; [reflexivity|]. rewrite <- EXP, HE. pose proof (zlen_nonneg (trim i)). destruct (trim i) as [|y ti]; rewrite ?zlen_cons in *; [lia|]. pose proof (zlen_nonneg ti). lia.
Qed.
End Hex.
