(** Each rule, except the ones named unsound, equates terms that compute the
    same thing; hence so does everything an e-graph built from them equates. *)
From Coq Require Import ZArith Lia List Bool String SpecFloat.
From Verif Require Import Base.Prelude Peephole.Flt Peephole.Machine Peephole.Lang Peephole.Sem.
Import ListNotations.
Open Scope Z_scope.

(** [nt]: no subterm traps. *)
Definition sound (nt : bool) (r : rule) : Prop :=
  forall E s, env_ok E ->
    (forall v p, In (CType v p) (r_conds r) -> p <> PEmpty -> forall q, sem nt E (s v) = Some q -> p = smty q) ->
    (forall v, In (CConst v) (r_conds r) -> is_literal (s v)) ->
    sem nt E (subst s (r_lhs r)) <> None ->
    sem nt E (subst s (r_lhs r)) = sem nt E (subst s (r_rhs r)).

Lemma beq_refl : forall p, prim_eqb p p = true.
Proof. intros. apply prim_eqb_eq. reflexivity. Qed.

(** Destruct a semantic operand of a known type. *)
Lemma sm_cases : forall a, smok a ->
  (exists w n, a = SVal (VI w n) /\ 0 <= n < 2 ^ bits w) \/
  (exists f v, a = SVal (VF f v) /\ valid_binary (fprec f) (femax f) v = true) \/
  a = SUnit \/ (exists p, a = STrap p) \/ (exists p, a = SAny p).
Proof. intros [[w n|f v]| |p|p] H; cbn in H; eauto 8. Qed.

(** [o x c] is [x]. *)
Definition is_unit (w : iw) (o : ibin) (c : Z) : Prop :=
  irel o = false /\ ipartial o = false /\ is_or (OI w o) = false /\
  forall a, 0 <= a < 2 ^ bits w -> ieval o (bits w) a (wrapu (bits w) c) = Some a.

Lemma unit_sem : forall nt w o c q, is_unit w o c -> smok q -> smty q = PI w ->
  sem_bin nt (OI w o) q (SVal (VI w (wrapu (bits w) c))) = Some q.
Proof.
  intros nt w o c q (R & P & O & U) K T. unfold sem_bin. cbn [opartial]. rewrite P, andb_false_r. rewrite T. cbn [smty vprim oarg]. rewrite beq_refl. cbn [andb].
  cbn [is_or ores] in *. rewrite R. rewrite O, andb_false_r.
  destruct q as [[w' n|]| |p|p]; cbn [smty vprim] in T; try discriminate; inversion T; subst.
  - cbn [beval]. cbn in K. destruct w; rewrite (U n K), R; reflexivity.
  - reflexivity.
  - reflexivity.
Qed.

Lemma sound_unit : forall nt nm w o c conds, is_unit w o c ->
  sound nt (mkRule nm (TBin (OI w o) vx (TI w c)) vx conds).
Proof.
  intros nt nm w o c conds U E s HE _ _. cbn [r_lhs r_rhs subst vx sem].
  destruct (sem nt E (s 0%nat)) as [q|] eqn:Q; cbn [bind]; [|congruence].
  intros N. apply (unit_sem nt w o c q U); [eapply sem_ok; eauto|].
  unfold sem_bin in N. destruct (nt && _) in N; [congruence|]. destruct (prim_eqb (smty q) (oarg (OI w o))) eqn:B; [apply prim_eqb_eq in B; exact B|cbn in N; congruence].
Qed.
Lemma sound_unit_rev : forall nt nm w o c, is_unit w o c ->
  sound nt (mkRule nm vx (TBin (OI w o) vx (TI w c)) [CType 0 (PI w)]).
Proof.
  intros nt nm w o c U E s HE T _. cbn [r_lhs r_rhs subst vx sem].
  destruct (sem nt E (s 0%nat)) as [q|] eqn:Q; cbn [bind]; [|congruence].
  intros N. symmetry. apply (unit_sem nt w o c q U); [eapply sem_ok; eauto|].
  symmetry. eapply (T 0%nat (PI w)); [left; reflexivity|discriminate|exact Q].
Qed.

Lemma fmul_sem : forall nt f q, smok q -> smty q = PF f ->
  sem_bin nt (OF f FMul) q (SVal (VF f (SFone (fprec f)))) = Some q.
Proof.
  intros nt f q K T. unfold sem_bin. cbn [opartial is_or]. rewrite ?andb_false_r. rewrite T. cbn [smty vprim oarg]. rewrite beq_refl. cbn [andb].
  cbn [opartial is_or ores orb].
  destruct q as [[w' n|f' v]| |p|p]; cbn [smty vprim] in T; try discriminate; inversion T; subst.
  - cbn [beval feval]. cbn in K. rewrite SFmul_one; [destruct f; reflexivity|destruct f; cbn; lia|exact K].
  - reflexivity.
  - reflexivity.
Qed.
Lemma fone_sem : forall nt E f, sem nt E (fone f) = Some (SVal (VF f (SFone (fprec f)))).
Proof. intros nt E []; reflexivity. Qed.

Lemma sound_fmul : forall nt nm f conds, sound nt (mkRule nm (f2 f FMul vx (fone f)) vx conds).
Proof.
  intros nt nm f conds E s HE _ _. cbn [r_lhs r_rhs subst vx sem f2].
  change (subst s (fone f)) with (fone f). rewrite fone_sem.
  destruct (sem nt E (s 0%nat)) as [q|] eqn:Q; cbn [bind]; [|congruence].
  intros N. apply fmul_sem; [eapply sem_ok; eauto|].
  unfold sem_bin in N. destruct (nt && _) in N; [congruence|]. destruct (prim_eqb (smty q) (oarg (OF f FMul))) eqn:B; [apply prim_eqb_eq in B; exact B|cbn in N; congruence].
Qed.
Lemma sound_fmul_rev : forall nt nm f, sound nt (mkRule nm vx (f2 f FMul vx (fone f)) [CType 0 (PF f)]).
Proof.
  intros nt nm f E s HE T _. cbn [r_lhs r_rhs subst vx sem f2].
  change (subst s (fone f)) with (fone f). rewrite fone_sem.
  destruct (sem nt E (s 0%nat)) as [q|] eqn:Q; cbn [bind]; [|congruence].
  intros N. symmetry. apply fmul_sem; [eapply sem_ok; eauto|].
  symmetry. eapply (T 0%nat (PF f)); [left; reflexivity|discriminate|exact Q].
Qed.

(** [o x x] is [x]. *)
Definition is_idem (o : ibin) : Prop :=
  irel o = false /\ ipartial o = false /\ forall n a, ieval o n a a = Some a.
Lemma idem_sem : forall nt w o q, is_idem o -> smok q -> smty q = PI w -> sem_bin nt (OI w o) q q = Some q.
Proof.
  intros nt w o q (R & P & U) K T. unfold sem_bin. cbn [opartial]. rewrite P, andb_false_r. rewrite T. cbn [oarg]. rewrite beq_refl. cbn [andb].
  cbn [ores] in *. rewrite R.
  destruct q as [[w' n|]| |p|p]; cbn [smty vprim] in T; try discriminate; inversion T; subst.
  - cbn [beval]. destruct w; rewrite (U _ n), R; reflexivity.
  - reflexivity.
  - reflexivity.
Qed.
Lemma sound_idem : forall nt nm w o conds, is_idem o -> sound nt (mkRule nm (i2 w o vx vx) vx conds).
Proof.
  intros nt nm w o conds U E s HE _ _. cbn [r_lhs r_rhs subst vx sem i2].
  destruct (sem nt E (s 0%nat)) as [q|] eqn:Q; cbn [bind]; [|congruence].
  intros N. apply idem_sem; [exact U|eapply sem_ok; eauto|].
  unfold sem_bin in N. destruct (nt && _) in N; [congruence|]. destruct (prim_eqb (smty q) (oarg (OI w o))) eqn:B; [apply prim_eqb_eq in B; exact B|cbn in N; congruence].
Qed.
Lemma sound_idem_rev : forall nt nm w o, is_idem o -> sound nt (mkRule nm vx (i2 w o vx vx) [CType 0 (PI w)]).
Proof.
  intros nt nm w o U E s HE T _. cbn [r_lhs r_rhs subst vx sem i2].
  destruct (sem nt E (s 0%nat)) as [q|] eqn:Q; cbn [bind]; [|congruence].
  intros N. symmetry. apply idem_sem; [exact U|eapply sem_ok; eauto|].
  symmetry. eapply (T 0%nat (PI w)); [left; reflexivity|discriminate|exact Q].
Qed.

(** Commutative and associative operators. *)
Definition is_comm (o : binop) : Prop := forall a b, beval o a b = beval o b a.
Lemma comm_sem : forall nt o a b, is_comm o -> sem_bin nt o a b = sem_bin nt o b a.
Proof.
  intros nt o a b C. unfold sem_bin. destruct (nt && opartial o); [reflexivity|]. rewrite (andb_comm (prim_eqb (smty a) _)).
  destruct (prim_eqb (smty b) (oarg o) && prim_eqb (smty a) (oarg o)); [|reflexivity].
  destruct a, b; try reflexivity. rewrite C. reflexivity.
Qed.
Lemma sound_comm : forall nt nm o conds, is_comm o -> sound nt (mkRule nm (TBin o vx vy) (TBin o vy vx) conds).
Proof.
  intros nt nm o conds C E s HE _ _. cbn [r_lhs r_rhs subst vx vy sem]. intros _.
  destruct (sem nt E (s 0%nat)), (sem nt E (s 1%nat)); cbn [bind]; try reflexivity. apply comm_sem, C.
Qed.
Lemma sound_comm_rev : forall nt nm o conds, is_comm o -> sound nt (mkRule nm (TBin o vy vx) (TBin o vx vy) conds).
Proof.
  intros nt nm o conds C E s HE _ _. cbn [r_lhs r_rhs subst vx vy sem]. intros _.
  destruct (sem nt E (s 0%nat)), (sem nt E (s 1%nat)); cbn [bind]; try reflexivity. apply comm_sem, C.
Qed.

Definition is_assoc (w : iw) (o : ibin) : Prop :=
  irel o = false /\ ipartial o = false /\
  exists f, (forall a b, ieval o (bits w) a b = Some (f a b)) /\
  forall a b c, 0 <= a < 2 ^ bits w -> 0 <= b < 2 ^ bits w -> 0 <= c < 2 ^ bits w -> f a (f b c) = f (f a b) c.
Definition may_trap (nt : bool) (a : sm) : Prop := nt = true -> match a with STrap _ => False | _ => True end.

Lemma assoc_sem : forall nt w o a b c, is_assoc w o -> may_trap nt a -> may_trap nt b -> may_trap nt c -> smok a -> smok b -> smok c ->
  bind (sem_bin nt (OI w o) b c) (sem_bin nt (OI w o) a) = bind (sem_bin nt (OI w o) a b) (fun d => sem_bin nt (OI w o) d c).
Proof.
  intros nt w o a b c (R & P & f & F & A) Na Nb Nc Ka Kb Kc. unfold sem_bin.
  cbn [oarg ores opartial]. rewrite R, P, andb_false_r. cbn [orb].
  destruct (prim_eqb (smty a) (PI w)) eqn:Ta; destruct (prim_eqb (smty b) (PI w)) eqn:Tb;
    destruct (prim_eqb (smty c) (PI w)) eqn:Tc; cbn [andb bind]; try reflexivity.
  - apply prim_eqb_eq in Ta, Tb, Tc.
    destruct a as [[wa na|]| |pa|pa]; cbn [smty vprim] in Ta; try discriminate; inversion Ta; subst;
    destruct b as [[wb nb|]| |pb|pb]; cbn [smty vprim] in Tb; try discriminate; inversion Tb; subst;
    destruct c as [[wc nc|]| |pc|pc]; cbn [smty vprim] in Tc; try discriminate; inversion Tc; subst;
    try (destruct (nt && is_or (OI w o)); cbn [bind smty vprim]; rewrite ?beq_refl; reflexivity);
    try (destruct nt; [exfalso; first [apply Na; reflexivity|apply Nb; reflexivity|apply Nc; reflexivity]|]; cbn [andb bind smty vprim]; rewrite ?beq_refl; reflexivity);
    cbn [smok vok] in Ka, Kb, Kc;
    cbn [beval]; rewrite ?F; rewrite ?R;
    try (destruct w; cbn [bind smty vprim prim_eqb andb beval]; rewrite ?F, ?R, ?A; auto;
         destruct (nt && is_or _); reflexivity).
  - apply prim_eqb_eq in Ta, Tb.
    destruct a as [[wa na|]| |pa|pa]; cbn [smty vprim] in Ta; try discriminate; inversion Ta; subst;
    destruct b as [[wb nb|]| |pb|pb]; cbn [smty vprim] in Tb; try discriminate; inversion Tb; subst;
    cbn [beval]; rewrite ?F; rewrite ?R; destruct w; cbn [bind smty vprim prim_eqb andb]; rewrite ?Tc; auto;
    destruct (nt && is_or _); cbn [bind smty vprim prim_eqb andb]; rewrite ?Tc; auto.
  - apply prim_eqb_eq in Tb, Tc.
    destruct b as [[wb nb|]| |pb|pb]; cbn [smty vprim] in Tb; try discriminate; inversion Tb; subst;
    destruct c as [[wc nc|]| |pc|pc]; cbn [smty vprim] in Tc; try discriminate; inversion Tc; subst;
    cbn [beval]; rewrite ?F; rewrite ?R; destruct w; cbn [bind smty vprim prim_eqb andb]; rewrite ?Ta; auto;
    destruct (nt && is_or _); cbn [bind smty vprim prim_eqb andb]; rewrite ?Ta; auto.
Qed.

Lemma sem_may : forall nt E t q, sem nt E t = Some q -> may_trap nt q.
Proof. intros nt E t q H N. subst nt. destruct q; auto. eapply sem_notrap; eauto. Qed.

Lemma sound_assoc : forall nt nm w o conds, is_assoc w o ->
  sound nt (mkRule nm (TBin (OI w o) vx (TBin (OI w o) vy vz)) (TBin (OI w o) (TBin (OI w o) vx vy) vz) conds).
Proof.
  intros nt nm w o conds A E s HE _ _. cbn [r_lhs r_rhs subst vx vy vz sem]. intros _.
  destruct (sem nt E (s 0%nat)) as [a|] eqn:Qa; cbn [bind]; [|reflexivity].
  destruct (sem nt E (s 1%nat)) as [b|] eqn:Qb; cbn [bind]; [|reflexivity].
  destruct (sem nt E (s 2%nat)) as [c|] eqn:Qc; cbn [bind].
  - rewrite assoc_sem; auto; try (eapply sem_may; eassumption); eapply sem_ok; eassumption.
  - destruct (sem_bin nt (OI w o) a b); reflexivity.
Qed.
Lemma sound_assoc_rev : forall nt nm w o conds, is_assoc w o ->
  sound nt (mkRule nm (TBin (OI w o) (TBin (OI w o) vx vy) vz) (TBin (OI w o) vx (TBin (OI w o) vy vz)) conds).
Proof.
  intros nt nm w o conds A E s HE T L N. symmetry.
  apply (sound_assoc nt nm w o [] A E s HE); [intros ? ? []|intros ? []|].
  cbn [r_lhs r_rhs subst vx vy vz sem] in *. revert N.
  destruct (sem nt E (s 0%nat)) as [a|] eqn:Qa; cbn [bind]; [|auto].
  destruct (sem nt E (s 1%nat)) as [b|] eqn:Qb; cbn [bind]; [|auto].
  destruct (sem nt E (s 2%nat)) as [c|] eqn:Qc; cbn [bind].
  - rewrite assoc_sem; auto; try (eapply sem_may; eassumption); eapply sem_ok; eassumption.
  - destruct (sem_bin nt (OI w o) a b); auto.
Qed.

(** The i64 comparison never applies to its own result. *)
Lemma bin_type : forall nt o a b r, smok a -> smok b -> sem_bin nt o a b = Some r ->
  smty r = ores o /\ smty a = oarg o /\ smty b = oarg o.
Proof. intros nt o a b r Ka Kb H. apply sem_bin_ok in H; tauto. Qed.

Lemma sound_eq64 : forall nt nm conds,
  sound nt (mkRule nm (TBin (OI W64 Eq) vx (TBin (OI W64 Eq) vy vz)) (TBin (OI W64 Eq) (TBin (OI W64 Eq) vx vy) vz) conds).
Proof.
  intros nt nm conds E s HE _ _. cbn [r_lhs r_rhs subst vx vy vz sem]. intros N. exfalso. apply N.
  destruct (sem nt E (s 0%nat)) as [a|] eqn:Qa; cbn [bind]; [|reflexivity].
  destruct (sem nt E (s 1%nat)) as [b|] eqn:Qb; cbn [bind]; [|reflexivity].
  destruct (sem nt E (s 2%nat)) as [c|] eqn:Qc; cbn [bind]; [|reflexivity].
  destruct (sem_bin nt (OI W64 Eq) b c) as [d|] eqn:Qd; cbn [bind]; [|reflexivity].
  destruct (sem_bin nt (OI W64 Eq) a d) as [e|] eqn:Qe; [|reflexivity].
  pose proof (sem_ok _ _ _ _ HE Qa). pose proof (sem_ok _ _ _ _ HE Qb). pose proof (sem_ok _ _ _ _ HE Qc).
  pose proof (sem_bin_ok _ _ _ _ _ H0 H1 Qd) as (Kd & Td & _).
  pose proof (sem_bin_ok _ _ _ _ _ H Kd Qe) as (_ & _ & _ & Te).
  cbn in Td, Te. congruence.
Qed.
Lemma sound_eq64_rev : forall nt nm conds,
  sound nt (mkRule nm (TBin (OI W64 Eq) (TBin (OI W64 Eq) vx vy) vz) (TBin (OI W64 Eq) vx (TBin (OI W64 Eq) vy vz)) conds).
Proof.
  intros nt nm conds E s HE _ _. cbn [r_lhs r_rhs subst vx vy vz sem]. intros N. exfalso. apply N.
  destruct (sem nt E (s 0%nat)) as [a|] eqn:Qa; cbn [bind]; [|reflexivity].
  destruct (sem nt E (s 1%nat)) as [b|] eqn:Qb; cbn [bind]; [|reflexivity].
  destruct (sem_bin nt (OI W64 Eq) a b) as [d|] eqn:Qd; cbn [bind]; [|reflexivity].
  destruct (sem nt E (s 2%nat)) as [c|] eqn:Qc; cbn [bind]; [|reflexivity].
  destruct (sem_bin nt (OI W64 Eq) d c) as [e|] eqn:Qe; [|reflexivity].
  pose proof (sem_ok _ _ _ _ HE Qa). pose proof (sem_ok _ _ _ _ HE Qb). pose proof (sem_ok _ _ _ _ HE Qc).
  pose proof (sem_bin_ok _ _ _ _ _ H H0 Qd) as (Kd & Td & _).
  pose proof (sem_bin_ok _ _ _ _ _ Kd H1 Qe) as (_ & _ & Te & _).
  cbn in Td, Te. congruence.
Qed.

(** [x | -1]: only where nothing traps. *)
Lemma lor_ones : forall n a, 0 < n -> 0 <= a < 2 ^ n -> Z.lor a (wrapu n (-1)) = wrapu n (-1).
Proof.
  intros n a Hn Ha. assert (wrapu n (-1) = Z.ones n) as ->.
  { unfold wrapu. rewrite Z.ones_equiv. symmetry. apply (Z.mod_unique _ _ (-1)); lia. }
  apply Z.lor_ones_low; [lia|]. destruct (Z.eq_dec a 0) as [->|]; [cbn; lia|]. apply Z.log2_lt_pow2; lia.
Qed.
Lemma sound_or_m1 : forall nm w conds, sound true (mkRule nm (i2 w Or vx (TI w (-1))) (TI w (-1)) conds).
Proof.
  intros nm w conds E s HE _ _. cbn [r_lhs r_rhs subst vx sem i2].
  destruct (sem true E (s 0%nat)) as [q|] eqn:Q; cbn [bind]; [|congruence].
  pose proof (sem_ok _ _ _ _ HE Q) as K. pose proof (sem_may _ _ _ _ Q eq_refl) as M.
  unfold sem_bin. cbn [opartial ipartial andb oarg smty vprim]. rewrite beq_refl, andb_true_r.
  destruct (prim_eqb (smty q) (PI w)) eqn:T; [|congruence]. apply prim_eqb_eq in T. intros N.
  destruct q as [[w' n|]| |p|p]; cbn in T; try discriminate; inversion T; subst; try tauto.
  cbn [beval ieval irel]. cbn in K. rewrite lor_ones; [destruct w; reflexivity|apply bits_pos|exact K].
Qed.

Lemma sound_select_same : forall nm conds, sound true (mkRule nm (TSelect vy vy vx) vy conds).
Proof.
  intros nm conds E s HE _ _. cbn [r_lhs r_rhs subst vx vy sem].
  destruct (sem true E (s 1%nat)) as [q|] eqn:Q; cbn [bind]; [|congruence].
  destruct (sem true E (s 0%nat)) as [c|] eqn:C; cbn [bind]; [|congruence].
  pose proof (sem_may _ _ _ _ Q eq_refl) as M. pose proof (sem_may _ _ _ _ C eq_refl) as Mc.
  unfold sem_select. destruct (_ && _); [|congruence]. intros N.
  destruct q as [v| | |], c as [u| | |]; try congruence; try tauto.
  destruct u; [|congruence]. destruct (z =? 0); reflexivity.
Qed.

(** Two ways to write the same function of one operand. *)
Definition fun1 (nt : bool) (E : env) (f : sm -> option sm) (t : term) : Prop :=
  forall s, sem nt E (subst s t) = bind (sem nt E (s 0%nat)) f.

Lemma const_sem : forall nt w o c q, ipartial o = false -> is_or (OI w o) = false -> smok q ->
  sem_bin nt (OI w o) q (SVal (VI w c)) =
  if prim_eqb (smty q) (PI w) then
    match q with
    | SVal (VI _ n) => match ieval o (bits w) n c with
                       | Some r => Some (SVal (VI (if irel o then W32 else w) r)) | None => None end
    | STrap _ => Some (STrap (ores (OI w o)))
    | SAny _ => Some (SAny (ores (OI w o)))
    | _ => None
    end
  else None.
Proof.
  intros nt w o c q P O K. unfold sem_bin. cbn [opartial oarg smty vprim]. rewrite P, O, !andb_false_r, beq_refl, andb_true_r.
  destruct (prim_eqb (smty q) (PI w)) eqn:T; [|reflexivity]. apply prim_eqb_eq in T. cbn [orb].
  destruct q as [[w' n|]| |p|p]; cbn in T; try discriminate; inversion T; subst; try reflexivity.
  cbn [beval]. destruct (ieval o (bits w) n c) eqn:I.
  - destruct w; reflexivity.
  - destruct o; cbn in I; try discriminate; discriminate P.
Qed.

Definition same_fun (w : iw) (o o' : ibin) (c c' : Z) : Prop :=
  ipartial o = false /\ ipartial o' = false /\ is_or (OI w o) = false /\ is_or (OI w o') = false /\
  irel o = irel o' /\
  forall a, 0 <= a < 2 ^ bits w -> ieval o (bits w) a (wrapu (bits w) c) = ieval o' (bits w) a (wrapu (bits w) c').
Lemma sound_same_fun : forall nt nm w o o' c c' conds, same_fun w o o' c c' ->
  sound nt (mkRule nm (i2 w o vx (TI w c)) (i2 w o' vx (TI w c')) conds).
Proof.
  intros nt nm w o o' c c' conds (P & P' & O & O' & R & F) E s HE _ _. cbn [r_lhs r_rhs subst vx sem i2].
  destruct (sem nt E (s 0%nat)) as [q|] eqn:Q; cbn [bind]; [|congruence]. intros _.
  pose proof (sem_ok _ _ _ _ HE Q) as K. rewrite !const_sem by assumption. cbn [ores]. rewrite R.
  destruct (prim_eqb (smty q) (PI w)) eqn:T; [|reflexivity]. apply prim_eqb_eq in T.
  destruct q as [[w' n|]| |p|p]; cbn in T; try discriminate; inversion T; subst; try reflexivity.
  cbn in K. rewrite F by exact K. reflexivity.
Qed.

Lemma wrapu0 : forall w, wrapu (bits w) 0 = 0. Proof. intros []; reflexivity. Qed.
Lemma eqz_sem : forall nt w q, smok q ->
  sem_bin nt (OI w Eq) q (SVal (VI w (wrapu (bits w) 0))) = sem_conv (CEqz w) q.
Proof.
  intros nt w q K. rewrite const_sem by (auto; destruct w; reflexivity). unfold sem_conv. cbn [carg].
  destruct (prim_eqb (smty q) (PI w)) eqn:T; [|reflexivity]. apply prim_eqb_eq in T.
  destruct q as [[w' n|]| |p|p]; cbn in T; try discriminate; inversion T; subst; try reflexivity.
  rewrite wrapu0. destruct w; reflexivity.
Qed.
Lemma sound_eqz : forall nt nm w conds, sound nt (mkRule nm (i2 w Eq vx (TI w 0)) (eqz w vx) conds).
Proof.
  intros nt nm w conds E s HE _ _. cbn [r_lhs r_rhs subst vx sem i2 eqz].
  destruct (sem nt E (s 0%nat)) as [q|] eqn:Q; cbn [bind]; [|congruence]. intros _.
  apply eqz_sem. eapply sem_ok; eauto.
Qed.
Lemma sound_eqz_rev : forall nt nm w conds, sound nt (mkRule nm (eqz w vx) (i2 w Eq vx (TI w 0)) conds).
Proof.
  intros nt nm w conds E s HE _ _. cbn [r_lhs r_rhs subst vx sem i2 eqz].
  destruct (sem nt E (s 0%nat)) as [q|] eqn:Q; cbn [bind]; [|congruence]. intros _.
  symmetry. apply eqz_sem. eapply sem_ok; eauto.
Qed.

Lemma double_sem : forall nt w q, smok q ->
  sem_bin nt (OI w Add) q q = sem_bin nt (OI w Mul) q (SVal (VI w (wrapu (bits w) 2))).
Proof.
  intros nt w q K. rewrite const_sem by (auto; destruct w; reflexivity).
  unfold sem_bin. cbn [opartial ipartial oarg ores irel]. rewrite andb_false_r, andb_diag.
  destruct (prim_eqb (smty q) (PI w)) eqn:T; [|reflexivity]. apply prim_eqb_eq in T.
  destruct q as [[w' n|]| |p|p]; cbn in T; try discriminate; inversion T; subst; try reflexivity.
  cbn [beval ieval irel]. replace (wrapu (bits w) 2) with 2 by (destruct w; reflexivity).
  replace (n * 2) with (n + n) by lia. destruct w; reflexivity.
Qed.
Lemma sound_double : forall nt nm w conds, sound nt (mkRule nm (i2 w Add vx vx) (i2 w Mul vx (TI w 2)) conds).
Proof.
  intros nt nm w conds E s HE _ _. cbn [r_lhs r_rhs subst vx sem i2].
  destruct (sem nt E (s 0%nat)) as [q|] eqn:Q; cbn [bind]; [|congruence]. intros _.
  apply double_sem. eapply sem_ok; eauto.
Qed.
Lemma sound_double_rev : forall nt nm w conds, sound nt (mkRule nm (i2 w Mul vx (TI w 2)) (i2 w Add vx vx) conds).
Proof.
  intros nt nm w conds E s HE _ _. cbn [r_lhs r_rhs subst vx sem i2].
  destruct (sem nt E (s 0%nat)) as [q|] eqn:Q; cbn [bind]; [|congruence]. intros _.
  symmetry. apply double_sem. eapply sem_ok; eauto.
Qed.

Lemma invert_sem : forall a b c, smok a -> smok b -> smok c ->
  sem_select a b c = bind (sem_conv (CEqz W32) c) (sem_select b a).
Proof.
  intros a b c Ka Kb Kc. unfold sem_conv. cbn [carg].
  destruct (prim_eqb (smty c) (PI W32)) eqn:T.
  2:{ unfold sem_select. rewrite T, andb_false_r. reflexivity. }
  apply prim_eqb_eq in T.
  assert (C : prim_eqb (smty b) (smty a) && negb (prim_eqb (smty b) PEmpty)
            = prim_eqb (smty a) (smty b) && negb (prim_eqb (smty a) PEmpty)).
  { destruct (prim_eqb (smty b) (smty a)) eqn:X.
    - apply prim_eqb_eq in X. rewrite X, beq_refl. reflexivity.
    - destruct (prim_eqb (smty a) (smty b)) eqn:Y; [|reflexivity].
      apply prim_eqb_eq in Y. rewrite Y, beq_refl in X. discriminate. }
  unfold sem_select. rewrite T, beq_refl, andb_true_r.
  destruct c as [[w' n|]| |p|p]; cbn in T; try discriminate; inversion T; subst; cbn [bind ceval cres smty vprim];
    rewrite beq_refl, andb_true_r, C;
    destruct (prim_eqb (smty a) (smty b) && negb (prim_eqb (smty a) PEmpty)) eqn:D; try reflexivity;
    apply andb_true_iff in D as [D _]; apply prim_eqb_eq in D;
    destruct a as [va| |pa|pa], b as [vb| |pb|pb]; cbn [smty] in D; subst; try reflexivity;
    try (cbn in *; congruence).
  destruct (n =? 0); reflexivity.
Qed.
Lemma sound_invert : forall nt nm conds, sound nt (mkRule nm (TSelect vx vy vz) (TSelect vy vx (eqz W32 vz)) conds).
Proof.
  intros nt nm conds E s HE _ _. cbn [r_lhs r_rhs subst vx vy vz sem eqz]. intros _.
  destruct (sem nt E (s 0%nat)) as [a|] eqn:Qa; cbn [bind];
  destruct (sem nt E (s 1%nat)) as [b|] eqn:Qb; cbn [bind]; try reflexivity.
  destruct (sem nt E (s 2%nat)) as [c|] eqn:Qc; cbn [bind]; [|reflexivity].
  apply invert_sem; eapply sem_ok; eassumption.
Qed.
Lemma sound_invert_rev : forall nt nm conds, sound nt (mkRule nm (TSelect vy vx (eqz W32 vz)) (TSelect vx vy vz) conds).
Proof.
  intros nt nm conds E s HE _ _. cbn [r_lhs r_rhs subst vx vy vz sem eqz]. intros _.
  destruct (sem nt E (s 0%nat)) as [a|] eqn:Qa; cbn [bind];
  destruct (sem nt E (s 1%nat)) as [b|] eqn:Qb; cbn [bind]; try reflexivity.
  destruct (sem nt E (s 2%nat)) as [c|] eqn:Qc; cbn [bind]; [|reflexivity].
  symmetry. apply invert_sem; eapply sem_ok; eassumption.
Qed.

(** Stack-neutral insertions. *)
Definition neutral (u : term) : Prop :=
  (forall s, subst s u = u) /\ forall nt E, sem nt E u = Some SUnit.
Lemma cont_unit_r : forall q, sem_cont q SUnit = Some q.
Proof. intros [v| |[]|[]]; reflexivity. Qed.
Lemma sound_cont_l : forall nt nm u conds, neutral u -> sound nt (mkRule nm vx (TContainer u vx) conds).
Proof.
  intros nt nm u conds [S U] E s HE _ _. cbn [r_lhs r_rhs subst vx sem]. rewrite S, U. cbn [bind]. intros _.
  destruct (sem nt E (s 0%nat)); reflexivity.
Qed.
Lemma sound_cont_r : forall nt nm u conds, neutral u -> sound nt (mkRule nm vx (TContainer vx u) conds).
Proof.
  intros nt nm u conds [S U] E s HE _ _. cbn [r_lhs r_rhs subst vx sem]. rewrite S, U. cbn [bind]. intros _.
  destruct (sem nt E (s 0%nat)); cbn [bind]; [|reflexivity]. symmetry. apply cont_unit_r.
Qed.

Lemma sound_use : forall nt nm p c, p <> PEmpty -> sound nt (mkRule nm vx (TUseGlobal p vx) [CType 0 p; c]).
Proof.
  intros nt nm p c Hp E s HE T _. cbn [r_lhs r_rhs subst vx sem].
  destruct (sem nt E (s 0%nat)) as [q|] eqn:Q; cbn [bind]; [|congruence]. intros _.
  unfold sem_use. rewrite <- (T 0%nat p (or_introl eq_refl) Hp q Q), beq_refl.
  destruct p as [[]|[]|]; try reflexivity. congruence.
Qed.
Lemma sound_unfold : forall nt nm w, sound nt (mkRule nm vx (TUnfold w vx) [CConst 0; CType 0 (PI w)]).
Proof.
  intros nt nm w E s HE T L. cbn [r_lhs r_rhs subst vx sem]. intros N.
  specialize (L 0%nat (or_introl eq_refl)). specialize (T 0%nat (PI w) (or_intror (or_introl eq_refl)) ltac:(discriminate)).
  destruct (s 0%nat); try contradiction; cbn [sem] in *.
  - specialize (T _ eq_refl). cbn in T. inversion T; subst. cbn [sem_unfold]. rewrite beq_refl. reflexivity.
  - destruct (valid_binary _ _ _); [|congruence]. specialize (T _ eq_refl). discriminate.
Qed.
