(** The rules taken together: everything an e-graph built from a pure,
    well-typed term puts into one class computes the same. *)
From Coq Require Import ZArith Lia List Bool String SpecFloat.
From Verif Require Import Base.Prelude Peephole.Flt Peephole.Machine Peephole.Lang Peephole.Sem Peephole.Sound.
Import ListNotations.
Open Scope Z_scope.

Lemma unit_sub w : is_unit w Sub 0.
Proof. repeat split. intros a H. cbn [ieval]. rewrite wrapu0, Z.sub_0_r, wrapu_small by exact H. reflexivity. Qed.
Lemma unit_add w : is_unit w Add 0.
Proof. repeat split. intros a H. cbn [ieval]. rewrite wrapu0, Z.add_0_r, wrapu_small by exact H. reflexivity. Qed.
Lemma unit_mul w : is_unit w Mul 1.
Proof.
  repeat split. intros a H. cbn [ieval].
  replace (wrapu (bits w) 1) with 1 by (destruct w; reflexivity). rewrite Z.mul_1_r, wrapu_small by exact H. reflexivity.
Qed.
Lemma unit_xor w : is_unit w Xor 0.
Proof. repeat split. intros a H. cbn [ieval]. rewrite wrapu0, Z.lxor_0_r. reflexivity. Qed.
Lemma mod0 w : 0 mod bits w = 0. Proof. destruct w; reflexivity. Qed.
Lemma unit_shl w : is_unit w Shl 0.
Proof. repeat split. intros a H. cbn [ieval]. rewrite wrapu0, mod0, Z.pow_0_r, Z.mul_1_r, wrapu_small by exact H. reflexivity. Qed.
Lemma unit_shru w : is_unit w ShrU 0.
Proof. repeat split. intros a H. cbn [ieval]. rewrite wrapu0, mod0, Z.pow_0_r, Z.div_1_r. reflexivity. Qed.
Lemma unit_shrs w : is_unit w ShrS 0.
Proof.
  repeat split. intros a H. cbn [ieval]. rewrite wrapu0, mod0, Z.pow_0_r, Z.div_1_r. f_equal. unfold sgn, wrapu.
  destruct (a <? 2 ^ (bits w - 1)) eqn:L; [apply Z.mod_small; exact H|].
  symmetry. apply (Z.mod_unique _ _ (-1)); lia.
Qed.
Lemma idem_or : is_idem Or. Proof. repeat split. intros n a. cbn [ieval]. rewrite Z.lor_diag. reflexivity. Qed.
Lemma idem_and : is_idem And. Proof. repeat split. intros n a. cbn [ieval]. rewrite Z.land_diag. reflexivity. Qed.

Lemma comm_i : forall w o, (forall n a b, ieval o n a b = ieval o n b a) -> is_comm (OI w o).
Proof.
  intros w o H [wa na|fa xa] [wb nb|fb xb]; try reflexivity. cbn [beval].
  rewrite (H (bits w) na nb). destruct w, wa, wb; reflexivity.
Qed.
Lemma comm_f : forall f o, is_comm (OF f o).
Proof.
  intros f o [wa na|fa xa] [wb nb|fb xb]; try reflexivity. cbn [beval].
  assert (feval o f xa xb = feval o f xb xa) as -> by (destruct o; cbn [feval]; [apply SFadd_comm|apply SFmul_comm]).
  destruct f, fa, fb; reflexivity.
Qed.
Lemma comm_add w : is_comm (OI w Add). Proof. apply comm_i. intros. cbn [ieval]. rewrite Z.add_comm. reflexivity. Qed.
Lemma comm_mul w : is_comm (OI w Mul). Proof. apply comm_i. intros. cbn [ieval]. rewrite Z.mul_comm. reflexivity. Qed.
Lemma comm_and w : is_comm (OI w And). Proof. apply comm_i. intros. cbn [ieval]. rewrite Z.land_comm. reflexivity. Qed.
Lemma comm_or w : is_comm (OI w Or). Proof. apply comm_i. intros. cbn [ieval]. rewrite Z.lor_comm. reflexivity. Qed.
Lemma comm_xor w : is_comm (OI w Xor). Proof. apply comm_i. intros. cbn [ieval]. rewrite Z.lxor_comm. reflexivity. Qed.
Lemma comm_eq w : is_comm (OI w Eq). Proof. apply comm_i. intros. cbn [ieval]. rewrite Z.eqb_sym. reflexivity. Qed.

Lemma assoc_mul w : is_assoc w Mul.
Proof.
  repeat split. exists (fun a b => wrapu (bits w) (a * b)). split; [reflexivity|]. intros a b c _ _ _.
  pose proof (bits_pos w). unfold wrapu. rewrite Z.mul_mod_idemp_r, Z.mul_mod_idemp_l by lia. f_equal. lia.
Qed.
Lemma assoc_add w : is_assoc w Add.
Proof.
  repeat split. exists (fun a b => wrapu (bits w) (a + b)). split; [reflexivity|]. intros a b c _ _ _.
  pose proof (bits_pos w). unfold wrapu. rewrite Z.add_mod_idemp_r, Z.add_mod_idemp_l by lia. f_equal. lia.
Qed.
Lemma assoc_and w : is_assoc w And.
Proof. repeat split. exists Z.land. split; [reflexivity|]. intros. apply Z.land_assoc. Qed.
Lemma assoc_or w : is_assoc w Or.
Proof. repeat split. exists Z.lor. split; [reflexivity|]. intros. apply Z.lor_assoc. Qed.
Lemma assoc_xor w : is_assoc w Xor.
Proof. repeat split. exists Z.lxor. split; [reflexivity|]. intros. symmetry. apply Z.lxor_assoc. Qed.

Lemma shl_mul w k c : 0 <= k < 8 -> c = 2 ^ k -> c < 256 -> same_fun w Shl Mul k c.
Proof.
  intros Hk -> Hc. repeat split. intros a H. cbn [ieval].
  assert (wrapu (bits w) k = k) as -> by (apply wrapu_small; destruct w; cbn; lia).
  assert (wrapu (bits w) (2 ^ k) = 2 ^ k) as ->.
  { apply wrapu_small. split; [lia|]. apply Z.pow_lt_mono_r; destruct w; cbn; lia. }
  rewrite (Z.mod_small k) by (destruct w; cbn; lia). reflexivity.
Qed.
Lemma same_fun_sym w o o' c c' : same_fun w o o' c c' -> same_fun w o' o c' c.
Proof. intros (A & B & C & D & F & G). repeat split; auto. intros. symmetry. apply G. assumption. Qed.

Lemma neutral_nop : neutral TNop. Proof. split; reflexivity. Qed.
Lemma neutral_drop w : neutral (TDrop (TRand w)). Proof. split; [reflexivity|destruct w; reflexivity]. Qed.

(** The rules that are wrong even on operands that are plain values, and the
    rules that throw an operand away. *)
Definition unsound_names : list string :=
  ["i32.eq-associates"; "i32.eq-associates-rev"; "f32-add-x-0"; "f32-add-x-0-rev"; "f64.add-x-0"; "f64.add-x-0-rev"]%string.
Definition dropping_names : list string := ["i32.or--1"; "i64.or--1"; "select-same-branches"]%string.

Definition without (names : list string) (rs : list rule) : list rule :=
  filter (fun r => negb (existsb (String.eqb (r_name r)) names)) rs.

Definition pass (nt : bool) (r : rule) : Prop :=
  existsb (String.eqb (r_name r)) (unsound_names ++ if nt then @nil string else dropping_names) = false -> sound nt r.

Ltac bad := intros X; vm_compute in X; discriminate X.
Ltac good l := intros _; apply l.
Ltac rule1 :=
  first
  [ bad
  | intros _; first
    [ apply sound_or_m1 | apply sound_select_same
    | apply sound_idem; first [apply idem_or | apply idem_and]
    | apply sound_idem_rev; first [apply idem_or | apply idem_and]
    | apply sound_unit; first [apply unit_sub|apply unit_add|apply unit_mul|apply unit_xor|apply unit_shl|apply unit_shru|apply unit_shrs]
    | apply sound_unit_rev; first [apply unit_sub|apply unit_add|apply unit_mul|apply unit_xor|apply unit_shl|apply unit_shru|apply unit_shrs]
    | apply sound_fmul | apply sound_fmul_rev | apply sound_eqz | apply sound_eqz_rev
    | apply sound_comm; first [apply comm_add|apply comm_mul|apply comm_and|apply comm_or|apply comm_xor|apply comm_eq|apply comm_f]
    | apply sound_comm_rev; first [apply comm_add|apply comm_mul|apply comm_and|apply comm_or|apply comm_xor|apply comm_eq|apply comm_f]
    | apply sound_assoc; first [apply assoc_add|apply assoc_mul|apply assoc_and|apply assoc_or|apply assoc_xor]
    | apply sound_assoc_rev; first [apply assoc_add|apply assoc_mul|apply assoc_and|apply assoc_or|apply assoc_xor]
    | apply sound_eq64 | apply sound_eq64_rev
    | apply sound_same_fun; apply shl_mul; (reflexivity || lia)
    | apply sound_same_fun; apply same_fun_sym; apply shl_mul; (reflexivity || lia)
    | apply sound_invert | apply sound_invert_rev | apply sound_double | apply sound_double_rev
    | apply sound_cont_l; first [apply neutral_nop | apply neutral_drop]
    | apply sound_cont_r; first [apply neutral_nop | apply neutral_drop]
    | apply sound_use; discriminate | apply sound_unfold ] ].
Ltac rules := unfold for_i, for_f, one, both, commutes, associates; cbn [app];
  repeat (apply Forall_cons; [rule1|]); apply Forall_nil.

Lemma pass_identities_reduce : forall nt, Forall (pass nt) rules_identities_reduce.
Proof. intros []; unfold rules_identities_reduce; rules. Qed.
Lemma pass_identities : forall nt, Forall (pass nt) rules_identities.
Proof. intros []; unfold rules_identities; rules. Qed.
Lemma pass_commute : forall nt, Forall (pass nt) rules_commute.
Proof. intros nt; unfold rules_commute; rules. Qed.
Lemma pass_associate : forall nt, Forall (pass nt) rules_associate.
Proof. intros []; unfold rules_associate; rules. Qed.
Lemma pass_strength : forall nt, Forall (pass nt) rules_strength.
Proof. intros nt; unfold rules_strength; rules. Qed.
Lemma pass_insert : forall nt g, Forall (pass nt) (rules_insert g).
Proof. intros nt g; unfold rules_insert; rules. Qed.

Lemma pass_all : forall nt reduce g, Forall (pass nt) (get_rules reduce g).
Proof.
  intros nt reduce g. unfold get_rules. apply Forall_app; split; [|apply Forall_app; split; [|apply Forall_app; split]].
  - destruct reduce; [apply pass_identities_reduce|apply pass_identities].
  - apply pass_commute.
  - apply pass_associate.
  - destruct reduce; [constructor|]. apply Forall_app; split; [apply pass_strength|apply pass_insert].
Qed.

Lemma without_sound : forall (nt : bool) reduce g r,
  In r (without (unsound_names ++ if nt then @nil string else dropping_names) (get_rules reduce g)) -> sound nt r.
Proof.
  intros nt reduce g r H. apply filter_In in H as [H N]. apply negb_true_iff in N.
  pose proof (pass_all nt reduce g) as P. rewrite Forall_forall in P. exact (P r H N).
Qed.

(** A node is only defined when its children are. *)
Lemma sem_child : forall nt E a t, child a t -> sem nt E t <> None -> sem nt E a <> None.
Proof.
  intros nt E a t C. destruct C; cbn [sem bind]; intros N;
    repeat match goal with H : context [bind (sem nt E ?x) _] |- _ =>
      let e := fresh "e" in destruct (sem nt E x) eqn:e; cbn [bind] in H end; try congruence.
  destruct a; cbn [sem_unfold] in N; try congruence. cbn. discriminate.
Qed.

(** The types of the locals and globals are those declared. *)
Definition env_typed (lt gt : list prim) (E : env) : Prop :=
  Forall2 (fun v p => vprim v = p) (e_locals E) lt /\ Forall2 (fun v p => vprim v = p) (e_globals E) gt.

Lemma Forall2_nth : forall (A B : Type) (R : A -> B -> Prop) l m, Forall2 R l m ->
  forall n a b, nth_error l n = Some a -> nth_error m n = Some b -> R a b.
Proof.
  induction 1; intros [|n] a b Ha Hb; cbn in *; try discriminate.
  - inversion Ha; inversion Hb; subst; assumption.
  - eauto.
Qed.

Lemma Forall2_len : forall (A B : Type) (R : A -> B -> Prop) l m, Forall2 R l m -> List.length l = List.length m.
Proof. induction 1; cbn; congruence. Qed.

Lemma node_type_sem : forall nt lt gt E t p q, env_ok E -> env_typed lt gt E ->
  node_type lt gt t = Some p -> p <> PEmpty -> sem nt E t = Some q -> smty q = p.
Proof.
  intros nt lt gt E t p q HE [TL TG] H N S.
  destruct t; cbn [node_type sem bind] in H, S; try discriminate; try (inversion H; subst; clear H).
  - inversion S; reflexivity.
  - destruct (valid_binary (fprec f) (femax f) x); inversion S; reflexivity.
  - destruct (nth_error (e_locals E) n) eqn:X; inversion S; subst. exact (Forall2_nth _ _ _ _ _ TL _ _ _ X H1).
  - destruct (nth_error (e_globals E) n) eqn:X; inversion S; subst. exact (Forall2_nth _ _ _ _ _ TG _ _ _ X H1).
  - inversion S; reflexivity.
  - congruence.
  - inversion S; reflexivity.
  - destruct (sem nt E t1) eqn:S1; [|discriminate]. destruct (sem nt E t2) eqn:S2; [|discriminate]. cbn [bind] in S.
    apply sem_bin_ok in S; [tauto| |]; eapply sem_ok; eauto.
  - destruct (sem nt E t) eqn:S1; [|discriminate]. cbn [bind] in S.
    apply sem_conv_ok in S; [tauto|]; eapply sem_ok; eauto.
  - congruence.
  - congruence.
  - destruct (sem nt E t) eqn:S1; [|discriminate]. cbn [bind] in S. unfold sem_use in S.
    destruct (prim_eqb (smty s) p) eqn:B; [|discriminate]. cbn [andb] in S.
    destruct (negb _); inversion S; subst. apply prim_eqb_eq. exact B.
  - unfold sem_unfold in S. destruct t; try discriminate. destruct (prim_eqb _ _); inversion S; reflexivity.
Qed.

(** What an e-graph built with sound rules knows is true. *)
Definition true_fact (nt : bool) (E : env) (f : fact) : Prop :=
  match f with
  | Rep t => sem nt E t <> None
  | Same a b => sem nt E a <> None /\ sem nt E a = sem nt E b
  | Ty t p => sem nt E t <> None /\ (p <> PEmpty -> forall q, sem nt E t = Some q -> p = smty q)
  end.

Theorem egraph_true : forall nt lt gt rules start E, env_ok E -> env_typed lt gt E ->
  (forall r, In r rules -> sound nt r) -> sem nt E start <> None ->
  forall f, holds lt gt rules start f -> true_fact nt E f.
Proof.
  intros nt lt gt rules start E HE HT HR HS f H.
  induction H; cbn [true_fact] in *.
  - exact HS.
  - eapply sem_child; eauto.
  - destruct IHholds as [A B]. congruence.
  - auto.
  - destruct IHholds. split; congruence.
  - destruct IHholds1, IHholds2. split; congruence.
  - split; [assumption|]. destruct IHholds2 as [_ A], IHholds3 as [_ B]. cbn [sem]. rewrite A, B. reflexivity.
  - split; [assumption|]. destruct IHholds2 as [_ A]. cbn [sem]. rewrite A. reflexivity.
  - split; [assumption|]. destruct IHholds2 as [_ A], IHholds3 as [_ B], IHholds4 as [_ C]. cbn [sem]. rewrite A, B, C. reflexivity.
  - split; [assumption|]. destruct IHholds2 as [_ A]. cbn [sem]. rewrite A. reflexivity.
  - split; [assumption|]. destruct IHholds2 as [_ A], IHholds3 as [_ B]. cbn [sem]. rewrite A, B. reflexivity.
  - split; [assumption|]. destruct IHholds2 as [_ A]. cbn [sem]. rewrite A. reflexivity.
  - split; [assumption|]. reflexivity.
  - split; [assumption|]. reflexivity.
  - split; [assumption|]. apply (HR r); auto. intros v p Hv Np q Q. exact (proj2 (H2 v p Hv) Np q Q).
  - destruct IHholds as [A B]. split; [assumption|]. intros N q Q. symmetry. eapply (node_type_sem nt); eauto. congruence.
  - destruct IHholds1 as [A B]. destruct IHholds2 as [C D]. split; [assumption|]. intros N q Q.
    rewrite B in Q. cbn [sem] in Q. destruct (sem nt E a) as [sa|] eqn:Sa; [|discriminate].
    destruct (sem nt E b) as [sb|] eqn:Sb; [|discriminate].
    destruct (sem nt E c) as [sc|] eqn:Sc; [|discriminate]. cbn [bind] in Q.
    apply sem_select_ok in Q; [|eapply sem_ok; eauto..]. rewrite (D N sa eq_refl). symmetry. tauto.
Qed.

(** Typing of the terms a basic block is turned into: no random numbers, no
    bookkeeping nodes, nothing that changes locals or memory. *)
Inductive wt (lt gt : list prim) : term -> prim -> Prop :=
| wt_i w z : wt lt gt (TI w z) (PI w)
| wt_f f x : valid_binary (fprec f) (femax f) x = true -> wt lt gt (TF f x) (PF f)
| wt_local n p : nth_error lt n = Some p -> wt lt gt (TLocalGet n) p
| wt_global n p : nth_error gt n = Some p -> wt lt gt (TGlobalGet n) p
| wt_size : wt lt gt TMemSize (PI W32)
| wt_bin o a b : wt lt gt a (oarg o) -> wt lt gt b (oarg o) -> wt lt gt (TBin o a b) (ores o)
| wt_conv c a : wt lt gt a (carg c) -> wt lt gt (TConv c a) (cres c)
| wt_select a b c p : p <> PEmpty -> wt lt gt a p -> wt lt gt b p -> wt lt gt c (PI W32) -> wt lt gt (TSelect a b c) p
| wt_drop a p : p <> PEmpty -> wt lt gt a p -> wt lt gt (TDrop a) PEmpty
| wt_nop : wt lt gt TNop PEmpty.

Fixpoint trap_free (t : term) : bool :=
  match t with
  | TBin o a b => negb (match o with OI _ (DivS | DivU | RemS | RemU) => true | _ => false end) && trap_free a && trap_free b
  | TConv _ a | TDrop a => trap_free a
  | TSelect a b c => trap_free a && trap_free b && trap_free c
  | _ => true
  end.

Lemma wt_sem : forall nt lt gt E t p, env_ok E -> env_typed lt gt E -> wt lt gt t p ->
  (nt = true -> trap_free t = true) ->
  exists q, sem nt E t = Some q /\ smty q = p /\ (forall r, q <> SAny r).
Proof.
  intros nt lt gt E t p HE HT W. induction W; intros F.
  - eexists. split; [reflexivity|]. split; [reflexivity|discriminate].
  - cbn [sem]. rewrite H. eexists. split; [reflexivity|]. split; [reflexivity|discriminate].
  - destruct HT as [TL _]. cbn [sem]. destruct (nth_error (e_locals E) n) eqn:X.
    + eexists. split; [reflexivity|]. split; [exact (Forall2_nth _ _ _ _ _ TL _ _ _ X H)|discriminate].
    + exfalso. apply nth_error_None in X. assert (nth_error lt n <> None) as Y by congruence.
      apply nth_error_Some in Y. apply Forall2_len in TL. lia.
  - destruct HT as [_ TL]. cbn [sem]. destruct (nth_error (e_globals E) n) eqn:X.
    + eexists. split; [reflexivity|]. split; [exact (Forall2_nth _ _ _ _ _ TL _ _ _ X H)|discriminate].
    + exfalso. apply nth_error_None in X. assert (nth_error gt n <> None) as Y by congruence.
      apply nth_error_Some in Y. apply Forall2_len in TL. lia.
  - eexists. split; [reflexivity|]. split; [reflexivity|discriminate].
  - assert (nt = true -> opartial o = false /\ trap_free a = true /\ trap_free b = true) as G.
    { intros N. specialize (F N). cbn [trap_free] in F. apply andb_true_iff in F as [F F2]. apply andb_true_iff in F as [F F1].
      repeat split; auto. apply negb_true_iff in F. destruct o as [w []|]; cbn in *; congruence. }
    destruct IHW1 as (qa & Sa & Ta & Na); [intros N; apply G in N; tauto|].
    destruct IHW2 as (qb & Sb & Tb & Nb); [intros N; apply G in N; tauto|].
    cbn [sem]. rewrite Sa, Sb. cbn [bind]. unfold sem_bin.
    assert (nt && opartial o = false) as ->.
    { destruct nt; [|reflexivity]. destruct (G eq_refl) as [-> _]. reflexivity. }
    rewrite Ta, Tb, beq_refl. cbn [andb].
    destruct qa as [va| |pa|pa]; [|destruct o; discriminate| |exfalso; eapply Na; eauto].
    + destruct qb as [vb| |pb|pb]; [|destruct o; discriminate| |exfalso; eapply Nb; eauto].
      * destruct (beval o va vb) eqn:B.
        -- eexists. split; [reflexivity|]. split; [|discriminate]. cbn.
           apply beval_ok in B; [tauto|exact (sem_ok nt E a _ HE Sa)|exact (sem_ok nt E b _ HE Sb)].
        -- eexists. split; [reflexivity|]. split; [reflexivity|discriminate].
        -- exfalso. exact (beval_stuck o va vb Ta Tb B).
      * eexists. split; [reflexivity|]. split; [reflexivity|discriminate].
    + eexists. split; [destruct qb; reflexivity|]. split; [reflexivity|discriminate].
  - destruct IHW as (qa & Sa & Ta & Na); [exact F|]. cbn [sem]. rewrite Sa. cbn [bind]. unfold sem_conv. rewrite Ta, beq_refl.
    destruct qa as [va| |pa|pa]; [|destruct c; discriminate| |exfalso; eapply Na; eauto].
    + destruct (ceval_ok c va) as (v & -> & _ & T); [exact (sem_ok nt E a _ HE Sa)|exact Ta|].
      eexists. split; [reflexivity|]. split; [exact T|discriminate].
    + eexists. split; [reflexivity|]. split; [reflexivity|discriminate].
  - assert (nt = true -> trap_free a = true /\ trap_free b = true /\ trap_free c = true) as G.
    { intros N. specialize (F N). cbn [trap_free] in F. apply andb_true_iff in F as [F F2]. apply andb_true_iff in F as [F F1]. auto. }
    destruct IHW1 as (qa & Sa & Ta & Na); [intros N; apply G in N; tauto|].
    destruct IHW2 as (qb & Sb & Tb & Nb); [intros N; apply G in N; tauto|].
    destruct IHW3 as (qc & Sc & Tc & Nc); [intros N; apply G in N; tauto|].
    cbn [sem]. rewrite Sa, Sb, Sc. cbn [bind]. unfold sem_select. rewrite Ta, Tb, Tc, !beq_refl.
    assert (prim_eqb p PEmpty = false) as ->.
    { destruct (prim_eqb p PEmpty) eqn:B; [|reflexivity]. apply prim_eqb_eq in B. congruence. }
    cbn [andb negb].
    destruct qa as [va| |pa|pa]; [|cbn in Ta; congruence| |exfalso; eapply Na; eauto];
    (destruct qb as [vb| |pb|pb]; [|cbn in Tb; congruence| |exfalso; eapply Nb; eauto]);
    (destruct qc as [vc| |pc|pc]; [|discriminate Tc| |exfalso; eapply Nc; eauto]);
    try (eexists; split; [reflexivity|]; split; [first [assumption|reflexivity]|discriminate]).
    destruct vc as [wc nc|]; [|discriminate Tc]. eexists. split; [reflexivity|]. split; [|discriminate].
    cbn in *. destruct (nc =? 0); assumption.
  - destruct IHW as (qa & Sa & Ta & Na); [exact F|]. cbn [sem]. rewrite Sa. cbn [bind]. unfold sem_drop.
    destruct qa as [va| |pa|pa]; [|cbn in Ta; congruence| |exfalso; eapply Na; eauto].
    + eexists. split; [reflexivity|]. split; [reflexivity|discriminate].
    + cbn in Ta. subst pa. destruct p; [| |congruence]; (eexists; split; [reflexivity|]; split; [reflexivity|discriminate]).
  - eexists. split; [reflexivity|]. split; [reflexivity|discriminate].
Qed.

(** Two pieces of code for terms of one meaning have the same effect. *)
Lemma realises_same : forall E q s o1 o2, (forall r, q <> SAny r) ->
  realises E q s o1 -> realises E q s o2 -> same_outcome (List.length (e_globals E)) o1 o2.
Proof.
  intros E q s o1 o2 N H1 H2.
  assert (P : forall vs, pushes E s vs o1 -> pushes E s vs o2 -> same_outcome (List.length (e_globals E)) o1 o2).
  { intros vs (s1 & -> & K1 & A1 & A2 & A3 & A4) (s2 & -> & K2 & B1 & B2 & B3 & B4).
    cbn [same_outcome]. repeat split; try congruence. intros n L. rewrite A4, B4 by assumption. reflexivity. }
  destruct q; cbn [realises] in *; eauto.
  - rewrite H1, H2. exact Logic.I.
  - exfalso. eapply N. reflexivity.
Qed.

(** A machine state whose locals and globals have the declared types. *)
Definition state_ok (lt gt : list prim) (s : state) : Prop :=
  Forall2 (fun v p => vok v /\ vprim v = p) (st_locals s) lt /\
  forall n p, nth_error gt n = Some p -> vok (st_globals s n) /\ vprim (st_globals s n) = p.

Definition env_of (gt : list prim) (s : state) : env :=
  mkEnv (st_locals s) (map (st_globals s) (seq 0 (List.length gt))) (st_pages s).

Lemma env_of_ok : forall lt gt s, state_ok lt gt s ->
  env_ok (env_of gt s) /\ env_typed lt gt (env_of gt s) /\ agrees (env_of gt s) s /\
  List.length (e_globals (env_of gt s)) = List.length gt.
Proof.
  intros lt gt s [L G].
  assert (X : forall gt k, (forall n p, nth_error gt n = Some p -> vok (st_globals s (k + n)) /\ vprim (st_globals s (k + n)) = p) ->
    Forall2 (fun v p => vok v /\ vprim v = p) (map (st_globals s) (seq k (List.length gt))) gt).
  { clear. induction gt as [|p gt IH]; intros k H; cbn [List.length seq map]; constructor.
    - pose proof (H 0%nat p eq_refl) as P. rewrite Nat.add_0_r in P. exact P.
    - apply IH. intros n q Hn. specialize (H (S n) q Hn). rewrite Nat.add_succ_r in H. exact H. }
  specialize (X gt 0%nat G).
  assert (Y : forall l m, Forall2 (fun v p => vok v /\ vprim v = p) l m ->
    Forall vok l /\ Forall2 (fun v p => vprim v = p) l m).
  { clear. induction 1 as [|v p l m [A B] _ [C D]]; split; constructor; auto. }
  destruct (Y _ _ L) as [A1 A2]. destruct (Y _ _ X) as [B1 B2].
  split; [split; assumption|]. split; [split; assumption|]. split.
  - split; [reflexivity|]. split; [reflexivity|]. intros n v H. cbn [env_of e_globals] in H.
    rewrite nth_error_map in H. destruct (nth_error (seq 0 (List.length gt)) n) eqn:N; [|discriminate].
    inversion H; subst. assert (n < List.length (seq 0 (List.length gt)))%nat as Q by (apply nth_error_Some; congruence).
    rewrite seq_length in Q. rewrite (nth_error_nth' _ 0%nat) in N by (rewrite seq_length; exact Q).
    rewrite seq_nth in N by exact Q. inversion N. reflexivity.
  - cbn. rewrite map_length, seq_length. reflexivity.
Qed.

Theorem egraph_preserves : forall nt lt gt rules start p, wt lt gt start p ->
  (nt = true -> trap_free start = true) -> (forall r, In r rules -> sound nt r) ->
  forall t, holds lt gt rules start (Same start t) ->
  forall rnd k g s, (List.length gt <= g)%nat -> state_ok lt gt s ->
  exists c0 k0 g0 c1 k1 g1,
    compile rnd start k g = Some (c0, k0, g0) /\ compile rnd t k g = Some (c1, k1, g1) /\
    same_outcome (List.length gt) (exec c0 s) (exec c1 s).
Proof.
  intros nt lt gt rules start p W F HR t H rnd k g s Hg HS.
  destruct (env_of_ok lt gt s HS) as (EO & ET & EA & EL). set (E := env_of gt s) in *.
  destruct (wt_sem nt lt gt E start p EO ET W F) as (q & Sq & _ & Nq).
  assert (sem nt E start <> None) as Ns by congruence.
  pose proof (egraph_true nt lt gt rules start E EO ET HR Ns _ H) as [_ Q]. rewrite Sq in Q. symmetry in Q.
  destruct (compile_sem nt E rnd start q EO Sq k g) as (c0 & k0 & g0 & C0 & _ & R0); [rewrite EL; exact Hg|].
  destruct (compile_sem nt E rnd t q EO Q k g) as (c1 & k1 & g1 & C1 & _ & R1); [rewrite EL; exact Hg|].
  exists c0, k0, g0, c1, k1, g1. split; [exact C0|]. split; [exact C1|]. rewrite <- EL.
  eapply realises_same; eauto.
Qed.
