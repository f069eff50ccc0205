(** What a peephole term computes, and that the code generated for it computes
    just that. *)
From Coq Require Import ZArith Lia List Bool String SpecFloat.
From Verif Require Import Base.Prelude Peephole.Flt Peephole.Machine Peephole.Lang.
Import ListNotations.
Open Scope Z_scope.

Record env := mkEnv { e_locals : list val; e_globals : list val; e_pages : Z }.

Definition env_ok (E : env) : Prop := Forall vok (e_locals E) /\ Forall vok (e_globals E).

(** A term computes a value, nothing, a trap, or some value of a type that
    depends on random numbers. *)
Inductive sm := SVal (v : val) | SUnit | STrap (p : prim) | SAny (p : prim).
Definition smty (m : sm) : prim :=
  match m with SVal v => vprim v | SUnit => PEmpty | STrap p | SAny p => p end.

Definition prim_eqb (a b : prim) : bool :=
  match a, b with
  | PI W32, PI W32 | PI W64, PI W64 | PF F32, PF F32 | PF F64, PF F64 | PEmpty, PEmpty => true
  | _, _ => false
  end.
Lemma prim_eqb_eq : forall a b, prim_eqb a b = true <-> a = b.
Proof. intros [[]|[]|] [[]|[]|]; cbn; split; congruence. Qed.

Definition opartial (o : binop) : bool := match o with OI _ o => ipartial o | _ => false end.
Definition is_or (o : binop) : bool := match o with OI _ Or => true | _ => false end.

(** [nt]: terms that may trap are given no meaning at all. *)
Definition sem_bin (nt : bool) (o : binop) (a b : sm) : option sm :=
  if nt && opartial o then None else
  if prim_eqb (smty a) (oarg o) && prim_eqb (smty b) (oarg o) then
    match a, b with
    | STrap _, _ | _, STrap _ => Some (STrap (ores o))
    | SVal u, SVal v =>
        match beval o u v with
        | EVal r => Some (SVal r) | ETrap => Some (STrap (ores o)) | EStuck => None end
    | SAny _, SAny _ => if opartial o then None else Some (SAny (ores o))
    | _, _ => if opartial o || (nt && is_or o) then None else Some (SAny (ores o))
    end
  else None.

Definition sem_conv (c : conv) (a : sm) : option sm :=
  if prim_eqb (smty a) (carg c) then
    match a with
    | STrap _ => Some (STrap (cres c))
    | SAny _ => Some (SAny (cres c))
    | SVal v => match ceval c v with EVal r => Some (SVal r) | _ => None end
    | SUnit => None
    end
  else None.

Definition sem_select (a b c : sm) : option sm :=
  if prim_eqb (smty a) (smty b) && prim_eqb (smty c) (PI W32) && negb (prim_eqb (smty a) PEmpty) then
    match a, b, c with
    | SAny _, _, _ | _, SAny _, _ | _, _, SAny _ => None
    | STrap p, _, _ => Some (STrap p)
    | _, STrap p, _ => Some (STrap p)
    | _, _, STrap _ => Some (STrap (smty a))
    | SVal u, SVal v, SVal (VI _ n) => Some (SVal (if n =? 0 then v else u))
    | _, _, _ => None
    end
  else None.

Definition sem_drop (a : sm) : option sm :=
  match a with
  | SVal _ => Some SUnit
  | SAny PEmpty => None
  | SAny _ => Some SUnit
  | STrap PEmpty => None
  | STrap _ => Some (STrap PEmpty)
  | SUnit => None
  end.

Definition sem_cont (a b : sm) : option sm :=
  match a, b with
  | SUnit, r => Some r
  | r, SUnit => Some r
  | STrap PEmpty, r => Some (STrap (smty r))
  | r, STrap PEmpty => Some (STrap (smty r))
  | _, _ => None
  end.

Definition sem_use (p : prim) (a : sm) : option sm :=
  if prim_eqb (smty a) p && negb (prim_eqb p PEmpty) then Some a else None.

Definition sem_unfold (w : iw) (a : term) : option sm :=
  match a with
  | TI w' n => if prim_eqb (PI w) (PI w') then Some (SVal (VI w (wrapu (bits w) n))) else None
  | _ => None
  end.

Definition bind {A B} (a : option A) (f : A -> option B) : option B :=
  match a with Some a => f a | None => None end.

Section Sem.
Variable nt : bool.
Variable E : env.
Fixpoint sem (t : term) : option sm :=
  match t with
  | TVar _ => None
  | TI w n => Some (SVal (VI w (wrapu (bits w) n)))
  | TF f v => if valid_binary (fprec f) (femax f) v then Some (SVal (VF f v)) else None
  | TLocalGet n => option_map SVal (nth_error (e_locals E) n)
  | TGlobalGet n => option_map SVal (nth_error (e_globals E) n)
  | TMemSize => Some (SVal (VI W32 (wrapu 32 (e_pages E))))
  | TNop => Some SUnit
  | TRand w => Some (SAny (PI w))
  | TBin o a b => bind (sem a) (fun a => bind (sem b) (sem_bin nt o a))
  | TConv c a => bind (sem a) (sem_conv c)
  | TSelect a b c => bind (sem a) (fun a => bind (sem b) (fun b => bind (sem c) (sem_select a b)))
  | TDrop a => bind (sem a) sem_drop
  | TContainer a b => bind (sem a) (fun a => bind (sem b) (sem_cont a))
  | TUseGlobal p a => bind (sem a) (sem_use p)
  | TUnfold w a => sem_unfold w a
  | TLocalTee _ _ | TMemGrow _ => None
  end.
End Sem.

(** Values stay in range. *)
Lemma bits_pos : forall w, 0 < bits w. Proof. intros []; reflexivity. Qed.
Lemma wrapu_range : forall n a, 0 < n -> 0 <= wrapu n a < 2 ^ n.
Proof. intros. unfold wrapu. apply Z.mod_pos_bound. lia. Qed.
Lemma wrapu_small : forall n a, 0 <= a < 2 ^ n -> wrapu n a = a.
Proof. intros. unfold wrapu. apply Z.mod_small. lia. Qed.

Lemma log2_lt : forall n a, 0 < n -> 0 <= a -> (a < 2 ^ n <-> Z.log2 a < n).
Proof.
  intros n a Hn Ha. destruct (Z.eq_dec a 0) as [->|N].
  - rewrite Z.log2_nonpos by lia. split; [lia|]. intros. lia.
  - apply Z.log2_lt_pow2. lia.
Qed.

Lemma ieval_range : forall o n a b r, 1 < n -> 0 <= a < 2 ^ n -> 0 <= b < 2 ^ n ->
  ieval o n a b = Some r -> 0 <= r < 2 ^ (if irel o then 32 else n).
Proof.
  intros o n a b r Hn Ha Hb H.
  assert (Hr : forall c, 0 <= b2z c < 2 ^ 32) by (intros []; cbn; lia).
  destruct o; cbn [ieval irel] in *;
    repeat match type of H with context [if ?c then _ else _] => destruct c eqn:? end;
    try discriminate; inversion H; subst; auto; try (apply wrapu_range; lia).
  - split; [apply Z.land_nonneg; lia|]. apply log2_lt; [lia|apply Z.land_nonneg; lia|].
    eapply Z.le_lt_trans; [apply Z.log2_land; lia|].
    apply Z.min_lt_iff. left. apply log2_lt; lia.
  - split; [apply Z.lor_nonneg; lia|]. apply log2_lt; [lia|apply Z.lor_nonneg; lia|].
    rewrite Z.log2_lor by lia. apply Z.max_lub_lt; apply log2_lt; lia.
  - split; [apply Z.lxor_nonneg; lia|]. apply log2_lt; [lia|apply Z.lxor_nonneg; lia|].
    eapply Z.le_lt_trans; [apply Z.log2_lxor; lia|]. apply Z.max_lub_lt; apply log2_lt; lia.
  - assert (0 < 2 ^ (b mod n)) by (apply Z.pow_pos_nonneg; [lia|apply Z.mod_pos_bound; lia]).
    split; [apply Z.div_pos; lia|].
    eapply Z.le_lt_trans; [apply Z.div_le_upper_bound with (q := a); nia|lia].
  - split; [apply Z.div_pos; lia|].
    eapply Z.le_lt_trans; [apply Z.div_le_upper_bound with (q := a); nia|lia].
  - pose proof (Z.mod_pos_bound a b). lia.
Qed.

Lemma beval_ok : forall o a b v, vok a -> vok b -> beval o a b = EVal v ->
  vok v /\ vprim v = ores o.
Proof.
  intros o a b v Ha Hb H. destruct o as [w o|f o], a as [wa za|fa xa], b as [wb zb|fb xb];
    cbn [beval] in H; try discriminate.
  - assert (w = wa /\ w = wb) as [-> ->] by (destruct w, wa, wb; auto; discriminate).
    destruct (ieval o (bits wb) za zb) eqn:Ei; [|destruct wb; discriminate].
    assert (v = VI (if irel o then W32 else wb) z) as -> by (destruct wb; congruence).
    cbn [vok vprim ores] in *. split; [|destruct (irel o); reflexivity].
    apply ieval_range in Ei; try assumption; [|destruct wb; reflexivity].
    destruct (irel o); exact Ei.
  - assert (f = fa /\ f = fb) as [-> ->] by (destruct f, fa, fb; auto; discriminate).
    assert (v = VF fb (feval o fb xa xb)) as -> by (destruct fb; congruence).
    cbn [vok vprim ores] in *. split; [|reflexivity].
    destruct o; cbn [feval]; [apply SFadd_valid|apply SFmul_valid]; try assumption; destruct fb; cbn; lia.
Qed.

Lemma beval_stuck : forall o a b, vprim a = oarg o -> vprim b = oarg o -> beval o a b <> EStuck.
Proof.
  intros [w o|f o] [wa za|fa xa] [wb zb|fb xb]; cbn; intros Ha Hb; try discriminate.
  - inversion Ha; inversion Hb; subst. destruct w; destruct (ieval _ _ _ _); discriminate.
  - inversion Ha; inversion Hb; subst. destruct f; discriminate.
Qed.
Lemma beval_trap : forall o a b, beval o a b = ETrap -> opartial o = true.
Proof.
  intros [w o|f o] [wa za|fa xa] [wb zb|fb xb]; cbn; intros Ha; try discriminate.
  - destruct w, wa, wb; try discriminate; destruct o; cbn in *; try discriminate; reflexivity.
  - destruct f, fa, fb; discriminate.
Qed.

Lemma ceval_ok : forall c a, vok a -> vprim a = carg c ->
  exists v, ceval c a = EVal v /\ vok v /\ vprim v = cres c.
Proof.
  intros c a Ha H. destruct c as [[]| | |], a as [[] za|fa xa]; cbn in H; try discriminate; cbn [ceval];
    eexists; split; try reflexivity; cbn [vok vprim cres]; split; try reflexivity;
    try (apply wrapu_range; reflexivity); try (destruct (za =? 0); cbn; lia).
  cbn [vok bits] in *. lia.
Qed.

(** The value a term computes is in range, and its type is the one recorded. *)
Definition smok (m : sm) : Prop := match m with SVal v => vok v | _ => True end.

Lemma sem_bin_ok : forall nt o a b r, smok a -> smok b -> sem_bin nt o a b = Some r ->
  smok r /\ smty r = ores o /\ smty a = oarg o /\ smty b = oarg o.
Proof.
  intros nt o a b r Ha Hb H. unfold sem_bin in H. destruct (nt && opartial o); [discriminate|].
  destruct (prim_eqb (smty a) (oarg o) && prim_eqb (smty b) (oarg o)) eqn:E; [|discriminate].
  apply andb_true_iff in E as [E1 E2]. apply prim_eqb_eq in E1, E2.
  assert (smok r /\ smty r = ores o); [|tauto].
  destruct a, b; cbn [smok] in Ha, Hb;
    repeat match type of H with context [if ?c then _ else _] => destruct c end; try discriminate;
    try (inversion H; subst; cbn; auto; fail).
  destruct (beval o v v0) eqn:Eb; inversion H; subst; cbn; auto.
  apply beval_ok in Eb; auto.
Qed.

Lemma sem_conv_ok : forall c a r, smok a -> sem_conv c a = Some r ->
  smok r /\ smty r = cres c /\ smty a = carg c.
Proof.
  intros c a r Ha H. unfold sem_conv in H.
  destruct (prim_eqb (smty a) (carg c)) eqn:E; [|discriminate]. apply prim_eqb_eq in E.
  destruct a; try discriminate; inversion H; subst; cbn; auto.
  destruct (ceval_ok c v Ha E) as (v' & Ev & O & T). rewrite Ev in H1. inversion H1; subst. cbn. auto.
Qed.

Lemma sem_select_ok : forall a b c r, smok a -> smok b -> smok c -> sem_select a b c = Some r ->
  smok r /\ smty r = smty a /\ smty b = smty a /\ smty c = PI W32 /\ smty a <> PEmpty.
Proof.
  intros a b c r Ha Hb Hc H. unfold sem_select in H.
  destruct (prim_eqb (smty a) (smty b) && prim_eqb (smty c) (PI W32) && negb (prim_eqb (smty a) PEmpty)) eqn:E; [|discriminate].
  apply andb_true_iff in E as [E E3]. apply andb_true_iff in E as [E1 E2]. apply prim_eqb_eq in E1, E2.
  assert (smty a <> PEmpty).
  { intros C. rewrite C in E3. discriminate. }
  assert (smok r /\ smty r = smty a); [|repeat split; try tauto; congruence].
  destruct a, b, c; cbn [smok smty] in *; try discriminate;
   try (inversion H; subst; cbn; auto; fail); try (destruct v; inversion H; subst; cbn; auto; fail);
   try (destruct v0; inversion H; subst; cbn; auto; fail).
  destruct v1; [|discriminate]. inversion H; subst. destruct (z =? 0); cbn; split; auto. 
Qed.

Lemma sem_ok : forall nt E t r, env_ok E -> sem nt E t = Some r -> smok r.
Proof.
  intros nt E t r HE. revert r. induction t; intros r H; cbn [sem bind] in H; try discriminate.
  - inversion H; subst. cbn. apply wrapu_range, bits_pos.
  - destruct (valid_binary (fprec f) (femax f) x) eqn:V; inversion H; subst. exact V.
  - destruct (nth_error (e_locals E) n) eqn:N; inversion H; subst. cbn.
    apply nth_error_In in N. destruct HE as [HL _]. rewrite Forall_forall in HL. auto.
  - destruct (nth_error (e_globals E) n) eqn:N; inversion H; subst. cbn.
    apply nth_error_In in N. destruct HE as [_ HL]. rewrite Forall_forall in HL. auto.
  - inversion H; subst. cbn. apply (wrapu_range 32). reflexivity.
  - inversion H; subst. exact I.
  - inversion H; subst. exact I.
  - destruct (sem nt E t1); [|discriminate]. destruct (sem nt E t2); [|discriminate]. cbn [bind] in H.
    apply sem_bin_ok in H; auto. tauto.
  - destruct (sem nt E t); [|discriminate]. cbn [bind] in H. apply sem_conv_ok in H; auto. tauto.
  - destruct (sem nt E t1); [|discriminate]. destruct (sem nt E t2); [|discriminate].
    destruct (sem nt E t3); [|discriminate]. cbn [bind] in H. apply sem_select_ok in H; auto. tauto.
  - destruct (sem nt E t) as [[]|]; cbn in H; try destruct p; inversion H; subst; exact I.
  - destruct (sem nt E t1) as [a|]; [|discriminate]. destruct (sem nt E t2) as [b|]; [|discriminate].
    cbn [bind] in H. unfold sem_cont in H.
    destruct a as [v| |[]|[]], b as [v'| |[]|[]]; inversion H; subst; cbn; auto;
    try (exact (IHt1 _ eq_refl)); exact (IHt2 _ eq_refl).
  - destruct (sem nt E t); [|discriminate]. cbn [bind] in H. unfold sem_use in H.
    destruct (_ && _); inversion H; subst. auto.
  - unfold sem_unfold in H. destruct t; try discriminate. destruct (prim_eqb _ _); inversion H; subst.
    cbn. apply wrapu_range, bits_pos.
Qed.

(** The generated code does what the term computes. *)
Definition agrees (E : env) (s : state) : Prop :=
  st_locals s = e_locals E /\ st_pages s = e_pages E /\
  forall n v, nth_error (e_globals E) n = Some v -> st_globals s n = v.

Definition rest (E : env) (s' s : state) : Prop :=
  st_locals s' = st_locals s /\ st_pages s' = st_pages s /\ st_max s' = st_max s /\
  forall n, (n < List.length (e_globals E))%nat -> st_globals s' n = st_globals s n.

Definition pushes (E : env) (s : state) (vs : list val) (o : outcome) : Prop :=
  exists s', o = Ran s' /\ st_stack s' = vs ++ st_stack s /\ rest E s' s.

Definition realises (E : env) (r : sm) (s : state) (o : outcome) : Prop :=
  match r with
  | STrap _ => o = Trapped
  | SUnit => pushes E s [] o
  | SVal v => pushes E s [v] o
  | SAny p => exists v, vok v /\ vprim v = p /\ pushes E s [v] o
  end.

Lemma rest_agrees : forall E s s', agrees E s -> rest E s' s -> agrees E s'.
Proof.
  intros E s s' (A & B & C) (H1 & H2 & _ & H3). repeat split; try congruence.
  intros n v N. rewrite H3; auto. apply nth_error_Some. congruence.
Qed.
Lemma rest_refl : forall E s k, rest E (with_stack s k) s.
Proof. intros. repeat split; auto. Qed.
Lemma rest_trans : forall E a b c, rest E a b -> rest E b c -> rest E a c.
Proof.
  intros E a b c (A1 & A2 & A3 & A4) (B1 & B2 & B3 & B4). repeat split; try congruence.
  intros n Hn. rewrite A4, B4; auto.
Qed.

Ltac inv H := inversion H; subst; clear H.

(** Running a piece and then more. *)
Lemma realises_cases : forall E r s o, realises E r s o ->
  (exists p, r = STrap p /\ o = Trapped) \/
  (exists vs, pushes E s vs o /\
     match r with STrap _ => False | SUnit => vs = [] | SVal v => vs = [v]
     | SAny p => exists v, vs = [v] /\ vok v /\ vprim v = p end).
Proof.
  intros E r s o H. destruct r; cbn [realises] in H.
  - right. eauto.
  - right. eauto.
  - left. eauto.
  - destruct H as (v & A & B & C). right. exists [v]. split; auto. exists v. auto.
Qed.

Lemma then_trap : forall E r s ca rest p, realises E r s (exec ca s) -> r = STrap p ->
  exec (ca ++ rest) s = Trapped.
Proof. intros E r s ca rs p H ->. cbn in H. rewrite exec_app, H. reflexivity. Qed.

Definition compiles (E : env) (rnd : nat -> Z) (t : term) (r : sm) : Prop :=
  forall k g, (List.length (e_globals E) <= g)%nat ->
  exists c k' g', compile rnd t k g = Some (c, k', g') /\ (g <= g')%nat /\
    forall s, agrees E s -> realises E r s (exec c s).

Lemma sem_any : forall nt E t p, sem nt E t = Some (SAny p) -> p <> PEmpty.
Proof.
  intros nt E t p. revert p. induction t; intros q H; cbn [sem bind] in H; try discriminate.
  - destruct (valid_binary (fprec f) (femax f) x); discriminate.
  - destruct (nth_error _ _); discriminate.
  - destruct (nth_error _ _); discriminate.
  - inv H. discriminate.
  - destruct (sem nt E t1); [|discriminate]. destruct (sem nt E t2); [|discriminate]. cbn [bind] in H.
    assert (q = ores o).
    { unfold sem_bin in H. destruct (nt && opartial o); [discriminate|]. destruct (_ && _); [|discriminate].
      destruct s, s0; repeat match type of H with context [if ?c then _ else _] => destruct c end;
        try discriminate; try (inv H; reflexivity). destruct (beval o v v0); discriminate. }
    subst. destruct o as [w o|f o]; cbn; [destruct (irel o)|]; discriminate.
  - destruct (sem nt E t); [|discriminate]. cbn [bind] in H. unfold sem_conv in H.
    destruct (prim_eqb _ _); [|discriminate]. destruct s; try discriminate.
    + destruct (ceval c v); discriminate.
    + inv H. destruct c; discriminate.
  - destruct (sem nt E t1); [|discriminate]. destruct (sem nt E t2); [|discriminate].
    destruct (sem nt E t3); [|discriminate]. cbn [bind] in H. unfold sem_select in H.
    destruct (_ && _ && _); [|discriminate].
    destruct s, s0, s1; try discriminate; try (destruct v1; discriminate).
  - destruct (sem nt E t) as [[]|]; cbn in H; try destruct p; discriminate.
  - destruct (sem nt E t1) as [a|]; [|discriminate]. destruct (sem nt E t2) as [b|]; [|discriminate].
    cbn [bind] in H. unfold sem_cont in H.
    destruct a as [v| |[]|[]], b as [v'| |[]|[]]; inv H; auto; try discriminate.
  - destruct (sem nt E t); [|discriminate]. cbn [bind] in H. unfold sem_use in H.
    destruct (_ && _); inv H; auto.
  - unfold sem_unfold in H. destruct t; try discriminate. destruct (prim_eqb _ _); discriminate.
Qed.

Lemma wrapu_wrapu_add : forall n a b, 0 < n -> wrapu n (wrapu n a + wrapu n b) = wrapu n (a + b).
Proof. intros. unfold wrapu. rewrite <- Z.add_mod by lia. reflexivity. Qed.

Lemma step_run : forall i c s s', step i s = Ran s' -> exec (i :: c) s = exec c s'.
Proof. intros i c s s' H. cbn [exec]. rewrite H. reflexivity. Qed.

Lemma exec_one : forall i s, exec [i] s = match step i s with Ran s => Ran s | o => o end.
Proof. intros. cbn [exec]. destruct (step i s); reflexivity. Qed.

Theorem compile_sem : forall nt E rnd t r, env_ok E -> sem nt E t = Some r -> compiles E rnd t r.
Proof.
  intros nt E rnd t r HE. revert r. induction t; intros r H k0 g0 Hg; cbn [sem bind] in H; try discriminate;
    cbn [compile].
  - inv H. eexists _, _, _. split; [reflexivity|]. split; [lia|]. intros s A. eexists. repeat split; reflexivity.
  - destruct (valid_binary (fprec f) (femax f) x); inv H.
    eexists _, _, _. split; [reflexivity|]. split; [lia|]. intros s A. eexists. repeat split; reflexivity.
  - destruct (nth_error (e_locals E) n) eqn:N; inv H.
    eexists _, _, _. split; [reflexivity|]. split; [lia|]. intros s A.
    destruct A as (A & _). rewrite exec_one. cbn [step]. rewrite A, N. eexists. repeat split; reflexivity.
  - destruct (nth_error (e_globals E) n) eqn:N; inv H.
    eexists _, _, _. split; [reflexivity|]. split; [lia|]. intros s A.
    destruct A as (_ & _ & A). rewrite exec_one. cbn [step]. rewrite (A _ _ N). eexists. repeat split; reflexivity.
  - inv H. eexists _, _, _. split; [reflexivity|]. split; [lia|]. intros s A.
    destruct A as (_ & A & _). rewrite exec_one. cbn [step]. rewrite A. eexists. repeat split; reflexivity.
  - inv H. eexists _, _, _. split; [reflexivity|]. split; [lia|]. intros s A. eexists. repeat split; reflexivity.
  - inv H. eexists _, _, _. split; [reflexivity|]. split; [lia|]. intros s A.
    exists (VI w (wrapu (bits w) (rnd k0))). split; [apply wrapu_range, bits_pos|]. split; [reflexivity|].
    eexists. repeat split; reflexivity.
  - (* binary *)
    destruct (sem nt E t1) as [a|] eqn:Sa; [|discriminate].
    destruct (sem nt E t2) as [b|] eqn:Sb; [|discriminate]. cbn [bind] in H.
    pose proof (sem_ok _ _ _ _ HE Sa) as Oa. pose proof (sem_ok _ _ _ _ HE Sb) as Ob.
    destruct (IHt1 a eq_refl k0 g0 Hg) as (ca & k1 & g1 & Ca & G1 & Ra). rewrite Ca.
    destruct (IHt2 b eq_refl k1 g1 ltac:(lia)) as (cb & k2 & g2 & Cb & G2 & Rb). rewrite Cb.
    eexists _, _, _. split; [reflexivity|]. split; [lia|]. intros s A.
    destruct (sem_bin_ok _ _ _ _ _ Oa Ob H) as (_ & _ & Ta & Tb).
    unfold sem_bin in H. destruct (nt && opartial o); [discriminate|]. rewrite Ta, Tb, !(proj2 (prim_eqb_eq _ _) eq_refl) in H. cbn [andb] in H.
    specialize (Ra s A). destruct (realises_cases _ _ _ _ Ra) as [(p & -> & Er)|(va & (s1 & E1 & K1 & R1) & Va)].
    { destruct b; inv H; cbn [realises]; rewrite exec_app, Er; reflexivity. }
    specialize (Rb s1 (rest_agrees _ _ _ A R1)).
    rewrite exec_app, E1.
    destruct (realises_cases _ _ _ _ Rb) as [(p & -> & Er)|(vb & (s2 & E2 & K2 & R2) & Vb)].
    { destruct a; inv H; cbn [realises]; rewrite exec_app, Er; reflexivity. }
    rewrite exec_app, E2, exec_one.
    assert (exists u, va = [u] /\ vok u /\ vprim u = oarg o) as (u & -> & Hu & Pu).
    { destruct a; cbn in Ta, Oa; try (destruct o; discriminate); try tauto; [subst; eauto|].
      destruct Va as (u & -> & X & Y). exists u. repeat split; auto; congruence. }
    assert (exists u, vb = [u] /\ vok u /\ vprim u = oarg o) as (v & -> & Hv & Pv).
    { destruct b; cbn in Tb, Ob; try (destruct o; discriminate); try tauto; [subst; eauto|].
      destruct Vb as (v & -> & X & Y). exists v. repeat split; auto; congruence. }
    cbn [app] in K1, K2. rewrite K1 in K2. unfold step. rewrite K2.
    pose proof (beval_stuck o u v Pu Pv) as NS.
    assert (Push : forall rv, pushes E s [rv] (Ran (with_stack s2 (rv :: st_stack s)))).
    { intros rv. eexists. split; [reflexivity|]. split; [reflexivity|].
      eapply rest_trans; [apply rest_refl|]. eapply rest_trans; eauto. }
    assert (Gen : opartial o = false -> exists rv, beval o u v = EVal rv /\ vok rv /\ vprim rv = ores o).
    { intros NP. destruct (beval o u v) as [rv| |] eqn:Eb.
      - exists rv. split; [reflexivity|]. eapply beval_ok; [| |exact Eb]; auto.
      - apply beval_trap in Eb. congruence.
      - congruence. }
    assert (AnyCase : opartial o = false -> realises E (SAny (ores o)) s
       match match beval o u v with EVal rv => Ran (with_stack s2 (rv :: st_stack s)) | ETrap => Trapped | EStuck => Stuck end
       with Ran s => Ran s | Trapped => Trapped | Stuck => Stuck end).
    { intros NP. destruct (Gen NP) as (rv & Eb & X & Y). rewrite Eb. exists rv. auto. }
    destruct a as [u'| |pa|pa], b as [v'| |pb|pb]; cbn in Ta, Tb; try (destruct o; discriminate); try tauto.
    + inv Va. inv Vb. destruct (beval o u' v') as [rv| |] eqn:Eb; inv H; cbn [realises]; auto.
    + destruct (opartial o) eqn:NP; [discriminate|]. destruct (nt && is_or o); [discriminate|]. inv H. auto.
    + destruct (opartial o) eqn:NP; [discriminate|]. destruct (nt && is_or o); [discriminate|]. inv H. auto.
    + destruct (opartial o) eqn:NP; [discriminate|]. inv H. auto.
  - (* conversion *)
    destruct (sem nt E t) as [a|] eqn:Sa; [|discriminate]. cbn [bind] in H.
    pose proof (sem_ok _ _ _ _ HE Sa) as Oa.
    destruct (IHt a eq_refl k0 g0 Hg) as (ca & k1 & g1 & Ca & G1 & Ra). rewrite Ca.
    eexists _, _, _. split; [reflexivity|]. split; [lia|]. intros s A.
    destruct (sem_conv_ok _ _ _ Oa H) as (_ & _ & Ta).
    unfold sem_conv in H. rewrite Ta, !(proj2 (prim_eqb_eq _ _) eq_refl) in H.
    specialize (Ra s A). destruct (realises_cases _ _ _ _ Ra) as [(p & -> & Er)|(va & (s1 & E1 & K1 & R1) & Va)].
    { inv H; cbn [realises]; rewrite exec_app, Er; reflexivity. }
    rewrite exec_app, E1, exec_one.
    assert (exists u, va = [u] /\ vok u /\ vprim u = carg c) as (u & -> & Hu & Pu).
    { destruct a; cbn in Ta, Oa; try (destruct c; discriminate); try tauto; [subst; eauto|].
      destruct Va as (u & -> & X & Y). exists u. repeat split; auto; congruence. }
    cbn [app] in K1. unfold step. rewrite K1.
    destruct (ceval_ok c u Hu Pu) as (rv & Ec & X & Y). rewrite Ec.
    assert (Push : pushes E s [rv] (Ran (with_stack s1 (rv :: st_stack s)))).
    { eexists. split; [reflexivity|]. split; [reflexivity|].
      eapply rest_trans; [apply rest_refl|]. auto. }
    destruct a as [u'| |pa|pa]; try discriminate.
    + inv Va. rewrite Ec in H. inv H. exact Push.
    + tauto.
    + inv H. exists rv. auto.
  - (* select *)
    destruct (sem nt E t1) as [a|] eqn:Sa; [|discriminate].
    destruct (sem nt E t2) as [b|] eqn:Sb; [|discriminate].
    destruct (sem nt E t3) as [c|] eqn:Sc; [|discriminate]. cbn [bind] in H.
    pose proof (sem_ok _ _ _ _ HE Sa) as Oa. pose proof (sem_ok _ _ _ _ HE Sb) as Ob. pose proof (sem_ok _ _ _ _ HE Sc) as Oc.
    destruct (IHt1 a eq_refl k0 g0 Hg) as (ca & k1 & g1 & Ca & G1 & Ra). rewrite Ca.
    destruct (IHt2 b eq_refl k1 g1 ltac:(lia)) as (cb & k2 & g2 & Cb & G2 & Rb). rewrite Cb.
    destruct (IHt3 c eq_refl k2 g2 ltac:(lia)) as (cc & k3 & g3 & Cc & G3 & Rc). rewrite Cc.
    eexists _, _, _. split; [reflexivity|]. split; [lia|]. intros s A.
    destruct (sem_select_ok _ _ _ _ Oa Ob Oc H) as (_ & _ & Tb & Tc & Ne).
    unfold sem_select in H. rewrite Tb, Tc, !(proj2 (prim_eqb_eq _ _) eq_refl) in H.
    assert (prim_eqb (smty a) PEmpty = false) as Hn.
    { destruct (prim_eqb (smty a) PEmpty) eqn:C; auto. apply prim_eqb_eq in C. tauto. }
    rewrite Hn in H. cbn [andb negb] in H.
    specialize (Ra s A). destruct (realises_cases _ _ _ _ Ra) as [(p & -> & Er)|(va & (s1 & E1 & K1 & R1) & Va)].
    { destruct b, c; inv H; cbn [realises]; rewrite exec_app, Er; reflexivity. }
    specialize (Rb s1 (rest_agrees _ _ _ A R1)). rewrite exec_app, E1.
    destruct (realises_cases _ _ _ _ Rb) as [(p & -> & Er)|(vb & (s2 & E2 & K2 & R2) & Vb)].
    { destruct a, c; inv H; cbn [realises]; rewrite exec_app, Er; reflexivity. }
    assert (A2 : agrees E s2) by (eapply rest_agrees; [|exact R2]; eapply rest_agrees; eauto).
    specialize (Rc s2 A2). rewrite exec_app, E2.
    destruct (realises_cases _ _ _ _ Rc) as [(p & -> & Er)|(vc & (s3 & E3 & K3 & R3) & Vc)].
    { destruct a, b; try discriminate; inv H; cbn [realises]; rewrite exec_app, Er; reflexivity. }
    rewrite exec_app, E3, exec_one.
    destruct a as [u'| |pa|pa], b as [v'| |pb|pb], c as [w'| |pc|pc]; try discriminate; try tauto.
    subst va vb vc. destruct w' as [ww n|]; [|discriminate]. cbn in Tc. inv Tc.
    cbn [app] in K1, K2, K3. rewrite K1 in K2. rewrite K2 in K3. unfold step. rewrite K3.
    inv H. cbn [realises]. eexists. split; [reflexivity|]. split; [reflexivity|].
    eapply rest_trans; [apply rest_refl|]. eapply rest_trans; [exact R3|]. eapply rest_trans; eauto.
  - (* drop *)
    destruct (sem nt E t) as [a|] eqn:Sa; [|discriminate]. cbn [bind] in H.
    destruct (IHt a eq_refl k0 g0 Hg) as (ca & k1 & g1 & Ca & G1 & Ra). rewrite Ca.
    eexists _, _, _. split; [reflexivity|]. split; [lia|]. intros s A.
    specialize (Ra s A). destruct (realises_cases _ _ _ _ Ra) as [(p & -> & Er)|(va & (s1 & E1 & K1 & R1) & Va)].
    { destruct p; inv H; cbn [realises]; rewrite exec_app, Er; reflexivity. }
    rewrite exec_app, E1, exec_one.
    assert (exists u, va = [u] /\ r = SUnit) as (u & -> & ->).
    { destruct a; cbn in H; try destruct p; try discriminate; try tauto; inv H; eauto;
        destruct Va as (u & -> & _); eauto. }
    cbn [app] in K1. unfold step. rewrite K1. eexists. split; [reflexivity|]. split; [reflexivity|].
    eapply rest_trans; [apply rest_refl|]. auto.
  - (* container *)
    destruct (sem nt E t1) as [a|] eqn:Sa; [|discriminate].
    destruct (sem nt E t2) as [b|] eqn:Sb; [|discriminate]. cbn [bind] in H.
    destruct (IHt1 a eq_refl k0 g0 Hg) as (ca & k1 & g1 & Ca & G1 & Ra). rewrite Ca.
    destruct (IHt2 b eq_refl k1 g1 ltac:(lia)) as (cb & k2 & g2 & Cb & G2 & Rb). rewrite Cb.
    eexists _, _, _. split; [reflexivity|]. split; [lia|]. intros s A.
    specialize (Ra s A). destruct (realises_cases _ _ _ _ Ra) as [(p & -> & Er)|(va & (s1 & E1 & K1 & R1) & Va)].
    { rewrite exec_app, Er. destruct p, b as [v'| |[]|[]]; inv H; cbn [realises]; reflexivity. }
    specialize (Rb s1 (rest_agrees _ _ _ A R1)). rewrite exec_app, E1.
    destruct (realises_cases _ _ _ _ Rb) as [(p & -> & Er)|(vb & (s2 & E2 & K2 & R2) & Vb)].
    { rewrite Er. destruct a as [v'| |[]|[]], p; inv H; cbn [realises]; auto; tauto. }
    rewrite E2. pose proof (rest_trans _ _ _ _ R2 R1) as R.
    assert (Sa' : a = SUnit /\ r = b \/ b = SUnit /\ r = a).
    { destruct a as [v'| |[]|[]], b as [v''| |[]|[]]; inv H; auto; tauto. }
    rewrite K1 in K2.
    destruct Sa' as [[-> ->]|[-> ->]].
    + subst va. cbn [app] in K2. destruct b; cbn [realises].
      * subst vb. exists s2. auto.
      * subst vb. exists s2. auto.
      * tauto.
      * destruct Vb as (v & -> & X & Y). exists v. repeat split; auto. exists s2. auto.
    + subst vb. cbn [app] in K2. destruct a; cbn [realises].
      * subst va. exists s2. auto.
      * subst va. exists s2. auto.
      * tauto.
      * destruct Va as (v & -> & X & Y). exists v. repeat split; auto. exists s2. auto.
  - (* spill to a global *)
    destruct (sem nt E t) as [a|] eqn:Sa; [|discriminate]. cbn [bind] in H. unfold sem_use in H.
    destruct (prim_eqb (smty a) p && negb (prim_eqb p PEmpty)) eqn:Ep; inv H.
    apply andb_true_iff in Ep as [Ep En]. apply prim_eqb_eq in Ep. subst p.
    destruct (IHt r eq_refl k0 g0 Hg) as (ca & k1 & g1 & Ca & G1 & Ra). rewrite Ca.
    eexists _, _, _. split; [reflexivity|]. split; [lia|]. intros s A.
    specialize (Ra s A). destruct (realises_cases _ _ _ _ Ra) as [(p & -> & Er)|(va & (s1 & E1 & K1 & R1) & Va)].
    { cbn [realises]. rewrite exec_app, Er. reflexivity. }
    rewrite exec_app, E1.
    assert (Push : forall v, va = [v] -> pushes E s [v] (exec [IGlobalSet g1; IGlobalGet g1] s1)).
    { intros v ->. cbn [exec step]. rewrite K1. cbn [app st_stack st_globals].
      eexists. split; [reflexivity|]. cbn [with_stack st_stack st_globals]. split.
      - unfold upd. rewrite Nat.eqb_refl. reflexivity.
      - destruct R1 as (B1 & B2 & B3 & B4). repeat split; cbn; auto.
        intros n Hn. unfold upd. destruct (Nat.eqb_spec n g1); [lia|]. auto. }
    destruct r; cbn [realises smty] in *.
    + apply Push. auto.
    + discriminate.
    + tauto.
    + destruct Va as (v & -> & X & Y). exists v. repeat split; auto.
  - (* unfold *)
    unfold sem_unfold in H. destruct t as [|w' n| | | | | | | | | | | | | | |]; try discriminate.
    destruct (prim_eqb (PI w) (PI w')) eqn:Ew; [|discriminate]. apply prim_eqb_eq in Ew. inv Ew. inv H.
    exists ([IConst (VI w' (wrapu (bits w') (wraps (bits w') (rnd k0))));
                     IConst (VI w' (wrapu (bits w') (n - wraps (bits w') (rnd k0))));
                     IBin (OI w' Add)]), (S k0), g0.
    split; [destruct w'; reflexivity|]. split; [lia|]. intros s A.
    assert (Hv : wrapu (bits w') (wrapu (bits w') (wraps (bits w') (rnd k0)) +
                 wrapu (bits w') (n - wraps (bits w') (rnd k0))) = wrapu (bits w') n).
    { rewrite wrapu_wrapu_add by apply bits_pos. f_equal. lia. }
    cbn [realises]. eexists. split.
    + cbn [exec step with_stack st_stack beval ieval irel]. rewrite Hv. destruct w'; reflexivity.
    + split; [reflexivity|]. repeat split; reflexivity.
Qed.

(** Without trapping operators nothing traps. *)
Lemma sem_notrap : forall E t p, sem true E t <> Some (STrap p).
Proof.
  intros E t. induction t; intros q H; cbn [sem bind] in H; try discriminate.
  - destruct (valid_binary (fprec f) (femax f) x); discriminate.
  - destruct (nth_error _ _); discriminate.
  - destruct (nth_error _ _); discriminate.
  - destruct (sem true E t1); [|discriminate]. destruct (sem true E t2); [|discriminate]. cbn [bind] in H.
    unfold sem_bin in H. cbn [andb] in H. destruct (opartial o) eqn:P; [discriminate|].
    destruct (_ && _); [|discriminate].
    destruct s, s0; try (eapply IHt1; reflexivity); try (eapply IHt2; reflexivity);
      repeat match type of H with context [if ?c then _ else _] => destruct c end; try discriminate.
    destruct (beval o v v0) eqn:B; try discriminate. apply beval_trap in B. congruence.
  - destruct (sem true E t); [|discriminate]. cbn [bind] in H. unfold sem_conv in H.
    destruct (prim_eqb _ _); [|discriminate]. destruct s; try discriminate; [|eapply IHt; reflexivity].
    destruct (ceval c v); discriminate.
  - destruct (sem true E t1); [|discriminate]. destruct (sem true E t2); [|discriminate].
    destruct (sem true E t3); [|discriminate]. cbn [bind] in H. unfold sem_select in H.
    destruct (_ && _ && _); [|discriminate].
    destruct s, s0, s1; try discriminate; try (destruct v1; discriminate);
      first [eapply IHt1; reflexivity | eapply IHt2; reflexivity | eapply IHt3; reflexivity].
  - destruct (sem true E t) as [[]|]; cbn in H; try destruct p; try discriminate; eapply IHt; reflexivity.
  - destruct (sem true E t1) as [a|]; [|discriminate]. destruct (sem true E t2) as [b|]; [|discriminate].
    cbn [bind] in H. unfold sem_cont in H.
    destruct a as [v| |[]|[]], b as [v'| |[]|[]]; try discriminate; 
    first [eapply IHt1; reflexivity | eapply IHt2; reflexivity].
  - destruct (sem true E t); [|discriminate]. cbn [bind] in H. unfold sem_use in H.
    destruct (_ && _); inv H. eapply IHt; reflexivity.
  - unfold sem_unfold in H. destruct t; try discriminate. destruct (prim_eqb _ _); discriminate.
Qed.
