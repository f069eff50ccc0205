(** Running the validator over a body: it succeeds on the bodies that have a type. *)
From Verif.Base Require Import Prelude.
From Verif.Locals Require Import Model Proofs.
From Verif.Types Require Import RefModel CodecModel CanonModel.
From Verif.Instr Require Import ImmModel Ops.
From Verif.Validator Require Import State Checks Visit Undo Top Api Sig TypeSpec TypeBase TypeSem TypeLook TypeSig TypeSigs TypeInst TypeOps TypeOps2 TypeOps3 TypeRefs TypeBlocks.

(** One call of [op] per operator, each with its offset. *)
Fixpoint run (R : resources) (F : feature -> bool) (l : list (Z * operator)) : V unit :=
  match l with [] => vret tt | (at_, o) :: l => op (mkEnv R F at_) o ;; run R F l end.

Definition covered_es (es : list instr) : bool := forallb covered_i es.

Section Run.
Variable R : resources.
Variable F : feature -> bool.
Notation rn := (run R F).
Lemma run_app l1 l2 s : rn (l1 ++ l2) s = (rn l1 ;; rn l2) s.
Proof. revert s. induction l1 as [|[a o] l1 IH]; intros s; [reflexivity|]. cbn [app run]. unfold vbind in *. destruct (op (mkEnv R F a) o s); auto. Qed.

Definition nz (l : list (Z * operator)) : Prop := Forall (fun p => fst p <> 0) l.
Definition envs (C : ctx) : Prop := forall at_, at_ <> 0 -> envok (mkEnv R F at_) C.
Lemma envs_under C l : envs C -> envs (under C l).
Proof. intros H a Ha. destruct (H a Ha) as [A B D G]. split; assumption. Qed.
Definition ok_run (C : ctx) (P : list dt -> list dt -> Prop) (Y : list Z) s u seg below (r : vres unit) : Prop :=
  match r with
  | VOk _ s' => exists u' seg', inst C Y s' u' seg' below /\ kept s s' /\ forall us, sem C u' seg' us <-> exists ts, sem C u seg ts /\ P ts us
  | _ => forall ts us, sem C u seg ts -> ~ P ts us
  end.
Definition runs_ok (es : list instr) : Prop := forall C X l s u seg below, res_ok (cx_mod C) -> envs C -> map snd l = flatten es -> nz l ->
  inst C X s u seg below -> ok_run C (rsteps C X es) (sets_es es ++ X) s u seg below (rn l s).

Section Context.
Variable C : ctx.
Hypothesis HM : res_ok (cx_mod C).
Hypothesis HR : envs C.

(** Entering a block, its body and leaving it. *)
Lemma inner_ok es l E E2 X s u seg below k b ts us lb : runs_ok es -> map snd l = flatten es -> nz l -> envok E C -> envok E2 C ->
  inst C X s u seg below -> bparams C b = Some ts -> bresults C b = Some us -> flabel C b k = Some lb ->
  match (push_ctrl E k b ;; rn l ;; pop_ctrl E2) s with
  | VOk fr s' => body_ok (under C lb) X es ts us /\ fr_kind fr = k /\ fr_block fr = b /\ inst C X s' u seg below /\
      vs_control s' = vs_control s /\ vs_inits s' = vs_inits s
  | _ => ~ body_ok (under C lb) X es ts us
  end.
Proof.
  intros Hes Hl Hn HE HE2 In Hp Hr Hlb. unfold vbind.
  destruct (push_ctrl_ok E C HE X s u seg below k b ts lb In Hp Hlb) as (s1 & -> & In1 & En).
  pose proof (Hes (under C lb) X l s1 false (map Known (rev ts)) (seg ++ below) HM (envs_under C lb HR) Hl Hn In1) as P.
  destruct (rn l s1) as [[] s2| |]; cbn [ok_run] in P.
  - destruct P as (u2 & seg2 & In2 & K & S). apply (body_sem (under C lb) HM X es ts us) in S.
    pose proof (leave_ok E2 C HM HE2 X _ s s1 s2 k b u seg below u2 seg2 us lb In En K In2 Hr) as Q.
    change (sem (under C lb) u2 seg2 (dv (rev us))) with (sem C u2 seg2 (dv (rev us))) in S.
    destruct (pop_ctrl E2 s2) as [fr s3| |]; [|rewrite <- S; exact Q..]. rewrite <- S. exact Q.
  - apply (body_stuck (under C lb) HM). exact P.
  - apply (body_stuck (under C lb) HM). exact P.
Qed.

Lemma plain_block i b es k (chk : V unit) (Q : Prop) l E E2 X s u seg below : runs_ok es -> map snd l = flatten es -> nz l -> envok E C -> envok E2 C ->
  is_if k = false ->
  (forall a c, typi C X i a c <-> exists ts us, block_type C b = Some (ts, us) /\ Q /\ body_ok (under C (match k with FLoop => ts | _ => us end)) X es ts us /\
     a = dv (rev ts) /\ c = dv (rev us)) ->
  (forall s u seg below, inst C X s u seg below -> match chk s with VOk _ s' => opsrel s s' /\ view s' u seg below /\ Q | _ => ~ Q end) ->
  inst C X s u seg below ->
  match ((let! bb := check_block_type E b in let! ps := params E bb in pops E ps ;; chk ;; push_ctrl E k bb) ;; rn l ;; visit_end E2) s with
  | VOk _ s' => exists u' seg', inst C X s' u' seg' below /\ kept s s' /\ stepped C (typi C X i) u seg u' seg'
  | _ => stuck C (typi C X i) u seg
  end.
Proof.
  intros Hes Hl Hn HE HE2 Hk T Hchk In. unfold visit_end, vbind.
  destruct (look_block E C HM HE b) as (o & Lo & Ho). specialize (Lo s (inst_shared _ _ _ _ _ _ In)).
  destruct (check_block_type E b s) as [bb s'| |].
  2,3: rewrite Lo in Ho; intros a c H; apply T in H; destruct H as (ts & us & H & _); congruence.
  destruct Lo as [-> ->]. destruct Ho as (ts & us & Hb & Hp & Hr).
  pose proof (look_params E C HE bb s (inst_shared _ _ _ _ _ _ In)) as P. destruct (params E bb s) as [ts' s'| |]; [|congruence..].
  destruct P as [-> P]. rewrite Hp in P. injection P as <-.
  pose proof (pops_ok E C HM (eo_res _ _ HE) ts s u seg below (in_view _ _ _ _ _ _ In)) as P.
  destruct (pops E ts s) as [[] s1| |].
  2,3: intros a c H Hf; apply T in H; destruct H as (ts' & us' & H & _ & _ & -> & _); rewrite Hb in H; injection H as <- <-; exact (P Hf).
  destruct P as (O & Hf & V1). pose proof (inst_ops _ _ _ _ _ _ _ _ In O V1) as In1.
  specialize (Hchk s1 u _ below In1). destruct (chk s1) as [[] s2| |].
  2,3: intros a c H _; apply T in H; destruct H as (ts' & us' & _ & H & _); exact (Hchk H).
  destruct Hchk as (O2 & V2 & HQ). pose proof (inst_ops _ _ _ _ _ _ _ _ In1 O2 V2) as In2.
  assert (Hlb : flabel C bb k = Some (match k with FLoop => ts | _ => us end)) by (destruct k; assumption).
  pose proof (inner_ok es l E E2 X s2 u _ below k bb ts us _ Hes Hl Hn HE HE2 In2 Hp Hr Hlb) as P. unfold vbind in P.
  assert (Bad : ~ body_ok (under C (match k with FLoop => ts | _ => us end)) X es ts us -> stuck C (typi C X i) u seg).
  { intros Hno a c H _. apply T in H. destruct H as (ts' & us' & H & _ & K & _). rewrite Hb in H. injection H as <- <-. exact (Hno K). }
  destruct (push_ctrl E k bb s2) as [[] s3| |]; [|exact (Bad P)..].
  destruct (rn l s3) as [[] s4| |]; [|exact (Bad P)..]. destruct (pop_ctrl E2 s4) as [fr s5| |]; [|exact (Bad P)..].
  destruct P as (Hbody & Hfk & Hfb & In5 & Hc & Hi). rewrite Hfk, Hk. unfold vret at 1. cbv beta iota. rewrite Hfb.
  destruct (push_results E2 C HE2 X s2 s5 u _ below bb us In2 In5 Hc Hi Hr) as (s6 & Hs6 & In6 & K6). unfold vbind in Hs6. rewrite Hs6.
  exists u, (map Known (rev us) ++ skipn (List.length ts) seg). split; [exact In6|]. split.
  { eapply kept_trans; [eapply kept_ops; [exact In|exact O]|]. eapply kept_trans; [eapply kept_ops; [exact In1|exact O2]|exact K6]. }
  pose proof (stepped_fixed C HM (typi C X i) u seg (dv (rev ts)) (rev us)) as St. rewrite map_length, rev_length in St. apply St; [|exact Hf].
  intros a c. rewrite T. split; [intros (ts' & us' & H & _ & _ & -> & ->); rewrite Hb in H; injection H as <- <-; auto|].
  intros [-> ->]. exists ts, us. auto.
Qed.

(** Both arms of an [if]. *)
Lemma if_block b es els l l2 E E1 E2 X s u seg below :
  runs_ok es -> runs_ok (match els with Some es => es | None => [] end) -> map snd l = flatten es -> nz l ->
  match els with Some es => exists a l', l2 = (a, Op_Else) :: l' /\ E1 = mkEnv R F a /\ map snd l' = flatten es /\ nz l' | None => l2 = [] end ->
  envok E C -> envok E1 C -> envok E2 C -> inst C X s u seg below ->
  match (visit_if E b ;; rn l ;; rn l2 ;; visit_end E2) s with
  | VOk _ s' => exists u' seg', inst C X s' u' seg' below /\ kept s s' /\ stepped C (typi C X (IIf b es els)) u seg u' seg'
  | _ => stuck C (typi C X (IIf b es els)) u seg
  end.
Proof.
  intros Hes Hels Hl Hn Hl2 HE HE1 HE2 In. set (es2 := match els with Some es => es | None => [] end) in *.
  assert (T : forall a c, typi C X (IIf b es els) a c <-> exists ts us, block_type C b = Some (ts, us) /\ body_ok (under C us) X es ts us /\
     body_ok (under C us) X es2 ts us /\ a = dv (rev (ts ++ [VI32])) /\ c = dv (rev us)).
  { intros a c. split.
    - intros (xs & H). inversion H; subst. rev_eqs. eexists _, _. split; [eassumption|]. split; [eexists; eassumption|]. split; [eexists; eassumption|].
      rewrite rev_app_distr. cbn [rev app map]. rewrite !map_rev. auto.
    - intros (ts & us & H1 & (xs & H2) & (ys & H3) & -> & ->). exists []. rewrite !map_rev, !rev_involutive, map_app. cbn [map]. eapply ok_if; eassumption. }
  unfold visit_if, visit_end, vbind.
  destruct (look_block E C HM HE b) as (o & Lo & Ho). specialize (Lo s (inst_shared _ _ _ _ _ _ In)).
  destruct (check_block_type E b s) as [bb s'| |].
  2,3: rewrite Lo in Ho; intros a c H; apply T in H; destruct H as (ts & us & H & _); congruence.
  destruct Lo as [-> ->]. destruct Ho as (ts & us & Hb & Hp & Hr).
  assert (T' : forall a c, typi C X (IIf b es els) a c <-> body_ok (under C us) X es ts us /\ body_ok (under C us) X es2 ts us /\ a = dv (rev (ts ++ [VI32])) /\ c = dv (rev us)).
  { intros a c. rewrite T. split; [intros (ts' & us' & H & K); rewrite Hb in H; injection H as <- <-; exact K|intros K; exists ts, us; auto]. }
  pose proof (pops_ok E C HM (eo_res _ _ HE) (ts ++ [VI32]) s u seg below (in_view _ _ _ _ _ _ In)) as P.
  rewrite pops_app in P. unfold vbind in P. rewrite pops_one in P.
  assert (Nf : ~ fits C u seg (dv (rev (ts ++ [VI32]))) -> stuck C (typi C X (IIf b es els)) u seg).
  { intros Hno a c H Hf. apply T' in H. destruct H as (_ & _ & -> & _). exact (Hno Hf). }
  destruct (pop E VI32 s) as [[] s0| |] eqn:Ep; [|exact (Nf P)..].
  pose proof (look_params E C HE bb s0 (keeps_opnd C _ (opnd_pop E VI32) s tt s0 (inst_shared _ _ _ _ _ _ In) Ep)) as Q.
  destruct (params E bb s0) as [ts' s'| |]; [|congruence..]. destruct Q as [-> Q]. rewrite Hp in Q. injection Q as <-.
  destruct (pops E ts s0) as [[] s1| |]; [|exact (Nf P)..]. destruct P as (O & Hf & V1). pose proof (inst_ops _ _ _ _ _ _ _ _ In O V1) as In1.
  assert (Hlb : forall k, k = FIf \/ k = FElse -> flabel C bb k = Some us) by (intros k [->| ->]; exact Hr).
  pose proof (inner_ok es l E (match els with Some _ => E1 | None => E2 end) X s1 u (skipn (List.length (ts ++ [VI32])) seg) below FIf bb ts us us Hes Hl Hn HE) as P.
  assert (HE12 : envok (match els with Some _ => E1 | None => E2 end) C) by (destruct els; assumption).
  specialize (P HE12 In1 Hp Hr (Hlb _ (or_introl eq_refl))). unfold vbind in P.
  assert (Bad : ~ body_ok (under C us) X es ts us -> stuck C (typi C X (IIf b es els)) u seg).
  { intros Hno a c H _. apply T' in H. tauto. }
  assert (Bad2 : ~ body_ok (under C us) X es2 ts us -> stuck C (typi C X (IIf b es els)) u seg).
  { intros Hno a c H _. apply T' in H. tauto. }
  destruct (push_ctrl E FIf bb s1) as [[] s3| |]; [|exact (Bad P)..].
  destruct (rn l s3) as [[] s4| |]; [|exact (Bad P)..].
  (* what remains after both arms *)
  assert (Fin : forall s5 s8 r, inst C X s5 u (skipn (List.length (ts ++ [VI32])) seg) below -> vs_control s5 = vs_control s1 -> vs_inits s5 = vs_inits s1 ->
     inst C X s8 u (skipn (List.length (ts ++ [VI32])) seg) below -> vs_control s8 = vs_control s5 -> vs_inits s8 = vs_inits s5 ->
     body_ok (under C us) X es ts us -> body_ok (under C us) X es2 ts us ->
     r = (let! ts := results E2 bb in pushes ts ;; let! c := vget vs_control in match c with [] => if e_at E2 =? 0 then vpanic else vret tt | _ => vret tt end) s8 ->
     match r with VOk _ s' => exists u' seg', inst C X s' u' seg' below /\ kept s s' /\ stepped C (typi C X (IIf b es els)) u seg u' seg' | _ => stuck C (typi C X (IIf b es els)) u seg end).
  { intros s5 s8 r In5 Hc5 Hi5 In8 Hc8 Hi8 B1 B2 ->.
    destruct (push_results E2 C HE2 X s5 s8 u _ below bb us In5 In8 Hc8 Hi8 Hr) as (s9 & -> & In9 & K9).
    exists u, (map Known (rev us) ++ skipn (List.length (ts ++ [VI32])) seg). split; [exact In9|]. split.
    { eapply kept_trans; [eapply kept_ops; [exact In|exact O]|]. eapply kept_trans; [eapply (kept_back C); [exact In1|exact Hc5|exact Hi5]|exact K9]. }
    pose proof (stepped_fixed C HM (typi C X (IIf b es els)) u seg (dv (rev (ts ++ [VI32]))) (rev us)) as St. rewrite map_length, rev_length in St. apply St; [|exact Hf].
    intros a c. rewrite T'. tauto. }
  destruct els as [es'|].
  - destruct Hl2 as (a & l' & -> & -> & Hl' & Hn'). cbn [run]. unfold op, visit, visit_else, vbind. cbn [gate visit_op]. unfold visit_else, vbind, vret at 1.
    destruct (pop_ctrl (mkEnv R F a) s4) as [fr s5| |]; [|exact (Bad P)..]. destruct P as (B1 & Hfk & Hfb & In5 & Hc5 & Hi5). rewrite Hfb.
    pose proof (inner_ok es2 l' (mkEnv R F a) E2 X s5 u _ below FElse bb ts us us Hels Hl' Hn' HE1 HE2 In5 Hp Hr (Hlb _ (or_intror eq_refl))) as P. unfold vbind in P.
    destruct (push_ctrl (mkEnv R F a) FElse bb s5) as [[] s6| |]; [|exact (Bad2 P)..].
    destruct (rn l' s6) as [[] s7| |]; [|exact (Bad2 P)..]. destruct (pop_ctrl E2 s7) as [fr2 s8| |]; [|exact (Bad2 P)..].
    destruct P as (B2 & Hfk2 & Hfb2 & In8 & Hc8 & Hi8). rewrite Hfk2. cbn [is_if]. unfold vret at 1. cbv beta iota. rewrite Hfb2. exact (Fin s5 s8 _ In5 Hc5 Hi5 In8 Hc8 Hi8 B1 B2 eq_refl).
  - subst l2. cbn [run]. unfold vret at 1.
    destruct (pop_ctrl E2 s4) as [fr s5| |]; [|exact (Bad P)..]. destruct P as (B1 & Hfk & Hfb & In5 & Hc5 & Hi5). rewrite Hfk, Hfb. cbn [is_if].
    pose proof (inner_ok es2 [] E2 E2 X s5 u _ below FElse bb ts us us Hels eq_refl (Forall_nil _) HE2 HE2 In5 Hp Hr (Hlb _ (or_intror eq_refl))) as P. unfold vbind in P.
    destruct (push_ctrl E2 FElse bb s5) as [[] s6| |]; [|exact (Bad2 P)..]. cbn [run] in P. unfold vret at 1 in P.
    destruct (pop_ctrl E2 s6) as [fr2 s8| |]; [|exact (Bad2 P)..].
    destruct P as (B2 & Hfk2 & Hfb2 & In8 & Hc8 & Hi8). rewrite Hfb2. exact (Fin s5 s8 _ In5 Hc5 Hi5 In8 Hc8 Hi8 B1 B2 eq_refl).
Qed.

(** The rules of the other blocks. *)
Lemma typ_block X b es a c : typi C X (IBlock b es) a c <-> exists ts us, block_type C b = Some (ts, us) /\ True /\ body_ok (under C us) X es ts us /\ a = dv (rev ts) /\ c = dv (rev us).
Proof.
  split.
  - intros (xs & H). inversion H; subst. rev_eqs. eexists _, _. split; [eassumption|]. split; [exact I|]. split; [eexists; eassumption|]. rewrite !map_rev. auto.
  - intros (ts & us & H1 & _ & (xs & H2) & -> & ->). exists []. rewrite !map_rev, !rev_involutive. eapply ok_block; eassumption.
Qed.
Lemma typ_loop X b es a c : typi C X (ILoop b es) a c <-> exists ts us, block_type C b = Some (ts, us) /\ True /\ body_ok (under C ts) X es ts us /\ a = dv (rev ts) /\ c = dv (rev us).
Proof.
  split.
  - intros (xs & H). inversion H; subst. rev_eqs. eexists _, _. split; [eassumption|]. split; [exact I|]. split; [eexists; eassumption|]. rewrite !map_rev. auto.
  - intros (ts & us & H1 & _ & (xs & H2) & -> & ->). exists []. rewrite !map_rev, !rev_involutive. eapply ok_loop; eassumption.
Qed.
Lemma typ_try_table X t es a c : typi C X (ITryTable t es) a c <-> exists ts us, block_type C (pt_ty t) = Some (ts, us) /\ Forall (catch_ok C) (pt_catches t) /\
  body_ok (under C us) X es ts us /\ a = dv (rev ts) /\ c = dv (rev us).
Proof.
  split.
  - intros (xs & H). inversion H; subst. rev_eqs. eexists _, _. split; [eassumption|]. split; [assumption|]. split; [eexists; eassumption|]. rewrite !map_rev. auto.
  - intros (ts & us & H1 & H & (xs & H2) & -> & ->). exists []. rewrite !map_rev, !rev_involutive. eapply ok_try_table; eassumption.
Qed.
Definition ok_runi X i s u seg below (r : vres unit) : Prop :=
  match r with
  | VOk _ s' => exists u' seg', inst C (sets i ++ X) s' u' seg' below /\ kept s s' /\ stepped C (typi C X i) u seg u' seg'
  | _ => stuck C (typi C X i) u seg
  end.
Lemma visit_free E o : gate o = None -> forall s, visit E o s = visit_op E o s.
Proof. intros H s. unfold visit. rewrite H. reflexivity. Qed.
Lemma run_i i l X s u seg below : (forall es, (List.length (flatten es) < List.length (flatten_i i))%nat -> covered_es es = true -> runs_ok es) ->
  covered_i i = true -> map snd l = flatten_i i -> nz l -> inst C X s u seg below -> ok_runi X i s u seg below (rn l s).
Proof.
  intros IH Hc Hl Hn In. destruct i as [o|b es|b es|b es els|t es].
  - cbn [flatten_i] in Hl. destruct l as [|[a o'] [|]]; try discriminate. injection Hl as ->. inversion Hn as [|? ? Ha _]; subst. cbn [fst] in Ha.
    cbn [run]. unfold vbind, op. pose proof (op_step (mkEnv R F a) C HM (HR a Ha) X o s u seg below Hc In) as P. unfold ok_step in P. unfold ok_runi.
    destruct (visit (mkEnv R F a) o s) as [[] s'| |]; exact P.
  - change (flatten_i (IBlock b es)) with (Op_Block b :: flatten es ++ [Op_End]) in *.
    destruct l as [|[a o] l]; [discriminate|]. cbn [map snd] in Hl. injection Hl as -> Hl. apply map_eq_app in Hl. destruct Hl as (l1 & l2 & -> & Hl1 & Hl2).
    destruct l2 as [|[a2 o2] [|]]; try discriminate. injection Hl2 as ->. inversion Hn as [|? ? Ha Hn']; subst. apply Forall_app in Hn'. destruct Hn' as [Hn1 Hn2]. inversion Hn2 as [|? ? Ha2 _]; subst. cbn [fst] in *.
    assert (Hes : runs_ok es) by (apply IH; [cbn [List.length]; rewrite app_length; cbn [List.length]; lia|exact Hc]).
    pose proof (plain_block (IBlock b es) b es FBlock (vret tt) True l1 (mkEnv R F a) (mkEnv R F a2) X s u seg below Hes Hl1 Hn1 (HR a Ha) (HR a2 Ha2) eq_refl (typ_block X b es)) as P.
    assert (K : forall s u seg below, inst C X s u seg below -> match vret tt s with VOk _ s' => opsrel s s' /\ view s' u seg below /\ True | _ => ~ True end)
      by (intros; cbn; split; [apply opsrel_refl|split; [eapply in_view; eassumption|exact I]]).
    specialize (P K In). cbn [run]. unfold vbind at 1. unfold op at 1. rewrite visit_free by reflexivity. cbn [visit_op]. unfold visit_block, visit_block_kind. unfold ok_runi. cbn [sets app].
    unfold vbind in P |- *. destruct (check_block_type (mkEnv R F a) b s) as [bb s0| |]; [|exact P..]. destruct (params (mkEnv R F a) bb s0) as [ps s1| |]; [|exact P..].
    destruct (pops (mkEnv R F a) ps s1) as [[] s2| |]; [|exact P..]. unfold vret at 1 in P. destruct (push_ctrl (mkEnv R F a) FBlock bb s2) as [[] s3| |]; [|exact P..].
    rewrite run_app. unfold vbind. destruct (rn l1 s3) as [[] s4| |]; [|exact P..]. cbn [run]. unfold vbind at 1, op at 1. rewrite visit_free by reflexivity. cbn [visit_op].
    destruct (visit_end (mkEnv R F a2) s4) as [[] s5| |]; exact P.
  - change (flatten_i (ILoop b es)) with (Op_Loop b :: flatten es ++ [Op_End]) in *.
    destruct l as [|[a o] l]; [discriminate|]. cbn [map snd] in Hl. injection Hl as -> Hl. apply map_eq_app in Hl. destruct Hl as (l1 & l2 & -> & Hl1 & Hl2).
    destruct l2 as [|[a2 o2] [|]]; try discriminate. injection Hl2 as ->. inversion Hn as [|? ? Ha Hn']; subst. apply Forall_app in Hn'. destruct Hn' as [Hn1 Hn2]. inversion Hn2 as [|? ? Ha2 _]; subst. cbn [fst] in *.
    assert (Hes : runs_ok es) by (apply IH; [cbn [List.length]; rewrite app_length; cbn [List.length]; lia|exact Hc]).
    pose proof (plain_block (ILoop b es) b es FLoop (vret tt) True l1 (mkEnv R F a) (mkEnv R F a2) X s u seg below Hes Hl1 Hn1 (HR a Ha) (HR a2 Ha2) eq_refl (typ_loop X b es)) as P.
    assert (K : forall s u seg below, inst C X s u seg below -> match vret tt s with VOk _ s' => opsrel s s' /\ view s' u seg below /\ True | _ => ~ True end)
      by (intros; cbn; split; [apply opsrel_refl|split; [eapply in_view; eassumption|exact I]]).
    specialize (P K In). cbn [run]. unfold vbind at 1. unfold op at 1. rewrite visit_free by reflexivity. cbn [visit_op]. unfold visit_loop, visit_block_kind. unfold ok_runi. cbn [sets app].
    unfold vbind in P |- *. destruct (check_block_type (mkEnv R F a) b s) as [bb s0| |]; [|exact P..]. destruct (params (mkEnv R F a) bb s0) as [ps s1| |]; [|exact P..].
    destruct (pops (mkEnv R F a) ps s1) as [[] s2| |]; [|exact P..]. unfold vret at 1 in P. destruct (push_ctrl (mkEnv R F a) FLoop bb s2) as [[] s3| |]; [|exact P..].
    rewrite run_app. unfold vbind. destruct (rn l1 s3) as [[] s4| |]; [|exact P..]. cbn [run]. unfold vbind at 1, op at 1. rewrite visit_free by reflexivity. cbn [visit_op].
    destruct (visit_end (mkEnv R F a2) s4) as [[] s5| |]; exact P.
  - change (flatten_i (IIf b es els)) with (Op_If b :: flatten es ++ match els with Some l => Op_Else :: flatten l | None => [] end ++ [Op_End]) in *.
    destruct l as [|[a o] l]; [discriminate|]. cbn [map snd] in Hl. injection Hl as -> Hl. apply map_eq_app in Hl. destruct Hl as (l1 & l2 & -> & Hl1 & Hl2).
    apply map_eq_app in Hl2. destruct Hl2 as (l3 & l4 & -> & Hl3 & Hl4).
    destruct l4 as [|[a2 o2] [|]]; try discriminate. injection Hl4 as ->. inversion Hn as [|? ? Ha Hn']; subst. apply Forall_app in Hn'. destruct Hn' as [Hn1 Hn2].
    apply Forall_app in Hn2. destruct Hn2 as [Hn3 Hn4]. inversion Hn4 as [|? ? Ha2 _]; subst. cbn [fst] in *.
    assert (Hc' : covered_es es = true /\ covered_es (match els with Some es => es | None => [] end) = true).
    { cbn [covered_i] in Hc. apply andb_prop in Hc. destruct Hc as [Hc1 Hc2]. split; [exact Hc1|]. destruct els; [exact Hc2|reflexivity]. }
    assert (Hes : runs_ok es) by (apply IH; [cbn [List.length]; rewrite app_length; cbn [List.length]; lia|apply Hc']).
    assert (Hels : runs_ok (match els with Some es => es | None => [] end)).
    { apply IH; [|apply Hc']. destruct els; cbn [List.length flatten]; rewrite !app_length; cbn [List.length app]; lia. }
    set (E1 := mkEnv R F (match l3 with (a, _) :: _ => a | [] => a2 end)).
    assert (HE1 : envok E1 C) by (apply HR; destruct l3 as [|[a3 o3] l3]; [exact Ha2|inversion Hn3; assumption]).
    assert (Hl3' : match els with Some es => exists a l', l3 = (a, Op_Else) :: l' /\ E1 = mkEnv R F a /\ map snd l' = flatten es /\ nz l' | None => l3 = [] end).
    { destruct els as [es'|]; [|destruct l3; [reflexivity|discriminate]]. destruct l3 as [|[a3 o3] l3]; [discriminate|]. injection Hl3 as -> Hl3.
      exists a3, l3. split; [reflexivity|]. split; [reflexivity|]. split; [exact Hl3|]. inversion Hn3; assumption. }
    pose proof (if_block b es els l1 l3 (mkEnv R F a) E1 (mkEnv R F a2) X s u seg below Hes Hels Hl1 Hn1 Hl3' (HR a Ha) HE1 (HR a2 Ha2) In) as P.
    cbn [run]. unfold vbind at 1. unfold op at 1. rewrite visit_free by reflexivity. cbn [visit_op]. unfold ok_runi. cbn [sets app].
    unfold vbind in P |- *. destruct (visit_if (mkEnv R F a) b s) as [[] s0| |]; [|exact P..]. rewrite run_app. unfold vbind. destruct (rn l1 s0) as [[] s1| |]; [|exact P..].
    rewrite run_app. unfold vbind. destruct (rn l3 s1) as [[] s2| |]; [|exact P..]. cbn [run]. unfold vbind at 1, op at 1. rewrite visit_free by reflexivity. cbn [visit_op].
    destruct (visit_end (mkEnv R F a2) s2) as [[] s5| |]; exact P.
  - change (flatten_i (ITryTable t es)) with (Op_TryTable t :: flatten es ++ [Op_End]) in *.
    destruct l as [|[a o] l]; [discriminate|]. cbn [map snd] in Hl. injection Hl as -> Hl. apply map_eq_app in Hl. destruct Hl as (l1 & l2 & -> & Hl1 & Hl2).
    destruct l2 as [|[a2 o2] [|]]; try discriminate. injection Hl2 as ->. inversion Hn as [|? ? Ha Hn']; subst. apply Forall_app in Hn'. destruct Hn' as [Hn1 Hn2]. inversion Hn2 as [|? ? Ha2 _]; subst. cbn [fst] in *.
    assert (Hes : runs_ok es) by (apply IH; [cbn [List.length]; rewrite app_length; cbn [List.length]; lia|exact Hc]).
    pose proof (plain_block (ITryTable t es) (pt_ty t) es FTryTable (vall (check_catch (mkEnv R F a)) (pt_catches t)) _ l1 (mkEnv R F a) (mkEnv R F a2) X s u seg below Hes Hl1 Hn1 (HR a Ha) (HR a2 Ha2) eq_refl (typ_try_table X t es)) as P.
    specialize (P (fun s u seg below => catches_ok (mkEnv R F a) C HM (HR a Ha) X (pt_catches t) s u seg below) In).
    cbn [run]. unfold vbind at 1. unfold op at 1, visit. cbn [gate visit_op]. unfold vbind at 1. rewrite (req _ C (HR a Ha)) by discriminate. unfold visit_try_table. unfold ok_runi. cbn [sets app].
    unfold vbind in P |- *. destruct (check_block_type (mkEnv R F a) (pt_ty t) s) as [bb s0| |]; [|exact P..]. destruct (params (mkEnv R F a) bb s0) as [ps s1| |]; [|exact P..].
    destruct (pops (mkEnv R F a) ps s1) as [[] s2| |]; [|exact P..]. destruct (vall (check_catch (mkEnv R F a)) (pt_catches t) s2) as [[] s2'| |]; [|exact P..]. destruct (push_ctrl (mkEnv R F a) FTryTable bb s2') as [[] s3| |]; [|exact P..].
    rewrite run_app. unfold vbind. destruct (rn l1 s3) as [[] s4| |]; [|exact P..]. cbn [run]. unfold vbind at 1, op at 1. rewrite visit_free by reflexivity. cbn [visit_op].
    destruct (visit_end (mkEnv R F a2) s4) as [[] s5| |]; exact P.
Qed.
Lemma flatten_i_pos i : (0 < List.length (flatten_i i))%nat.
Proof. destruct i; cbn [flatten_i List.length]; lia. Qed.
Lemma run_seq i es : (forall l X s u seg below, map snd l = flatten_i i -> nz l -> inst C X s u seg below -> ok_runi X i s u seg below (rn l s)) -> runs_ok es ->
  forall X l s u seg below, map snd l = flatten (i :: es) -> nz l -> inst C X s u seg below -> ok_run C (rsteps C X (i :: es)) (sets_es (i :: es) ++ X) s u seg below (rn l s).
Proof.
  intros Hi Hes X l s u seg below Hl Hn In. cbn [flatten] in Hl. apply map_eq_app in Hl. destruct Hl as (l1 & l2 & -> & Hl1 & Hl2).
  apply Forall_app in Hn. destruct Hn as [Hn1 Hn2]. rewrite run_app. unfold vbind.
  specialize (Hi l1 X s u seg below Hl1 Hn1 In). destruct (rn l1 s) as [[] s1| |]; cbn [ok_runi] in Hi.
  2,3: intros ts us K (vs & H & _); rewrite <- (rev_involutive vs) in H; exact (stuck_ronei C HM _ _ _ _ Hi ts (rev vs) K H).
  destruct Hi as (u1 & seg1 & In1 & K1 & St). pose proof (stepped_ronei C HM _ _ _ _ _ _ St) as S1.
  specialize (Hes C (sets i ++ X) l2 s1 u1 seg1 below HM HR Hl2 Hn2 In1). destruct (rn l2 s1) as [[] s2| |]; cbn [ok_run] in Hes |- *.
  - destruct Hes as (u2 & seg2 & In2 & K2 & S2). exists u2, seg2. split.
    { eapply inst_set; [|exact In2]. intros z. unfold sets_es. cbn [flat_map]. rewrite !in_app_iff. tauto. }
    split; [eapply kept_trans; eassumption|]. intros us. rewrite S2. split.
    + intros (vs & V & P). apply S1 in V. destruct V as (ts & T & O). exists ts. split; [exact T|]. exists (rev vs). split; [exact O|exact P].
    + intros (ts & T & vs & O & P). exists (rev vs). unfold rsteps. rewrite rev_involutive. split; [|exact P]. apply S1. exists ts. split; [exact T|]. unfold rone. rewrite rev_involutive. exact O.
  - intros ts us T (vs & O & P). apply (Hes (rev vs) us); [|unfold rsteps; rewrite rev_involutive; exact P]. apply S1. exists ts. split; [exact T|]. unfold rone. rewrite rev_involutive. exact O.
  - intros ts us T (vs & O & P). apply (Hes (rev vs) us); [|unfold rsteps; rewrite rev_involutive; exact P]. apply S1. exists ts. split; [exact T|]. unfold rone. rewrite rev_involutive. exact O.
Qed.
End Context.

Theorem run_ok : forall es, covered_es es = true -> runs_ok es.
Proof.
  intros es. remember (List.length (flatten es)) as n eqn:Hn. revert es Hn. induction n as [n IH] using lt_wf_ind. intros es -> Hc C X l s u seg below HM HR Hl Hnz In.
  destruct es as [|i es].
  - destruct l; [|discriminate]. cbn [run]. unfold vret. cbn [ok_run]. exists u, seg. split; [exact In|]. split; [eapply kept_refl; exact In|]. intros us. unfold rsteps. cbn [steps]. split.
    + intros S. exists us. split; [exact S|apply dsubs_refl, HM].
    + intros (ts & S & D). apply (sem_up C HM _ _ _ _ S). apply dsubs_rev. exact D.
  - cbn [covered_es forallb] in Hc. apply andb_prop in Hc. destruct Hc as [Hc1 Hc2]. pose proof (flatten_i_pos i) as Hp. apply (run_seq C HM HR); auto.
    + intros l' X' s' u' seg' below' Hl' Hn' In'. apply run_i; auto. intros es' He' Hc'. eapply IH; [|reflexivity|exact Hc']. cbn [flatten]. rewrite app_length. lia.
    + eapply IH; [|reflexivity|exact Hc2]. cbn [flatten]. rewrite app_length. lia.
Qed.
End Run.
