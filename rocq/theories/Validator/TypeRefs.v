(** Operators on references whose types depend on what they find. *)
From Verif.Base Require Import Prelude.
From Verif.Locals Require Import Model Proofs.
From Verif.Types Require Import RefModel CodecModel CanonModel.
From Verif.Instr Require Import ImmModel Ops.
From Verif.Validator Require Import State Checks Visit Undo Top Sig TypeSpec TypeBase TypeSem TypeLook TypeSig TypeSigs TypeInst TypeOps TypeOps2 TypeOps3.

Section Ops.
Variable E : env.
Variable C : ctx.
Hypothesis HM : res_ok (cx_mod C).
Hypothesis HE : envok E C.
Notation ok_step := (ok_step C).

(** Operators of which only the operands vary. *)
Lemma stepped_const (P : list dt -> list dt -> Prop) u seg k vs : (forall a b, P a b -> b = dv vs /\ List.length a = k) ->
  (exists a, P a (dv vs) /\ fits C u seg a) -> stepped C P u seg u (map Known vs ++ skipn k seg).
Proof.
  intros HP (a0 & Ha & Fa) us. rewrite sem_push. split.
  - intros (b & f & -> & K & L). apply mt_known in K. exists a0, (dv vs), f. split; [exact Ha|]. split; [exact Fa|].
    destruct (HP _ _ Ha) as [_ ->]. split; [exact L|]. apply dsubs_app; [exact K|apply dsubs_refl, HM].
  - intros (a & b & f & H & K & L & U). destruct (HP _ _ H) as [-> Hl]. rewrite Hl in L.
    apply Forall2_app_inv_l in U. destruct U as (b & g & U1 & U2 & ->).
    exists b, g. split; [reflexivity|]. split; [apply mt_known; exact U1|eapply sem_up; eassumption].
Qed.
(** Operators that change the topmost value. *)
Lemma stepped_top (P : list dt -> list dt -> Prop) (R : dt -> dt -> Prop) u seg m seg' m' l :
  (forall a b, P a b <-> exists t t', R t t' /\ a = t :: dv (rev l) /\ b = t' :: dv (rev l)) ->
  top u seg = Some (m, seg') -> fits C u seg' (dv (rev l)) ->
  (forall t'', mt C m' t'' <-> exists t t', R t t' /\ mt C m t /\ dsub C t' t'') ->
  stepped C P u seg u (m' :: map Known (rev l) ++ skipn (List.length l) seg').
Proof.
  intros HP Ht F HR us. split.
  - destruct us as [|t'' us]; [contradiction|]. intros [M S]. apply HR in M. destruct M as (t & t' & Hr & M & D).
    apply sem_push in S. destruct S as (b & f & -> & K & L). apply mt_known in K.
    exists (t :: dv (rev l)), (t' :: dv (rev l)), f. split; [apply HP; eauto|]. split; [apply fits_top; exists m, seg'; auto|].
    cbn [List.length]. rewrite (skip_top _ _ _ _ _ Ht), map_length, rev_length. split; [exact L|]. constructor; [exact D|].
    apply dsubs_app; [exact K|apply dsubs_refl, HM].
  - intros (a & b & f & H & K & L & U). apply HP in H. destruct H as (t & t' & Hr & -> & ->). cbn [List.length] in L.
    rewrite (skip_top _ _ _ _ _ Ht), map_length, rev_length in L. apply fits_top in K. destruct K as (m0 & seg0 & K & M & _).
    rewrite Ht in K. injection K as <- <-. cbn [app] in U. inversion U as [|? t'' ? us' U1 U2]; subst. split; [apply HR; eauto|].
    apply sem_push. apply Forall2_app_inv_l in U2. destruct U2 as (c & g & U2 & U3 & ->). exists c, g. split; [reflexivity|].
    split; [apply mt_known; exact U2|eapply sem_up; eassumption].
Qed.

Lemma push_ok (v : val) s u seg below : view s u seg below ->
  exists s', push_operand v s = VOk tt s' /\ opsrel s s' /\ view s' u (Known v :: seg) below.
Proof. intros V. exact (push_maybe_ok (Known v) s u seg below V). Qed.

(** ** Popping a reference *)
Definition as_ref (m : maybe val) : option (maybe rf) :=
  match m with Bottom => Some (UnknownRef None) | UnknownRef t => Some (UnknownRef t) | Known (VRef r) => Some (Known r) | Known _ => None end.
Lemma pop_ref_any s u seg below : view s u seg below ->
  match pop_ref E None s with
  | VOk x s' => exists m seg', top u seg = Some (m, seg') /\ as_ref m = Some x /\ opsrel s s' /\ view s' u seg' below
  | _ => forall m seg', top u seg = Some (m, seg') -> as_ref m = None
  end.
Proof.
  intros V. unfold pop_ref, vbind. pose proof (pop_top E C HM HE None s u seg below V) as P.
  destruct (pop_operand E None s) as [m s'| |]; [|intros m seg' H; elim (P _ _ H); exact I..].
  destruct P as (seg' & H & _ & O & V'). destruct m as [|t|[| | | | |r]]; try solve [eexists _, seg'; split; [exact H|]; auto];
    intros m seg2 K; rewrite H in K; injection K as <- <-; reflexivity.
Qed.
Lemma not_ref m t : as_ref m = None -> mt C m t -> match t with DVal (VRef _) | DRefBot | DUnk _ => False | _ => True end.
Proof.
  intros H M. unfold mt in M. destruct m as [| |v]; try discriminate. cbn [least] in M. destruct t as [| | |w]; cbn in *; auto.
  destruct w; auto. destruct (sub_to_ref C HM _ _ M) as [x ->]. discriminate.
Qed.
Lemma ref_some m x : as_ref m = Some x -> exists r, mt C m (DVal (VRef r)).
Proof.
  unfold mt. destruct m as [|[a|]|v]; cbn [as_ref least]; intros H.
  - exists (abs true true Any). exact I.
  - exists (abs false true a). exists true. apply sub_refl, HM.
  - exists (abs true true Any). exact I.
  - destruct v as [| | | | |r]; try discriminate. exists r. apply sub_refl, HM.
Qed.
Lemma sub_nn a b : sub C (VRef a) (VRef b) = true -> sub C (VRef (rf_non_null a)) (VRef (rf_non_null b)) = true.
Proof. unfold sub. rewrite !(ro_ref _ HM). intros H. apply andb_prop in H. destruct H as [_ H]. cbn [rf_non_null rt_null rt_heap]. rewrite H. reflexivity. Qed.
Lemma sub_to_nn a b : rt_null a = false -> sub C (VRef a) (VRef b) = true -> sub C (VRef a) (VRef (rf_non_null b)) = true.
Proof. intros Ha. unfold sub. rewrite !(ro_ref _ HM), Ha. cbn [rf_non_null rt_null rt_heap]. auto. Qed.

Lemma is_null_step X s u seg below : inst C X s u seg below -> ok_step X Op_RefIsNull s u seg below (visit_op E Op_RefIsNull s).
Proof.
  intros In. cbn [visit_op]. unfold visit_ref_is_null, vbind.
  assert (T : forall a b, typ C X Op_RefIsNull a b <-> exists r, a = [DVal (VRef r)] /\ b = dv [VI32]).
  { intros a b. split; [typ_of; rev_eqs; eauto|]. intros (r & -> & ->). exists []. constructor. }
  pose proof (pop_ref_any s u seg below (in_view _ _ _ _ _ _ In)) as P.
  destruct (pop_ref E None s) as [x s1| |].
  2,3: intros a b H F; apply T in H; destruct H as (r & -> & ->); apply fits_top in F; destruct F as (m & seg' & F & M & _); exact (not_ref _ _ (P _ _ F) M).
  destruct P as (m & seg' & H & A & O & V). destruct (push_ok VI32 s1 u _ below V) as (s2 & -> & O2 & V2).
  cbn [TypeInst.ok_step sets app]. exists u, (Known VI32 :: seg').
  split; [eapply inst_ops; [eapply inst_ops; eassumption| |]; eassumption|]. split; [eapply kept_ops; [exact In|eapply opsrel_trans; eassumption]|].
  pose proof (stepped_const (typ C X Op_RefIsNull) u seg 1 [VI32]) as Q. rewrite (skip_top _ _ _ _ 0 H) in Q. apply Q.
  - intros a b K. apply T in K. destruct K as (r & -> & ->). auto.
  - destruct (ref_some _ _ A) as (r & M). exists [DVal (VRef r)]. split; [apply T; eauto|]. apply fits_top. exists m, seg'. auto using fits_nil.
Qed.

(** ** [ref.as_non_null], [br_on_null] *)
Definition nn (t t' : dt) : Prop :=
  (exists r, t = DVal (VRef r) /\ t' = DVal (VRef (rf_non_null r))) \/ ((t = DRefBot \/ exists a, t = DUnk a) /\ t' = t).
Lemma nn_sem m x t'' : as_ref m = Some x -> (mt C (maybe_val (maybe_non_null x)) t'' <-> exists t t', nn t t' /\ mt C m t /\ dsub C t' t'').
Proof.
  intros A. split.
  - intros M. destruct m as [|[a|]|[| | | | |r]]; try discriminate; injection A as <-; cbn [maybe_non_null maybe_val] in M; unfold mt in *; cbn [least] in *.
    + exists DRefBot, DRefBot. split; [right; auto|]. split; [exact I|exact M].
    + exists (DUnk a), (DUnk a). split; [right; eauto|]. split; [apply dsub_refl, HM|exact M].
    + exists DRefBot, DRefBot. split; [right; auto|]. split; [exact I|exact M].
    + exists (DVal (VRef r)), (DVal (VRef (rf_non_null r))). split; [left; eauto|]. split; [apply dsub_refl, HM|exact M].
  - intros (t & t' & N & M & D). eapply mt_up; [exact HM| |exact D]. clear D. destruct N as [(r & -> & ->)|[[->|[a ->]] ->]].
    + destruct m as [|[a|]|[| | | | |r0]]; try discriminate; injection A as <-; cbn [maybe_non_null maybe_val]; unfold mt in *; cbn [least] in *; try exact I.
      * destruct M as [sh M]. exists sh. apply sub_to_nn; [reflexivity|exact M].
      * apply sub_nn. exact M.
    + destruct m as [|[a|]|[| | | | |r0]]; try discriminate; injection A as <-; cbn [maybe_non_null maybe_val]; unfold mt in *; cbn [least dsub] in *; tauto.
    + destruct m as [|[a'|]|[| | | | |r0]]; try discriminate; injection A as <-; cbn [maybe_non_null maybe_val]; unfold mt in *; cbn [least dsub] in *; tauto.
Qed.
Lemma nn_ref m t t' : as_ref m = None -> nn t t' -> ~ mt C m t.
Proof. intros A N M. pose proof (not_ref _ _ A M) as K. destruct N as [(r & -> & _)|[[->|[a ->]] _]]; exact K. Qed.
Lemma as_non_null_step X s u seg below : inst C X s u seg below -> ok_step X Op_RefAsNonNull s u seg below (visit_op E Op_RefAsNonNull s).
Proof.
  intros In. cbn [visit_op]. unfold visit_ref_as_non_null, vbind.
  assert (T : forall a b, typ C X Op_RefAsNonNull a b <-> exists t t', nn t t' /\ a = t :: dv (rev []) /\ b = t' :: dv (rev [])).
  { intros a b. cbn [rev app map]. split.
    - typ_of; rev_eqs; [exists (DVal (VRef r)), (DVal (VRef (rf_non_null r))); split; [left; eauto|auto]|exists t, t; split; [right; auto|auto]].
    - intros (t & t' & [(r & -> & ->)|[N ->]] & -> & ->); exists []; cbn [rev app]; [apply ok_as_non_null|apply ok_as_non_null_bot; exact N]. }
  pose proof (pop_ref_any s u seg below (in_view _ _ _ _ _ _ In)) as P.
  destruct (pop_ref E None s) as [x s1| |].
  2,3: intros a b H F; apply T in H; destruct H as (t & t' & N & -> & ->); apply fits_top in F; destruct F as (m & seg' & F & M & _); exact (nn_ref _ _ _ (P _ _ F) N M).
  destruct P as (m & seg' & H & A & O & V). destruct (push_maybe_ok (maybe_val (maybe_non_null x)) s1 u _ below V) as (s2 & -> & O2 & V2).
  cbn [TypeInst.ok_step sets app]. exists u, (maybe_val (maybe_non_null x) :: seg').
  split; [eapply inst_ops; [eapply inst_ops; eassumption| |]; eassumption|]. split; [eapply kept_ops; [exact In|eapply opsrel_trans; eassumption]|].
  apply (stepped_top _ nn u seg m seg' _ [] T H (fits_nil _ _ _)). intros t''. apply nn_sem, A.
Qed.
Lemma br_on_null_step X d s u seg below : inst C X s u seg below -> ok_step X (Op_BrOnNull d) s u seg below (visit_op E (Op_BrOnNull d) s).
Proof.
  intros In. cbn [visit_op].
  assert (T : forall a b, typ C X (Op_BrOnNull d) a b <-> exists l t t', label C d = Some l /\ nn t t' /\ a = t :: dv (rev l) /\ b = t' :: dv (rev l)).
  { intros a b. split.
    - typ_of; rev_eqs; exists l; [exists (DVal (VRef r)), (DVal (VRef (rf_non_null r)))|exists t, t]; (split; [assumption|]); rewrite map_rev; (split; [|auto]); [left; eauto|right; auto].
    - intros (l & t & t' & L & [(r & -> & ->)|[N ->]] & -> & ->); exists []; cbn [rev app]; rewrite map_rev, rev_involutive; [apply ok_br_on_null; exact L|apply ok_br_on_null_bot; auto]. }
  change (visit_br_on_null E d s) with ((let! t := pop_ref E None in at_label E d (fun ts => pop_push_label_types E ts ;; push_maybe (maybe_val (maybe_non_null t)))) s).
  unfold vbind at 1. pose proof (pop_ref_any s u seg below (in_view _ _ _ _ _ _ In)) as P.
  destruct (pop_ref E None s) as [x s1| |].
  2,3: intros a b H F; apply T in H; destruct H as (l & t & t' & _ & N & -> & ->); apply fits_top in F; destruct F as (m & seg' & F & M & _); exact (nn_ref _ _ _ (P _ _ F) N M).
  destruct P as (m & seg' & H & A & O & V). pose proof (inst_ops _ _ _ _ _ _ _ _ In O V) as In1.
  match goal with |- context [at_label E d ?k s1] => pose proof (at_label_ok E C HE X s1 u seg' below d k In1) as Q; destruct (label C d) as [l|] eqn:L end.
  2: { apply none_ok; [intros a b K; apply T in K; destruct K as (l & t & t' & K & _); discriminate|exact Q]. }
  rewrite Q. clear Q. unfold vbind. pose proof (by_sig_ok E C HM HE s1 u seg' below l l V) as Q. cbn [by_sig] in Q.
  change (pop_push_label_types E l) with (pops E l ;; pushes l).
  assert (T' : forall a b, typ C X (Op_BrOnNull d) a b <-> exists t t', nn t t' /\ a = t :: dv (rev l) /\ b = t' :: dv (rev l)).
  { intros a b. rewrite T. split; [intros (l' & t & t' & K & R); injection K as <-; eauto|intros (t & t' & R); eauto 6]. }
  destruct ((pops E l ;; pushes l) s1) as [[] s2| |].
  2,3: intros a b K F; apply T' in K; destruct K as (t & t' & N & -> & ->); apply fits_top in F; destruct F as (m' & seg2 & F & _ & G); rewrite H in F; injection F as <- <-; exact (Q G).
  destruct Q as (O2 & F2 & V2). destruct (push_maybe_ok (maybe_val (maybe_non_null x)) s2 u _ below V2) as (s3 & -> & O3 & V3).
  cbn [TypeInst.ok_step sets app]. eexists u, (maybe_val (maybe_non_null x) :: _).
  split; [eapply inst_ops; [eapply inst_ops; [exact In1|exact O2|exact V2]| |]; eassumption|].
  split; [eapply kept_ops; [exact In|eapply opsrel_trans; [exact O|eapply opsrel_trans; eassumption]]|].
  apply (stepped_top _ nn u seg m seg' _ l T' H F2). intros t''. apply nn_sem, A.
Qed.

(** ** References of any sharing *)
Definition accepts (A : aht) (m : maybe val) (sh : bool) : Prop := mt C m (DVal (VRef (abs true sh A))).
Lemma sub_shared r n sh A : sub C (VRef r) (VRef (abs n sh A)) = true -> ro_shared _ HM (rt_heap r) = sh.
Proof.
  unfold sub. rewrite (ro_ref _ HM). intros H. apply andb_prop in H. destruct H as [_ H]. apply (ro_shared_sub _ HM) in H. rewrite H. cbn [abs rt_heap]. apply (ro_shared_abs _ HM).
Qed.
Lemma sub_null r n sh A : sub C (VRef r) (VRef (abs true sh A)) = true -> implb (rt_null r) n = true -> sub C (VRef r) (VRef (abs n sh A)) = true.
Proof. unfold sub. rewrite !(ro_ref _ HM). intros H N. apply andb_prop in H. destruct H as [_ H]. cbn [abs rt_null rt_heap] in *. rewrite N, H. reflexivity. Qed.
Lemma sub_weak r n sh A : sub C (VRef r) (VRef (abs n sh A)) = true -> implb (rt_null r) n = true /\ sub C (VRef r) (VRef (abs true sh A)) = true.
Proof. unfold sub. rewrite !(ro_ref _ HM). intros H. apply andb_prop in H. destruct H as [N H]. cbn [abs rt_null rt_heap] in *. rewrite H. split; [exact N|]. destruct (rt_null r); reflexivity. Qed.
Lemma pop_shared_ok A s u seg below : view s u seg below ->
  match pop_maybe_shared_ref E A s with
  | VOk x s' => exists m seg', top u seg = Some (m, seg') /\ as_ref m = Some x /\ opsrel s s' /\ view s' u seg' below /\
     (forall sh, accepts A m sh <-> match is_maybe_shared E x with Some b => b = sh | None => True end) /\
     match m with UnknownRef (Some a) => aht_is_subtype a A = true | Known (VRef r) => sub C (VRef r) (VRef (abs true (r_is_shared (e_res E) r) A)) = true | _ => True end
  | _ => forall m seg', top u seg = Some (m, seg') -> (forall n sh, ~ mt C m (DVal (VRef (abs n sh A)))) /\ ~ mt C m (DUnk A)
  end.
Proof.
  intros V. unfold pop_maybe_shared_ref, vbind. pose proof (pop_ref_any s u seg below V) as P.
  destruct (pop_ref E None s) as [x s1| |].
  2,3: intros m seg' H; split; [intros n sh M|intros M]; exact (not_ref _ _ (P _ _ H) M).
  destruct P as (m & seg' & H & Ha & O & V1). destruct x as [|[a|]|r].
  - destruct m as [|[]|[]]; discriminate.
  - assert (m = UnknownRef (Some a)) by (destruct m as [|t|[]]; try discriminate; injection Ha as ->; reflexivity). subst m. unfold vcheck.
    destruct (aht_is_subtype a A) eqn:Hs; unfold vret.
    + exists (UnknownRef (Some a)), seg'. do 4 (split; [assumption || reflexivity|]). split; [|exact Hs]. cbn [is_maybe_shared]. intros sh. split; [auto|]. intros _.
      exists sh. unfold sub. rewrite (ro_ref _ HM). cbn [abs rt_null rt_heap implb andb]. rewrite (ro_abs _ HM), Hs. destruct sh; reflexivity.
    + cbn. intros m seg2 K. rewrite H in K. injection K as <- <-. split.
      * intros n sh [sh' M]. unfold sub in M. rewrite (ro_ref _ HM) in M. cbn [abs rt_null rt_heap implb andb] in M. rewrite (ro_abs _ HM), Hs in M. destruct (Bool.eqb sh' sh); discriminate.
      * unfold mt. cbn. congruence.
  - unfold vret. exists m, seg'. do 4 (split; [assumption|]). cbn [is_maybe_shared].
    destruct m as [|t|[]]; try discriminate; [|injection Ha as ->]; (split; [intros sh; split; [auto|intros _; exact I]|exact I]).
  - assert (m = Known (VRef r)) by (destruct m as [|t|[]]; try discriminate; injection Ha as ->; reflexivity). subst m. unfold vcheck, Checks.sub.
    rewrite (eo_res _ _ HE). change (r_is_subtype (cx_mod C)) with (sub C).
    destruct (sub C (VRef r) (VRef (abs true (r_is_shared (cx_mod C) r) A))) eqn:Hs; unfold vret.
    + exists (Known (VRef r)), seg'. do 4 (split; [assumption || reflexivity|]). cbn [is_maybe_shared]. rewrite (eo_res _ _ HE). split; [|exact Hs].
      intros sh. unfold accepts, mt. cbn [least dsub]. split; [|intros <-; exact Hs]. intros M. apply sub_shared in M. rewrite (ro_is_shared _ HM). exact M.
    + cbn. intros m seg2 K. rewrite H in K. injection K as <- <-. split; [|unfold mt; cbn; tauto].
      intros n sh M. unfold mt in M. cbn [least dsub] in M. pose proof (sub_shared _ _ _ _ M) as S. rewrite <- (ro_is_shared _ HM) in S. subst sh.
      apply sub_weak in M. destruct M. congruence.
Qed.
Lemma shared_step X o A s u seg below : (forall a b, typ C X o a b <-> exists sh, a = [DVal (VRef (abs true sh A))] /\ b = dv [VI32]) -> sets (IOp o) = [] ->
  inst C X s u seg below -> ok_step X o s u seg below ((pop_maybe_shared_ref E A ;; push_operand VI32) s).
Proof.
  intros T So In. unfold vbind. pose proof (pop_shared_ok A s u seg below (in_view _ _ _ _ _ _ In)) as P.
  destruct (pop_maybe_shared_ref E A s) as [x s1| |].
  2,3: intros a b H F; apply T in H; destruct H as (sh & -> & ->); apply fits_top in F; destruct F as (m & seg' & F & M & _); apply P in F; destruct F as [F _]; exact (F _ _ M).
  destruct P as (m & seg' & H & Ha & O & V & Hac & _). destruct (push_ok VI32 s1 u _ below V) as (s2 & -> & O2 & V2).
  cbn [TypeInst.ok_step]. rewrite So. exists u, (Known VI32 :: seg').
  split; [eapply inst_ops; [eapply inst_ops; eassumption| |]; eassumption|]. split; [eapply kept_ops; [exact In|eapply opsrel_trans; eassumption]|].
  pose proof (stepped_const (typ C X o) u seg 1 [VI32]) as Q. rewrite (skip_top _ _ _ _ 0 H) in Q. apply Q.
  - intros a b K. apply T in K. destruct K as (r & -> & ->). auto.
  - set (sh := match is_maybe_shared E x with Some b => b | None => true end).
    assert (M : accepts A m sh) by (apply Hac; unfold sh; destruct (is_maybe_shared E x); auto).
    exists [DVal (VRef (abs true sh A))]. split; [apply T; eauto|]. apply fits_top. exists m, seg'. auto using fits_nil.
Qed.
Lemma i31_get_step X o s u seg below : o = Op_I31GetS \/ o = Op_I31GetU -> inst C X s u seg below -> ok_step X o s u seg below (visit_op E o s).
Proof.
  intros Ho In. assert (K : ok_step X o s u seg below ((pop_maybe_shared_ref E I31 ;; push_operand VI32) s)); [|destruct Ho; subst o; exact K].
  apply shared_step; auto; [|destruct Ho; subst o; reflexivity]. intros a b. split.
  - destruct Ho; subst o; intros (xs & H); inversion H; subst; try no_sig; try contradiction; rev_eqs; eauto.
  - intros (sh & -> & ->). exists []. constructor. exact Ho.
Qed.
Lemma array_len_step X s u seg below : inst C X s u seg below -> ok_step X Op_ArrayLen s u seg below (visit_op E Op_ArrayLen s).
Proof.
  intros In. apply (shared_step X Op_ArrayLen Array); auto. intros a b. split; [typ_of; rev_eqs; eauto|]. intros (sh & -> & ->). exists []. constructor.
Qed.
Lemma ref_eq_step X s u seg below : inst C X s u seg below -> ok_step X Op_RefEq s u seg below (visit_op E Op_RefEq s).
Proof.
  intros In. cbn [visit_op]. unfold visit_ref_eq, vbind at 1.
  assert (T : forall a b, typ C X Op_RefEq a b <-> exists sh, a = [DVal (VRef (abs true sh Eq)); DVal (VRef (abs true sh Eq))] /\ b = dv [VI32]).
  { intros a b. split; [typ_of; rev_eqs; eauto|]. intros (sh & -> & ->). exists []. constructor. }
  pose proof (pop_shared_ok Eq s u seg below (in_view _ _ _ _ _ _ In)) as P.
  destruct (pop_maybe_shared_ref E Eq s) as [x s1| |].
  2,3: intros a b H F; apply T in H; destruct H as (sh & -> & ->); apply fits_top in F; destruct F as (m & seg' & F & M & _); apply P in F; destruct F as [F _]; exact (F _ _ M).
  destruct P as (m & seg' & H & Ha & O & V & Hac & _). unfold vbind at 1. pose proof (pop_shared_ok Eq s1 u seg' below V) as P.
  destruct (pop_maybe_shared_ref E Eq s1) as [x2 s2| |].
  2,3: intros a b K F; apply T in K; destruct K as (sh & -> & ->); apply fits_top in F; destruct F as (m0 & seg0 & F & _ & G); rewrite H in F; injection F as <- <-;
    apply fits_top in G; destruct G as (m2 & seg2 & F & M & _); apply P in F; destruct F as [F _]; exact (F _ _ M).
  destruct P as (m2 & seg2 & H2 & Ha2 & O2 & V2 & Hac2 & _).
  assert (D : forall sh, fits C u seg [DVal (VRef (abs true sh Eq)); DVal (VRef (abs true sh Eq))] <-> accepts Eq m sh /\ accepts Eq m2 sh).
  { intros sh. rewrite fits_top. split.
    - intros (m0 & seg0 & F & M & G). rewrite H in F. injection F as <- <-. apply fits_top in G. destruct G as (m0 & seg0 & F & M2 & _). rewrite H2 in F. injection F as <- <-. auto.
    - intros [M M2]. exists m, seg'. split; [exact H|]. split; [exact M|]. apply fits_top. exists m2, seg2. auto using fits_nil. }
  assert (Good : (exists sh, accepts Eq m sh /\ accepts Eq m2 sh) -> ok_step X Op_RefEq s u seg below (push_operand VI32 s2)).
  { intros (sh & Hsh). destruct (push_ok VI32 s2 u _ below V2) as (s3 & -> & O3 & V3).
    cbn [TypeInst.ok_step sets app]. exists u, (Known VI32 :: seg2).
    split; [eapply inst_ops; [eapply inst_ops; [eapply inst_ops; [exact In|exact O|exact V]|exact O2|exact V2]| |]; eassumption|].
    split; [eapply kept_ops; [exact In|eapply opsrel_trans; [exact O|eapply opsrel_trans; eassumption]]|].
    pose proof (stepped_const (typ C X Op_RefEq) u seg 2 [VI32]) as Q. rewrite (skip_top _ _ _ _ 1 H), (skip_top _ _ _ _ 0 H2) in Q. apply Q.
    - intros a b K. apply T in K. destruct K as (r & -> & ->). auto.
    - eexists. split; [apply T; exists sh; eauto|]. apply D. exact Hsh. }
  unfold vbind. destruct (is_maybe_shared E x) as [b1|] eqn:B1; [destruct (is_maybe_shared E x2) as [b2|] eqn:B2|].
  - unfold vcheck. destruct (Bool.eqb b1 b2) eqn:Eb.
    + apply Bool.eqb_prop in Eb. subst b2. unfold vret. apply Good. exists b1. split; [apply Hac|apply Hac2]; reflexivity.
    + cbn. intros a b K F. apply T in K. destruct K as (sh & -> & ->). apply D in F. destruct F as [F1 F2]. apply Hac in F1. apply Hac2 in F2. subst. destruct sh; discriminate.
  - apply Good. exists b1. split; [apply Hac; reflexivity|apply Hac2; exact I].
  - apply Good. exists (match is_maybe_shared E x2 with Some b => b | None => true end). split; [apply Hac; exact I|apply Hac2; destruct (is_maybe_shared E x2); auto].
Qed.

(** ** Conversions *)
Definition conv (A B : aht) (t t' : dt) : Prop :=
  (exists n sh, t = DVal (VRef (abs n sh A)) /\ t' = DVal (VRef (abs n sh B))) \/ (t = DUnk A /\ t' = DUnk B).
Lemma conv_step X o A B s u seg below : (forall a b, typ C X o a b <-> exists t t', conv A B t t' /\ a = t :: dv (rev []) /\ b = t' :: dv (rev [])) -> sets (IOp o) = [] ->
  inst C X s u seg below -> ok_step X o s u seg below ((let! m := pop_maybe_shared_ref E A in push_maybe (convert_to E B m)) s).
Proof.
  intros T So In. unfold vbind. pose proof (pop_shared_ok A s u seg below (in_view _ _ _ _ _ _ In)) as P.
  destruct (pop_maybe_shared_ref E A s) as [x s1| |].
  2,3: intros a b H F; apply T in H; destruct H as (t & t' & N & -> & ->); apply fits_top in F; destruct F as (m & seg' & F & M & _); apply P in F; destruct F as [F1 F2];
    destruct N as [(n & sh & -> & ->)|[-> ->]]; [exact (F1 _ _ M)|exact (F2 M)].
  destruct P as (m & seg' & H & Ha & O & V & Hac & Hm). destruct (push_maybe_ok (convert_to E B x) s1 u _ below V) as (s2 & -> & O2 & V2).
  cbn [TypeInst.ok_step]. rewrite So. exists u, (convert_to E B x :: seg').
  split; [eapply inst_ops; [eapply inst_ops; eassumption| |]; eassumption|]. split; [eapply kept_ops; [exact In|eapply opsrel_trans; eassumption]|].
  apply (stepped_top _ (conv A B) u seg m seg' _ [] T H (fits_nil _ _ _)). intros t''.
  assert (D : forall n sh, dsub C (DUnk B) (DVal (VRef (abs n sh B)))).
  { intros n sh. exists sh. unfold sub. rewrite (ro_ref _ HM). cbn [abs rt_null rt_heap implb]. rewrite (ro_refl _ HM). reflexivity. }
  split.
  - intros M. destruct m as [|[a|]|[| | | | |r]]; try discriminate; injection Ha as <-; cbn [convert_to] in M; unfold mt in *; cbn [least] in *.
    1-3: exists (DUnk A), (DUnk B); (split; [right; auto|]); split; [|exact M]; first [exact I | exact Hm].
    exists (DVal (VRef (abs (rt_null r) (r_is_shared (e_res E) r) A))), (DVal (VRef (abs (rt_null r) (r_is_shared (e_res E) r) B))).
    split; [left; eauto|]. split; [|exact M]. apply sub_null; [exact Hm|]. destruct (rt_null r); reflexivity.
  - intros (t & t' & N & M & D'). eapply mt_up; [exact HM| |exact D']. clear D'. destruct N as [(n & sh & -> & ->)|[-> ->]].
    + destruct m as [|[a|]|[| | | | |r]]; try discriminate; injection Ha as <-; cbn [convert_to]; unfold mt in *; cbn [least] in *; try apply D.
      cbn [dsub] in *. pose proof (sub_shared _ _ _ _ M) as S. rewrite <- (ro_is_shared _ HM) in S. rewrite (eo_res _ _ HE), S. apply sub_weak in M. destruct M as [M _].
      unfold sub. rewrite (ro_ref _ HM). cbn [abs rt_null rt_heap]. rewrite (ro_refl _ HM), M. reflexivity.
    + destruct m as [|[a|]|[| | | | |r]]; try discriminate; injection Ha as <-; cbn [convert_to]; unfold mt in *; cbn [least dsub] in *; try contradiction; apply aht_refl.
Qed.
Lemma any_convert_step X s u seg below : inst C X s u seg below -> ok_step X Op_AnyConvertExtern s u seg below (visit_op E Op_AnyConvertExtern s).
Proof.
  intros In. apply (conv_step X Op_AnyConvertExtern Extern Any); auto. intros a b. cbn [rev app map]. split.
  - typ_of; rev_eqs; eexists _, _; (split; [|auto]); [left; eauto|right; auto].
  - intros (t & t' & [(n & sh & -> & ->)|[-> ->]] & -> & ->); exists []; constructor.
Qed.
Lemma extern_convert_step X s u seg below : inst C X s u seg below -> ok_step X Op_ExternConvertAny s u seg below (visit_op E Op_ExternConvertAny s).
Proof.
  intros In. apply (conv_step X Op_ExternConvertAny Any Extern); auto. intros a b. cbn [rev app map]. split.
  - typ_of; rev_eqs; eexists _, _; (split; [|auto]); [right; auto|left; eauto].
  - intros (t & t' & [(n & sh & -> & ->)|[-> ->]] & -> & ->); exists []; constructor.
Qed.

(** ** Branches that look at a reference *)
Lemma next_back_some {A} (l : list A) x : next_back (l ++ [x]) = Some (l, x).
Proof. unfold next_back. rewrite rev_app_distr. cbn. rewrite rev_involutive. reflexivity. Qed.
Lemma next_back_inv {A} (l : list A) : match next_back l with Some (m, x) => l = m ++ [x] | None => l = [] end.
Proof. unfold next_back. destruct (rev l) as [|x r] eqn:Er; apply (f_equal (@rev A)) in Er; rewrite rev_involutive in Er; cbn in Er; exact Er. Qed.
Lemma br_on_non_null_step X d s u seg below : inst C X s u seg below -> ok_step X (Op_BrOnNonNull d) s u seg below (visit_op E (Op_BrOnNonNull d) s).
Proof.
  intros In. cbn [visit_op].
  assert (T : forall a b, typ C X (Op_BrOnNonNull d) a b <-> exists l r, label C d = Some (l ++ [VRef r]) /\ a = dv (rev (l ++ [VRef (rf_nullable r)])) /\ b = dv (rev l)).
  { intros a b. split.
    - typ_of; rev_eqs; exists l, r; rewrite ?rev_app_distr; cbn [rev app map]; rewrite map_rev; auto.
    - intros (l & r & L & -> & ->). exists []. rewrite !map_rev, !rev_involutive, map_app. constructor. exact L. }
  match goal with |- context [visit_br_on_non_null E d s] => change (visit_br_on_non_null E d s) with (at_label E d (fun ts =>
    match next_back ts with
    | None => vfail E "type mismatch: br_on_non_null target has no label types"
    | Some (ts, VRef t) => pop_ref E (Some (rf_nullable t)) ;; pop_push_label_types E ts
    | Some _ => vfail E "type mismatch: br_on_non_null target does not end with heap type"
    end) s) end.
  match goal with |- context [at_label E d ?k s] => pose proof (at_label_ok E C HE X s u seg below d k In) as P; destruct (label C d) as [ts|] eqn:L end.
  2: { apply none_ok; [|exact P]. intros a b H. apply T in H. destruct H as (l & r & H & _). discriminate. }
  rewrite P. clear P. pose proof (next_back_inv ts) as Nb. destruct (next_back ts) as [[l x]|].
  2: { subst ts. apply none_ok; [|exact I]. intros a b H. apply T in H. destruct H as (l & r & H & _). destruct l; discriminate. }
  subst ts. assert (U : forall l' r, Some (l ++ [x]) = Some (l' ++ [VRef r]) -> l' = l /\ x = VRef r) by (intros l' r H; injection H as H; apply app_inj_tail in H; destruct H; auto).
  destruct x as [| | | | |r]; try solve [apply none_ok; [|exact I]; intros a b H; apply T in H; destruct H as (l' & r & H & _); apply U in H; destruct H; discriminate].
  eapply ok_step_same.
  2: { apply (fixed_ok E C HM HE X (Op_BrOnNonNull d) s u seg below (l ++ [VRef (rf_nullable r)]) l In eq_refl). intros a b. rewrite T. split.
       - intros (l' & r' & H & K). apply U in H. destruct H as [-> H]. injection H as <-. exact K.
       - intros K. exists l, r. auto. }
  cbn [by_sig]. unfold vbind at 2. rewrite pops_app. unfold vbind. rewrite pops_one. pose proof (pop_ref_ok E C HM HE (rf_nullable r) s) as R. unfold vbind, vret in R.
  destruct (pop_ref E (Some (rf_nullable r)) s) as [y s1| |], (pop E (VRef (rf_nullable r)) s) as [[] s2| |]; cbn in R; try contradiction; try exact I.
  destruct R as [_ ->]. apply same_refl.
Qed.
Lemma hp_eqb_eq a b : hp_eqb a b = true <-> a = b.
Proof. unfold hp_eqb. destruct (heap_dec _ a b); split; congruence. Qed.
Lemma look_hierarchy f t : look C (check_br_on_cast_type_hierarchy E f t)
  (guard (if cx_exact C then hp_eqb (r_top_type (cx_mod C) (rt_heap f)) (r_top_type (cx_mod C) (rt_heap t)) else castable C (rt_heap t) && sub C (VRef t) (VRef f)) (Some tt)).
Proof.
  unfold check_br_on_cast_type_hierarchy. rewrite (eo_exact _ _ HE), (eo_res _ _ HE). destruct (cx_exact C); [apply look_check|].
  eapply look_eq; [eapply look_bind; [apply look_cast; assumption|intros; apply look_check]|]. unfold Checks.sub. rewrite (eo_res _ _ HE). destruct (castable C (rt_heap t)); reflexivity.
Qed.
Definition cast_okb (f t : rf) : bool :=
  if cx_exact C then hp_eqb (r_top_type (cx_mod C) (rt_heap f)) (r_top_type (cx_mod C) (rt_heap t)) else castable C (rt_heap t) && sub C (VRef t) (VRef f).
Lemma cast_okb_ok f t : cast_okb f t = true <-> cast_ok C f t.
Proof. unfold cast_okb, cast_ok. destruct (cx_exact C); [apply hp_eqb_eq|]. rewrite Bool.andb_true_iff. reflexivity. Qed.
(** What both casting branches do first. *)
Definition cast_then (from to : Z) (k : rf -> rf -> V unit) : V unit :=
  let! from := vunwrap (of_ref from) in
  let! to := vunwrap (of_ref to) in
  let! from := check_ref_type E from in
  let! to := check_ref_type E to in
  check_br_on_cast_type_hierarchy E from to ;; k from to.
Lemma cast_then_ok from to k s : inv C s ->
  match reference_imm C from, reference_imm C to with
  | Some f, Some t => if cast_okb f t then cast_then from to k s = k f t s else match cast_then from to k s with VOk _ _ => False | _ => True end
  | _, _ => match cast_then from to k s with VOk _ _ => False | _ => True end
  end.
Proof.
  intros Hs. unfold cast_then, reference_imm. destruct (of_ref from) as [f|]; [|exact I].
  destruct (of_ref to) as [t|]; [|destruct (reference C f); exact I]. cbn [vunwrap]. unfold vbind, vret.
  pose proof (look_ref_type E C HM HE f s Hs) as P. destruct (check_ref_type E f s) as [f' s1| |]; [|rewrite P; exact I..]. destruct P as [-> ->].
  pose proof (look_ref_type E C HM HE t s Hs) as P. destruct (check_ref_type E t s) as [t' s1| |]; [|rewrite P; exact I..]. destruct P as [-> ->].
  pose proof (look_hierarchy f' t' s Hs) as P. fold (cast_okb f' t') in P. destruct (check_br_on_cast_type_hierarchy E f' t' s) as [[] s1| |].
  - destruct P as [-> P]. destruct (cast_okb f' t'); [reflexivity|discriminate].
  - destruct (cast_okb f' t'); [discriminate|exact I].
  - destruct (cast_okb f' t'); [discriminate|exact I].
Qed.
Lemma cast_step X o d from to (need pass : rf -> rf -> rf) msg msg' s u seg below : sets (IOp o) = [] ->
  (forall a b, typ C X o a b <-> exists f t l x, reference_imm C from = Some f /\ reference_imm C to = Some t /\ cast_ok C f t /\
     label C d = Some (l ++ [x]) /\ sub C (VRef (need f t)) x = true /\ a = dv (rev (l ++ [VRef f])) /\ b = dv (rev (l ++ [VRef (pass f t)]))) ->
  inst C X s u seg below ->
  ok_step X o s u seg below (cast_then from to (fun from to => at_label E d (fun ts =>
    match next_back ts with
    | Some (ts, label_ty) => vcheck E (Checks.sub E (VRef (need from to)) label_ty) msg ;; pop E (VRef from) ;; pop_push_label_types E ts ;; push_operand (VRef (pass from to))
    | None => vfail E msg'
    end)) s).
Proof.
  intros So T In. match goal with |- context [cast_then from to ?k s] => pose proof (cast_then_ok from to k s (inst_shared _ _ _ _ _ _ In)) as P end.
  destruct (reference_imm C from) as [f|]; [|apply none_ok; [intros a b H; apply T in H; destruct H as (f & t & l & x & H & _); discriminate|exact P]].
  destruct (reference_imm C to) as [t|]; [|apply none_ok; [intros a b H; apply T in H; destruct H as (f' & t & l & x & _ & H & _); discriminate|exact P]].
  destruct (cast_okb f t) eqn:Hc.
  2: { apply none_ok; [|exact P]. intros a b H. apply T in H. destruct H as (f' & t' & l & x & H1 & H2 & H3 & _). injection H1 as <-. injection H2 as <-. apply cast_okb_ok in H3. congruence. }
  apply cast_okb_ok in Hc. rewrite P. clear P.
  match goal with |- context [at_label E d ?k s] => pose proof (at_label_ok E C HE X s u seg below d k In) as P; destruct (label C d) as [ts|] eqn:L end.
  2: { apply none_ok; [|exact P]. intros a b H. apply T in H. destruct H as (f' & t' & l & x & _ & _ & _ & H & _). discriminate. }
  rewrite P. clear P. pose proof (next_back_inv ts) as Nb. destruct (next_back ts) as [[l x]|].
  2: { subst ts. apply none_ok; [|exact I]. intros a b H. apply T in H. destruct H as (f' & t' & l & x & _ & _ & _ & H & _). destruct l; discriminate. }
  subst ts. assert (U : forall l' y, Some (l ++ [x]) = Some (l' ++ [y]) -> l' = l /\ y = x) by (intros l' y H; injection H as H; apply app_inj_tail in H; destruct H; auto).
  unfold vbind at 1, vcheck, Checks.sub. rewrite (eo_res _ _ HE). change (r_is_subtype (cx_mod C)) with (sub C).
  destruct (sub C (VRef (need f t)) x) eqn:Hsub.
  2: { cbn. intros a b H. apply T in H. destruct H as (f' & t' & l' & y & H1 & H2 & _ & H & K & _). injection H1 as <-. injection H2 as <-. apply U in H. destruct H as [-> ->]. congruence. }
  unfold vret at 1. eapply ok_step_same.
  2: { apply (fixed_ok E C HM HE X _ s u seg below (l ++ [VRef f]) (l ++ [VRef (pass f t)]) In So). intros a b. rewrite T. split.
       - intros (f' & t' & l' & y & H1 & H2 & _ & H & _ & K). injection H1 as <-. injection H2 as <-. apply U in H. destruct H as [-> ->]. exact K.
       - intros K. exists f, t, l, x. auto 8. }
  cbn [by_sig]. unfold vbind. rewrite pops_app. unfold vbind. rewrite pops_one. destruct (pop E (VRef f) s) as [[] s1| |]; [|exact I..].
  unfold pop_push_label_types, vbind. destruct (pops E l s1) as [[] s2| |]; [|exact I..].
  assert (Q : pushes (l ++ [VRef (pass f t)]) s2 = (pushes l ;; push_operand (VRef (pass f t))) s2).
  { unfold pushes. generalize (VRef (pass f t)) as v. clear. revert s2. induction l as [|y l IH]; intros s2 v; cbn [app vall]; [unfold vbind, vret; destruct (push_operand v s2) as [[] ?| |]; reflexivity|].
    unfold vbind in *. destruct (push_operand y s2); auto. }
  rewrite Q. unfold vbind. destruct (pushes l s2) as [[] s3| |]; [|exact I..]. apply same_refl.
Qed.
Lemma br_on_cast_step X d from to s u seg below : inst C X s u seg below -> ok_step X (Op_BrOnCast d from to) s u seg below (visit_op E (Op_BrOnCast d from to) s).
Proof.
  intros In. apply (cast_step X (Op_BrOnCast d from to) d from to (fun f t => t) rf_difference
    "type mismatch: casting to type {to_ref_type}, but it does not match label result type {label_ty}"
    "type mismatch: br_on_cast to label with empty types, must have a reference type"); auto. intros a b. split.
  - typ_of; rev_eqs; exists f, t, l, u0; rewrite ?rev_app_distr; cbn [rev app map]; rewrite map_rev; auto 8.
  - intros (f & t & l & x & H1 & H2 & H3 & H4 & H5 & -> & ->). exists []. rewrite !map_rev, !rev_involutive, !map_app. eapply ok_br_on_cast; eassumption.
Qed.
Lemma br_on_cast_fail_step X d from to s u seg below : inst C X s u seg below -> ok_step X (Op_BrOnCastFail d from to) s u seg below (visit_op E (Op_BrOnCastFail d from to) s).
Proof.
  intros In. apply (cast_step X (Op_BrOnCastFail d from to) d from to rf_difference (fun f t => t)
    "type mismatch: expected label result type {label_ty}, found {diff_ty}"
    "type mismatch: expected a reference type, found nothing"); auto. intros a b. split.
  - typ_of; rev_eqs; exists f, t, l, u0; rewrite ?rev_app_distr; cbn [rev app map]; rewrite map_rev; auto 8.
  - intros (f & t & l & x & H1 & H2 & H3 & H4 & H5 & -> & ->). exists []. rewrite !map_rev, !rev_involutive, !map_app. eapply ok_br_on_cast_fail; eassumption.
Qed.

(** Every operator that is not part of a block. *)
Theorem op_step X o s u seg below : covered o = true -> inst C X s u seg below -> ok_step X o s u seg below (visit E o s).
Proof.
  intros Hc In. destruct (special o) eqn:Hs; [|apply (sig_step E C HM HE); assumption].
  eapply ok_step_same; [apply (visit_gate E C HE o Hc); exact (inst_shared _ _ _ _ _ _ In)|].
  destruct o; try discriminate Hs; clear Hs.
  all: try (cbn [covered] in Hc; apply Z.leb_le in Hc).
  all: lazymatch goal with
    | |- TypeInst.ok_step _ _ (Op_Unreachable) _ _ _ _ _ => apply unreachable_step
    | |- TypeInst.ok_step _ _ (Op_Drop) _ _ _ _ _ => apply drop_step
    | |- TypeInst.ok_step _ _ (Op_Select) _ _ _ _ _ => apply select_step
    | |- TypeInst.ok_step _ _ (Op_LocalGet _) _ _ _ _ _ => apply local_get_step
    | |- TypeInst.ok_step _ _ (Op_LocalSet _) _ _ _ _ _ => apply local_set_step
    | |- TypeInst.ok_step _ _ (Op_LocalTee _) _ _ _ _ _ => apply local_tee_step
    | |- TypeInst.ok_step _ _ (Op_Br _) _ _ _ _ _ => apply br_step
    | |- TypeInst.ok_step _ _ (Op_BrIf _) _ _ _ _ _ => apply br_if_step
    | |- TypeInst.ok_step _ _ (Op_BrTable _) _ _ _ _ _ => apply br_table_step
    | |- TypeInst.ok_step _ _ (Op_Return) _ _ _ _ _ => apply return_step
    | |- TypeInst.ok_step _ _ (Op_Throw _) _ _ _ _ _ => apply throw_step
    | |- TypeInst.ok_step _ _ (Op_ThrowRef) _ _ _ _ _ => apply throw_ref_step
    | |- TypeInst.ok_step _ _ (Op_RefIsNull) _ _ _ _ _ => apply is_null_step
    | |- TypeInst.ok_step _ _ (Op_RefAsNonNull) _ _ _ _ _ => apply as_non_null_step
    | |- TypeInst.ok_step _ _ (Op_BrOnNull _) _ _ _ _ _ => apply br_on_null_step
    | |- TypeInst.ok_step _ _ (Op_BrOnNonNull _) _ _ _ _ _ => apply br_on_non_null_step
    | |- TypeInst.ok_step _ _ (Op_BrOnCast _ _ _) _ _ _ _ _ => apply br_on_cast_step
    | |- TypeInst.ok_step _ _ (Op_BrOnCastFail _ _ _) _ _ _ _ _ => apply br_on_cast_fail_step
    | |- TypeInst.ok_step _ _ (Op_RefEq) _ _ _ _ _ => apply ref_eq_step
    | |- TypeInst.ok_step _ _ (Op_ArrayLen) _ _ _ _ _ => apply array_len_step
    | |- TypeInst.ok_step _ _ (Op_AnyConvertExtern) _ _ _ _ _ => apply any_convert_step
    | |- TypeInst.ok_step _ _ (Op_ExternConvertAny) _ _ _ _ _ => apply extern_convert_step
    | |- TypeInst.ok_step _ _ Op_I31GetS _ _ _ _ _ => apply i31_get_step; [auto|]
    | |- TypeInst.ok_step _ _ Op_I31GetU _ _ _ _ _ => apply i31_get_step; [auto|]
    | |- _ => apply return_call_step; [..|reflexivity|]
    end; assumption.
Qed.
End Ops.
