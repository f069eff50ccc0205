(** From the bytes of a body to its operators and locals: what the validator reads is what [FunctionBody] reads. *)
From Verif.Base Require Import Prelude.
From Verif.Reader Require Import Model Spec Mono.
From Verif.Codec Require Import Kit Local.
From Verif.Locals Require Import Model Proofs.
From Verif.Types Require Import RefModel CodecModel CanonModel LocalTypes CodecTop.
From Verif.Instr Require Import ImmModel Ops Convert Imms BodyModel InstrProofs LocalInstr HonestInstr.
From Verif.Instr Require Visit.
From Verif.Validator Require Import State Checks Visit Generic Undo Top Api Body Sig TypeSpec TypeBase TypeSem TypeLook TypeSig TypeInst TypeBlocks TypeRun TypeKinds.

(** * Readers *)
Definition good (r : reader) : Prop := bytes_ok (r_rem r) /\ 0 < original_position r.
Lemma honest_good {A} (m : R A) r a r' : honest m -> m r = Ok (a, r') -> good r -> good r'.
Proof.
  intros H E [B P]. specialize (H r). rewrite E in H. destruct H as ((bs & H1 & H2 & H3 & H4) & _).
  rewrite H1 in B. apply Forall_app in B. destruct B as [_ B]. split; [exact B|]. unfold original_position in *. rewrite H2, H3.
  pose proof (zlen_nonneg bs). lia.
Qed.
Lemma start_good ft bytes off n r : 0 <= off -> bytes_ok bytes -> read_var_u32 (new_reader ft bytes off) = Ok (n, r) -> good r.
Proof.
  intros Ho Hb E. pose proof (honest_read_var_u32 (new_reader ft bytes off)) as H. rewrite E in H. destruct H as ((bs & H1 & H2 & H3 & H4) & _).
  pose proof (eats_u32 _ _ _ E) as H5. cbn [new_reader r_rem r_pos r_off] in *. subst bytes. apply Forall_app in Hb. destruct Hb as [_ Hb]. split; [exact Hb|].
  unfold original_position. rewrite H3. lia.
Qed.

(** * Operators *)
Definition sensible (o : operator) : Prop := match o with Op_LocalGet i | Op_LocalSet i | Op_LocalTee i => 0 <= i | _ => True end.
Lemma read_op_ok cur r o r' : good r -> Verif.Instr.Visit.visit_operator cur r = Ok (o, r') -> exists k, cur = Some k /\ fits_frame cur o /\ sensible o.
Proof.
  intros [B _] E. destruct cur as [k|]; [|discriminate]. exists k. split; [reflexivity|].
  destruct (y_instr (r_feat r) k r o r' eq_refl B E) as ((i & Hc & Hi & Hk & _) & _). split.
  - destruct o; try exact I. injection Hc as <-. cbn in Hk. subst k. reflexivity.
  - destruct o; try exact I; injection Hc as <-; exact (proj1 (proj1 Hi)).
Qed.
Lemma current_kinds s : current_frame s = hd_error (kinds s).
Proof. unfold current_frame, kinds. destruct (vs_control s); reflexivity. Qed.
Lemma last_list c : cs_last c = hd_error (cs_list c).
Proof. unfold cs_last, cs_list. destruct (cs_top c); reflexivity. Qed.
Definition sensibles : list operator -> Prop := Forall sensible.
Lemma collect_facts : forall n r c, good r -> cs_wf c ->
  match ops_collect n c r with
  | Ok ((ops, c'), r') => exists l, map snd l = ops /\ nz l /\ eof r' = true /\ sensibles ops /\ (forallb in_scope ops = true -> path (cs_list c) ops (cs_list c'))
  | Err _ => True
  end.
Proof.
  induction n as [|n IH]; intros r c Hg Hw; cbn [ops_collect].
  { destruct (eof r) eqn:Ee; [|exact I]. exists []. repeat split; auto; constructor. }
  destruct (eof r) eqn:Ee. { exists []. repeat split; auto; constructor. }
  unfold ops_read, bind. rewrite last_list. destruct (Verif.Instr.Visit.visit_operator (hd_error (cs_list c)) r) as [[o r1]|e] eqn:Er; [|exact I].
  unfold ret. cbn [fst snd]. destruct (read_op_ok _ _ _ _ Hg Er) as (k & Hk & Hf & Hs).
  assert (Hg1 : good r1) by (eapply honest_good; [apply (honest_operator (hd_error (cs_list c)))|exact Er|exact Hg]).
  assert (Hl : exists t, cs_list c = k :: t) by (destruct (cs_list c); [discriminate|injection Hk as ->; eauto]). destruct Hl as (t & Hl).
  assert (Ht : exists k, cs_top c = Some k) by (unfold cs_list in Hl; destruct (cs_top c); [eauto|discriminate]).
  destruct (cs_visit_list o c Hw Ht) as [Hw1 Hl1]. specialize (IH r1 (cs_visit o c) Hg1 Hw1).
  destruct (ops_collect n (cs_visit o c) r1) as [[[ops c'] r']|e]; [|exact I]. cbn [fst snd].
  destruct IH as (l & H1 & H2 & H3 & H4 & H5). exists ((original_position r, o) :: l). cbn [map snd].
  split; [rewrite H1; reflexivity|]. split; [constructor; [cbn; destruct Hg; lia|exact H2]|]. split; [exact H3|]. split; [constructor; assumption|].
  cbn [forallb]. intros Hi. apply andb_prop in Hi. destruct Hi as [Hi1 Hi2]. rewrite Hl. constructor; [exact Hi1|rewrite <- Hk; exact Hf|].
  rewrite <- Hl, <- Hl1. apply H5. exact Hi2.
Qed.
Section Loop.
Variable R : resources.
Variable F : feature -> bool.
Lemma loop_collect : forall fuel r s c, cs_list c = kinds s -> cs_wf c -> good r ->
  match ops_collect fuel c r with
  | Ok ((ops, c'), r') => exists l, map snd l = ops /\ nz l /\ eof r' = true /\ sensibles ops /\
      (forallb in_scope ops = true -> path (cs_list c) ops (cs_list c')) /\
      ops_loop R F fuel r s = match run R F l s with VOk _ s' => Done (r', s') | VErr e _ => Rejected e | VPanic => Panicked end /\
      (forall s', run R F l s = VOk tt s' -> kinds s' = cs_list c')
  | Err _ => forall x, ops_loop R F fuel r s <> Done x
  end.
Proof.
  induction fuel as [|n IH]; intros r s c Hc Hw Hg.
  { cbn [ops_collect ops_loop]. destruct (eof r) eqn:Ee; [|intros x; discriminate]. exists []. cbn [map run vret forallb]. repeat split; auto; try constructor. intros s1 Hs1. injection Hs1 as <-. auto. }
  cbn [ops_collect ops_loop]. destruct (eof r) eqn:Ee.
  { exists []. cbn [map run vret forallb]. repeat split; auto; try constructor. intros s1 Hs1. injection Hs1 as <-. auto. }
  unfold ops_read, bind. rewrite current_kinds, <- Hc, last_list.
  destruct (Verif.Instr.Visit.visit_operator (hd_error (cs_list c)) r) as [[o r1]|e] eqn:Er; [|intros x; discriminate].
  unfold ret. cbn [of_read obind fst snd]. destruct (read_op_ok _ _ _ _ Hg Er) as (k & Hk & Hf & Hs).
  assert (Hg1 : good r1) by (eapply honest_good; [apply (honest_operator (hd_error (cs_list c)))|exact Er|exact Hg]).
  assert (Hl : exists t, cs_list c = k :: t) by (destruct (cs_list c); [discriminate|injection Hk as ->; eauto]). destruct Hl as (t & Hl).
  assert (Ht : exists k, cs_top c = Some k) by (unfold cs_list in Hl; destruct (cs_top c); [eauto|discriminate]).
  destruct (cs_visit_list o c Hw Ht) as [Hw1 Hl1].
  set (E := mkEnv R F (original_position r)).
  assert (Stop : forall v, (forall x, v <> Done x) ->
    (forall l, v = match run R F ((original_position r, o) :: l) s with VOk _ s' => Done (r, s') | VErr e _ => Rejected e | VPanic => Panicked end /\
               forall s', run R F ((original_position r, o) :: l) s <> VOk tt s') ->
    match (match ops_collect n (cs_visit o c) r1 with Ok (y, r') => Ok ((o :: fst y, snd y), r') | Err e => Err e end) with
    | Ok ((ops, c'), r') => exists l, map snd l = ops /\ nz l /\ eof r' = true /\ sensibles ops /\
        (forallb in_scope ops = true -> path (cs_list c) ops (cs_list c')) /\
        v = match run R F l s with VOk _ s' => Done (r', s') | VErr e _ => Rejected e | VPanic => Panicked end /\
        (forall s', run R F l s = VOk tt s' -> kinds s' = cs_list c')
    | Err _ => forall x, v <> Done x
    end).
  { intros v Hv Hr. pose proof (collect_facts n r1 (cs_visit o c) Hg1 Hw1) as Hf1. destruct (ops_collect n (cs_visit o c) r1) as [[[ops c'] r']|e']; [|exact Hv]. cbn [fst snd].
    destruct Hf1 as (l & H1 & H2 & H3 & H4 & H5). destruct (Hr l) as [Hr1 Hr2]. exists ((original_position r, o) :: l). cbn [map snd forallb].
    split; [rewrite H1; reflexivity|]. split; [constructor; [cbn; destruct Hg; lia|exact H2]|]. split; [exact H3|]. split; [constructor; assumption|].
    split; [|split].
    - intros Hi. apply andb_prop in Hi. destruct Hi as [Hi1 Hi2]. rewrite Hl. constructor; [exact Hi1|rewrite <- Hk; exact Hf|].
      rewrite <- Hl, <- Hl1. apply H5. exact Hi2.
    - destruct (run R F _ s) as [[] s'| |]; [exfalso; exact (Hr2 s' eq_refl)|exact Hr1..].
    - intros s' Hs'. exfalso. exact (Hr2 s' Hs'). }
  destruct (op E o s) as [[] s1|e s1|] eqn:Eo; cbn [of_visit obind].
  - pose proof (op_kinds E o s s1 Eo) as Hk1. specialize (IH r1 s1 (cs_visit o c)). rewrite Hl1, Hc, <- Hk1 in IH. specialize (IH eq_refl Hw1 Hg1).
    destruct (ops_collect n (cs_visit o c) r1) as [[[ops c'] r']|e]; [|exact IH]. cbn [fst snd].
    destruct IH as (l & H1 & H2 & H3 & H4 & H5 & H6 & H7). exists ((original_position r, o) :: l). cbn [map snd run forallb]. unfold vbind. fold E. rewrite Eo.
    split; [rewrite H1; reflexivity|]. split; [constructor; [cbn; destruct Hg; lia|exact H2]|]. split; [exact H3|]. split; [constructor; assumption|].
    split; [|split; [exact H6|exact H7]]. intros Hi. apply andb_prop in Hi. destruct Hi as [Hi1 Hi2]. rewrite Hl. constructor; [exact Hi1|rewrite <- Hk; exact Hf|].
    rewrite <- Hl, Hc, <- Hk1. apply H5. exact Hi2.
  - (* rejected here, whatever follows *) apply Stop; [intros x; discriminate|]. intros l. cbn [run]. unfold vbind. fold E. rewrite Eo. split; [reflexivity|discriminate].
  - apply Stop; [intros x; discriminate|]. intros l. cbn [run]. unfold vbind. fold E. rewrite Eo. split; [reflexivity|discriminate].
Qed.
End Loop.

(** * Locals *)
Lemma map_repeat {A B} (f : A -> B) x : forall n, map f (repeat x n) = repeat (f x) n.
Proof. induction n as [|n IH]; cbn; [|rewrite IH]; reflexivity. Qed.
Definition bits_ok (D : list bool) (is : inits_t) : Prop :=
  li_bits is = D /\ li_log is = [] /\ 0 <= li_first is /\ (li_first is = U32MAX \/ li_first is <= zlen D) /\
  forall i, 0 <= i -> nth_error D (Z.to_nat i) = Some false -> li_first is <= i.
Lemma bits_define D is n b : bits_ok D is -> 0 <= n -> zlen D <= 50000 -> bits_ok (D ++ repeat b (Z.to_nat n)) (Model.define_locals is n b).
Proof.
  intros (H1 & H2 & H3 & H5 & H4) Hn Hd. unfold Model.define_locals, bits_ok. cbn [li_bits li_log li_first]. rewrite H1.
  assert (W : wrapu 32 (zlen D) = zlen D) by (unfold wrapu; apply Z.mod_small; pose proof (zlen_nonneg D); lia).
  assert (Z0 : 0 <= zlen (repeat b (Z.to_nat n))) by apply zlen_nonneg.
  split; [reflexivity|]. split; [exact H2|]. split; [destruct (_ && _); [rewrite W; apply zlen_nonneg|exact H3]|]. rewrite zlen_app.
  split; [destruct (_ && _); [right; rewrite W; lia|destruct H5; [left; assumption|right; lia]]|].
  intros i Hi E. destruct (Nat.ltb_spec (Z.to_nat i) (List.length D)) as [L|L].
  - rewrite nth_error_app1 in E by exact L. specialize (H4 i Hi E). destruct (negb b && (li_first is =? U32MAX)) eqn:B; [|exact H4].
    apply andb_prop in B. destruct B as [_ B]. apply Z.eqb_eq in B. unfold U32MAX in B. unfold zlen in Hd. lia.
  - rewrite nth_error_app2 in E by exact L. pose proof (nth_error_In _ _ E) as K. apply repeat_spec in K. subst b. cbn [negb andb].
    assert (zlen D <= i) by (unfold zlen; lia).
    destruct (Z.eqb_spec (li_first is) U32MAX) as [B|B]; [rewrite W; lia|]. destruct H5; [contradiction|lia].
Qed.
Lemma bits_uninit D is i b : bits_ok D is -> 0 <= i -> nth_error D (Z.to_nat i) = Some b -> is_uninit is i = Some (negb b).
Proof.
  intros (H1 & _ & _ & _ & H4) Hi E. unfold is_uninit. rewrite H1, E. destruct (Z.ltb_spec i (li_first is)) as [L|L]; [|reflexivity].
  destruct b; [reflexivity|]. specialize (H4 i Hi E). lia.
Qed.
Record declared (L : list val) (D : list bool) (s : vst) : Prop := mkDeclared
  { dl_locals : stands (vs_locals s) L; dl_bits : bits_ok D (vs_inits s); dl_len : List.length D = List.length L; dl_wf : inits_wf (vs_inits s) }.
Definition rest_same (s s' : vst) : Prop := vs_operands s' = vs_operands s /\ vs_control s' = vs_control s /\ vs_shared s' = vs_shared s.
Definition branch (C : ctx) (v : val) : option val :=
  match v with VRef r => guard (implb (rf_exact r) (cx_exact C)) (match reference C r with Some r => Some (VRef r) | None => None end) | _ => Some v end.
Lemma value_branch C p : value C p = match of_val p with Some v => branch C v | None => None end.
Proof. reflexivity. Qed.
Lemma define_ok E C t count s L D : res_ok (cx_mod C) -> envok E C -> declared L D s -> vs_shared s = cx_shared C -> in_u 32 count ->
  match Api.define_locals E count t s with
  | VOk _ s' => exists v, branch C t = Some v /\ zlen L + count <= 50000 /\
      declared (L ++ repeat v (Z.to_nat count)) (D ++ repeat (is_defaultable v) (Z.to_nat count)) s' /\ rest_same s s'
  | _ => forall v, branch C t = Some v -> 50000 < zlen L + count
  end.
Proof.
  intros HM HE [Hl Hb Hn Hw] Hs [Hc1 Hc2]. unfold Api.define_locals, vbind. pose proof (look_value_type E C HM HE t s Hs) as Lk. fold (branch C t) in Lk.
  destruct (check_value_type E t s) as [v s1|e s1|]; [|intros v Hv; congruence..]. destruct Lk as [-> Lk]. rewrite Lk.
  pose proof (st_max _ _ Hl) as Hm. destruct (Z.eqb_spec count 0) as [->|Hz].
  { exists v. cbn [Z.to_nat repeat]. rewrite !app_nil_r. split; [reflexivity|]. split; [lia|]. split; [split; assumption|repeat split]. }
  pose proof (stands_define (vs_locals s) L count v Hl) as Hd. cbv zeta in Hd. unfold U32MAX in Hd. specialize (Hd ltac:(lia)).
  destruct (define (vs_locals s) count v) as [ok l]. cbn [fst snd] in Hd.
  destruct (Z.leb_spec (zlen L + count) 50000) as [Hle|Hgt]; destruct Hd as [-> Hd]; cbn [vfail].
  - exists v. split; [reflexivity|]. split; [exact Hle|]. split; [|repeat split]. split; cbn [vs_locals vs_inits].
    + exact Hd.
    + apply bits_define; [exact Hb|exact Hc1|]. unfold zlen in *. lia.
    + rewrite !app_length, !repeat_length. lia.
    + apply iwf_locals. exact Hw.
  - intros w _. lia.
Qed.

(** The three readers of declarations: the validator's, [LocalsReader] and [skip_locals]. *)
Section Decls.
Variable R : resources.
Variable F : feature -> bool.
Variable C : ctx.
Hypothesis HM : res_ok (cx_mod C).
Hypothesis HR : envs R F C.
Definition skip_item : Model.R unit := (let* _ := read_var_u32 in let* _ := read_val in ret tt)%reader.
Lemma locals_fwd : forall n r s L D, good r -> declared L D s -> vs_shared s = cx_shared C -> forall total groups r',
  read_locals_loop n total r = Ok (groups, r') ->
  (exists u, read_n n skip_item r = Ok (u, r')) /\ good r' /\
  match locals_loop R F n r s with
  | Done (r1, s') => r1 = r' /\ exists ls, locals_of C groups = Some ls /\ zlen (L ++ ls) <= 50000 /\ declared (L ++ ls) (D ++ map is_defaultable ls) s' /\ rest_same s s'
  | _ => forall ls, locals_of C groups = Some ls -> 50000 < zlen (L ++ ls)
  end.
Proof.
  induction n as [|n IH]; intros r s L D Hg Hd Hs total groups r' E.
  { cbn in E. injection E as <- <-. cbn [locals_loop read_n]. split; [exists []; reflexivity|]. split; [exact Hg|]. split; [reflexivity|]. exists []. cbn [locals_of map]. rewrite !app_nil_r.
    split; [reflexivity|]. split; [exact (st_max _ _ (dl_locals _ _ _ Hd))|]. split; [exact Hd|repeat split]. }
  cbn [read_locals_loop] in E. unfold bind at 1, read_local, bind in E. cbn [locals_loop read_n]. unfold bind at 1, skip_item at 1, bind.
  destruct (read_var_u32 r) as [[count r1]|e] eqn:E1; [|discriminate]. cbn [of_read obind].
  assert (Hg1 : good r1) by (eapply honest_good; [apply honest_read_var_u32|exact E1|exact Hg]).
  pose proof (proj1 (y_u32 (fun _ => True) _ _ _ I (proj1 Hg) E1)) as Hc.
  destruct (2 ^ 32 <=? total + count); [discriminate|].
  destruct (read_val r1) as [[t r2]|e] eqn:E2; [|discriminate]. cbn [of_read obind fst snd] in *. unfold ret in *. cbn [fst snd] in E.
  assert (Hg2 : good r2) by (eapply honest_good; [apply honest_val|exact E2|exact Hg1]).
  destruct (read_locals_loop n (total + count) r2) as [[gs r3]|e] eqn:E3; [|discriminate]. injection E as <- <-.
  cbn [locals_of]. rewrite value_branch.
  assert (Skip : (exists u, read_n n skip_item r2 = Ok (u, r3)) /\ good r3).
  { destruct (IH r2 s L D Hg2 Hd Hs (total + count) gs r3 E3) as (H1 & H2 & _). auto. }
  destruct Skip as [(u & Sk) Hg3]. rewrite Sk. split; [eauto|]. split; [exact Hg3|].
  destruct (of_val t) as [v|]; [|intros ls Hls; discriminate].
  assert (HE : envok (mkEnv R F (original_position r)) C) by (apply HR; destruct Hg; lia).
  pose proof (define_ok _ C v count s L D HM HE Hd Hs Hc) as Hdef.
  destruct (Api.define_locals (mkEnv R F (original_position r)) count v s) as [[] s1|e s1|]; cbn [of_visit obind].
  2,3: intros ls Hls; destruct (branch C v) as [w|]; [|discriminate]; destruct (locals_of C gs) as [l|]; [|discriminate]; injection Hls as <-;
    specialize (Hdef w eq_refl); rewrite !zlen_app; assert (zlen (repeat w (Z.to_nat count)) = count) by (unfold zlen; rewrite repeat_length; destruct Hc; lia); pose proof (zlen_nonneg l); lia.
  destruct Hdef as (w & -> & Hle & Hd1 & (S1 & S2 & S3)). rewrite <- S3 in Hs.
  destruct (IH r2 s1 _ _ Hg2 Hd1 Hs (total + count) gs r3 E3) as (_ & _ & H).
  assert (Hz : zlen (repeat w (Z.to_nat count)) = count) by (unfold zlen; rewrite repeat_length; destruct Hc; lia).
  destruct (locals_loop R F n r2 s1) as [[r4 s']|e|].
  - destruct H as (-> & ls & H1 & H2 & H3 & (H4 & H5 & H6)). split; [reflexivity|]. exists (repeat w (Z.to_nat count) ++ ls). rewrite H1.
    rewrite app_assoc, map_app, map_repeat, app_assoc. split; [reflexivity|]. split; [exact H2|]. split; [exact H3|]. repeat split; congruence.
  - intros ls Hls. destruct (locals_of C gs) as [l|]; [|discriminate]. injection Hls as <-. rewrite app_assoc. apply H. reflexivity.
  - intros ls Hls. destruct (locals_of C gs) as [l|]; [|discriminate]. injection Hls as <-. rewrite app_assoc. apply H. reflexivity.
Qed.
Lemma locals_bwd : forall n r s L D, good r -> declared L D s -> vs_shared s = cx_shared C -> forall total r' s',
  total <= zlen L -> locals_loop R F n r s = Done (r', s') -> exists groups, read_locals_loop n total r = Ok (groups, r').
Proof.
  induction n as [|n IH]; intros r s L D Hg Hd Hs total r' s' Ht E.
  { cbn in E. injection E as <- <-. exists []. reflexivity. }
  cbn [locals_loop] in E. cbn [read_locals_loop]. unfold bind at 1, read_local, bind.
  destruct (read_var_u32 r) as [[count r1]|e] eqn:E1; [|discriminate]. cbn [of_read obind] in E.
  assert (Hg1 : good r1) by (eapply honest_good; [apply honest_read_var_u32|exact E1|exact Hg]).
  pose proof (proj1 (y_u32 (fun _ => True) _ _ _ I (proj1 Hg) E1)) as Hc.
  destruct (read_val r1) as [[t r2]|e] eqn:E2; [|discriminate]. cbn [of_read obind] in E. unfold ret.
  assert (Hg2 : good r2) by (eapply honest_good; [apply honest_val|exact E2|exact Hg1]).
  destruct (of_val t) as [v|]; [|discriminate].
  assert (HE : envok (mkEnv R F (original_position r)) C) by (apply HR; destruct Hg; lia).
  pose proof (define_ok _ C v count s L D HM HE Hd Hs Hc) as Hdef.
  destruct (Api.define_locals (mkEnv R F (original_position r)) count v s) as [[] s1|e s1|]; cbn [of_visit obind] in E; try discriminate.
  destruct Hdef as (w & Hw & Hle & Hd1 & (S1 & S2 & S3)). rewrite <- S3 in Hs.
  destruct (Z.leb_spec (2 ^ 32) (total + count)) as [K|K]; [lia|]. rewrite E2. cbn [fst snd].
  assert (Hz : zlen (repeat w (Z.to_nat count)) = count) by (unfold zlen; rewrite repeat_length; destruct Hc; lia).
  destruct (IH r2 s1 _ _ Hg2 Hd1 Hs (total + count) r' s' ltac:(rewrite zlen_app; lia) E) as (gs & ->). eauto.
Qed.
End Decls.

(** * The start of a body *)
Lemma params_stand ps : zlen ps <= 50000 -> stands (fold_left (fun l p => snd (define l 1 p)) ps (@locals_empty val)) ps.
Proof.
  enough (H : forall ps l L, stands l L -> zlen (L ++ ps) <= 50000 -> stands (fold_left (fun l p => snd (define l 1 p)) ps l) (L ++ ps)) by (intros Hp; exact (H ps locals_empty [] (stands_empty) Hp)).
  clear. induction ps as [|p ps IH]; intros l L Hl Hz; cbn [fold_left]; [rewrite app_nil_r; exact Hl|].
  pose proof (stands_define l L 1 p Hl ltac:(unfold U32MAX; lia)) as Hd. cbv zeta in Hd.
  assert (Hz' : zlen L + 1 <= 50000) by (rewrite zlen_app in Hz; unfold zlen in *; cbn [List.length] in Hz; lia).
  destruct (Z.leb_spec (zlen L + 1) 50000) as [_|]; [|lia]. destruct Hd as [_ Hd]. change (repeat p (Z.to_nat 1)) with [p] in Hd.
  replace (L ++ p :: ps) with ((L ++ [p]) ++ ps) by (rewrite <- app_assoc; reflexivity). apply IH; [exact Hd|]. rewrite <- app_assoc. exact Hz.
Qed.
Lemma repeat_map {A B} (b : B) (l : list A) : repeat b (List.length l) = map (fun _ => b) l.
Proof. induction l as [|x l IH]; cbn; [|rewrite IH]; reflexivity. Qed.
Lemma initially_in ps ls i : In i (initially_set ps ls) <-> 0 <= i /\ nth_error (set_at_start ps ls) (Z.to_nat i) = Some true.
Proof.
  unfold initially_set. rewrite filter_In, in_map_iff. split.
  - intros [(k & <- & K) H]. rewrite in_seq in K. rewrite Nat2Z.id in *. split; [lia|].
    assert (Hl : (k < List.length (set_at_start ps ls))%nat) by (unfold set_at_start; rewrite app_length, !map_length; rewrite app_length in K; lia).
    rewrite (nth_error_nth' _ false Hl), H. reflexivity.
  - intros [Hi H]. split.
    + exists (Z.to_nat i). split; [lia|]. rewrite in_seq. assert (Hl : (Z.to_nat i < List.length (set_at_start ps ls))%nat) by (apply nth_error_Some; congruence).
      unfold set_at_start in Hl. rewrite app_length, !map_length in Hl. rewrite app_length. lia.
    + apply nth_error_nth with (d := false) in H. exact H.
Qed.

Lemma pushes_any l : forall s, exists s', pushes l s = VOk tt s' /\ vs_control s' = vs_control s.
Proof.
  induction l as [|t l IH]; intros s; [exists s; auto|]. unfold pushes in *. cbn [vall]. unfold vbind, push_operand at 1, push_maybe.
  destruct (IH (record_push (with_operands s (Known t :: vs_operands s)))) as (s' & -> & H). exists s'. split; [reflexivity|]. rewrite H. reflexivity.
Qed.

(** * Operators with rules *)
Lemma rule_scope o : has_rule o = true -> sensible o -> in_scope o = true.
Proof. destruct o; try (intros H _; exact H); intros _ H; apply Z.leb_le; exact H. Qed.
Definition block_op (o : operator) : bool :=
  match o with Op_Block _ | Op_Loop _ | Op_If _ | Op_Else | Op_End | Op_TryTable _ => true | _ => false end.
Fixpoint ruled_i (i : instr) : bool :=
  let all := fix all (es : list instr) : bool := match es with [] => true | e :: es => ruled_i e && all es end in
  match i with
  | IOp o => negb (block_op o)
  | IBlock _ es | ILoop _ es | ITryTable _ es => all es
  | IIf _ es els => all es && match els with Some l => all l | None => true end
  end.
Definition ruled (es : list instr) : bool := forallb ruled_i es.
Scheme i_ok_mut := Minimality for i_ok Sort Prop with es_ok_mut := Minimality for es_ok Sort Prop.
Lemma es_ruled C X es ts xs us : es_ok C X es ts xs us -> ruled es = true.
Proof.
  apply (es_ok_mut (fun _ _ i _ _ _ => ruled_i i = true) (fun _ _ es _ _ _ => ruled es = true)); clear; intros; try reflexivity; try assumption.
  all: try (destruct o; try reflexivity; discriminate); try (destruct o; try reflexivity; contradiction).
  - destruct H as [-> | ->]; reflexivity.
  - change (ruled es && match els with Some l => ruled l | None => true end = true). rewrite H1. destruct els; assumption.
  - unfold ruled. cbn [forallb]. rewrite H0. reflexivity.
  - unfold ruled in *. rewrite forallb_app, H0. assumption.
Qed.
Lemma ruled_covered : forall es, ruled es = true -> forallb in_scope (flatten es) = true -> covered_es es = true.
Proof.
  intros es. remember (List.length (flatten es)) as n eqn:Hn. revert es Hn. induction n as [n IH] using lt_wf_ind. intros es -> Hr Hs.
  destruct es as [|i es]; [reflexivity|]. cbn [ruled covered_es forallb flatten] in *. apply andb_prop in Hr. destruct Hr as [Hr1 Hr2].
  rewrite forallb_app in Hs. apply andb_prop in Hs. destruct Hs as [Hs1 Hs2]. pose proof (flatten_i_pos i) as Hp. rewrite app_length in IH.
  apply andb_true_intro. split; [|eapply IH; [|reflexivity|exact Hr2|exact Hs2]; lia].
  destruct i as [o|b l|b l|b l els|t l].
  - cbn [flatten_i forallb] in Hs1. rewrite Bool.andb_true_r in Hs1. cbn [ruled_i covered_i] in *. destruct o; try exact Hs1; discriminate.
  - change (covered_es l = true). change (ruled l = true) in Hr1. change (forallb in_scope (flatten l ++ [Op_End]) = true) in Hs1.
    change (flatten_i (IBlock b l)) with (Op_Block b :: flatten l ++ [Op_End]) in IH, Hp.
    rewrite forallb_app in Hs1. apply andb_prop in Hs1. eapply IH; [|reflexivity|exact Hr1|tauto]. cbn [List.length]. rewrite app_length. lia.
  - change (covered_es l = true). change (ruled l = true) in Hr1. change (forallb in_scope (flatten l ++ [Op_End]) = true) in Hs1.
    change (flatten_i (ILoop b l)) with (Op_Loop b :: flatten l ++ [Op_End]) in IH, Hp.
    rewrite forallb_app in Hs1. apply andb_prop in Hs1. eapply IH; [|reflexivity|exact Hr1|tauto]. cbn [List.length]. rewrite app_length. lia.
  - change (covered_es l && match els with Some l => covered_es l | None => true end = true).
    change (ruled l && match els with Some l => ruled l | None => true end = true) in Hr1.
    change (flatten_i (IIf b l els)) with (Op_If b :: flatten l ++ match els with Some l => Op_Else :: flatten l | None => [] end ++ [Op_End]) in IH, Hp, Hs1.
    apply andb_prop in Hr1. destruct Hr1 as [Hr1 Hr3]. cbn [forallb] in Hs1. apply andb_prop in Hs1. destruct Hs1 as [_ Hs1].
    rewrite !forallb_app in Hs1. apply andb_prop in Hs1. destruct Hs1 as [Hs1 Hs3]. apply andb_prop in Hs3. destruct Hs3 as [Hs3 _].
    cbn [List.length] in IH. rewrite !app_length in IH.
    apply andb_true_intro. split; [eapply IH; [|reflexivity|exact Hr1|exact Hs1]; lia|]. destruct els as [l'|]; [|reflexivity].
    cbn [forallb List.length] in *. apply andb_prop in Hs3. eapply IH; [|reflexivity|exact Hr3|tauto]. lia.
  - change (covered_es l = true). change (ruled l = true) in Hr1. change (forallb in_scope (flatten l ++ [Op_End]) = true) in Hs1.
    change (flatten_i (ITryTable t l)) with (Op_TryTable t :: flatten l ++ [Op_End]) in IH, Hp.
    rewrite forallb_app in Hs1. apply andb_prop in Hs1. eapply IH; [|reflexivity|exact Hr1|tauto]. cbn [List.length]. rewrite app_length. lia.
Qed.

Section Func.
Variable R : resources.
Variable F : feature -> bool.
Hypothesis HM : res_ok R.
Hypothesis HF : forall f, f <> f_custom_descriptors -> F f = true.
Notation exact := (F f_custom_descriptors).
Lemma envs_ctx sh L ls rs : envs R F (mkCtx R exact sh L ls rs).
Proof. intros a Ha. split; cbn; auto. Qed.

Lemma start_inst t ty ps rs ls s : r_sub_type_at R ty = Some t -> c_inner (s_comp t) = IFunc ps rs ->
  declared (ps ++ ls) (set_at_start ps ls) s -> vs_operands s = [] -> vs_control s = [mkFrame FBlock (BFunc ty) 0 false 0] -> vs_shared s = c_shared (s_comp t) ->
  inst (mkCtx R exact (c_shared (s_comp t)) (ps ++ ls) [rs] rs) (initially_set ps ls) s false [] [].
Proof.
  intros Ht Hi [Hl Hb Hn Hw] Ho Hc Hs.
  assert (Hf : sig_func (mkCtx R exact (c_shared (s_comp t)) (ps ++ ls) [rs] rs) ty = Some (mkFn ps rs)).
  { unfold sig_func. cbn [cx_mod]. rewrite Ht, Hi. unfold guard, sees. cbn [cx_shared]. destruct (c_shared (s_comp t)); reflexivity. }
  split.
  - split; [rewrite Ho; reflexivity|]. rewrite Hc. eexists _, []. split; [reflexivity|]. cbn. auto.
  - rewrite Hc. constructor; [|constructor]. cbn [flabel fr_kind fr_block bresults]. rewrite Hf. reflexivity.
  - exists [], (mkFrame FBlock (BFunc ty) 0 false 0). split; [exact Hc|]. cbn [fr_block bresults]. rewrite Hf. reflexivity.
  - exact Hs.
  - intros i Hi0. apply stands_get; assumption.
  - exact Hw.
  - cbn [cx_locals]. intros i Hi0 Hlt. rewrite <- Hn in Hlt. apply nth_error_Some in Hlt. destruct (nth_error (set_at_start ps ls) (Z.to_nat i)) as [b|] eqn:Eb; [|contradiction].
    exists b. split; [eapply bits_uninit; eassumption|]. rewrite initially_in, Eb. split; [intros ->; auto|]. intros [_ K]. injection K as ->. reflexivity.
Qed.

(** The end of the body. *)
Lemma body_run t ty ps rs ls s es l at_ : r_sub_type_at R ty = Some t -> c_inner (s_comp t) = IFunc ps rs ->
  declared (ps ++ ls) (set_at_start ps ls) s -> vs_operands s = [] -> vs_control s = [mkFrame FBlock (BFunc ty) 0 false 0] -> vs_shared s = c_shared (s_comp t) ->
  covered_es es = true -> map snd l = flatten es -> nz l -> at_ <> 0 ->
  let C := mkCtx R exact (c_shared (s_comp t)) (ps ++ ls) [rs] rs in
  match run R F (l ++ [(at_, Op_End)]) s with
  | VOk _ s' => exists xs, es_ok C (initially_set ps ls) es [] xs (dv rs)
  | _ => forall xs, ~ es_ok C (initially_set ps ls) es [] xs (dv rs)
  end.
Proof.
  intros Ht Hi Hd Ho Hc Hs Hcov Hl Hnz Ha C. pose proof (start_inst t ty ps rs ls s Ht Hi Hd Ho Hc Hs) as In. fold C in In.
  assert (HMC : res_ok (cx_mod C)) by exact HM. assert (HRC : envs R F C) by apply envs_ctx.
  pose proof (run_ok R F es Hcov C _ l s false [] [] HMC HRC Hl Hnz In) as Rk. rewrite run_app. unfold vbind.
  destruct (run R F l s) as [[] s1|e s1|]; cbn [ok_run] in Rk.
  2,3: intros xs K; apply (body_stuck C HMC (initially_set ps ls) es [] rs Rk); exists xs; exact K.
  destruct Rk as (u' & seg' & In' & Kp & Sm).
  assert (Sem : sem C u' seg' (dv (rev rs)) <-> body_ok C (initially_set ps ls) es [] rs) by (apply body_sem; [exact HMC|exact Sm]).
  destruct Kp as [(fr & fr' & rest & K1 & K2 & (K3 & K4 & K5 & K6)) Kx]. rewrite Hc in K1. injection K1 as <- <-. cbn [fr_kind fr_block fr_height fr_init_height] in *.
  assert (Hb : bresults C (fr_block fr') = Some rs).
  { rewrite K4. destruct (in_return _ _ _ _ _ _ In) as (o & f & H1 & H2). rewrite Hc in H1. destruct o as [|x [|]]; [|discriminate..]. injection H1 as <-. exact H2. }
  destruct (Kx (vs_inits s) (ext_refl _)) as (und & Hund).
  assert (Hh : inits_height (vs_inits s) = 0%nat) by (unfold inits_height; rewrite (proj1 (proj2 (dl_bits _ _ _ Hd))); reflexivity). rewrite Hh, <- K6 in Hund.
  pose proof (pop_ctrl_ok (mkEnv R F at_) C HMC (HRC at_ Ha) s1 u' seg' [] fr' [] rs (vs_inits s) und (in_view _ _ _ _ _ _ In') (in_shared _ _ _ _ _ _ In') K2 Hb Hund) as Pc.
  cbn [run]. unfold vbind, op. rewrite (visit_free (mkEnv R F at_) Op_End eq_refl). cbn [visit_op]. unfold visit_end, vbind.
  destruct (pop_ctrl (mkEnv R F at_) s1) as [fr2 s2|e s2|]; [|intros xs K; apply Pc, Sem; exists xs; exact K..].
  destruct Pc as (P1 & -> & P2 & P3 & P4 & P5 & P6). apply Sem in P1. destruct P1 as (xs & P1).
  rewrite K3. cbn [is_if]. unfold vret at 1. pose proof (look_results (mkEnv R F at_) C (HRC at_ Ha) (fr_block fr') s2) as Lr.
  assert (Hinv : inv C s2) by (unfold inv; rewrite P6; exact (in_shared _ _ _ _ _ _ In')). specialize (Lr Hinv).
  destruct (results (mkEnv R F at_) (fr_block fr') s2) as [us s3|e s3|]; [|congruence..]. destruct Lr as [-> Lr]. rewrite Hb in Lr. injection Lr as <-.
  destruct (pushes_any rs s2) as (s4 & -> & Hc4). unfold vget. rewrite Hc4, P3. cbn [e_at]. destruct (Z.eqb_spec at_ 0); [contradiction|]. unfold vret. eauto.
Qed.

(** * A body given by its bytes *)
Theorem validate_iff ft start ty off bytes :
  (forall t ps rs, r_sub_type_at R ty = Some t -> c_inner (s_comp t) = IFunc ps rs -> zlen ps <= 50000) ->
  bytes_ok bytes -> 0 <= off -> (forall ops, body_ops ft off bytes = Ok ops -> forallb has_rule ops = true) ->
  (validate R F ft start ty off bytes = Done tt <->
   exists groups ops, body_locals ft off bytes = Ok groups /\ body_ops ft off bytes = Ok ops /\ func_ok R exact ty groups ops).
Proof.
  intros Hps Hby Hoff Hrule. unfold validate, new_func. cbn [e_res].
  destruct (r_sub_type_at R ty) as [t|] eqn:Ht.
  2: { cbn [of_read obind]. split; [discriminate|]. intros (g & o & _ & _ & (t & ps & rs & ls & es & xs & K & _)). congruence. }
  destruct (c_inner (s_comp t)) as [ps rs| | | ] eqn:Hi; cbn [of_read obind].
  2,3,4: split; [discriminate|]; intros (g & o & _ & _ & (t' & ps & rs & ls & es & xs & K & K2 & _)); rewrite Ht in K; injection K as <-; congruence.
  specialize (Hps t ps rs eq_refl Hi). set (s0 := mkVst _ _ _ _ _ _ _).
  assert (D0 : declared ps (map (fun _ => true) ps) s0).
  { split; cbn [vs_locals vs_inits s0].
    - apply params_stand. exact Hps.
    - unfold bits_ok, Model.define_params. cbn [li_bits li_log li_first inits_empty app]. unfold zlen. rewrite Nat2Z.id, repeat_map. split; [reflexivity|]. split; [reflexivity|].
      unfold U32MAX. split; [lia|]. split; [left; reflexivity|]. intros i _ K. apply nth_error_In in K. apply in_map_iff in K. destruct K as (x & K & _). discriminate.
    - apply map_length.
    - apply iwf_params, iwf_empty. }
  set (C0 := mkCtx R exact (c_shared (s_comp t)) [] [] []).
  assert (HR0 : envs R F C0) by apply envs_ctx. assert (HM0 : res_ok (cx_mod C0)) by exact HM.
  unfold body_locals, body_ops, read_locals, skip_locals, read_expr, bind in *.
  destruct (read_var_u32 (new_reader ft bytes off)) as [[n r0]|e] eqn:En; cbn [of_read obind].
  2: { split; [discriminate|]. intros (g & o & K & _). discriminate. }
  pose proof (start_good ft bytes off n r0 Hoff Hby En) as Hg0.
  (* the operators after the locals *)
  assert (Ops : forall r1 s1 ls, good r1 -> declared (ps ++ ls) (set_at_start ps ls) s1 -> rest_same s0 s1 ->
    (forall ops, (match ops_collect (List.length (r_rem r1)) cs_new r1 with Ok (x, r') => match ops_finish (snd x) r' with Ok (_, _) => Ok (fst x) | Err e => Err e end | Err e => Err e end) = Ok ops -> forallb has_rule ops = true) ->
    (obind (ops_loop R F (List.length (r_rem r1)) r1 s1) (fun '(r, s) => finish r s) = Done tt <->
     exists ops es xs, (match ops_collect (List.length (r_rem r1)) cs_new r1 with Ok (x, r') => match ops_finish (snd x) r' with Ok (_, _) => Ok (fst x) | Err e => Err e end | Err e => Err e end) = Ok ops /\
       ops = flatten es ++ [Op_End] /\ es_ok (mkCtx R exact (c_shared (s_comp t)) (ps ++ ls) [rs] rs) (initially_set ps ls) es [] xs (dv rs))).
  { intros r1 s1 ls Hg1 Hd1 (So & Sc & Ss) Hru. cbn [s0 vs_operands vs_control vs_shared] in So, Sc, Ss.
    assert (Hk1 : cs_list cs_new = kinds s1) by (unfold kinds; rewrite Sc; reflexivity).
    assert (Hw1 : cs_wf cs_new) by (intros K; discriminate K).
    pose proof (loop_collect R F (List.length (r_rem r1)) r1 s1 cs_new Hk1 Hw1 Hg1) as Lc.
    destruct (ops_collect (List.length (r_rem r1)) cs_new r1) as [[[ops c'] r']|e].
    2: { split; [|intros (ops & es & xs & K & _); discriminate]. destruct (ops_loop R F (List.length (r_rem r1)) r1 s1) as [x| |]; [exfalso; exact (Lc x eq_refl)|discriminate..]. }
    cbn [fst snd] in *. destruct Lc as (l & Hl & Hnz & Hef & Hse & Hpath & Hloop & Hkn).
    unfold ops_finish in *. rewrite last_list in *.
    destruct (hd_error (cs_list c')) as [k|] eqn:Ek.
    { split; [|intros (ops' & es & xs & K & _); discriminate]. rewrite Hloop. destruct (run R F l s1) as [[] s2| |]; cbn [obind]; try discriminate.
      unfold finish. rewrite current_kinds, (Hkn s2 eq_refl), Ek. discriminate. }
    rewrite Hef in *. specialize (Hru ops eq_refl).
    assert (Hsc : forallb in_scope ops = true).
    { apply forallb_forall. intros o Ho. apply rule_scope; [exact (proj1 (forallb_forall _ _) Hru o Ho)|exact (proj1 (Forall_forall _ _) Hse o Ho)]. }
    specialize (Hpath Hsc). assert (Hnil : cs_list c' = []) by (destruct (cs_list c'); [reflexivity|discriminate]). rewrite Hnil in Hpath, Hkn.
    rewrite Hloop.
    assert (Body : forall es, ops = flatten es ++ [Op_End] -> covered_es es = true ->
      match run R F l s1 with
      | VOk _ s' => exists xs, es_ok (mkCtx R exact (c_shared (s_comp t)) (ps ++ ls) [rs] rs) (initially_set ps ls) es [] xs (dv rs)
      | _ => forall xs, ~ es_ok (mkCtx R exact (c_shared (s_comp t)) (ps ++ ls) [rs] rs) (initially_set ps ls) es [] xs (dv rs)
      end).
    { intros es -> Hc. apply map_eq_app in Hl. destruct Hl as (l1 & l2 & -> & Hl1 & Hl2). destruct l2 as [|[a o] [|]]; try discriminate. injection Hl2 as ->.
      apply Forall_app in Hnz. destruct Hnz as [Hn1 Hn2]. apply Forall_inv in Hn2. cbn [fst] in Hn2.
      apply (body_run t ty ps rs ls s1 es l1 a); assumption. }
    split.
    - intros K. destruct (nest_body ops Hpath) as (es & He & Hc). specialize (Body es He Hc). destruct (run R F l s1) as [[] s2| |]; cbn [obind] in K; try discriminate.
      destruct Body as (xs & Body). exists ops, es, xs. auto.
    - intros (ops' & es & xs & K & He & Hes). injection K as <-. assert (Hc : covered_es es = true).
      { apply ruled_covered; [exact (es_ruled _ _ _ _ _ _ Hes)|]. rewrite He, forallb_app in Hsc. apply andb_prop in Hsc. tauto. }
      specialize (Body es He Hc). destruct (run R F l s1) as [[] s2| |]; cbn [obind]; [|exfalso; exact (Body xs Hes)..].
      unfold finish. rewrite current_kinds, (Hkn s2 eq_refl), Hef. reflexivity. }
  destruct (locals_loop R F (Z.to_nat n) r0 s0) as [[r1 s1]|e|] eqn:El; cbn [obind].
  - destruct (locals_bwd R F C0 HM0 HR0 (Z.to_nat n) r0 s0 _ _ Hg0 D0 eq_refl 0 r1 s1 (zlen_nonneg ps) El) as (groups & Eg).
    destruct (locals_fwd R F C0 HM0 HR0 (Z.to_nat n) r0 s0 _ _ Hg0 D0 eq_refl 0 groups r1 Eg) as ((u & Sk) & Hg1 & H). rewrite El in H.
    destruct H as (_ & ls & L1 & L2 & L3 & L4). fold skip_item in *. rewrite Eg.
    change (fun r : reader => match read_var_u32 r with Ok (_, r') => match read_val r' with Ok (_, r'0) => ret tt r'0 | Err e => Err e end | Err e => Err e end) with skip_item in *.
    rewrite Sk in *. unfold ret in *.
    rewrite (Ops r1 s1 ls Hg1 L3 L4); [|intros ops K; apply Hrule; rewrite <- K; clear; destruct (ops_collect _ _ _) as [[x r']|]; [|reflexivity]; destruct (ops_finish (snd x) r') as [[[] r2]|]; reflexivity].
    split.
    + intros (ops & es & xs & K & He & Hes). exists groups, ops. split; [reflexivity|]. split.
      { rewrite <- K. clear. destruct (ops_collect _ _ _) as [[x r']|]; [|reflexivity]. destruct (ops_finish (snd x) r') as [[[] r2]|]; reflexivity. }
      exists t, ps, rs, ls, es, xs. auto 8.
    + intros (g & ops & Kg & Ko & (t' & ps' & rs' & ls' & es & xs & F1 & F2 & F3 & F4 & F5 & F6)). injection Kg as <-. rewrite Ht in F1. injection F1 as <-.
      rewrite Hi in F2. injection F2 as <- <-. fold C0 in F3. rewrite L1 in F3. injection F3 as <-. exists ops, es, xs. split; [|auto].
      rewrite <- Ko. clear. destruct (ops_collect _ _ _) as [[x r']|]; [|reflexivity]. destruct (ops_finish (snd x) r') as [[[] r2]|]; reflexivity.
  - split; [discriminate|]. intros (groups & ops & Kg & _ & (t' & ps' & rs' & ls' & es & xs & F1 & F2 & F3 & F4 & _)). rewrite Ht in F1. injection F1 as <-.
    rewrite Hi in F2. injection F2 as <- <-. fold C0 in F3.
    destruct (read_locals_loop (Z.to_nat n) 0 r0) as [[gs r1]|] eqn:Eg; [|discriminate]. injection Kg as ->.
    destruct (locals_fwd R F C0 HM0 HR0 (Z.to_nat n) r0 s0 _ _ Hg0 D0 eq_refl 0 groups r1 Eg) as (_ & _ & H). rewrite El in H. specialize (H ls' F3). exfalso. exact (Z.lt_irrefl _ (Z.lt_le_trans _ _ _ H F4)).
  - split; [discriminate|]. intros (groups & ops & Kg & _ & (t' & ps' & rs' & ls' & es & xs & F1 & F2 & F3 & F4 & _)). rewrite Ht in F1. injection F1 as <-.
    rewrite Hi in F2. injection F2 as <- <-. fold C0 in F3.
    destruct (read_locals_loop (Z.to_nat n) 0 r0) as [[gs r1]|] eqn:Eg; [|discriminate]. injection Kg as ->.
    destruct (locals_fwd R F C0 HM0 HR0 (Z.to_nat n) r0 s0 _ _ Hg0 D0 eq_refl 0 groups r1 Eg) as (_ & _ & H). rewrite El in H. specialize (H ls' F3). exfalso. exact (Z.lt_irrefl _ (Z.lt_le_trans _ _ _ H F4)).
Qed.
End Func.
