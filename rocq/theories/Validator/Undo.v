(** Proofs about the transaction log: every operator can be rolled back. *)
From Verif.Base Require Import Prelude.
From Verif.Locals Require Import Model Proofs.
From Verif.Types Require Import RefModel CodecModel CanonModel.
From Verif.Instr Require Import ImmModel Ops.
From Verif.Validator Require Import State Checks Visit Api Generic.

(** * Actions on operands only *)
Definition ops_log (l l' : option rollback_log) (o o' : list (maybe val)) : Prop :=
  match l, l' with
  | None, None => True
  | Some l, Some l' =>
    lg_frames l' = lg_frames l /\ lg_inits l' = lg_inits l /\ lg_init_height l' = lg_init_height l /\ lg_unreachable l' = lg_unreachable l /\
    fold_left undo_operand (lg_operands l') o' = fold_left undo_operand (lg_operands l) o
  | _, _ => False
  end.
Definition above (c : list frame) (n : nat) : Prop := match c with fr :: _ => (fr_height fr <= n)%nat | [] => True end.
Record opsrel (s s' : vst) : Prop := mkOpsrel
  { or_locals : vs_locals s' = vs_locals s;
    or_inits : vs_inits s' = vs_inits s;
    or_control : vs_control s' = vs_control s;
    or_shared : vs_shared s' = vs_shared s;
    or_log : ops_log (vs_log s) (vs_log s') (vs_operands s) (vs_operands s');
    or_above : above (vs_control s) (List.length (vs_operands s)) -> above (vs_control s) (List.length (vs_operands s')) }.
Lemma opsrel_refl s : opsrel s s.
Proof. split; auto. unfold ops_log. destruct (vs_log s); auto. Qed.
Lemma opsrel_trans a b c : opsrel a b -> opsrel b c -> opsrel a c.
Proof.
  intros [A1 A2 A3 A4 A5 A6] [B1 B2 B3 B4 B5 B6].
  split; try congruence.
  - unfold ops_log in *. destruct (vs_log a), (vs_log b), (vs_log c); try tauto.
    destruct A5 as (P1 & P2 & P3 & P4 & P5), B5 as (Q1 & Q2 & Q3 & Q4 & Q5). repeat split; congruence.
  - rewrite A3 in B6. auto.
Qed.
Definition opnd {A} (m : V A) : Prop := forall s, match m s with VOk _ s' | VErr _ s' => opsrel s s' | VPanic => True end.
(** [m] changes nothing and does not fail but by itself. *)
Lemma opnd_ret {A} (a : A) : opnd (vret a). Proof. intros s. apply opsrel_refl. Qed.
Lemma opnd_bind {A B} (m : V A) (k : A -> V B) : opnd m -> (forall a, opnd (k a)) -> opnd (vbind m k).
Proof.
  intros Hm Hk s. unfold vbind. specialize (Hm s). destruct (m s) as [a s1|e s1|]; auto.
  specialize (Hk a s1). destruct (k a s1); auto; eapply opsrel_trans; eauto.
Qed.
Lemma opnd_panic {A} : opnd (vpanic : V A). Proof. intros s. exact I. Qed.
Lemma opnd_fail E {A} msg : opnd (vfail E msg : V A). Proof. intros s. apply opsrel_refl. Qed.
Lemma opnd_get {A} (f : vst -> A) : opnd (vget f). Proof. intros s. apply opsrel_refl. Qed.
Lemma opnd_lift {A} (r : res A) : opnd (vlift r). Proof. intros s. unfold vlift. destruct r; apply opsrel_refl. Qed.
Lemma opnd_unwrap {A} (o : option A) : opnd (vunwrap o). Proof. destruct o; [apply opnd_ret|apply opnd_panic]. Qed.
Lemma opnd_some E {A} (o : option A) msg : opnd (vsome E o msg). Proof. destruct o; [apply opnd_ret|apply opnd_fail]. Qed.
Lemma opnd_check E b msg : opnd (vcheck E b msg). Proof. destruct b; [apply opnd_ret|apply opnd_fail]. Qed.
Lemma opnd_require E f msg : opnd (require E f msg). Proof. apply opnd_check. Qed.
Lemma opnd_all {A} (f : A -> V unit) l : (forall a, opnd (f a)) -> opnd (vall f l).
Proof. intros H. induction l as [|a l IH]; [apply opnd_ret|]. cbn [vall]. apply opnd_bind; auto. Qed.

Lemma opnd_push_maybe t : opnd (push_maybe t).
Proof.
  intros s. unfold push_maybe, record_push, log_map. split; cbn; auto.
  - unfold ops_log. destruct (vs_log s); cbn; auto.
  - unfold above. destruct (vs_control s); auto.
Qed.
Lemma opnd_push t : opnd (push_operand t). Proof. apply opnd_push_maybe. Qed.
Lemma opnd_check_operand E a e : opnd (check_operand E a e).
Proof.
  unfold check_operand. destruct e as [e|]; [|apply opnd_ret].
  destruct a; [apply opnd_ret| |apply opnd_check].
  destruct e; try apply opnd_fail. destruct t; [apply opnd_check|apply opnd_ret].
Qed.
Lemma rel_any_pop s : opsrel s (record_any_pop s).
Proof. split; cbn; auto. unfold ops_log. destruct (vs_log s); auto. Qed.
Lemma rel_pop s t rest : vs_operands s = t :: rest -> above (vs_control s) (List.length rest) -> opsrel s (record_pop t (with_operands s rest)).
Proof.
  intros Ho Ha. unfold record_pop, record_any_pop, log_map. split; cbn; auto.
  unfold ops_log. destruct (vs_log s); cbn; auto. rewrite Ho. auto.
Qed.
Lemma opnd_ret_then E (s s1 : vst) a e (t : maybe val) : opsrel s s1 ->
  match (check_operand E a e ;; vret t) s1 with VOk _ s' | VErr _ s' => opsrel s s' | VPanic => True end.
Proof.
  intros H. pose proof (opnd_bind (check_operand E a e) (fun _ => vret t) (opnd_check_operand E a e) (fun _ => opnd_ret t) s1) as H1.
  destruct ((check_operand E a e ;; vret t) s1); auto; eapply opsrel_trans; eauto.
Qed.
Lemma rel_same s : with_operands s (vs_operands s) = s. Proof. destruct s; reflexivity. Qed.
Lemma opnd_slow E e : opnd (slow_pop_operand E e None).
Proof.
  intros s. unfold slow_pop_operand.
  destruct (vs_control s) as [|fr c] eqn:Ec; [exact I|].
  destruct (Nat.eqb_spec (List.length (vs_operands s)) (fr_height fr)) as [Hn|Hn]; cbn [andb].
  - destruct (fr_unreachable fr).
    + apply opnd_ret_then. apply rel_any_pop.
    + destruct e; apply opsrel_refl.
  - destruct (vs_operands s) as [|t rest] eqn:Eo; [exact I|].
    destruct (Nat.le_gt_cases (fr_height fr) (List.length rest)) as [Hl|Hl].
    + apply opnd_ret_then. apply rel_pop; auto. rewrite Ec. exact Hl.
    + (* the stack is below the frame: not reachable, but the relation still holds vacuously *)
      apply opnd_ret_then. unfold record_pop, record_any_pop, log_map. split; cbn; auto.
      * unfold ops_log. destruct (vs_log s); cbn; auto. rewrite Eo. auto.
      * rewrite Ec, Eo. cbn. cbn in Hn. lia.
Qed.
Lemma slow_some E e t s rest : vs_operands s = t :: rest ->
  slow_pop_operand E e (Some t) (with_operands s rest) = slow_pop_operand E e None s.
Proof.
  destruct s; cbn in *. intros ->. reflexivity.
Qed.
Lemma opnd_pop_operand E e : opnd (pop_operand E e).
Proof.
  intros s. unfold pop_operand.
  pose proof (opnd_slow E e s) as Hs.
  destruct (vs_operands s) as [|t rest] eqn:Eo; [exact Hs|].
  rewrite <- (slow_some E e t s rest Eo) in Hs.
  destruct t as [|u|a]; try exact Hs.
  destruct e as [e|]; [|exact Hs].
  destruct (val_eqb a e); [|exact Hs].
  destruct (vs_control s) as [|fr c] eqn:Ec; [exact Hs|].
  destruct (Nat.leb_spec (fr_height fr) (List.length rest)) as [H|H]; [|exact Hs].
  apply rel_pop; auto. rewrite Ec. exact H.
Qed.
Lemma opnd_pop E t : opnd (pop E t). Proof. apply opnd_bind; [apply opnd_pop_operand|intros; apply opnd_ret]. Qed.
Lemma opnd_pops E l : opnd (pops E l). Proof. apply opnd_all, opnd_pop. Qed.
Lemma opnd_pushes l : opnd (pushes l). Proof. apply opnd_all, opnd_push. Qed.


Lemma opnd_plain E o : plain_op o = true -> opnd (visit_op E o).
Proof.
  apply (P_plain E (@opnd)); intros; eauto using @opnd_ret, @opnd_bind, @opnd_panic, @opnd_fail, @opnd_lift, @opnd_get, opnd_push_maybe, opnd_pop_operand.
Qed.

(** * The log of initialised locals *)
Record inits_wf (is : inits_t) : Prop := mkIwf
  { iw_first : 0 <= li_first is;
    iw_nodup : NoDup (li_log is);
    iw_bits : forall i, In i (li_log is) -> li_first is <= i /\ nth_error (li_bits is) (Z.to_nat i) = Some true }.
Lemma set_bit_same l : forall i b, nth_error l i = Some b -> set_bit l i b = l.
Proof. induction l as [|x l IH]; intros [|i] b; cbn; intros H; inversion H; subst; auto. rewrite IH; auto. Qed.
Lemma set_bit_twice l : forall i a b, set_bit (set_bit l i a) i b = set_bit l i b.
Proof. induction l as [|x l IH]; intros [|i] a b; cbn; auto. rewrite IH. auto. Qed.
Lemma set_bit_comm l : forall i j a b, i <> j -> set_bit (set_bit l i a) j b = set_bit (set_bit l j b) i a.
Proof. induction l as [|x l IH]; intros [|i] [|j] a b H; cbn; auto; try congruence. rewrite IH; auto. Qed.
Notation clear := (fold_left (fun l i => set_bit l (Z.to_nat i) false)).
Lemma clear_set und : forall l i b, 0 <= i -> ~ In i und -> (forall j, In j und -> 0 <= j) ->
  clear und (set_bit l (Z.to_nat i) b) = set_bit (clear und l) (Z.to_nat i) b.
Proof.
  induction und as [|j und IH]; intros l i b Hi Hn Hp; cbn [fold_left]; [reflexivity|].
  rewrite set_bit_comm.
  - apply IH; auto; [intros H; apply Hn; right; exact H|intros k H; apply Hp; right; exact H].
  - intros E. apply Hn. left. specialize (Hp j (or_introl eq_refl)). lia.
Qed.
Lemma restore_inits first und : forall bits l, NoDup (l ++ und) -> 0 <= first ->
  (forall i, In i und -> first <= i /\ nth_error bits (Z.to_nat i) = Some true) ->
  fold_left undo_init und (Some (mkInits (clear und bits) l first)) = Some (mkInits bits (l ++ und) first).
Proof.
  induction und as [|x und IH]; intros bits l Hd Hf Hb.
  - rewrite app_nil_r. reflexivity.
  - cbn [fold_left]. destruct (Hb x (or_introl eq_refl)) as (Hx & Hbx).
    assert (Hnx : ~ In x und). { apply NoDup_remove_2 in Hd. intros H. apply Hd, in_app_iff. auto. }
    assert (Hpos : forall j, In j und -> 0 <= j). { intros j Hj. destruct (Hb j (or_intror Hj)). lia. }
    rewrite clear_set by (auto; lia).
    unfold undo_init at 2, set_init, is_uninit. cbn [li_first li_bits].
    destruct (Z.ltb_spec x first); [lia|].
    assert (Hlen : (Z.to_nat x < List.length (clear und bits))%nat).
    { rewrite clear_length. apply nth_error_Some. rewrite Hbx. discriminate. }
    rewrite set_bit_nth, Nat.eqb_refl. cbn [andb]. destruct (Nat.ltb_spec (Z.to_nat x) (List.length (clear und bits))); [|lia].
    cbn [negb li_log]. rewrite set_bit_twice, set_bit_same.
    + rewrite IH; auto.
      * rewrite <- app_assoc. reflexivity.
      * rewrite <- app_assoc. exact Hd.
      * intros i Hi. apply Hb. right. exact Hi.
    + rewrite clear_nth by (auto; lia). destruct (in_dec Z.eq_dec x und); [contradiction|exact Hbx].
Qed.
Lemma inits_pop_some is h : (h <= inits_height is)%nat -> exists isd und, inits_pop is h = Some (isd, und).
Proof. intros H. unfold inits_pop, inits_height in *. destruct (Nat.ltb_spec (List.length (li_log is)) h); [lia|eauto]. Qed.
Lemma inits_pop_height is h isd und : inits_pop is h = Some (isd, und) -> inits_height isd = h /\ (h <= inits_height is)%nat.
Proof.
  unfold inits_pop, inits_height. destruct (Nat.ltb_spec (List.length (li_log is)) h); intros E; inversion E; subst.
  cbn [li_log]. rewrite firstn_length. lia.
Qed.
Lemma NoDup_app_l {A} (a b : list A) : NoDup (a ++ b) -> NoDup a.
Proof. induction a as [|x a IH]; intros H; [constructor|]. inversion H; subst. constructor; auto. intros Hx. apply H2, in_app_iff. auto. Qed.
Lemma inits_pop_wf is h isd und : inits_wf is -> inits_pop is h = Some (isd, und) -> inits_wf isd.
Proof.
  intros [H1 H2 H3] E. unfold inits_pop in E. destruct (Nat.ltb_spec (List.length (li_log is)) h); inversion E; subst; clear E.
  rewrite <- (firstn_skipn h (li_log is)) in H2, H3.
  constructor; cbn [li_first li_log li_bits]; auto.
  - exact (NoDup_app_l _ _ H2).
  - intros i Hi. destruct (H3 i) as (H4 & H5); [apply in_app_iff; auto|]. split; auto.
    rewrite clear_nth.
    + destruct (in_dec Z.eq_dec i (skipn h (li_log is))) as [Hin|Hin]; auto.
      exfalso. apply in_split in Hi as (a & b & Ha). rewrite Ha, <- app_assoc in H2. apply NoDup_remove_2 in H2. apply H2, in_app_iff. right. apply in_app_iff. auto.
    + intros j Hj. destruct (H3 j) as (H6 & _); [apply in_app_iff; auto|]. lia.
    + lia.
Qed.
Lemma inits_pop_restore is h isd und : inits_wf is -> inits_pop is h = Some (isd, und) -> fold_left undo_init und (Some isd) = Some is.
Proof.
  intros [H1 H2 H3] E. unfold inits_pop in E. destruct (Nat.ltb_spec (List.length (li_log is)) h); inversion E; subst; clear E.
  rewrite restore_inits; rewrite ?firstn_skipn; auto.
  - destruct is; reflexivity.
  - intros i Hi. apply H3. rewrite <- (firstn_skipn h (li_log is)). apply in_app_iff. auto.
Qed.
Lemma inits_pop_id is : inits_pop is (inits_height is) = Some (is, []).
Proof.
  unfold inits_pop, inits_height. destruct (Nat.ltb_spec (List.length (li_log is)) (List.length (li_log is))); [lia|].
  rewrite skipn_all, firstn_all. destruct is; reflexivity.
Qed.
Lemma set_init_cases is i is' : set_init is i = Some is' -> is' = is \/
  (li_first is <= i /\ nth_error (li_bits is) (Z.to_nat i) = Some false /\ is' = mkInits (set_bit (li_bits is) (Z.to_nat i) true) (li_log is ++ [i]) (li_first is)).
Proof.
  unfold set_init, is_uninit. destruct (Z.ltb_spec i (li_first is)).
  - intros E; inversion E; auto.
  - destruct (nth_error (li_bits is) (Z.to_nat i)) as [[]|]; cbn [negb]; intros E; inversion E; auto.
Qed.
Lemma set_init_pop is i is' : inits_wf is -> set_init is i = Some is' ->
  (if (inits_height is <? inits_height is')%nat
   then match inits_pop is' (inits_height is) with Some (is, _) => Some is | None => None end else Some is') = Some is.
Proof.
  intros W E. destruct (set_init_cases _ _ _ E) as [->|(H1 & H2 & ->)].
  - rewrite Nat.ltb_irrefl. reflexivity.
  - unfold inits_height, inits_pop. cbn [li_log li_bits li_first]. rewrite app_length. cbn [List.length].
    destruct (Nat.ltb_spec (List.length (li_log is)) (List.length (li_log is) + 1)); [|lia].
    destruct (Nat.ltb_spec (List.length (li_log is) + 1) (List.length (li_log is))); [lia|].
    rewrite skipn_app, skipn_all, Nat.sub_diag, firstn_app, firstn_all, Nat.sub_diag. cbn [skipn firstn app fold_left].
    rewrite app_nil_r, set_bit_twice, set_bit_same by exact H2. destruct is; reflexivity.
Qed.
Lemma set_init_wf is i is' : inits_wf is -> set_init is i = Some is' -> inits_wf is' /\ (inits_height is <= inits_height is')%nat.
Proof.
  intros [W1 W2 W3] E. destruct (set_init_cases _ _ _ E) as [->|(H1 & H2 & ->)]; [repeat split; auto; apply W3; auto|].
  unfold inits_height. cbn [li_log]. rewrite app_length. split; [|lia].
  constructor; cbn [li_first li_log li_bits]; auto.
  - apply NoDup_snoc; auto. intros H. apply W3 in H. destruct H. congruence.
  - intros j Hj. apply in_app_iff in Hj as [Hj|[<-|[]]].
    + destruct (W3 j Hj) as (H3 & H4). split; auto. rewrite set_bit_nth.
      destruct ((Z.to_nat i =? Z.to_nat j)%nat && (Z.to_nat j <? List.length (li_bits is))%nat); auto.
    + split; auto. rewrite set_bit_nth, Nat.eqb_refl. cbn [andb].
      destruct (Nat.ltb_spec (Z.to_nat i) (List.length (li_bits is))) as [|Hl]; auto.
      apply nth_error_None in Hl. congruence.
Qed.

(** * States within a transaction *)
Record shape := mkShape { t_control : list frame; t_inits : inits_t; t_frames : list (option frame); t_undone : list Z; t_unreachable : bool }.
Record at_shape (s0 s : vst) (T : shape) : Prop := mkAt
  { at_locals : vs_locals s = vs_locals s0;
    at_shared : vs_shared s = vs_shared s0;
    at_control : vs_control s = t_control T;
    at_inits : vs_inits s = t_inits T;
    at_above : above (t_control T) (List.length (vs_operands s));
    at_log : exists lg, vs_log s = Some lg /\ lg_frames lg = t_frames T /\ lg_inits lg = t_undone T /\ lg_unreachable lg = t_unreachable T /\
             lg_init_height lg = inits_height (vs_inits s0) /\ fold_left undo_operand (lg_operands lg) (vs_operands s) = vs_operands s0 }.
Lemma at_opsrel s0 s s' T : at_shape s0 s T -> opsrel s s' -> at_shape s0 s' T.
Proof.
  intros [A1 A2 A3 A4 A5 (lg & A6 & A7 & A8 & A9 & A10 & A11)] [B1 B2 B3 B4 B5 B6]. split; try congruence.
  - rewrite A3 in B6. auto.
  - rewrite A6 in B5. unfold ops_log in B5. destruct (vs_log s') as [lg'|]; [|contradiction].
    destruct B5 as (P1 & P2 & P3 & P4 & P5). exists lg'. repeat split; congruence.
Qed.
Fixpoint nested (c : list frame) (m : nat) : Prop :=
  match c with
  | [] => True
  | fr :: c => (fr_init_height fr <= m)%nat /\ above c (fr_height fr) /\ nested c (fr_init_height fr)
  end.
Record wf (s : vst) : Prop := mkWf
  { wf_inits : inits_wf (vs_inits s);
    wf_nested : nested (vs_control s) (inits_height (vs_inits s));
    wf_above : above (vs_control s) (List.length (vs_operands s)) }.
(** The parts of [rollback] that do not concern operands. *)
Definition undoes (s0 : vst) (T : shape) : Prop :=
  exists c1 is1 is2,
    (if t_unreachable T
     then match t_control T with [] => None | fr :: c => Some (mkFrame (fr_kind fr) (fr_block fr) (fr_height fr) false (fr_init_height fr) :: c) end
     else Some (t_control T)) = Some c1 /\
    fold_left undo_frame (t_frames T) (Some (c1, t_inits T)) = Some (vs_control s0, is1) /\
    fold_left undo_init (t_undone T) (Some is1) = Some is2 /\
    (if (inits_height (vs_inits s0) <? inits_height is2)%nat
     then match inits_pop is2 (inits_height (vs_inits s0)) with Some (is, _) => Some is | None => None end else Some is2) = Some (vs_inits s0).
Definition good (s0 : vst) (T : shape) : Prop :=
  undoes s0 T /\ inits_wf (t_inits T) /\ nested (t_control T) (inits_height (t_inits T)).
(** [s] can be rolled back to [s0]. *)
Definition back (s0 s : vst) : Prop := exists T, at_shape s0 s T /\ good s0 T.
Lemma back_wf s0 s : back s0 s -> wf s.
Proof. intros (T & [A1 A2 A3 A4 A5 _] & (_ & G2 & G3)). constructor; rewrite ?A3, ?A4; auto. Qed.
Lemma back_rollback s0 s : vs_log s0 = None -> back s0 s -> rollback s = Some (with_trace s0 (vs_trace s)).
Proof.
  intros Hl (T & [A1 A2 A3 A4 A5 (lg & A6 & A7 & A8 & A9 & A10 & A11)] & (c1 & is1 & is2 & U1 & U2 & U3 & U4) & _).
  unfold rollback. rewrite A6, A9, A3, U1, A7, A4, U2, A8, U3, A10, U4, A11.
  destruct s0, s; cbn in *. subst. reflexivity.
Qed.

(** ** The shapes operators lead to *)
Definition T0 (s0 : vst) : shape := mkShape (vs_control s0) (vs_inits s0) [] [] false.
Definition Tpush (s0 : vst) (f : frame) : shape := mkShape (f :: vs_control s0) (vs_inits s0) [None] [] false.
Definition Tset (s0 : vst) (is : inits_t) : shape := mkShape (vs_control s0) is [] [] false.
Definition mark (u : bool) (fr : frame) : frame := mkFrame (fr_kind fr) (fr_block fr) (fr_height fr) u (fr_init_height fr).
Definition Tunreachable (s0 : vst) (fr : frame) (c : list frame) : shape :=
  mkShape (mark true fr :: c) (vs_inits s0) [] [] (negb (fr_unreachable fr)).
Definition Tdrop (s0 : vst) (fr : frame) (c : list frame) (is : inits_t) (und : list Z) : shape := mkShape c is [Some fr] und false.
Definition Tdroppush (s0 : vst) (fr f : frame) (c : list frame) (is : inits_t) (und : list Z) : shape := mkShape (f :: c) is [None; Some fr] und false.
Definition Tdropdrop (s0 : vst) (fr f : frame) (c : list frame) (is : inits_t) (und : list Z) : shape := mkShape c is [Some f; None; Some fr] und false.
Section Shapes.
Variable s0 : vst.
Hypothesis W : wf s0.
Lemma tail_same is : inits_height is = inits_height is -> is = vs_inits s0 ->
  (if (inits_height (vs_inits s0) <? inits_height is)%nat
     then match inits_pop is (inits_height (vs_inits s0)) with Some (is, _) => Some is | None => None end else Some is) = Some (vs_inits s0).
Proof. intros _ ->. rewrite Nat.ltb_irrefl. reflexivity. Qed.
Lemma good_T0 : good s0 (T0 s0).
Proof.
  destruct W as [W1 W2 W3]. split; [|split; auto]. exists (vs_control s0), (vs_inits s0), (vs_inits s0).
  split; [reflexivity|split; [reflexivity|split; [reflexivity|apply tail_same; auto]]].
Qed.
Lemma good_push f : fr_init_height f = inits_height (vs_inits s0) -> above (vs_control s0) (fr_height f) -> good s0 (Tpush s0 f).
Proof.
  destruct W as [W1 W2 W3]. intros Hf Ha. split; [|split; auto; cbn; rewrite Hf; auto]. exists (f :: vs_control s0), (vs_inits s0), (vs_inits s0).
  split; [reflexivity|split; [|split; [reflexivity|apply tail_same; auto]]].
  cbn [Tpush t_frames fold_left undo_frame t_inits]. rewrite Hf, inits_pop_id. reflexivity.
Qed.
Lemma good_set i is : set_init (vs_inits s0) i = Some is -> good s0 (Tset s0 is).
Proof.
  destruct W as [W1 W2 W3]. intros Hs. destruct (set_init_wf _ _ _ W1 Hs) as (Hw & Hh). split; [|split; auto].
  - exists (vs_control s0), is, is. split; [reflexivity|split; [reflexivity|split; [reflexivity|]]]. eapply set_init_pop; eauto.
  - cbn. destruct (vs_control s0); cbn in *; auto. split; [lia|tauto].
Qed.
Lemma good_unreachable fr c : vs_control s0 = fr :: c -> good s0 (Tunreachable s0 fr c).
Proof.
  destruct W as [W1 W2 W3]. intros Hc. rewrite Hc in W2. split; [|split; auto].
  exists (fr :: c), (vs_inits s0), (vs_inits s0). split; [|split; [cbn; rewrite Hc; reflexivity|split; [reflexivity|apply tail_same; auto]]].
  cbn. destruct fr as [k b h u ih]. cbn. destruct u; reflexivity.
Qed.
Section Drop.
Variables (fr : frame) (c : list frame) (is : inits_t) (und : list Z).
Hypothesis Hc : vs_control s0 = fr :: c.
Hypothesis Hp : inits_pop (vs_inits s0) (fr_init_height fr) = Some (is, und).
Lemma drop_wf : inits_wf is /\ inits_height is = fr_init_height fr /\ nested c (inits_height is).
Proof.
  destruct W as [W1 W2 W3]. rewrite Hc in W2. cbn in W2. destruct (inits_pop_height _ _ _ _ Hp) as (Hh & _).
  split; [eapply inits_pop_wf; eauto|split; auto]. rewrite Hh. tauto.
Qed.
Lemma good_drop : good s0 (Tdrop s0 fr c is und).
Proof.
  pose proof drop_wf as (D1 & D2 & D3). destruct W as [W1 W2 W3]. split; [|split; auto].
  exists c, is, (vs_inits s0). split; [reflexivity|split; [cbn; rewrite Hc; reflexivity|split; [cbn; eapply inits_pop_restore; eauto|apply tail_same; auto]]].
Qed.
Lemma good_droppush f : fr_init_height f = inits_height is -> above c (fr_height f) -> good s0 (Tdroppush s0 fr f c is und).
Proof.
  pose proof drop_wf as (D1 & D2 & D3). destruct W as [W1 W2 W3]. intros Hf Ha. split; [|split; auto; cbn; rewrite Hf; auto].
  exists (f :: c), is, (vs_inits s0). split; [reflexivity|split; [|split; [cbn; eapply inits_pop_restore; eauto|apply tail_same; auto]]].
  cbn [Tdroppush t_frames fold_left undo_frame t_inits]. rewrite Hf, inits_pop_id, Hc. reflexivity.
Qed.
Lemma good_dropdrop f : fr_init_height f = inits_height is -> good s0 (Tdropdrop s0 fr f c is und).
Proof.
  pose proof drop_wf as (D1 & D2 & D3). destruct W as [W1 W2 W3]. intros Hf. split; [|split; auto].
  exists c, is, (vs_inits s0). split; [reflexivity|split; [|split; [cbn; eapply inits_pop_restore; eauto|apply tail_same; auto]]].
  cbn [Tdropdrop t_frames fold_left undo_frame t_inits]. rewrite Hf, inits_pop_id, Hc. reflexivity.
Qed.
End Drop.
End Shapes.

(** * Running within a transaction *)
Definition runs {A} (s0 : vst) (T : shape) (m : V A) (Q : A -> vst -> Prop) : Prop :=
  forall s, at_shape s0 s T -> match m s with VOk a s' => Q a s' | VErr _ s' => back s0 s' | VPanic => True end.
Lemma runs_bind {A B} s0 T (m : V A) (k : A -> V B) Q R : runs s0 T m R -> (forall a s, R a s -> match k a s with VOk b s' => Q b s' | VErr _ s' => back s0 s' | VPanic => True end) ->
  runs s0 T (vbind m k) Q.
Proof. intros Hm Hk s Hs. specialize (Hm s Hs). unfold vbind. destruct (m s); auto. apply Hk. exact Hm. Qed.
Lemma runs_opnd {A} s0 T (m : V A) : opnd m -> good s0 T -> runs s0 T m (fun _ s' => at_shape s0 s' T).
Proof.
  intros Hm Hg s Hs. specialize (Hm s). destruct (m s) as [a s'|e s'|]; auto.
  - eapply at_opsrel; eauto.
  - exists T. split; auto. eapply at_opsrel; eauto.
Qed.
Lemma runs_seq {A B} s0 T (m : V A) (k : A -> V B) Q : opnd m -> good s0 T -> (forall a, runs s0 T (k a) Q) -> runs s0 T (vbind m k) Q.
Proof. intros Hm Hg Hk. eapply runs_bind; [apply runs_opnd; auto|]. intros a s Hs. apply Hk. exact Hs. Qed.
Lemma runs_weaken {A} s0 T (m : V A) (Q R : A -> vst -> Prop) : runs s0 T m Q -> (forall a s, Q a s -> R a s) -> runs s0 T m R.
Proof. intros H HQ s Hs. specialize (H s Hs). destruct (m s); auto. Qed.
Lemma runs_back {A} s0 T (m : V A) : opnd m -> good s0 T -> runs s0 T m (fun _ s' => back s0 s').
Proof. intros Hm Hg. eapply runs_weaken; [apply runs_opnd; auto|]. intros a s Hs. exists T. auto. Qed.

Lemma unreachable_log ops : forall l, let l' := fold_left (fun l op => log_operand (Some op) l) ops l in
  lg_frames l' = lg_frames l /\ lg_inits l' = lg_inits l /\ lg_init_height l' = lg_init_height l /\ lg_unreachable l' = lg_unreachable l /\
  lg_operands l' = rev (map Some ops) ++ lg_operands l.
Proof.
  induction ops as [|o ops IH]; intros l; cbn zeta in *; cbn [fold_left map rev app]; [repeat split|].
  destruct (IH (log_operand (Some o) l)) as (H1 & H2 & H3 & H4 & H5). rewrite H1, H2, H3, H4, H5. cbn. repeat split. rewrite <- app_assoc. reflexivity.
Qed.
Lemma undo_pushed ops : forall rest, fold_left undo_operand (rev (map Some ops)) rest = ops ++ rest.
Proof.
  induction ops as [|o ops IH]; intros rest; cbn [map rev app]; [reflexivity|]. rewrite fold_left_app. cbn [fold_left undo_operand]. rewrite IH. reflexivity.
Qed.
Lemma runs_unreachable s0 : wf s0 -> runs s0 (T0 s0) unreachable (fun _ s' => back s0 s').
Proof.
  intros W s [A1 A2 A3 A4 A5 (lg & A6 & A7 & A8 & A9 & A10 & A11)]. cbn in A3, A4, A5, A7, A8, A9.
  unfold unreachable. destruct (vs_control s) as [|fr c] eqn:Ec; [exact I|].
  set (s1 := if fr_unreachable fr then s else log_map log_unreachable s).
  assert (Ho : vs_operands s1 = vs_operands s) by (unfold s1; destruct (fr_unreachable fr); reflexivity).
  cbn [vs_operands with_control with_operands]. rewrite Ho.
  destruct (Nat.ltb_spec (List.length (vs_operands s)) (fr_height fr)) as [|Hh]; [exact I|].
  set (n := (List.length (vs_operands s) - fr_height fr)%nat).
  exists (Tunreachable s0 fr c). split; [|apply good_unreachable; auto].
  split; cbn.
  - unfold s1. destruct (fr_unreachable fr); auto.
  - unfold s1. destruct (fr_unreachable fr); auto.
  - reflexivity.
  - unfold s1. destruct (fr_unreachable fr); auto.
  - rewrite skipn_length. unfold n. lia.
  - assert (Hl : vs_log s1 = Some (if fr_unreachable fr then lg else log_unreachable lg)).
    { unfold s1. destruct (fr_unreachable fr); cbn; rewrite A6; reflexivity. }
    rewrite Hl. eexists. split; [reflexivity|].
    destruct (unreachable_log (firstn n (vs_operands s)) (if fr_unreachable fr then lg else log_unreachable lg)) as (H1 & H2 & H3 & H4 & H5).
    rewrite H1, H2, H3, H4, H5. rewrite fold_left_app, undo_pushed, firstn_skipn.
    destruct (fr_unreachable fr); cbn; repeat split; auto.
Qed.
Lemma runs_set_init s0 i : wf s0 -> runs s0 (T0 s0) (local_set_init i) (fun _ s' => exists is, set_init (vs_inits s0) i = Some is /\ at_shape s0 s' (Tset s0 is)).
Proof.
  intros W s [A1 A2 A3 A4 A5 A6]. cbn in A3, A4, A5. unfold local_set_init. rewrite A4.
  destruct (set_init (vs_inits s0) i) as [is|] eqn:Ei; [|exact I]. exists is. split; auto. split; cbn; auto.
Qed.
Lemma bare_shape s0 s c is fs li u k b : at_shape s0 s (mkShape c is fs li u) ->
  exists s' f, push_bare_ctrl k b s = VOk tt s' /\ fr_init_height f = inits_height is /\ above c (fr_height f) /\ fr_block f = b /\
    at_shape s0 s' (mkShape (f :: c) is (None :: fs) li u).
Proof.
  intros [A1 A2 A3 A4 A5 (lg & A6 & A7 & A8 & A9 & A10 & A11)]. cbn in A3, A4, A5, A7, A8, A9.
  unfold push_bare_ctrl. eexists; eexists (mkFrame k b (List.length (vs_operands s)) false (inits_height (vs_inits s))).
  split; [reflexivity|]. split; [cbn; rewrite A4; reflexivity|]. split; [exact A5|]. split; [reflexivity|].
  split; cbn; auto.
  - rewrite A3. reflexivity.
  - exists (log_frame None [] lg). rewrite A6. cbn. rewrite A7, A8, app_nil_r. repeat split; auto.
Qed.
Lemma drop_shape s0 s fr c is fs li u is' und : at_shape s0 s (mkShape (fr :: c) is fs li u) ->
  inits_pop is (fr_init_height fr) = Some (is', und) -> above c (List.length (vs_operands s)) ->
  exists s', drop_ctrl s = VOk fr s' /\ at_shape s0 s' (mkShape c is' (Some fr :: fs) (li ++ und) u).
Proof.
  intros [A1 A2 A3 A4 A5 (lg & A6 & A7 & A8 & A9 & A10 & A11)] Hp Ha. cbn in A3, A4, A5, A7, A8, A9.
  unfold drop_ctrl. rewrite A3, A4, Hp. eexists. split; [reflexivity|].
  split; cbn; auto. exists (log_frame (Some fr) und lg). rewrite A6. cbn. rewrite A7, A8. repeat split; auto.
Qed.
Lemma opnd_results E b : opnd (results E b).
Proof. apply (P_results E (@opnd)); intros; eauto using @opnd_ret, @opnd_bind, @opnd_panic, @opnd_fail, @opnd_lift, @opnd_get, opnd_push_maybe, opnd_pop_operand. Qed.
Lemma opnd_params E b : opnd (params E b).
Proof. apply (P_params E (@opnd)); intros; eauto using @opnd_ret, @opnd_bind, @opnd_panic, @opnd_fail, @opnd_lift, @opnd_get, opnd_push_maybe, opnd_pop_operand. Qed.
Lemma opnd_jump E b : opnd (jump E b).
Proof. apply (P_jump E (@opnd)); intros; eauto using @opnd_ret, @opnd_bind, @opnd_panic, @opnd_fail, @opnd_lift, @opnd_get, opnd_push_maybe, opnd_pop_operand. Qed.
Lemma opnd_label_types E b k : opnd (label_types E b k).
Proof. apply (P_label_types E (@opnd)); intros; eauto using @opnd_ret, @opnd_bind, @opnd_panic, @opnd_fail, @opnd_lift, @opnd_get, opnd_push_maybe, opnd_pop_operand. Qed.
Lemma opnd_tag E i : opnd (exception_tag_at E i).
Proof. apply (P_exception_tag_at E (@opnd)); intros; eauto using @opnd_ret, @opnd_bind, @opnd_panic, @opnd_fail, @opnd_lift, @opnd_get, opnd_push_maybe, opnd_pop_operand. Qed.
Lemma opnd_block_type E b : opnd (check_block_type E b).
Proof. apply (P_check_block_type E (@opnd)); intros; eauto using @opnd_ret, @opnd_bind, @opnd_panic, @opnd_fail, @opnd_lift, @opnd_get, opnd_push_maybe, opnd_pop_operand. Qed.
Lemma opnd_catch E b : opnd (check_catch E b).
Proof. apply (P_check_catch E (@opnd)); intros; eauto using @opnd_ret, @opnd_bind, @opnd_panic, @opnd_fail, @opnd_lift, @opnd_get, opnd_push_maybe, opnd_pop_operand. Qed.
Lemma opnd_stack E b : opnd (match_stack_operands E b).
Proof. apply (P_stack_operands E (@opnd)); intros; eauto using @opnd_ret, @opnd_bind, @opnd_panic, @opnd_fail, @opnd_lift, @opnd_get, opnd_push_maybe, opnd_pop_operand. Qed.
Lemma opnd_outermost E : opnd (outermost_results E).
Proof. apply (P_outermost E (@opnd)); intros; eauto using @opnd_ret, @opnd_bind, @opnd_panic, @opnd_fail, @opnd_lift, @opnd_get, opnd_push_maybe, opnd_pop_operand. Qed.
Lemma opnd_same_results E f : opnd (check_func_type_same_results E f).
Proof. apply (P_same_results E (@opnd)); intros; eauto using @opnd_ret, @opnd_bind, @opnd_panic, @opnd_fail, @opnd_lift, @opnd_get, opnd_push_maybe, opnd_pop_operand. Qed.
Lemma opnd_type_of E f : opnd (type_of_function E f).
Proof. apply (P_type_of_function E (@opnd)); intros; eauto using @opnd_ret, @opnd_bind, @opnd_panic, @opnd_fail, @opnd_lift, @opnd_get, opnd_push_maybe, opnd_pop_operand. Qed.
Lemma opnd_indirect E i j : opnd (check_call_indirect_ty E i j).
Proof. apply (P_call_indirect E (@opnd)); intros; eauto using @opnd_ret, @opnd_bind, @opnd_panic, @opnd_fail, @opnd_lift, @opnd_get, opnd_push_maybe, opnd_pop_operand. Qed.
Lemma opnd_call_ref E i : opnd (check_call_ref_ty E i).
Proof. apply (P_call_ref E (@opnd)); intros; eauto using @opnd_ret, @opnd_bind, @opnd_panic, @opnd_fail, @opnd_lift, @opnd_get, opnd_push_maybe, opnd_pop_operand. Qed.
Lemma opnd_local E i : opnd (local E i).
Proof. apply (P_local E (@opnd)); intros; eauto using @opnd_ret, @opnd_bind, @opnd_panic, @opnd_fail, @opnd_lift, @opnd_get, opnd_push_maybe, opnd_pop_operand. Qed.

(** [pop_ctrl] in a state of a given shape. *)
Lemma runs_pop_ctrl E s0 fr c is fs li u is' und :
  good s0 (mkShape (fr :: c) is fs li u) -> inits_pop is (fr_init_height fr) = Some (is', und) -> above c (fr_height fr) ->
  runs s0 (mkShape (fr :: c) is fs li u) (pop_ctrl E) (fun fr' s' => fr' = fr /\ at_shape s0 s' (mkShape c is' (Some fr :: fs) (li ++ und) u)).
Proof.
  intros Hg Hp Ha s Hs. pose proof (at_control _ _ _ Hs) as Hc. cbn in Hc.
  unfold pop_ctrl. unfold vbind at 1. unfold vget at 1. rewrite Hc. revert s Hs Hc.
  enough (runs s0 (mkShape (fr :: c) is fs li u)
    (let! ts := results E (fr_block fr) in pops E ts ;;
     let! n := vget (fun s => List.length (vs_operands s)) in
     vcheck E (n =? fr_height fr)%nat "type mismatch: values remaining on stack at end of block" ;; drop_ctrl)
    (fun fr' s' => fr' = fr /\ at_shape s0 s' (mkShape c is' (Some fr :: fs) (li ++ und) u))) as H.
  { intros s Hs _. apply H. exact Hs. }
  apply runs_seq; [apply opnd_results|exact Hg|intros ts].
  apply runs_seq; [apply opnd_pops|exact Hg|intros _].
  intros s Hs. unfold vbind at 1. unfold vget at 1. unfold vbind, vcheck.
  destruct (Nat.eqb_spec (List.length (vs_operands s)) (fr_height fr)) as [Hn|Hn]; cbn.
  - destruct (drop_shape s0 s fr c is fs li u is' und Hs Hp) as (s' & -> & Hs'); [rewrite Hn; exact Ha|auto].
  - exists (mkShape (fr :: c) is fs li u). auto.
Qed.
Section Visit.
Variable E : env.
Variable s0 : vst.
Hypothesis W : wf s0.
Lemma runs_pop_ctrl0 : runs s0 (T0 s0) (pop_ctrl E) (fun fr s' => exists c is und,
  vs_control s0 = fr :: c /\ inits_pop (vs_inits s0) (fr_init_height fr) = Some (is, und) /\ above c (fr_height fr) /\ at_shape s0 s' (Tdrop s0 fr c is und)).
Proof.
  intros s Hs. pose proof (at_control _ _ _ Hs) as Hc. cbn in Hc. destruct (vs_control s0) as [|fr c] eqn:Ec.
  - unfold pop_ctrl, vbind, vget. rewrite Hc. exact I.
  - pose proof W as [W1 W2 W3]. rewrite Ec in W2. cbn in W2. destruct W2 as (N1 & N2 & N3).
    destruct (inits_pop_some _ _ N1) as (is & und & Hp).
    pose proof (good_T0 s0 W) as Hg. unfold T0 in Hg, Hs. rewrite Ec in Hg, Hs.
    pose proof (runs_pop_ctrl E s0 fr c (vs_inits s0) [] [] false is und Hg Hp N2 s Hs) as H.
    destruct (pop_ctrl E s) as [fr' s'|e s'|]; auto. destruct H as (-> & H). exists c, is, und. auto.
Qed.
Lemma runs_push_ctrl k b : runs s0 (T0 s0) (push_ctrl E k b) (fun _ s' => back s0 s').
Proof.
  intros s Hs. unfold push_ctrl, vbind at 1. unfold T0 in Hs.
  destruct (bare_shape _ _ _ _ _ _ _ k b Hs) as (s' & f & -> & H1 & H2 & _ & H3).
  change (mkShape (f :: vs_control s0) (vs_inits s0) [None] [] false) with (Tpush s0 f) in H3.
  assert (runs s0 (Tpush s0 f) (let! ps := params E b in pushes ps) (fun _ s' => back s0 s')) as H; [|exact (H _ H3)].
  apply runs_back; [|apply good_push; auto]. apply opnd_bind; [apply opnd_params|intros; apply opnd_pushes].
Qed.
Ltac s := apply runs_seq; [|apply good_T0; exact W|intro].
Hint Resolve opnd_results opnd_params opnd_jump opnd_label_types opnd_tag opnd_block_type opnd_catch opnd_stack opnd_outermost opnd_same_results
  opnd_type_of opnd_indirect opnd_call_ref opnd_local opnd_pops opnd_pushes opnd_pop opnd_check opnd_lift : core.
Lemma runs_block k b : runs s0 (T0 s0) (visit_block_kind E k b) (fun _ s' => back s0 s').
Proof. unfold visit_block_kind. do 3 (s; auto). apply runs_push_ctrl. Qed.
Lemma runs_if b : runs s0 (T0 s0) (visit_if E b) (fun _ s' => back s0 s').
Proof. unfold visit_if. do 4 (s; auto). apply runs_push_ctrl. Qed.
Lemma runs_try_table t : runs s0 (T0 s0) (visit_try_table E t) (fun _ s' => back s0 s').
Proof. unfold visit_try_table. do 3 (s; auto). s; [apply opnd_all; auto|]. apply runs_push_ctrl. Qed.
Lemma runs_throw i : runs s0 (T0 s0) (visit_throw E i) (fun _ s' => back s0 s').
Proof. unfold visit_throw. do 2 (s; auto). apply runs_unreachable, W. Qed.
Lemma runs_throw_ref : runs s0 (T0 s0) (visit_throw_ref E) (fun _ s' => back s0 s').
Proof. unfold visit_throw_ref. s; auto. apply runs_unreachable, W. Qed.
Lemma runs_br d : runs s0 (T0 s0) (visit_br E d) (fun _ s' => back s0 s').
Proof. unfold visit_br. do 3 (s; auto). apply runs_unreachable, W. Qed.
Lemma runs_br_table t : runs s0 (T0 s0) (visit_br_table E t) (fun _ s' => back s0 s').
Proof.
  unfold visit_br_table. do 3 (s; auto). destruct (targets t) as [l e].
  s; [apply opnd_all; intros; do 3 (apply opnd_bind; [auto|intro]); auto|]. do 2 (s; auto). apply runs_unreachable, W.
Qed.
Lemma runs_return : runs s0 (T0 s0) (check_return E) (fun _ s' => back s0 s').
Proof. unfold check_return. do 2 (s; auto). apply runs_unreachable, W. Qed.
Lemma runs_return_call f : runs s0 (T0 s0) (check_return_call_ty E f) (fun _ s' => back s0 s').
Proof. unfold check_return_call_ty. do 3 (s; auto). apply runs_return. Qed.
Lemma runs_rethrow d : runs s0 (T0 s0) (visit_rethrow E d) (fun _ s' => back s0 s').
Proof.
  unfold visit_rethrow. s; auto. destruct (snd _); try apply runs_unreachable, W; apply runs_back; try apply opnd_fail; apply good_T0, W.
Qed.
Lemma runs_local_set i : runs s0 (T0 s0) (visit_local_set E i) (fun _ s' => back s0 s').
Proof.
  unfold visit_local_set. do 2 (s; auto). eapply runs_weaken; [apply runs_set_init, W|]. intros _ s1 (is & H1 & H2). exists (Tset s0 is). split; auto. eapply good_set; eauto.
Qed.
Lemma runs_local_tee i : runs s0 (T0 s0) (visit_local_tee E i) (fun _ s' => back s0 s').
Proof.
  unfold visit_local_tee. do 2 (s; auto). eapply runs_bind; [apply runs_set_init, W|]. intros _ s1 (is & H1 & H2).
  assert (Hg : good s0 (Tset s0 is)) by (eapply good_set; eauto). exact (runs_back _ _ _ (opnd_push _) Hg s1 H2).
Qed.
Lemma runs_else_like {A} (m : frame -> V A) k :
  (forall fr, exists m', m fr = (push_bare_ctrl k (fr_block fr) ;; m') /\ opnd m') ->
  runs s0 (T0 s0) (let! fr := pop_ctrl E in m fr) (fun _ s' => back s0 s').
Proof.
  intros Hm. eapply runs_bind; [apply runs_pop_ctrl0|]. intros fr s (c & is & und & Hc & Hp & Ha & Hs).
  destruct (Hm fr) as (m' & -> & Ho). unfold vbind. unfold Tdrop in Hs.
  destruct (bare_shape _ _ _ _ _ _ _ k (fr_block fr) Hs) as (s' & f & -> & H1 & H2 & _ & H3).
  pose proof (good_droppush s0 W fr c is und Hc Hp f H1 H2) as Hg. exact (runs_back _ _ _ Ho Hg s' H3).
Qed.
Lemma runs_else : runs s0 (T0 s0) (visit_else E) (fun _ s' => back s0 s').
Proof.
  unfold visit_else. apply (runs_else_like _ FElse). intros fr. eexists. split; [reflexivity|]. apply opnd_bind; auto.
Qed.
Lemma runs_catch i : runs s0 (T0 s0) (visit_catch E i) (fun _ s' => back s0 s').
Proof. unfold visit_catch. apply (runs_else_like _ FLegacyCatch). intros fr. eexists. split; [reflexivity|]. apply opnd_bind; auto. Qed.
Lemma vbind_ret_r {A} (m : V A) s : vbind m vret s = m s.
Proof. unfold vbind, vret. destruct (m s); auto. Qed.
Lemma runs_catch_all : runs s0 (T0 s0) (visit_catch_all E) (fun _ s' => back s0 s').
Proof.
  unfold visit_catch_all. pose proof (runs_else_like (fun fr => push_bare_ctrl FLegacyCatchAll (fr_block fr) ;; vret tt) FLegacyCatchAll) as H.
  specialize (H ltac:(intros fr; eexists; split; [reflexivity|apply opnd_ret])). intros s Hs. specialize (H s Hs). unfold vbind at 1 in H. unfold vbind.
  destruct (pop_ctrl E s) as [fr s1|e s1|]; auto.
Qed.
Lemma runs_delegate d : runs s0 (T0 s0) (visit_delegate E d) (fun _ s' => back s0 s').
Proof.
  unfold visit_delegate. eapply runs_bind; [apply runs_pop_ctrl0|]. intros fr s (c & is & und & Hc & Hp & Ha & Hs).
  refine (runs_back _ _ _ _ (good_drop s0 W fr c is und Hc Hp) s Hs). do 2 (apply opnd_bind; [auto|intro]); auto.
Qed.
Lemma opnd_end_tail fr : opnd (let! ts := results E (fr_block fr) in pushes ts ;; let! c := vget vs_control in match c with [] => if e_at E =? 0 then vpanic else vret tt | _ => vret tt end).
Proof.
  apply opnd_bind; [auto|intro]. apply opnd_bind; [auto|intro]. apply opnd_bind; [apply opnd_get|intro]. destruct a1; [|apply opnd_ret]. destruct (e_at E =? 0); [apply opnd_panic|apply opnd_ret].
Qed.
Lemma runs_end : runs s0 (T0 s0) (visit_end E) (fun _ s' => back s0 s').
Proof.
  unfold visit_end. eapply runs_bind; [apply runs_pop_ctrl0|]. intros fr s (c & is & und & Hc & Hp & Ha & Hs).
  destruct (is_if (fr_kind fr)).
  - unfold vbind at 1. unfold vbind at 1. unfold push_ctrl. unfold vbind at 1. unfold Tdrop in Hs.
    destruct (bare_shape _ _ _ _ _ _ _ FElse (fr_block fr) Hs) as (s' & f & -> & H1 & H2 & _ & H3).
    pose proof (good_droppush s0 W fr c is und Hc Hp f H1 H2) as Hg.
    pose proof (runs_opnd s0 _ (let! ps := params E (fr_block fr) in pushes ps) (opnd_bind _ _ (opnd_params _ _) (fun _ => opnd_pushes _)) Hg s' H3) as H4.
    destruct ((let! ps := params E (fr_block fr) in pushes ps) s') as [u s2|e s2|]; auto.
    assert (Hp2 : inits_pop is (fr_init_height f) = Some (is, [])) by (rewrite H1; apply inits_pop_id).
      pose proof (runs_pop_ctrl E s0 f c is [None; Some fr] und false is [] Hg Hp2 H2 s2 H4) as H5.
      destruct (pop_ctrl E s2) as [f' s3|e s3|]; auto. destruct H5 as (-> & H5). rewrite app_nil_r in H5.
      exact (runs_back _ _ _ (opnd_end_tail f) (good_dropdrop s0 W fr c is und Hc Hp f H1) s3 H5).
  - exact (runs_back _ _ _ (opnd_end_tail fr) (good_drop s0 W fr c is und Hc Hp) s Hs).
Qed.
Theorem runs_visit_op o : runs s0 (T0 s0) (visit_op E o) (fun _ s' => back s0 s').
Proof.
  destruct (plain_op o) eqn:Hp; [apply runs_back; [apply opnd_plain; exact Hp|apply good_T0, W]|].
  destruct o; try discriminate Hp; clear Hp; cbn [visit_op].
  all: try solve [apply runs_block | apply runs_if | apply runs_try_table | apply runs_throw | apply runs_throw_ref | apply runs_br | apply runs_br_table
    | apply runs_return | apply runs_rethrow | apply runs_local_set | apply runs_local_tee | apply runs_else | apply runs_catch | apply runs_catch_all
    | apply runs_delegate | apply runs_end | apply runs_unreachable, W].
  all: match goal with |- runs _ _ (?v _ _) _ => unfold v | |- runs _ _ (?v _ _ _) _ => unfold v end; s; auto; apply runs_return_call.
Qed.
Theorem runs_visit o : runs s0 (T0 s0) (visit E o) (fun _ s' => back s0 s').
Proof.
  unfold visit. s; [|apply runs_visit_op].
  destruct (gate o) as [[f msg]|]; [apply opnd_require|apply opnd_ret].
Qed.
Theorem visit_back o s : begin_try_op s0 = Some s -> match visit E o s with VOk _ s' | VErr _ s' => back s0 s' | VPanic => True end.
Proof.
  intros Hb. pose proof (runs_visit o s) as H. unfold begin_try_op in Hb. destruct (vs_log s0); inversion Hb; subst; clear Hb.
  apply H. destruct W as [W1 W2 W3]. split; cbn; auto. eexists. split; [reflexivity|]. cbn. auto.
Qed.
End Visit.
