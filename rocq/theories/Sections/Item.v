(** Items whose conversion depends on the proposals enabled, and sections of them. *)
From Verif.Base Require Import Prelude.
From Verif.Reader Require Import Model Spec.
From Verif.Leb Require Import Model Top.
From Verif.Codec Require Import Kit Local.
From Verif.Types Require Import RefModel CodecModel EntityModel EntitySpec EntityProofs.
From Verif.Sections Require Import SeeModel.
From Coq Require Import Lia.

(** Everything in [ok] is read back, and what is read back converts to it. *)
Definition writes {A B} (ft : features) (enc : A -> out) (d : R B) (conv : B -> option A) (ok : A -> Prop) : Prop :=
  forall v, ok v -> exists p, decodes (eq ft) (enc v) d p /\ conv p = Some v.
(** Everything that is read converts to something in [ok]... *)
Definition gets {A B} (ft : features) (d : R B) (conv : B -> option A) (ok : A -> Prop) : Prop :=
  yields (eq ft) d (fun p => exists v, conv p = Some v /\ ok v).
(** ...or does not convert. *)
Definition gets_if {A B} (ft : features) (d : R B) (conv : B -> option A) (ok : A -> Prop) : Prop :=
  yields (eq ft) d (fun p => forall v, conv p = Some v -> ok v).
(** Everything that is read converts, and what a user sees in it is what it converts to. *)
Definition keeps {A B V} (ft : features) (d : R B) (conv : B -> option A) (view : B -> option V) (vden : A -> V) (ok : A -> Prop) : Prop :=
  yields (eq ft) d (fun p => exists v, conv p = Some v /\ ok v /\ view p = Some (vden v)).
(** The same for items that a user may fail to read: they then do not convert to something in [ok]. *)
Definition kept {A B V} (conv : B -> option A) (view : B -> option V) (vden : A -> V) (ok : A -> Prop) (p : B) : Prop :=
  (forall x, view p = Some x -> exists v, conv p = Some v /\ ok v /\ x = vden v) /\ (forall v, conv p = Some v -> ok v -> view p = Some (vden v)).
Definition keeps_if {A B V} (ft : features) (d : R B) (conv : B -> option A) (view : B -> option V) (vden : A -> V) (ok : A -> Prop) : Prop :=
  yields (eq ft) d (kept conv view vden ok).
Lemma kept_intro {A B V} (conv : B -> option A) (view : B -> option V) vden (ok : A -> Prop) p v :
  conv p = Some v -> ok v -> view p = Some (vden v) -> kept conv view vden ok p.
Proof. intros H1 H2 H3. split; [intros x E; exists v; split; [exact H1|split; [exact H2|congruence]]|]. intros w E _. congruence. Qed.
Lemma keeps_keeps_if {A B V} ft (d : R B) (conv : B -> option A) (view : B -> option V) vden ok : keeps ft d conv view vden ok -> keeps_if ft d conv view vden ok.
Proof. apply y_weaken. intros p (v & H1 & H2 & H3). eapply kept_intro; eauto. Qed.
Lemma keeps_gets {A B V} ft (d : R B) (conv : B -> option A) (view : B -> option V) vden ok : keeps ft d conv view vden ok -> gets ft d conv ok.
Proof. apply y_weaken. intros p (v & H1 & H2 & H3). eauto. Qed.
Lemma gets_gets_if {A B} ft (d : R B) (conv : B -> option A) ok : gets ft d conv ok -> gets_if ft d conv ok.
Proof. apply y_weaken. intros p (v & E & H) w Ew. rewrite E in Ew. injection Ew as <-. exact H. Qed.

Lemma decodes_eq {B} ft (F : features -> Prop) o (d : R B) b : F ft -> decodes F o d b -> decodes (eq ft) o d b.
Proof. intros HF (bs & E & Hb & H). exists bs. repeat split; auto. intros rest pos off ft' <- Hr. apply H; auto. Qed.
Lemma yields_eq {B} ft (F : features -> Prop) (d : R B) P : F ft -> yields F d P -> yields (eq ft) d P.
Proof. intros HF H r b r' E. apply H. rewrite <- E. exact HF. Qed.
Lemma writes_intro {A B} ft (F : features -> Prop) (enc : A -> out) (d : R B) conv den (ok : A -> Prop) : F ft ->
  (forall v, ok v -> decodes F (enc v) d (den v)) -> (forall v, ok v -> conv (den v) = Some v) -> writes ft enc d conv ok.
Proof. intros HF H1 H2 v Hv. exists (den v). split; [apply (decodes_eq ft F); auto|auto]. Qed.
Lemma gets_intro {A B} ft (F : features -> Prop) (d : R B) (conv : B -> option A) den (ok : A -> Prop) : F ft ->
  yields F d (from ok den) -> (forall v, ok v -> conv (den v) = Some v) -> gets ft d conv ok.
Proof. intros HF H1 H2. apply (yields_eq ft F); [exact HF|]. eapply y_weaken; [|exact H1]. intros p (v & Hv & ->). exists v. auto. Qed.

(** Choosing the value read for each item of a list. *)
Lemma writes_list {A B} ft (enc : A -> out) (d : R B) conv ok l : writes ft enc d conv ok -> Forall ok l ->
  exists ps, decodes (eq ft) (o_all enc l) (read_n (List.length l) d) ps /\ all_some conv ps = Some l.
Proof.
  intros H. induction 1 as [|v l Hv _ (ps & D & C)]; [exists []; split; [apply dec_ret|reflexivity]|].
  destruct (H v Hv) as (p & Dp & Cp). exists (p :: ps). split; [|cbn [all_some]; rewrite Cp, C; reflexivity].
  cbn [o_all List.length read_n]. eapply dec_bind; [exact Dp|]. exact (dec_bind_ret (eq ft) _ _ (fun l => p :: l) _ D).
Qed.
Lemma section_of_counted {B} ft (d : R B) o n ps : in_u 32 n ->
  decodes (eq ft) o (read_n (Z.to_nat n) d) ps ->
  exists bs, encode_usize n +++ o = Some bs /\ bytes_ok bs /\ forall off, section_items d ft off bs = Ok ps.
Proof.
  intros Hn D. destruct (dec_bind (eq ft) _ _ _ (fun c => read_n (Z.to_nat c) d) _ _ (dec_usize (eq ft) n Hn) D) as (bs & E & Hb & H).
  exists bs. split; [exact E|]. split; [exact Hb|]. intros off. unfold section_items, read_items, new_reader.
  specialize (H [] 0 off ft eq_refl ltac:(constructor)). rewrite app_nil_r in H. unfold bind in *.
  destruct (read_var_u32 _) as [[c r1]|]; [|discriminate]. rewrite H. reflexivity.
Qed.
Lemma writes_section {A B} ft (enc : A -> out) (d : R B) conv ok l : writes ft enc d conv ok -> Forall ok l -> zlen l < 2 ^ 32 ->
  exists bs ps, o_vec enc l = Some bs /\ bytes_ok bs /\ all_some conv ps = Some l /\ forall off, section_items d ft off bs = Ok ps.
Proof.
  intros H Hl Hn. destruct (writes_list ft enc d conv ok l H Hl) as (ps & D & C).
  destruct (section_of_counted ft d (o_all enc l) (zlen l) ps) as (bs & E & Hb & Hs).
  - unfold in_u, zlen in *. lia.
  - unfold zlen. rewrite Nat2Z.id. exact D.
  - exists bs, ps. auto.
Qed.
Lemma gets_list {A B} (conv : B -> option A) ok ps : Forall (fun p => exists v, conv p = Some v /\ ok v) ps ->
  exists l, all_some conv ps = Some l /\ Forall ok l /\ List.length l = List.length ps.
Proof.
  induction 1 as [|p ps (v & E & H) _ (l & El & Hl & Hn)]; [exists []; repeat split; constructor|].
  exists (v :: l). cbn [all_some List.length]. rewrite E, El. auto.
Qed.
Lemma keeps_list {A B V} (conv : B -> option A) (view : B -> option V) vden (ok : A -> Prop) ps :
  Forall (fun p => exists v, conv p = Some v /\ ok v /\ view p = Some (vden v)) ps ->
  exists l, all_some conv ps = Some l /\ Forall ok l /\ List.length l = List.length ps /\ all_seen view ps = Some (map vden l).
Proof.
  induction 1 as [|p ps (v & E & H & Ev) _ (l & El & Hl & Hn & Es)]; [exists []; repeat split; constructor|].
  exists (v :: l). cbn [all_some all_seen List.length map]. rewrite E, El, Ev, Es. auto.
Qed.
Lemma kept_list {A B V} (conv : B -> option A) (view : B -> option V) vden (ok : A -> Prop) ps : Forall (kept conv view vden ok) ps ->
  kept (all_some conv) (all_seen view) (map vden) (fun l => Forall ok l /\ List.length l = List.length ps) ps.
Proof.
  induction 1 as [|p ps [H1 H2] _ [IH1 IH2]]; (split; [intros x E|intros l E [Hl Hn]]); cbn [all_some all_seen List.length] in *.
  - injection E as <-. exists []. repeat split; constructor.
  - injection E as <-. reflexivity.
  - destruct (view p) as [a|]; [|discriminate]. destruct (all_seen view ps) as [t|]; [|discriminate]. injection E as <-.
    destruct (H1 a eq_refl) as (v & E & Hv & ->). destruct (IH1 t eq_refl) as (l & El & (Hl & Hn) & ->). exists (v :: l). rewrite E, El. cbn [List.length map]. auto.
  - destruct (conv p) as [v|]; [|discriminate]. destruct (all_some conv ps) as [t|]; [|discriminate]. injection E as <-. inversion Hl as [|? ? Hv Ht]; subst.
    rewrite (H2 v eq_refl Hv), (IH2 t eq_refl); [reflexivity|]. cbn [List.length] in Hn. split; [exact Ht|congruence].
Qed.
(** What is seen of an item is kept by the translation; what is written shows what was meant. *)
Definition takes {A B V} (ft : features) (d : R B) (conv : B -> option A) (view : B -> option V) (vden : A -> V) (ok : A -> Prop) : Prop :=
  yields (eq ft) d (fun p => forall x, view p = Some x -> exists v, conv p = Some v /\ ok v /\ x = vden v).
Definition sends {A B V} (ft : features) (enc : A -> out) (d : R B) (view : B -> option V) (vden : A -> V) (ok : A -> Prop) : Prop :=
  forall v bs, ok v -> enc v = Some bs -> exists p, decodes (eq ft) (Some bs) d p /\ view p = Some (vden v).
Lemma keeps_takes {A B V} ft (d : R B) (conv : B -> option A) (view : B -> option V) vden ok : keeps ft d conv view vden ok -> takes ft d conv view vden ok.
Proof. apply y_weaken. intros p (v & E & H & Ev) x Ex. exists v. rewrite Ev in Ex. injection Ex as <-. auto. Qed.
Lemma keeps_sends {A B V} ft enc (d : R B) (conv : B -> option A) (view : B -> option V) vden ok :
  writes ft enc d conv ok -> keeps ft d conv view vden ok -> sends ft enc d view vden ok.
Proof.
  intros W K v bs Hv E. destruct (W v Hv) as (p & D & C). rewrite E in D. exists p. split; [exact D|].
  destruct D as (bs' & Eb & Hb & D). injection Eb as <-.
  specialize (D [] 0 0 ft eq_refl (Forall_nil _)). rewrite app_nil_r in D.
  destruct (K _ _ _ (eq_refl : ft = r_feat (mkReader bs 0 0 ft)) Hb D) as ((v' & C' & _ & Ev) & _). congruence.
Qed.
Lemma takes_list {A B V} (conv : B -> option A) (view : B -> option V) vden (ok : A -> Prop) ps :
  Forall (fun p => forall x, view p = Some x -> exists v, conv p = Some v /\ ok v /\ x = vden v) ps ->
  forall xs, all_seen view ps = Some xs -> exists l, all_some conv ps = Some l /\ Forall ok l /\ List.length l = List.length ps /\ xs = map vden l.
Proof.
  induction 1 as [|p ps H _ IH]; intros xs E; cbn [all_seen all_some List.length] in *.
  - injection E as <-. exists []. auto.
  - destruct (view p) as [a|]; [|discriminate]. destruct (all_seen view ps) as [t|]; [|discriminate]. injection E as <-.
    destruct (H a eq_refl) as (v & E & Hv & ->). destruct (IH t eq_refl) as (l & El & Hl & Hn & ->). exists (v :: l). rewrite E, El. cbn [List.length map]. auto.
Qed.
Lemma o_all_cons {A} (f : A -> out) a l bs : o_all f (a :: l) = Some bs -> exists b1 b2, f a = Some b1 /\ o_all f l = Some b2 /\ bs = b1 ++ b2.
Proof. cbn [o_all]. unfold oapp. destruct (f a) as [b1|]; [|discriminate]. destruct (o_all f l) as [b2|]; [|discriminate]. intros [= <-]. eauto. Qed.
Lemma sends_list {A B V} ft enc (d : R B) (view : B -> option V) (vden : A -> V) ok l : sends ft enc d view vden ok -> Forall ok l ->
  forall bs, o_all enc l = Some bs -> exists ps, decodes (eq ft) (Some bs) (read_n (List.length l) d) ps /\ all_seen view ps = Some (map vden l).
Proof.
  intros S H. induction H as [|v l Hv _ IH]; intros bs E.
  - injection E as <-. exists []. split; [apply dec_ret|reflexivity].
  - destruct (o_all_cons _ _ _ _ E) as (b1 & b2 & E1 & E2 & ->). destruct (S v b1 Hv E1) as (p & D & Ev). destruct (IH b2 E2) as (ps & Ds & Es).
    exists (p :: ps). cbn [all_seen map List.length read_n]. rewrite Ev, Es. split; [|reflexivity].
    change (Some (b1 ++ b2)) with (Some b1 +++ Some b2). eapply dec_bind; [exact D|]. exact (dec_bind_ret (eq ft) _ _ (fun l => p :: l) _ Ds).
Qed.
Lemma all_some_ok {A B} (conv : B -> option A) (ok : A -> Prop) ps l : Forall (fun p => forall v, conv p = Some v -> ok v) ps -> all_some conv ps = Some l ->
  Forall ok l /\ List.length l = List.length ps.
Proof.
  intros H. revert l. induction H as [|p ps Hp _ IH]; intros l E; cbn [all_some] in E; [injection E as <-; auto|].
  destruct (conv p) as [v|] eqn:Ev; [|discriminate]. destruct (all_some conv ps) as [l'|]; [|discriminate]. injection E as <-.
  destruct (IH l' eq_refl) as [IH1 IH2]. cbn [List.length]. auto.
Qed.
Lemma y_section_eq {B} ft (d : R B) P off bs l : yields (eq ft) d P -> bytes_ok bs -> section_items d ft off bs = Ok l -> Forall P l /\ zlen l < 2 ^ 32.
Proof.
  intros Hy Hb E. unfold section_items, read_items, new_reader, bind in E.
  destruct (read_var_u32 _) as [[c r1]|e] eqn:E1; [|discriminate]. destruct (y_u32 (eq ft) (mkReader bs 0 off ft) c r1 eq_refl Hb E1) as (Hc & Hr1 & Ef1). cbn [r_feat] in Ef1.
  destruct (read_n (Z.to_nat c) d r1) as [[l' r2]|e] eqn:E2; [|discriminate]. destruct (y_read_n (eq ft) (Z.to_nat c) d P Hy _ _ _ (eq_sym Ef1) Hr1 E2) as ((Hl & Hn) & _).
  destruct (eof r2); [|discriminate]. injection E as <-. split; [exact Hl|]. unfold zlen, in_u in *. rewrite Hn. lia.
Qed.
Lemma gets_section {A B} ft (d : R B) (conv : B -> option A) ok off bs ps : gets ft d conv ok -> bytes_ok bs -> section_items d ft off bs = Ok ps ->
  exists l, all_some conv ps = Some l /\ Forall ok l /\ zlen l < 2 ^ 32.
Proof.
  intros H Hb E. destruct (y_section_eq ft d _ off bs ps H Hb E) as [Hl Hn]. destruct (gets_list conv ok ps Hl) as (l & E1 & E2 & E3).
  exists l. split; [exact E1|]. split; [exact E2|]. unfold zlen in *. rewrite E3. exact Hn.
Qed.
Lemma gets_if_section {A B} ft (d : R B) (conv : B -> option A) ok off bs ps l : gets_if ft d conv ok -> bytes_ok bs -> section_items d ft off bs = Ok ps ->
  all_some conv ps = Some l -> Forall ok l /\ zlen l < 2 ^ 32.
Proof.
  intros H Hb E Ec. destruct (y_section_eq ft d _ off bs ps H Hb E) as [Hl Hn]. destruct (all_some_ok conv ok ps l Hl Ec) as [E1 E2].
  split; [exact E1|]. unfold zlen in *. rewrite E2. exact Hn.
Qed.

Lemma keeps_section {A B V} ft (d : R B) (conv : B -> option A) (view : B -> option V) vden ok off bs ps :
  keeps ft d conv view vden ok -> bytes_ok bs -> section_items d ft off bs = Ok ps ->
  exists l, all_some conv ps = Some l /\ Forall ok l /\ zlen l < 2 ^ 32 /\ all_seen view ps = Some (map vden l).
Proof.
  intros H Hb E. destruct (y_section_eq ft d _ off bs ps H Hb E) as [Hl Hn]. destruct (keeps_list conv view vden ok ps Hl) as (l & E1 & E2 & E3 & E4).
  exists l. split; [exact E1|]. split; [exact E2|]. unfold zlen in *. rewrite E3. auto.
Qed.
Lemma kept_section {A B V} ft (d : R B) (conv : B -> option A) (view : B -> option V) vden ok off bs ps :
  keeps_if ft d conv view vden ok -> bytes_ok bs -> section_items d ft off bs = Ok ps ->
  kept (all_some conv) (all_seen view) (map vden) (fun l => Forall ok l /\ zlen l < 2 ^ 32 /\ zlen l = zlen ps) ps.
Proof.
  intros H Hb E. destruct (y_section_eq ft d _ off bs ps H Hb E) as [Hl Hn]. destruct (kept_list conv view vden ok ps Hl) as [K1 K2].
  split.
  - intros x Ex. destruct (K1 x Ex) as (l & E1 & (E2 & E3) & E4). exists l. split; [exact E1|]. split; [|exact E4]. unfold zlen in *. rewrite E3. auto.
  - intros l El (E2 & E3 & E4). apply K2; [exact El|]. split; [exact E2|]. unfold zlen in E4. lia.
Qed.

(** Reading what was skipped. *)
Definition again {A} (ft : features) (m m' : R A) : Prop := forall r a r', r_feat r = ft -> bytes_ok (r_rem r) -> m r = Ok (a, r') ->
  exists bs, consumes r bs r' /\ bytes_ok (r_rem r') /\ forall rest pos off, m' (mkReader (bs ++ rest) pos off ft) = Ok (a, mkReader rest (pos + zlen bs) off ft).
Lemma again_sim {A} ft (m : R A) : sim m m -> again ft m m.
Proof.
  intros H r a r' Hf Hr E. destruct (H _ _ _ E) as (bs & C & D). exists bs. rewrite Hf in D. split; [exact C|]. split; [|exact D].
  destruct C as (C & _). rewrite C in Hr. apply bytes_ok_app in Hr. apply Hr.
Qed.
Lemma again_skip {A B} ft (m : R A) (m' : R B) :
  (forall r a r', r_feat r = ft -> bytes_ok (r_rem r) -> m r = Ok (a, r') -> exists b, m' r = Ok (b, r')) -> again ft m' m' -> forall n r l r',
  r_feat r = ft -> bytes_ok (r_rem r) -> read_n n m r = Ok (l, r') ->
  exists l' bs, consumes r bs r' /\ bytes_ok (r_rem r') /\ forall rest pos off, read_n n m' (mkReader (bs ++ rest) pos off ft) = Ok (l', mkReader rest (pos + zlen bs) off ft).
Proof.
  intros Hm Ha n. induction n as [|n IH]; intros r l r' Hf Hr E; cbn [read_n] in E.
  - injection E as <- <-. exists [], []. split; [apply consumes_nil|]. split; [exact Hr|]. intros. cbn. change (zlen (@nil Z)) with 0. rewrite Z.add_0_r. reflexivity.
  - unfold bind in E. destruct (m r) as [[a r1]|e] eqn:E1; [|discriminate]. destruct (read_n n m r1) as [[l1 r2]|e] eqn:E2; [|discriminate]. injection E as <- <-.
    destruct (Hm _ _ _ Hf Hr E1) as (b & Eb). destruct (Ha _ _ _ Hf Hr Eb) as (b1 & C1 & Hr1 & D1).
    assert (Hf1 : r_feat r1 = ft) by (destruct C1 as (_ & _ & _ & ->); exact Hf).
    destruct (IH _ _ _ Hf1 Hr1 E2) as (l' & b2 & C2 & Hr2 & D2). exists (b :: l'), (b1 ++ b2). split; [eapply consumes_app; eauto|]. split; [exact Hr2|].
    intros rest pos off. cbn [read_n]. unfold bind. rewrite <- app_assoc, D1, D2. unfold ret. rewrite zlen_app. do 2 f_equal. f_equal. lia.
Qed.
(** A counted list that was skipped can be read as a section. *)
Lemma skipped_section {A B} ft (m : R A) (m' : R B) r items r' :
  (forall r a r', r_feat r = ft -> bytes_ok (r_rem r) -> m r = Ok (a, r') -> exists b, m' r = Ok (b, r')) -> again ft m' m' ->
  r_feat r = ft -> bytes_ok (r_rem r) ->
  skip_raw (let* n := read_var_u32 in let* _ := read_n (Z.to_nat n) m in ret tt) r = Ok (items, r') ->
  bytes_ok items /\ bytes_ok (r_rem r') /\ consumes r items r' /\ exists l, forall off, section_items m' ft off items = Ok l.
Proof.
  intros Hm Ha Hf Hr E. unfold skip_raw, bind in E. destruct (read_var_u32 r) as [[n r1]|e] eqn:E1; [|discriminate].
  destruct (read_n (Z.to_nat n) m r1) as [[l r2]|e] eqn:E2; [|discriminate]. unfold ret in E. injection E as <- <-.
  destruct (again_sim ft _ sim_u32 _ _ _ Hf Hr E1) as (b1 & C1 & Hr1 & D1). assert (Hf1 : r_feat r1 = ft) by (destruct C1 as (_ & _ & _ & ->); exact Hf).
  destruct (again_skip ft m m' Hm Ha _ _ _ _ Hf1 Hr1 E2) as (l' & b2 & C2 & Hr2 & D2).
  pose proof (consumes_app _ _ _ _ _ C1 C2) as C. assert (Ei : firstn (Z.to_nat (r_pos r2 - r_pos r)) (r_rem r) = b1 ++ b2).
  { destruct C as (Cr & Cp & _). rewrite Cr, Cp. replace (r_pos r + zlen (b1 ++ b2) - r_pos r) with (zlen (b1 ++ b2)) by lia.
    unfold zlen. rewrite Nat2Z.id, firstn_app, Nat.sub_diag, firstn_all, firstn_O, app_nil_r. reflexivity. }
  rewrite Ei. split; [destruct C as (Cr & _); rewrite Cr in Hr; apply bytes_ok_app in Hr; apply Hr|]. split; [exact Hr2|]. split; [exact C|].
  exists l'. intros off. unfold section_items, read_items, new_reader, bind. rewrite D1. specialize (D2 [] (0 + zlen b1) off). rewrite app_nil_r in D2. rewrite D2. reflexivity.
Qed.
Lemma dec_last {A B} F o (d : R A) (k : A -> R B) a b : decodes F o d a -> decodes F o_nil (k a) b -> decodes F o (bind d k) b.
Proof. intros H1 H2. rewrite <- (oapp_nil_r o). eapply dec_bind; eauto. Qed.
Lemma dec_first {A B} F o (d : R A) (k : A -> R B) a b : decodes F o_nil d a -> decodes F o (k a) b -> decodes F o (bind d k) b.
Proof. intros H1 H2. rewrite <- (oapp_nil_l o). eapply dec_bind; eauto. Qed.
Lemma dec_skip {A} F bs (d : R A) a : decodes F (Some bs) d a -> decodes F (Some bs) (skip_raw d) bs.
Proof.
  intros (bs' & E & Hb & Hd). injection E as <-. exists bs. split; [reflexivity|]. split; [exact Hb|]. intros rest pos off ft Hf Hr. unfold skip_raw.
  rewrite Hd by auto. cbn [r_pos r_rem]. replace (pos + zlen bs - pos) with (zlen bs) by lia. unfold zlen. rewrite Nat2Z.id.
  rewrite firstn_app, Nat.sub_diag, firstn_all, firstn_O, app_nil_r. reflexivity.
Qed.
Lemma yields_ext {B} F (d d' : R B) P : (forall r, d r = d' r) -> yields F d P -> yields F d' P.
Proof. intros He H r b r' Hf Hr E. rewrite <- He in E. eauto. Qed.
(** [read_reader], of which only the bytes are used. *)
Lemma reader_bytes {B} (f : list Z -> B) r :
  (let* n := read_var_u32 in let* s := read_bytes n in ret (f s)) r = (let* d := read_reader in ret (f (r_rem d))) r.
Proof.
  unfold read_reader, skip_bytes, bind. destruct (read_var_u32 r) as [[n r1]|e]; [|reflexivity]. destruct (read_bytes n r1) as [[s r2]|e]; reflexivity.
Qed.
Lemma dec_reader {B} F (f : list Z -> B) s : bytes_ok s -> zlen s < 2 ^ 32 ->
  decodes F (encode_usize (zlen s) +++ Some s) (let* d := read_reader in ret (f (r_rem d))) (f s).
Proof.
  intros H Hn. eapply dec_ext; [apply reader_bytes|]. eapply dec_bind; [apply dec_usize; unfold in_u, zlen in *; lia|]. cbv beta.
  exact (dec_bind_ret F _ _ f _ (dec_read_bytes F s H)).
Qed.
Lemma y_reader {B} F (f : list Z -> B) (P : B -> Prop) : (forall s, bytes_ok s -> zlen s < 2 ^ 32 -> P (f s)) -> yields F (let* d := read_reader in ret (f (r_rem d))) P.
Proof.
  intros H. eapply yields_ext; [apply reader_bytes|]. eapply y_bind; [apply y_u32|]. intros n [Hn Hm]. eapply y_bind; [apply y_read_bytes, Hn|]. intros s [Hs El].
  apply y_ret, H; [exact Hs|lia].
Qed.
