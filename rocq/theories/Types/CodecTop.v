(** What the type readers can return, and how they behave at the end of input. *)
From Verif.Base Require Import Prelude BitFacts.
From Verif.Reader Require Import Model Spec Mono.
From Verif.Leb Require Import Model Top ReaderProofs.
From Verif.Codec Require Import Kit.
From Verif.Types Require Import RefModel RefSpec RefProofs CodecModel CodecSpec CodecProofs.
From Coq Require Import Lia.

Section yields.
Context (F : features -> Prop).
Notation yields := (yields F).
Lemma y_aht : yields read_aht (fun _ => True).
Proof. unfold read_aht. eapply y_bind; [apply y_u8|]. intros b _. repeat (apply y_if; intros _; [apply y_ret; exact I|]). apply y_fail_at. Qed.
Lemma y_look {A B} (m : R A) c (f : A -> R B) g P Q : yields m P -> (forall a, P a -> c a = true -> yields (f a) Q) -> yields g Q -> yields (lookahead m c f g) Q.
Proof.
  intros Hm Hf Hg r b r' HF Hr E. unfold lookahead in E. destruct (m r) as [[a r1]|e] eqn:Em; [|discriminate].
  destruct (Hm _ _ _ HF Hr Em) as (Ha & Hr1 & Ef). destruct (c a) eqn:Ec; [|exact (Hg _ _ _ HF Hr E)].
  assert (HF1 : F (r_feat r1)) by (rewrite Ef; exact HF). destruct (Hf a Ha Ec _ _ _ HF1 Hr1 E) as (Hb & Hr2 & Ef2).
  split; [exact Hb|]. split; [exact Hr2|congruence].
Qed.
Lemma y_packed i : 0 <= i -> yields (packed_or_limit i) (fun p => 0 <= i < 2 ^ 20 /\ p = packed i).
Proof.
  intros Hi. unfold packed_or_limit, packed. pose proof (pack_spec (UModule i) Hi) as H. cbn [pack uidx_num kind_of] in H. rewrite H.
  destruct (Z.ltb_spec i (2 ^ 20)); [apply y_ret; split; [lia|reflexivity]|apply y_fail_at].
Qed.
Lemma is_u32_spec v : is_u32 v = true -> in_u 32 v.
Proof. unfold is_u32, in_u. intros H. apply andb_prop in H. destruct H as [H1 H2]. apply Z.leb_le in H1. apply Z.ltb_lt in H2. lia. Qed.
Lemma y_heap : yields read_heap (from heap_ok d_heap).
Proof.
  unfold read_heap. eapply y_look; [apply y_s33| |].
  - intros i _ Hi. apply is_u32_spec in Hi. destruct Hi as [Hi _]. eapply y_bind; [apply y_packed, Hi|]. intros p [Hr ->].
    unfold unpack_or_panic. rewrite (proj2 (packed_ok i Hr)). eapply y_bind; [apply (y_ret F (UModule i) (fun u => u = UModule i)); reflexivity|].
    intros u ->. apply y_ret. exists (EConcrete i). auto.
  - eapply y_bind; [apply y_peek|]. intros b _. apply y_if; intros _; [|apply y_if; intros _].
    + eapply y_bind; [apply y_u8|]. intros _ _. eapply y_bind; [apply y_aht|]. intros t _. apply y_ret. exists (EAbs true t). cbn; auto.
    + eapply y_bind; [apply y_u8|]. intros _ _. eapply y_bind; [apply y_u32|]. intros i Hi. apply y_ret. exists (EExact i). auto.
    + eapply y_bind; [apply y_map_err, y_aht|]. intros t _. apply y_ret. exists (EAbs false t). cbn; auto.
Qed.
Lemma y_ref_new n h pos msg : from heap_ok d_heap h ->
  yields (match ref_new n h with Some r => ret r | None => fail_pos msg pos end) (from ref_ok d_ref).
Proof.
  intros (v & Hv & ->). destruct (ref_new n (d_heap v)) as [p|] eqn:E; [|apply y_fail_pos]. apply y_ret. exists (mkERef n v).
  assert (Hu : u32_heap (d_heap v)).
  { destruct v as [s t|i|i]; cbn in *; auto; unfold u32_uidx, in_u in *; cbn; lia. }
  assert (Hf : fits (d_heap v)) by (apply (ref_new_total n _ Hu); eauto).
  split; [|unfold d_ref; cbn [er_null er_heap]; rewrite E; reflexivity].
  unfold ref_ok. cbn [er_heap]. destruct v as [s t|i|i]; cbn in *; auto. unfold in_u in Hv. lia.
Qed.
Lemma y_ref : yields read_ref (from ref_ok d_ref).
Proof.
  unfold read_ref. eapply y_bind; [apply y_get_pos|]. intros pos _. eapply y_bind; [apply y_peek|]. intros b _.
  apply y_if; intros _; [|apply y_if; intros _; [apply y_fail_pos|]].
  - eapply y_bind; [apply y_u8|]. intros b' _. eapply y_bind; [apply y_heap|]. intros h Hh. apply y_ref_new, Hh.
  - eapply y_bind; [apply y_peek|]. intros b' _. eapply y_bind with (P := fun _ => True).
    { apply y_if; intros _; [eapply y_weaken; [|apply y_u8]; auto|apply y_ret; exact I]. }
    intros _ _. eapply y_bind; [apply y_map_err, y_aht|]. intros t _. apply y_ref_new. exists (EAbs (b' =? 0x65) t). cbn; auto.
Qed.
Lemma y_val : yields read_val (from val_ok d_val).
Proof.
  unfold read_val. eapply y_bind; [apply y_peek|]. intros b _.
  apply y_if; intros _; [eapply y_bind; [apply y_u8|]; intros _ _; apply y_ret; exists EI32; cbn; auto|].
  apply y_if; intros _; [eapply y_bind; [apply y_u8|]; intros _ _; apply y_ret; exists EI64; cbn; auto|].
  apply y_if; intros _; [eapply y_bind; [apply y_u8|]; intros _ _; apply y_ret; exists EF32; cbn; auto|].
  apply y_if; intros _; [eapply y_bind; [apply y_u8|]; intros _ _; apply y_ret; exists EF64; cbn; auto|].
  apply y_if; intros _; [eapply y_bind; [apply y_u8|]; intros _ _; apply y_ret; exists EV128; cbn; auto|].
  eapply y_bind; [apply y_map_err, y_ref|]. intros r (v & Hv & ->). apply y_ret. exists (ERef v). cbn; auto.
Qed.
Lemma y_storage : yields read_storage (from storage_ok d_storage).
Proof.
  unfold read_storage. eapply y_bind; [apply y_peek|]. intros b _.
  apply y_if; intros _; [eapply y_bind; [apply y_u8|]; intros _ _; apply y_ret; exists EI8; cbn; auto|].
  apply y_if; intros _; [eapply y_bind; [apply y_u8|]; intros _ _; apply y_ret; exists EI16; cbn; auto|].
  eapply y_bind; [apply y_val|]. intros r (v & Hv & ->). apply y_ret. exists (EVal v). cbn; auto.
Qed.
Lemma y_field : yields read_field (from field_ok d_field).
Proof.
  unfold read_field. eapply y_bind; [apply y_storage|]. intros s (v & Hv & ->). eapply y_bind; [apply y_u8|]. intros m _.
  apply y_if; intros _; [apply y_ret; exists (mkEField v false); auto|].
  apply y_if; intros _; [apply y_ret; exists (mkEField v true); auto|apply y_fail_at].
Qed.
Lemma y_inner op : yields (read_inner op) (from inner_ok d_inner).
Proof.
  unfold read_inner. repeat (apply y_if; intros _).
  - eapply y_bind; [apply y_list, y_val|]. intros ps [H1 L1]. eapply y_bind; [apply y_list, y_val|]. intros rs [H2 L2].
    apply from_list in H1. destruct H1 as (ps' & H1 & ->). apply from_list in H2. destruct H2 as (rs' & H2 & ->).
    rewrite zlen_map in L1, L2. apply y_ret. exists (EFunc ps' rs'). cbn [inner_ok d_inner]. rewrite map_length. auto.
  - eapply y_bind; [apply y_field|]. intros f (v & Hv & ->). apply y_ret. exists (EArray v). auto.
  - eapply y_bind; [apply y_list, y_field|]. intros fs [H1 L1]. apply from_list in H1. destruct H1 as (fs' & H1 & ->). rewrite zlen_map in L1.
    apply y_ret. exists (EStruct fs'). cbn [inner_ok d_inner]. auto.
  - eapply y_bind; [apply y_s33|]. intros i _. apply y_if; intros Hi; [|apply y_fail_at]. apply is_u32_spec in Hi. destruct Hi as [Hi _].
    eapply y_bind; [apply y_packed, Hi|]. intros p [Hr ->]. apply y_ret. exists (ECont i). auto.
  - apply y_fail_at.
Qed.
Lemma y_marked mark op : yields (read_marked mark op) (fun x => from opt_idx_ok (option_map packed) (fst x)).
Proof.
  unfold read_marked. apply y_if; intros _; [|apply y_ret; exists None; cbn; auto].
  eapply y_bind; [apply y_u32|]. intros i [Hi _]. eapply y_bind; [apply y_packed, Hi|]. intros p [Hr ->]. eapply y_bind; [apply y_u8|].
  intros b _. apply y_ret. exists (Some i). auto.
Qed.
Lemma y_comp op : yields (read_comp op) (from comp_ok d_comp).
Proof.
  unfold read_comp. eapply y_bind with (P := fun _ => True).
  { apply y_if; intros _; [|apply y_ret; exact I]. eapply y_bind; [apply y_u8|]. intros b _. apply y_ret. exact I. }
  intros [sh o] _. eapply y_bind; [apply y_marked|]. intros [ds o1] (ds' & H1 & E1). eapply y_bind; [apply y_marked|]. intros [dr o2] (dr' & H2 & E2).
  cbn [fst snd] in *. subst. eapply y_bind; [apply y_inner|]. intros i (i' & Hi & ->). apply y_ret. exists (mkEComp i' sh dr' ds'). repeat split; auto.
Qed.
Lemma y_sub : yields read_sub (from sub_ok d_sub).
Proof.
  unfold read_sub. eapply y_bind; [apply y_get_pos|]. intros pos _. eapply y_bind; [apply y_u8|]. intros op _. apply y_if; intros _.
  - eapply y_bind; [apply y_list, y_u32|]. intros idxs [Hi _]. apply y_if; intros _; [apply y_fail_pos|].
    eapply y_bind with (P := from opt_idx_ok (option_map packed)).
    { destruct idxs as [|i t]; [apply y_ret; exists None; cbn; auto|]. inversion Hi as [|? ? [Hi' _] _]; subst. eapply y_bind; [apply y_packed, Hi'|].
      intros p [Hr ->]. apply y_ret. exists (Some i). auto. }
    intros sup (s' & Hs & ->). eapply y_bind; [apply y_u8|]. intros b _. eapply y_bind; [apply y_comp|]. intros c (c' & Hc & ->). apply y_ret.
    exists (mkESub (op =? 0x4f) s' c'). repeat split; auto; apply Hc.
  - eapply y_bind; [apply y_comp|]. intros c (c' & Hc & ->). apply y_ret. exists (mkESub true None c'). split; [split; [exact I|exact Hc]|reflexivity].
Qed.
Lemma y_rec : yields read_rec (from rec_ok d_rec).
Proof.
  unfold read_rec. eapply y_bind; [apply y_peek|]. intros b _. apply y_if; intros _.
  - eapply y_bind; [apply y_u8|]. intros _ _. eapply y_bind; [apply y_list, y_sub|]. intros l [H L]. apply from_list in H. destruct H as (l' & H & ->).
    rewrite zlen_map in L. apply y_ret. exists (ERec l'). cbn. auto.
  - eapply y_bind; [apply y_sub|]. intros s (s' & Hs & ->). apply y_ret. exists (ESingle s'). cbn. auto.
Qed.

End yields.

(** * Honesty *)
Lemma honest_look {A B} (m : R A) c (f : A -> R B) g : honest m -> (forall a, honest (f a)) -> honest g -> honest (lookahead m c f g).
Proof.
  intros Hm Hf Hg r. unfold lookahead. pose proof (Hm r) as H. pose proof (honest_bind m f Hm Hf r) as Hb. unfold bind in Hb.
  destruct (m r) as [[a r1]|e] eqn:Em.
  - destruct H as [_ Hx]. destruct (c a) eqn:Ec.
    + destruct (f a r1) as [[b r2]|e] eqn:Ef.
      * destruct Hb as [H1 H2]. split; [exact H1|]. intros ext. specialize (H2 ext). rewrite Hx in *. rewrite Ec. exact H2.
      * destruct (e_hint e).
        -- destruct Hb as [H1 H2]. split; [exact H1|]. intros ext He. specialize (H2 ext He). rewrite Hx in *. rewrite Ec. exact H2.
        -- intros ext. specialize (Hb ext). rewrite Hx in *. rewrite Ec. exact Hb.
    + specialize (Hg r). destruct (g r) as [[b r2]|e].
      * destruct Hg as [H1 H2]. split; [exact H1|]. intros ext. rewrite Hx, Ec. apply H2.
      * destruct (e_hint e).
        -- destruct Hg as [H1 H2]. split; [exact H1|]. intros ext He. rewrite Hx, Ec. apply H2, He.
        -- intros ext. rewrite Hx, Ec. apply Hg.
  - destruct (e_hint e) as [h|].
    + destruct H as [H1 H2]. split; [exact H1|]. intros ext He. destruct (H2 ext He) as (e' & E & Hi). exists e'. rewrite E. auto.
    + intros ext. rewrite H. reflexivity.
Qed.
Lemma reclassify_hint msg e : e_hint (reclassify msg e) = e_hint e.
Proof. unfold reclassify. destruct (invalid_heap_type e); reflexivity. Qed.
#[export] Hint Resolve reclassify_hint : honest.
Lemma honest_aht : honest read_aht.
Proof. unfold read_aht. honesty. Qed.
#[export] Hint Resolve honest_aht : honest.
Lemma honest_packed i : honest (packed_or_limit i).
Proof. unfold packed_or_limit. honesty. Qed.
#[export] Hint Resolve honest_packed : honest.
Lemma honest_unpack i : honest (unpack_or_panic i).
Proof. unfold unpack_or_panic. honesty. Qed.
#[export] Hint Resolve honest_unpack : honest.
Lemma honest_heap : honest read_heap.
Proof. unfold read_heap. apply honest_look; [|intros ?|]; honesty. Qed.
#[export] Hint Resolve honest_heap : honest.
Lemma honest_ref : honest read_ref.
Proof. unfold read_ref. honesty. Qed.
#[export] Hint Resolve honest_ref : honest.
Lemma honest_val : honest read_val.
Proof. unfold read_val. honesty. Qed.
#[export] Hint Resolve honest_val : honest.
Lemma honest_storage : honest read_storage.
Proof. unfold read_storage. honesty. Qed.
#[export] Hint Resolve honest_storage : honest.
Lemma honest_field : honest read_field.
Proof. unfold read_field. honesty. Qed.
#[export] Hint Resolve honest_field : honest.
Lemma honest_inner op : honest (read_inner op).
Proof. unfold read_inner. honesty. Qed.
#[export] Hint Resolve honest_inner : honest.
Lemma honest_marked m op : honest (read_marked m op).
Proof. unfold read_marked. honesty. Qed.
#[export] Hint Resolve honest_marked : honest.
Lemma honest_comp op : honest (read_comp op).
Proof. unfold read_comp. honesty. Qed.
#[export] Hint Resolve honest_comp : honest.
Lemma honest_sub : honest read_sub.
Proof. unfold read_sub. honesty. Qed.
#[export] Hint Resolve honest_sub : honest.
Lemma honest_rec : honest read_rec.
Proof. unfold read_rec. honesty. Qed.
#[export] Hint Resolve honest_rec : honest.

(** * The statements *)
Definition any_ft (_ : features) : Prop := True.
Lemma c_d_heap h : heap_ok h -> c_heap (d_heap h) = Some h.
Proof. destruct h; reflexivity. Qed.

Lemma types_roundtrip :
  (forall h, heap_ok h -> reads_as any_ft enc_heap read_heap c_heap h) /\
  (forall r, ref_ok r -> reads_as any_ft enc_ref read_ref c_ref r) /\
  (forall v, val_ok v -> reads_as any_ft enc_val read_val c_val v) /\
  (forall s, storage_ok s -> reads_as any_ft enc_storage read_storage c_storage s) /\
  (forall f, field_ok f -> reads_as any_ft enc_field read_field c_field f) /\
  (forall s, sub_ok s -> reads_as any_ft enc_sub read_sub c_sub s) /\
  (forall g, rec_ok g -> reads_as any_ft enc_rec read_rec c_rec g).
Proof.
  repeat split; intros v H; eapply reads_as_intro.
  - apply dec_heap, H. - apply c_d_heap, H. - apply dec_ref, H. - apply c_d_ref, H. - apply dec_val, H. - apply c_d_val, H.
  - apply dec_storage, H. - apply c_d_storage, H. - apply dec_field, H. - apply c_d_field, H. - apply dec_sub, H. - apply c_d_sub, H.
  - apply dec_rec, H. - apply c_d_rec, H.
Qed.
Lemma types_rewrite :
  rewrites any_ft enc_heap read_heap c_heap /\ rewrites any_ft enc_ref read_ref c_ref /\ rewrites any_ft enc_val read_val c_val /\
  rewrites any_ft enc_storage read_storage c_storage /\ rewrites any_ft enc_field read_field c_field /\ rewrites any_ft enc_sub read_sub c_sub /\
  rewrites any_ft enc_rec read_rec c_rec.
Proof.
  split; [exact (rewrites_intro _ _ _ _ _ _ (y_heap _) (dec_heap _) c_d_heap)|].
  split; [exact (rewrites_intro _ _ _ _ _ _ (y_ref _) (dec_ref _) c_d_ref)|].
  split; [exact (rewrites_intro _ _ _ _ _ _ (y_val _) (dec_val _) c_d_val)|].
  split; [exact (rewrites_intro _ _ _ _ _ _ (y_storage _) (dec_storage _) c_d_storage)|].
  split; [exact (rewrites_intro _ _ _ _ _ _ (y_field _) (dec_field _) c_d_field)|].
  split; [exact (rewrites_intro _ _ _ _ _ _ (y_sub _) (dec_sub _) c_d_sub)|].
  exact (rewrites_intro _ _ _ _ _ _ (y_rec _) (dec_rec _) c_d_rec).
Qed.
Lemma types_honest :
  honest read_heap /\ honest read_ref /\ honest read_val /\ honest read_storage /\ honest read_field /\ honest read_sub /\ honest read_rec.
Proof. repeat split; auto using honest_heap, honest_ref, honest_val, honest_storage, honest_field, honest_sub, honest_rec. Qed.
