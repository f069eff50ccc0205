(** What the readers of sections give can be turned into types. *)
From Verif.Base Require Import Prelude.
From Verif.Reader Require Import Model Spec.
From Verif.Codec Require Import Kit.
From Verif.Types Require Import RefModel RefProofs CodecModel EntityModel CanonModel CodecSpec CodecProofs CodecTop EntitySpec EntityProofs.
From Verif.Instr Require Import ImmModel Ops BodyModel BodyProofs.
From Verif.Sections Require Import SegModel SegProofs Item.
From Verif.Validator Require Import State CalmBody.
From Verif.Modval Require Import Model.
From Verif.Modval Require Spec.

(** What is needed of the items. *)
Definition q_table (t : table_ty Z) : Prop := of_ref (t_elem t) <> None.
Definition q_global (t : global_ty p_val) : Prop := of_val (EntityModel.g_val t) <> None.
Definition q_entity (e : p_entity) : Prop := match e with NTable t => q_table t | NGlobal t => q_global t | _ => True end.
Definition q_table_def (d : p_table_def) : Prop := q_table (ptd_ty d) /\ match ptd_init d with Some b => bytes_ok b | None => True end.
Definition q_global_def (d : p_global_def) : Prop := q_global (pgd_ty d) /\ bytes_ok (pgd_init d).
Definition q_elem (e : p_elem) : Prop :=
  match pe_kind e with PKActive _ b => bytes_ok b | _ => True end /\
  match pe_items e with PIFuncs b => bytes_ok b | PIExprs t b => of_ref t <> None /\ bytes_ok b end.
Definition q_offset (ft : features) (b : list Z) : Prop := bytes_ok b /\ forall pos, Verif.Modval.Spec.d_expr ft pos b <> None.
Definition q_data (ft : features) (d : p_data) : Prop := match pd_kind d with PDActive _ b => q_offset ft b | _ => True end.
Definition q_rec (r : p_rec) : Prop := g_group r <> None.

Lemma all_some_ok {A B} (f : A -> option B) l : Forall (fun a => f a <> None) l -> all_some f l <> None.
Proof. induction 1 as [|a l H _ IH]; cbn [all_some]; [discriminate|]. destruct (f a); [|congruence]. destruct (all_some f l); [discriminate|congruence]. Qed.
Lemma index_read i : 0 <= i < 2 ^ 20 -> g_index (packed i) = Some i.
Proof. intros H. unfold g_index. rewrite (proj2 (packed_ok i H)). reflexivity. Qed.
Lemma opt_read o : opt_idx_ok o -> g_opt (option_map packed o) = Some o.
Proof. destruct o; cbn [opt_idx_ok option_map g_opt]; [|reflexivity]. intros H. rewrite index_read by exact H. reflexivity. Qed.
Lemma val_reads_g v : val_ok v -> Model.g_val (d_val v) <> None.
Proof.
  intros H. unfold Model.g_val. destruct v; cbn [d_val of_val]; try discriminate. cbn in H. rewrite ref_read by exact H.
  destruct r as [n [s t|i|i]]; cbn [er_null er_heap d_heap of_heap mod_index]; discriminate.
Qed.
Lemma field_reads_g f : field_ok f -> g_field (d_field f) <> None.
Proof. destruct f as [[| |v] m]; unfold field_ok, g_field; cbn [d_field pf_elem ef_elem ef_mut pf_mut d_storage]; try discriminate. intros H. pose proof (val_reads_g v H). destruct (Model.g_val (d_val v)); congruence. Qed.
Lemma list_reads {A B C} (ok : A -> Prop) (f : B -> option C) (d : A -> B) l : (forall a, ok a -> f (d a) <> None) -> Forall ok l -> all_some f (map d l) <> None.
Proof. intros H Hl. apply all_some_ok. rewrite Forall_map. eapply Forall_impl; [|exact Hl]. exact H. Qed.
Lemma inner_reads_g i : inner_ok i -> g_inner (d_inner i) <> None.
Proof.
  destruct i as [ps rs|f|fs|i]; cbn [inner_ok d_inner g_inner].
  - intros (H1 & H2 & _). unfold pf_params, pf_results.
    rewrite <- (map_length d_val ps), firstn_app, Nat.sub_diag, firstn_all, firstn_O, app_nil_r.
    rewrite skipn_app, skipn_all, Nat.sub_diag. cbn [app skipn].
    pose proof (list_reads _ _ _ _ val_reads_g H1). pose proof (list_reads _ _ _ _ val_reads_g H2).
    destruct (all_some Model.g_val (map d_val ps)); [|congruence]. destruct (all_some Model.g_val (map d_val rs)); congruence.
  - intros H. pose proof (field_reads_g f H). destruct (g_field (d_field f)); congruence.
  - intros [H _]. pose proof (list_reads _ _ _ _ field_reads_g H). destruct (all_some g_field (map d_field fs)); congruence.
  - intros H. rewrite index_read by exact H. discriminate.
Qed.
Lemma sub_reads_g s : sub_ok s -> g_sub (d_sub s) <> None.
Proof.
  destruct s as [f sup [i sh de ds]]. unfold sub_ok, comp_ok. cbn [es_super es_comp ec_inner ec_descriptor ec_describes]. intros (H1 & H2 & H3 & H4).
  unfold g_sub. cbn [d_sub ps_super ps_comp ps_final es_super es_comp es_final d_comp ec_inner ec_shared ec_descriptor ec_describes pc_inner pc_shared pc_descriptor pc_describes].
  rewrite !opt_read by assumption. pose proof (inner_reads_g i H2). destruct (g_inner (d_inner i)); congruence.
Qed.
Lemma rec_reads r : rec_ok r -> q_rec (d_rec r).
Proof.
  unfold q_rec. destruct r as [l|s]; cbn [rec_ok d_rec g_group].
  - intros [H _]. exact (list_reads _ _ _ _ sub_reads_g H).
  - intros H. pose proof (sub_reads_g s H). destruct (g_sub (d_sub s)); congruence.
Qed.

Section ft.
Context (ft : features).
Notation m64 := (f_memory64 ft).
Lemma y_q_rec : yields (eq ft) read_rec q_rec.
Proof. eapply y_weaken; [|apply y_rec]. intros r (x & H & ->). apply rec_reads, H. Qed.
Lemma y_q_const : yields (eq ft) read_const bytes_ok.
Proof.
  intros r b r' Hf Hr E. destruct (const_read ft r b r' (eq_sym Hf) Hr E) as (_ & _ & _ & H & (C1 & _ & _ & C2) & _). rewrite C1 in Hr. unfold bytes_ok in Hr. apply Forall_app in Hr. split; [apply Hr|]. split; assumption.
Qed.
Lemma y_q_offset : yields (eq ft) read_const (q_offset ft).
Proof.
  intros r b r' Hf Hr E. destruct (y_q_const r b r' Hf Hr E) as (A & B & C). split; [|split; assumption]. split; [exact A|]. intros pos.
  destruct (const_read ft r b r' (eq_sym Hf) Hr E) as (_ & _ & _ & _ & _ & _ & ops & _ & D). unfold Verif.Modval.Spec.d_expr, new_reader. rewrite D. discriminate.
Qed.
Lemma table_q t : table_ok m64 t -> q_table (d_table t).
Proof. intros (H & _). unfold q_table. destruct t; cbn in *. rewrite ref_read by exact H. discriminate. Qed.
Lemma global_q t : global_ok t -> q_global (d_global t).
Proof. intros H. unfold q_global. destruct t; cbn in *. apply val_read, H. Qed.
Lemma entity_q e : entity_ok m64 e -> q_entity (d_entity e).
Proof. destruct e; cbn [entity_ok d_entity q_entity]; auto; [apply table_q|apply global_q]. Qed.
Lemma y_q_table : yields (eq ft) read_table q_table.
Proof. apply (yields_eq ft (with_m64 m64)); [reflexivity|]. eapply y_weaken; [|apply y_table]. intros r (x & H & ->). apply table_q, H. Qed.
Lemma y_q_global : yields (eq ft) read_global q_global.
Proof. apply (yields_eq ft (with_m64 m64)); [reflexivity|]. eapply y_weaken; [|apply y_global]. intros r (x & H & ->). apply global_q, H. Qed.
Lemma y_q_entity : yields (eq ft) read_entity q_entity.
Proof. apply (yields_eq ft (with_m64 m64)); [reflexivity|]. eapply y_weaken; [|apply y_entity]. intros r (x & H & ->). apply entity_q, H. Qed.
Lemma y_q_item : yields (eq ft) read_item (fun x => q_entity (snd x)).
Proof. apply (yields_eq ft (with_m64 m64)); [reflexivity|]. eapply y_weaken; [|apply y_item]. intros r (x & H & ->). apply entity_q, H. Qed.
(** Imports, one by one. *)
Definition q_imports (p : p_imports) : Prop := forall pos l, flatten_imports ft pos p = Ok l -> Forall (fun x => q_entity (snd x)) l.
Lemma y_q_imports : yields (eq ft) read_imports q_imports.
Proof.
  apply (yields_eq ft (with_m64 m64)); [reflexivity|]. eapply y_weaken; [|apply y_imports]. intros p H pos l E.
  destruct p as [m n ty|m items|m ty names]; cbn [raw_ok flatten_imports] in *.
  - injection E as <-. destruct H as (_ & _ & x & Hx & ->). constructor; [|constructor]. apply entity_q, Hx.
  - destruct (section_items read_item ft pos items) as [l'|] eqn:S; [|discriminate]. injection E as <-. rewrite Forall_map. cbn [snd].
    exact (proj1 (y_section_eq ft _ _ _ _ _ y_q_item (proj2 H) S)).
  - destruct (section_items read_string ft pos names) as [l'|]; [|discriminate]. injection E as <-. rewrite Forall_map. cbn [snd]. apply Forall_forall. intros y _.
    destruct H as (_ & (x & Hx & ->) & _). apply entity_q, Hx.
Qed.
Lemma y_q_table_def : yields (eq ft) read_table_def q_table_def.
Proof.
  unfold read_table_def. eapply y_bind; [apply y_peek|]. intros b _. eapply y_bind with (P := fun _ => True).
  { apply y_if; intros _; [eapply y_bind; [apply y_u8|]; intros; apply y_ret; exact I|apply y_ret; exact I]. }
  intros i _. eapply y_bind with (P := fun _ => True).
  { apply y_if; intros _; [eapply y_bind; [apply y_u8|]; intros; apply y_if; intros _; [apply y_fail_at|apply y_ret; exact I]|apply y_ret; exact I]. }
  intros _ _. eapply y_bind; [apply y_q_table|]. intros t Ht. eapply y_bind with (P := fun o => match o with Some b => bytes_ok b | None => True end).
  { unfold read_opt. apply y_if; intros _; [|apply y_ret; exact I]. eapply y_bind; [apply y_q_const|]. intros x Hx. apply y_ret. exact Hx. }
  intros o Ho. apply y_ret. split; assumption.
Qed.
Lemma y_q_global_def : yields (eq ft) read_global_def q_global_def.
Proof. unfold read_global_def. eapply y_bind; [apply y_q_global|]. intros t Ht. eapply y_bind; [apply y_q_const|]. intros b Hb. apply y_ret. split; assumption. Qed.
Lemma y_q_elem : yields (eq ft) read_elem q_elem.
Proof.
  eapply yields_ext; [intros; symmetry; apply read_elem_parts|]. eapply y_bind; [apply y_u32|]. intros flags _. destruct (negb _) eqn:En; [apply y_fail_at|].
  eapply y_bind with (P := fun k => match k with PKActive t q => bytes_ok q | _ => True end).
  { apply y_if; intros _; [apply y_if; intros _; apply y_ret; exact I|]. eapply y_bind with (P := fun _ => True).
    - unfold read_opt. apply y_if; intros _; [eapply y_bind; [apply y_u32|]; intros; apply y_ret; exact I|apply y_ret; exact I].
    - intros t _. eapply y_bind; [apply y_q_const|]. intros q Hq. apply y_ret. exact Hq. }
  intros k Hk. unfold read_elem_rest. eapply y_bind with (P := fun o => match o with Some t => from ref_ok d_ref t | None => True end).
  { apply y_if; intros Eb; [|apply y_ret; exact I]. apply y_if; intros _.
    - eapply y_bind; [apply y_ref|]. intros t Ht. apply y_ret. auto.
    - eapply y_bind; [apply (yields_eq ft (with_m64 m64)); [reflexivity|apply y_kind]|]. intros e _. destruct e; try apply y_fail_at. apply y_ret. exact I. }
  intros ty Hty. eapply y_bind; [apply y_items|]. intros b (Hb & _). apply y_ret. split; [exact Hk|]. cbn [pe_items]. destruct (bit_set flags 4); [|exact Hb].
  split; [|exact Hb]. destruct ty as [t|]; [|vm_compute; discriminate]. destruct Hty as (rt & Ht & ->). rewrite ref_read by exact Ht. discriminate.
Qed.
Lemma y_q_data : yields (eq ft) SegModel.read_data (q_data ft).
Proof.
  unfold SegModel.read_data. eapply y_bind; [apply y_get_pos|]. intros st _. eapply y_bind; [apply y_u32|]. intros fl _.
  eapply y_bind with (P := fun k => match k with PDActive _ b => q_offset ft b | _ => True end).
  { apply y_if; intros _; [apply y_ret; exact I|]. apply y_if; intros _; [|apply y_fail_pos]. eapply y_bind with (P := fun _ => True).
    - apply y_if; intros _; [apply y_ret; exact I|]. eapply y_weaken; [|apply y_u32]. auto.
    - intros m _. eapply y_bind; [apply y_q_offset|]. intros b Hb. apply y_ret. exact Hb. }
  intros k Hk. apply y_reader. intros s Hs Hn. exact Hk.
Qed.
End ft.
