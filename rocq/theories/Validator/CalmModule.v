(** A module answers as [Calm] asks. *)
From Verif.Base Require Import Prelude.
From Verif.Types Require Import RefModel CodecModel CanonModel CanonSpec CanonLemmas CanonSub CanonTop.
From Verif.Validator Require Import State Module Calm.

Lemma fits_packs id : 0 <= id < 2 ^ 20 -> packs (UId id) = true.
Proof. intros H. unfold packs, idx_of, can_represent_index. apply Z.eqb_eq. change P_INDEX_MASK with (Z.ones 20). rewrite Z.land_ones, Z.mod_small by lia. reflexivity. Qed.
Lemma over_packs id : 2 ^ 20 <= id -> packs (UId id) = false.
Proof.
  intros H. unfold packs, idx_of, can_represent_index. apply Z.eqb_neq. change P_INDEX_MASK with (Z.ones 20). rewrite Z.land_ones by lia.
  pose proof (Z.mod_pos_bound id (2 ^ 20) ltac:(lia)). lia.
Qed.
Section Facts.
Variable s : store.
Variable m : modul.
Let T := st_types s.
Hypothesis HO : ordered T.
Hypothesis HV : forall i t, is_type T i t -> valid_type T i t.
Hypothesis HT : Forall (defined T) (md_types m).
Hypothesis HN : zlen T <= 2 ^ 20.
Notation R := (module_resources s m).

Lemma stored_defined i : defined T i -> exists t, nthz T i = Some t /\ stored s i = Some (m_sub UId t).
Proof. intros D. unfold stored. fold T. destruct (nthz T i) as [t|] eqn:E; [eauto|]. exfalso. apply nthz_none in E. exact (E D). Qed.
Lemma known_stored i t : stored s i = Some t -> known_type R t.
Proof.
  unfold stored. fold T. destruct (nthz T i) as [u|] eqn:Eu; [|discriminate]. intros H. injection H as <-.
  pose proof (o_refs T HO i u Eu) as F. unfold refs_sub in F. rewrite !Forall_app in F. destruct F as (_ & Fd & _ & Fi).
  assert (KV : forall v, Forall (defined T) (refs_val v) -> known_val R (m_val UId v)).
  { intros v Fv. destruct v as [| | | | |[n h]]; try exact I. cbn in *. destruct h as [sh a|j|j]; [exact I|..].
    all: cbn in *; inversion Fv as [|? ? Dj _]; subst; destruct (stored_defined j Dj) as (t & _ & Ht); exists j, (m_sub UId t); split; [reflexivity|exact Ht]. }
  assert (KL : forall l, Forall (defined T) (flat_map refs_val l) -> Forall (known_val R) (map (m_val UId) l)).
  { induction l as [|v l IH]; cbn [flat_map map]; [constructor|]. intros Fl. apply Forall_app in Fl. destruct Fl. constructor; auto. }
  split; [|split].
  - intros ps rs E. destruct u as [fi su [n sh dr ds]]. cbn in *. destruct n as [ps0 rs0| | |]; try discriminate. injection E as <- <-. cbn [refs_inner] in Fi. apply Forall_app in Fi. destruct Fi. split; apply KL; assumption.
  - intros c E. pose proof (v_cont _ _ _ (HV i u Eu)) as Vc. destruct u as [fi su [n sh dr ds]]. cbn in *. destruct n as [| | |j]; try discriminate. injection E as <-.
    destruct (Vc j eq_refl) as (u & ps & rs & Hu & Hi). unfold is_type in Hu.
    exists j, (m_sub UId u), (map (m_val UId) ps), (map (m_val UId) rs). split; [reflexivity|]. split; [unfold stored; fold T; rewrite Hu; reflexivity|].
    destruct u as [fi' su' [n' sh' dr' ds']]. cbn in *. subst n'. reflexivity.
  - intros d E. destruct u as [fi su [n sh dr ds]]. cbn in *. destruct dr as [j|]; [|discriminate]. injection E as <-. eauto.
Qed.
Lemma module_sane : sane R.
Proof.
  constructor.
  - intros i t H. cbn [module_resources r_sub_type_at] in H. unfold opt_nthz in H. destruct (nthz (md_types m) i) as [id|]; [|discriminate]. eapply known_stored; exact H.
  - intros i t H. eapply known_stored; exact H.
  - intros h a h' H. cbn [module_resources r_check_heap_type] in H. unfold md_check_heap in H.
    assert (G : forall u (k : uidx -> hp), (match u with UModule i => match nthz (md_types m) i with Some id => Ok (k (UId id)) | None => Err (err_new "unknown type {idx}: type index out of bounds" a) end | _ => Err (err_new "unreachable" a) end) = Ok h' ->
      exists id, h' = k (UId id) /\ known_id R (UId id) /\ packs (UId id) = true).
    { intros u k E. destruct u as [i|i|i]; try discriminate. destruct (nthz (md_types m) i) as [id|] eqn:Ei; [|discriminate]. injection E as <-. exists id. split; [reflexivity|].
      rewrite Forall_forall in HT. specialize (HT id (nthz_In _ _ _ Ei)). destruct (stored_defined id HT) as (t & _ & Ht). split; [exists id, (m_sub UId t); split; [reflexivity|exact Ht]|].
      apply fits_packs. unfold defined in HT. lia. }
    destruct h as [sh t|u|u].
    + injection H as <-. split; [exact I|]. split; [|auto]. intros n. eexists. reflexivity.
    + destruct (G u HC H) as (id & -> & K1 & K2). split; [exact K1|]. split; [|auto]. intros n. cbn [r_new]. rewrite K2. eauto.
    + destruct (G u HX H) as (id & -> & K1 & K2). split; [exact K1|]. split; [|auto]. intros n. cbn [r_new]. rewrite K2. eauto.
  - intros h H. cbn [module_resources r_top_type]. destruct h as [sh t|u|u]; cbn [hp_top answer]; [eexists; reflexivity|..].
    all: destruct (type_of s u) as [t| | |]; cbn [CanonModel.obind answer]; first [eexists; reflexivity|apply H].
Qed.
End Facts.
Theorem reached_sane h w k m : reached h w -> md_types m = w_scope w k -> zlen (st_types (w_store w)) <= 2 ^ 20 -> sane (module_resources (w_store w) m).
Proof.
  intros Hr Hk Hn. destruct (reached_inv h w Hr) as (gs & D & V & F).
  apply module_sane; [exact (built_ordered _ _ _ _ _ (i_built _ _ _ V))|exact (i_valid _ _ _ V)| |exact Hn]. rewrite Hk. eapply scope_defined; [exact V|exact (F k)].
Qed.
