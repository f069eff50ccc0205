(** Packing and unpacking of reference types. *)
From Verif.Base Require Import Prelude BitFacts.
From Verif.Types Require Import RefModel RefSpec.
From Coq Require Import Lia.

Lemma land_small i n : 0 <= i < 2 ^ n -> 0 <= n -> Z.land i (2 ^ n) = 0.
Proof.
  intros Hi Hn. apply Z.bits_inj'. intros k Hk. rewrite Z.land_spec, Z.bits_0, Z.pow2_bits_eqb by lia.
  destruct (Z.eqb_spec n k) as [->|]; [|apply Bool.andb_false_r].
  rewrite Bool.andb_true_r. destruct (Z.eq_dec i 0) as [->|]; [apply Z.bits_0|]. apply Z.bits_above_log2; [lia|].
  apply Z.log2_lt_pow2; lia.
Qed.
Lemma land_low i n m : 0 <= i < 2 ^ n -> 0 <= n -> Z.land i (m * 2 ^ n) = 0.
Proof.
  intros Hi Hn. apply Z.bits_inj'. intros k Hk. rewrite Z.land_spec, Z.bits_0.
  destruct (Z.lt_ge_cases k n) as [H|H].
  - rewrite Z.mul_pow2_bits_low by lia. apply Bool.andb_false_r.
  - destruct (Z.eq_dec i 0) as [->|]; [rewrite Z.bits_0; reflexivity|]. rewrite (Z.bits_above_log2 i k); [reflexivity|lia|].
    apply Z.lt_le_trans with n; [apply Z.log2_lt_pow2; lia|lia].
Qed.

Lemma can_rep i : 0 <= i -> can_represent_index i = (i <? 2 ^ 20).
Proof.
  intros Hi. unfold can_represent_index. change P_INDEX_MASK with (Z.ones 20). rewrite Z.land_ones by lia.
  destruct (Z.ltb_spec i (2 ^ 20)).
  - apply Z.eqb_eq. apply Z.mod_small. lia.
  - apply Z.eqb_neq. pose proof (Z.mod_pos_bound i (2 ^ 20) ltac:(lia)). lia.
Qed.

Definition kind_of (u : uidx) : Z := match u with UModule _ => 0 | URecGroup _ => 1 | UId _ => 2 end.
Lemma lor_kind k i : 0 <= i < 2 ^ 20 -> Z.lor (k * 2 ^ 20) i = i + k * 2 ^ 20.
Proof. intros Hi. rewrite Z.lor_comm. apply lor_add_shift; lia. Qed.
Lemma pack_spec u : 0 <= uidx_num u -> pack u = if uidx_num u <? 2 ^ 20 then Some (uidx_num u + kind_of u * 2 ^ 20) else None.
Proof.
  intros Hi. destruct u as [i|i|i]; cbn [pack uidx_num kind_of] in *; unfold from_module_index, from_rec_group_index, from_id, from_kind;
    rewrite can_rep by lia; destruct (Z.ltb_spec i (2 ^ 20)); auto; f_equal.
  - exact (lor_kind 0 i ltac:(lia)).
  - exact (lor_kind 1 i ltac:(lia)).
  - exact (lor_kind 2 i ltac:(lia)).
Qed.
Lemma packed_parts k i : 0 <= i < 2 ^ 20 -> 0 <= k < 4 ->
  p_kind (i + k * 2 ^ 20) = k * 2 ^ 20 /\ p_index (i + k * 2 ^ 20) = i.
Proof.
  intros Hi Hk. rewrite <- lor_kind by lia. unfold p_kind, p_index. rewrite !Z.land_lor_distr_l. split.
  - change KIND_MASK with (3 * 2 ^ 20). rewrite (land_low i 20 3) by lia. rewrite Z.lor_0_r. assert (k = 0 \/ k = 1 \/ k = 2 \/ k = 3) as [->|[->|[->| ->]]] by lia; reflexivity.
  - change P_INDEX_MASK with (Z.ones 20). rewrite (Z.land_ones i) by lia. rewrite (Z.mod_small i) by lia.
    rewrite Z.land_ones, Z.mod_mul by lia. apply Z.lor_0_l.
Qed.
Lemma unpack_pack u p : 0 <= uidx_num u -> pack u = Some p ->
  unpack p = Some u /\ 0 <= p < 2 ^ 22 /\ uidx_num u < 2 ^ 20.
Proof.
  intros Hi H. rewrite pack_spec in H by lia. destruct (Z.ltb_spec (uidx_num u) (2 ^ 20)) as [Hl|]; [|discriminate]. injection H as <-.
  assert (Hk : 0 <= kind_of u < 3) by (destruct u; cbn; lia).
  destruct (packed_parts (kind_of u) (uidx_num u) ltac:(lia) ltac:(lia)) as [H1 H2].
  split; [|split; [lia|exact Hl]]. unfold unpack. rewrite H1, H2. destruct u; reflexivity.
Qed.

(** The flags above an index of 22 bits. *)
Lemma concrete_form ex n p : 0 <= p < 2 ^ 22 ->
  (if ex : bool then ref_exact n p else ref_concrete n p) = p + (bit_of n + 2 * bit_of ex + 4) * 2 ^ 22.
Proof.
  intros Hp. unfold ref_exact, ref_concrete. rewrite <- (lor_add_shift p _ 22) by lia. rewrite (Z.lor_comm p).
  destruct ex, n; reflexivity.
Qed.
Lemma concrete_parts ex n p : 0 <= p < 2 ^ 22 ->
  let r := if ex : bool then ref_exact n p else ref_concrete n p in
  is_concrete r = true /\ is_exact r = ex /\ type_index r = Some p /\ is_nullable r = n /\ from_u32_ok r = true /\ in_u 32 r.
Proof.
  intros Hp. cbv zeta. rewrite concrete_form by exact Hp. set (f := bit_of n + 2 * bit_of ex + 4).
  assert (Hf : f = 4 \/ f = 5 \/ f = 6 \/ f = 7) by (unfold f; destruct n, ex; cbn; lia).
  assert (Hr : p + f * 2 ^ 22 = Z.lor p (f * 2 ^ 22)) by (symmetry; apply lor_add_shift; lia).
  assert (Hm : forall m, Z.land (p + f * 2 ^ 22) (m * 2 ^ 22) = Z.land f m * 2 ^ 22).
  { intros m. rewrite Hr, Z.land_lor_distr_l, (land_low p 22 m) by lia. rewrite Z.lor_0_l.
    rewrite <- !Z.shiftl_mul_pow2 by lia. symmetry. apply Z.shiftl_land. }
  assert (Hc : is_concrete (p + f * 2 ^ 22) = true).
  { unfold is_concrete. change CONCRETE_BIT with (4 * 2 ^ 22). rewrite Hm. destruct Hf as [->|[->|[->| ->]]]; reflexivity. }
  split; [exact Hc|]. split; [|split; [|split; [|split]]].
  - unfold is_exact. change (Z.lor EXACT_BIT CONCRETE_BIT) with (6 * 2 ^ 22).
    replace (2 ^ 32 - 1 - (p + f * 2 ^ 22)) with ((2 ^ 22 - 1 - p) + (2 ^ 10 - 1 - f) * 2 ^ 22) by lia.
    rewrite <- (lor_add_shift (2 ^ 22 - 1 - p)) by lia. rewrite Z.land_lor_distr_l, (land_low (2 ^ 22 - 1 - p) 22 6) by lia.
    rewrite Z.lor_0_l, <- !Z.shiftl_mul_pow2 by lia. rewrite <- Z.shiftl_land. unfold f. destruct n, ex; reflexivity.
  - unfold type_index. rewrite Hc. f_equal. rewrite Hr. change INDEX_MASK with (Z.ones 22).
    rewrite Z.land_lor_distr_l, !Z.land_ones, Z.mod_mul, Z.lor_0_r by lia. apply Z.mod_small. lia.
  - unfold is_nullable. change NULLABLE_BIT with (1 * 2 ^ 22). rewrite Hm. unfold f. destruct n, ex; reflexivity.
  - unfold from_u32_ok. change (Z.shiftl 127 25) with (1016 * 2 ^ 22). change CONCRETE_BIT with (4 * 2 ^ 22). rewrite !Hm. destruct Hf as [->|[->|[->| ->]]]; reflexivity.
  - unfold in_u. lia.
Qed.

(** * What packing means *)
Lemma ref_new_total n h : u32_heap h -> (exists r, ref_new n h = Some r) <-> fits h.
Proof.
  intros Hu. destruct h as [s t|u|u]; cbn [ref_new fits u32_heap] in *.
  - split; [tauto|eauto].
  - unfold u32_uidx in Hu. destruct Hu as [Hu _]. rewrite pack_spec by exact Hu. destruct (Z.ltb_spec (uidx_num u) (2 ^ 20)); split; eauto; [intros [? ?]; discriminate|lia].
  - unfold u32_uidx in Hu. destruct Hu as [Hu _]. rewrite pack_spec by exact Hu. destruct (Z.ltb_spec (uidx_num u) (2 ^ 20)); split; eauto; [intros [? ?]; discriminate|lia].
Qed.

Lemma ref_new_faithful n h r : u32_heap h -> ref_new n h = Some r ->
  is_nullable r = n /\ heap_type_of r = Some h /\ from_u32_ok r = true /\ in_u 32 r.
Proof.
  intros Hu H. destruct h as [s t|u|u]; cbn [ref_new u32_heap] in *.
  - injection H as <-. destruct n, s, t; vm_compute; repeat split; congruence.
  - destruct (pack u) as [p|] eqn:Ep; [|discriminate]. injection H as <-. destruct Hu as [Hu _].
    destruct (unpack_pack u p Hu Ep) as (H1 & H2 & _).
    destruct (concrete_parts false n p H2) as (C1 & C2 & C3 & C4 & C5 & C6). cbv iota in *.
    unfold heap_type_of. rewrite C1, C3, H1, C2. auto.
  - destruct (pack u) as [p|] eqn:Ep; [|discriminate]. injection H as <-. destruct Hu as [Hu _].
    destruct (unpack_pack u p Hu Ep) as (H1 & H2 & _).
    destruct (concrete_parts true n p H2) as (C1 & C2 & C3 & C4 & C5 & C6). cbv iota in *.
    unfold heap_type_of. rewrite C1, C3, H1, C2. auto.
Qed.

Lemma ref_new_inj n n' h h' r : u32_heap h -> u32_heap h' -> ref_new n h = Some r -> ref_new n' h' = Some r -> n = n' /\ h = h'.
Proof.
  intros H H' E E'. destruct (ref_new_faithful _ _ _ H E) as (A & B & _). destruct (ref_new_faithful _ _ _ H' E') as (A' & B' & _).
  split; congruence.
Qed.

(** The other operations. *)
Lemma ref_ops n h r : u32_heap h -> ref_new n h = Some r ->
  ref_new false h = Some (as_non_null r) /\ ref_new true h = Some (to_nullable r) /\
  to_shared r = match h with HAbstract _ t => ref_new n (HAbstract true t) | _ => None end /\
  type_index r = match h with HAbstract _ _ => None | HConcrete u | HExact u => pack u end /\
  is_concrete r = match h with HAbstract _ _ => false | _ => true end /\
  is_exact r = match h with HExact _ => true | _ => false end /\
  forall t, is_abs_ref t r = match h with HAbstract _ t' => if aht_eq_dec t t' then true else false | _ => false end.
Proof.
  intros Hu H. destruct h as [s t|u|u]; cbn [ref_new u32_heap] in *.
  - injection H as <-. destruct n, s, t; vm_compute; (repeat split); intros []; reflexivity.
  - destruct (pack u) as [p|] eqn:Ep; [|discriminate]. injection H as <-. destruct Hu as [Hu _].
    destruct (unpack_pack u p Hu Ep) as (H1 & H2 & _).
    destruct (concrete_parts false n p H2) as (C1 & C2 & C3 & C4 & C5 & C6). cbv iota in *.
    split; [|split; [|split; [|split; [|split; [|split]]]]].
    + f_equal. unfold ref_concrete, as_non_null. rewrite !Z.land_lor_distr_l.
      replace (Z.land p (2 ^ 32 - 1 - NULLABLE_BIT)) with p; [destruct n; reflexivity|].
      symmetry. change (2 ^ 32 - 1 - NULLABLE_BIT) with (Z.lor (Z.ones 22) (1022 * 2 ^ 22)). rewrite Z.land_lor_distr_r, (land_low p 22 1022), Z.lor_0_r, Z.land_ones by lia. apply Z.mod_small; lia.
    + f_equal. unfold ref_concrete, to_nullable. rewrite <- (Z.lor_assoc _ p), (Z.lor_comm p), (Z.lor_assoc _ _ p). destruct n; reflexivity.
    + unfold to_shared. rewrite C1. reflexivity.
    + rewrite C3. reflexivity.
    + exact C1.
    + exact C2.
    + intros t. unfold is_abs_ref. rewrite C1. reflexivity.
  - destruct (pack u) as [p|] eqn:Ep; [|discriminate]. injection H as <-. destruct Hu as [Hu _].
    destruct (unpack_pack u p Hu Ep) as (H1 & H2 & _).
    destruct (concrete_parts true n p H2) as (C1 & C2 & C3 & C4 & C5 & C6). cbv iota in *.
    split; [|split; [|split; [|split; [|split; [|split]]]]].
    + f_equal. unfold ref_exact, as_non_null. rewrite !Z.land_lor_distr_l.
      replace (Z.land p (2 ^ 32 - 1 - NULLABLE_BIT)) with p; [destruct n; reflexivity|].
      symmetry. change (2 ^ 32 - 1 - NULLABLE_BIT) with (Z.lor (Z.ones 22) (1022 * 2 ^ 22)). rewrite Z.land_lor_distr_r, (land_low p 22 1022), Z.lor_0_r, Z.land_ones by lia. apply Z.mod_small; lia.
    + f_equal. unfold ref_exact, to_nullable. rewrite <- (Z.lor_assoc _ p), (Z.lor_comm p), (Z.lor_assoc _ _ p). destruct n; reflexivity.
    + unfold to_shared. rewrite C1. reflexivity.
    + rewrite C3. reflexivity.
    + exact C1.
    + exact C2.
    + intros t. unfold is_abs_ref. rewrite C1. reflexivity.
Qed.

Lemma difference_ok n h a b : u32_heap h -> ref_new n h = Some a ->
  exists d, difference a b = Some d /\ heap_type_of d = Some h /\ is_nullable d = n && negb (is_nullable b).
Proof.
  intros Hu H. destruct (ref_new_faithful _ _ _ Hu H) as (H1 & H2 & _). unfold difference. rewrite H2, H1.
  assert (Hd : exists d, ref_new (if is_nullable b then false else n) h = Some d).
  { apply (proj2 (ref_new_total _ h Hu)). apply (proj1 (ref_new_total n h Hu)). eauto. }
  destruct Hd as [d Hd]. exists d. split; [exact Hd|]. destruct (ref_new_faithful _ _ _ Hu Hd) as (A & B & _).
  split; [exact B|]. rewrite A. destruct (is_nullable b), n; reflexivity.
Qed.
