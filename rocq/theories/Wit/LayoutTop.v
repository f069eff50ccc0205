(** Size and alignment tables as a whole. *)
From Verif.Base Require Import Prelude.
From Verif.Wit Require Import LayoutModel Spec LayoutProofs.

Lemma allowed_size v : allowed v -> elem_size 8 v < LIMIT.
Proof. destruct v; cbn [allowed]; intros [H _]; exact H. Qed.

Lemma allowed_record fs : allowed (VRecord fs) -> Forall allowed fs.
Proof. intros [_ H]. induction fs as [|f fs IH]; [constructor|]. destruct H as [H1 H2]. constructor; auto. Qed.

Lemma allowed_variant cs : allowed (VVariant cs) -> Forall allowed (somes cs) /\ 0 < zlen cs <= 2 ^ 32.
Proof.
  intros (_ & Hn & H). split; [|exact Hn]. clear Hn. induction cs as [|[c|] cs IH]; [constructor| |];
    destruct H as [H1 H2]; cbn [somes]; auto.
Qed.

Lemma prim_ok t : ok_info (mkInfo (prim_size t) (prim_align t)) (VPrim t).
Proof.
  constructor; cbn [i_size i_align].
  - destruct t; vm_compute; congruence.
  - destruct t; vm_compute; congruence.
  - intros p _. destruct t; unfold wsz; cbn; lia.
  - destruct t; vm_compute; tauto.
  - intros p _. destruct t; reflexivity.
  - destruct t; vm_compute; intros; try discriminate; left; reflexivity.
Qed.

Lemma plain_ok n v : (n = 1 \/ n = 2 \/ n = 4 \/ n = 8) -> (forall p, width p -> elem_size p v = n /\ alignment p v = n) ->
  ok_info (mkInfo (mkSize n 0) (ABytes n)) v.
Proof.
  intros Hn H. constructor; cbn [i_size i_align s_bytes s_pointers]; try lia.
  - intros p Hp. destruct (H p Hp) as [-> _]. unfold wsz. cbn. lia.
  - destruct Hn as [-> |[-> |[-> | ->]]]; unfold good; tauto.
  - intros p Hp. destruct (H p Hp) as [_ ->]. reflexivity.
Qed.

Lemma tag_ok n tag : 0 < n -> discriminant_type n = Some tag -> tag_bytes tag = discriminant_bytes n.
Proof.
  intros Hn. unfold discriminant_type, discriminant_bytes. change (2 ^ 8) with 256. change (2 ^ 16) with 65536.
  destruct (n =? 0) eqn:E0; [lia|]. destruct (n - 1 <=? 255) eqn:E1; [intros [= <-]; replace (n <=? 256) with true by lia; reflexivity|].
  replace (n <=? 256) with false by lia.
  destruct (n - 1 <=? 65535) eqn:E2; [intros [= <-]; replace (n <=? 65536) with true by lia; reflexivity|].
  replace (n <=? 65536) with false by lia.
  destruct (n - 1 <=? 2 ^ 32 - 1); [intros [= <-]; reflexivity|discriminate].
Qed.

Section Table.
  Context (defs : list kind).

  Definition sound (m : list info) : Prop :=
    forall i e, nth_error m i = Some e -> forall n v, expand n defs (TId i) = Some v -> allowed v -> ok_info e v.

  Lemma lookup_ok m t e n v : sound m -> lookup m t = Some e -> expand n defs t = Some v -> allowed v -> ok_info e v.
  Proof.
    intros Hm Hl Hx Ha. destruct t as [p|i].
    - injection Hl as <-. destruct n; injection Hx as <-; apply prim_ok.
    - eapply Hm; eauto.
  Qed.

  Lemma lookups_ok m l : sound m -> forall is n vs, lookups m l = Some is ->
    all_some (map (expand n defs) l) = Some vs -> Forall allowed vs -> Forall2 ok_info is vs.
  Proof.
    intros Hm. induction l as [|t l IH]; intros is n vs Hl Hx Ha.
    - injection Hl as <-. injection Hx as <-. constructor.
    - cbn [lookups] in Hl. destruct (lookup m t) as [e|] eqn:El; [|discriminate].
      destruct (lookups m l) as [es|] eqn:Els; [|discriminate]. injection Hl as <-.
      cbn [map all_some] in Hx. destruct (expand n defs t) as [v|] eqn:Ev; [|discriminate].
      destruct (all_some (map (expand n defs) l)) as [vs'|] eqn:Evs; [|discriminate]. injection Hx as <-.
      inversion Ha; subst. constructor; [eapply lookup_ok; eauto|eapply IH; eauto].
  Qed.

  Lemma somes_expand n l vs : all_some (map (flip_opt (expand n defs)) l) = Some vs ->
    all_some (map (expand n defs) (somes l)) = Some (somes vs) /\ zlen vs = zlen l.
  Proof.
    revert vs. induction l as [|[t|] l IH]; intros vs H; cbn [map all_some flip_opt somes] in *.
    - injection H as <-. auto.
    - destruct (expand n defs t) as [v|]; [|discriminate].
      destruct (all_some (map _ l)) as [vs'|]; [|discriminate]. injection H as <-.
      destruct (IH _ eq_refl) as [-> Hl]. split; [reflexivity|]. rewrite !zlen_cons. lia.
    - destruct (all_some (map _ l)) as [vs'|]; [|discriminate]. injection H as <-.
      destruct (IH _ eq_refl) as [-> Hl]. split; [reflexivity|]. rewrite !zlen_cons. lia.
  Qed.

  Lemma allowed_sizes vs : Forall allowed vs -> Forall (fun v => elem_size 8 v < LIMIT) vs.
  Proof. intros H. eapply Forall_impl; [|exact H]. apply allowed_size. Qed.

  Lemma variant_case m l is n vs tag : sound m -> lookups m (somes l) = Some is ->
    all_some (map (flip_opt (expand n defs)) l) = Some vs -> tag_bytes tag = discriminant_bytes (zlen l) ->
    allowed (VVariant vs) -> ok_info (variant_info tag is) (VVariant vs).
  Proof.
    intros Hm Hl Hx Ht Ha. destruct (somes_expand _ _ _ Hx) as [Hs Hz]. destruct (allowed_variant _ Ha) as [Hf _].
    apply variant_ok.
    - eapply lookups_ok; eauto.
    - apply allowed_sizes; auto.
    - rewrite Hz. exact Ht.
    - apply allowed_size. exact Ha.
  Qed.

  Lemma repeat_none n : 0 <= n -> zlen (repeat (@None vt) (Z.to_nat n)) = n /\ somes (repeat (@None vt) (Z.to_nat n)) = [].
  Proof.
    intros Hn. split; [unfold zlen; rewrite repeat_length; lia|]. induction (Z.to_nat n); auto.
  Qed.

  Lemma calculate_ok m i k e n v : sound m -> nth_error defs i = Some k -> calculate m k = Some e ->
    expand n defs (TId i) = Some v -> allowed v -> ok_info e v.
  Proof.
    intros Hm Hk Hc Hx Ha. destruct n as [|n]; [discriminate|]. cbn [expand] in Hx. rewrite Hk in Hx.
    destruct k as [fs| | |fl|fs|cs|ne|t|a b|t|kk vv|t c|t|t|t|]; cbn [calculate] in Hc; try discriminate.
    - destruct (lookups m fs) as [is|] eqn:El; [|discriminate]. injection Hc as <-.
      destruct (all_some _) as [vs|] eqn:Ev; [|discriminate]. injection Hx as <-.
      apply record_ok; [|apply allowed_size; exact Ha]. eapply lookups_ok; eauto. apply allowed_record; auto.
    - injection Hc as <-. injection Hx as <-. apply plain_ok; auto.
    - injection Hc as <-. injection Hx as <-. destruct Ha as (Hsz & Hn). cbn [elem_size] in Hsz. unfold LIMIT in Hsz.
      unfold repr. destruct (fl =? 0) eqn:E0; [lia|]. destruct (fl <=? 8) eqn:E1.
      { apply plain_ok; [auto|]. intros p _. cbn [elem_size alignment]. unfold flags_bytes, flags_alignment. rewrite E1. auto. }
      destruct (fl <=? 16) eqn:E2.
      { apply plain_ok; [auto|]. intros p _. cbn [elem_size alignment]. unfold flags_bytes, flags_alignment. rewrite E1, E2. auto. }
      rewrite align_to_ok by (unfold pow2; lia).
      assert (Hw : round_up fl 32 / 32 = (fl + 31) / 32).
      { unfold round_up. rewrite Z.div_mul by lia. reflexivity. }
      rewrite Hw. unfold flags_bytes in Hsz. rewrite E1, E2 in Hsz.
      assert (0 <= (fl + 31) / 32) by (apply Z.div_pos; lia).
      unfold umul. rewrite wrapu_small by lia.
      constructor; cbn [i_size i_align s_bytes s_pointers]; try lia.
      + intros p _. unfold wsz. cbn [s_bytes s_pointers elem_size]. unfold flags_bytes. rewrite E1, E2. lia.
      + unfold good. tauto.
      + intros p _. cbn [aw alignment]. unfold flags_alignment. rewrite E1, E2. reflexivity.
    - destruct (lookups m fs) as [is|] eqn:El; [|discriminate]. injection Hc as <-.
      destruct (all_some _) as [vs|] eqn:Ev; [|discriminate]. injection Hx as <-.
      apply record_ok; [|apply allowed_size; exact Ha]. eapply lookups_ok; eauto. apply allowed_record; auto.
    - destruct (discriminant_type (zlen cs)) as [tag|] eqn:Et; [|discriminate].
      destruct (lookups m (somes cs)) as [is|] eqn:El; [|discriminate]. injection Hc as <-.
      destruct (all_some _) as [vs|] eqn:Ev; [|discriminate]. injection Hx as <-.
      eapply variant_case; eauto. destruct (somes_expand _ _ _ Ev) as [_ Hz].
      destruct (allowed_variant _ Ha) as [_ Hn]. apply tag_ok; [lia|exact Et].
    - destruct (discriminant_type ne) as [tag|] eqn:Et; [|discriminate]. injection Hc as <-. injection Hx as <-.
      destruct (allowed_variant _ Ha) as [_ Hn].
      assert (Hne : 0 < ne). { unfold zlen in Hn. rewrite repeat_length in Hn. lia. }
      destruct (repeat_none ne ltac:(lia)) as [Hz Hs].
      apply variant_ok; rewrite ?Hs, ?Hz; try constructor.
      + apply tag_ok; auto.
      + apply allowed_size. exact Ha.
    - destruct (expand n defs t) as [w|] eqn:Ew; [|discriminate]. injection Hx as <-.
      destruct (lookups m [t]) as [is|] eqn:El; [|discriminate]. injection Hc as <-.
      apply (variant_case m [None; Some t] is n); auto. cbn [map flip_opt all_some]. rewrite Ew. reflexivity.
    - destruct (flip_opt _ a) as [a'|] eqn:Ea; [|discriminate]. destruct (flip_opt _ b) as [b'|] eqn:Eb; [|discriminate].
      injection Hx as <-. destruct (lookups m _) as [is|] eqn:El; [|discriminate]. injection Hc as <-.
      apply (variant_case m [a; b] is n); auto. cbn [map all_some]. rewrite Ea, Eb. reflexivity.
    - injection Hc as <-. injection Hx as <-. constructor; cbn; try lia; unfold good, ptr_al; auto.
      intros p Hp. unfold wsz. cbn. lia.
    - injection Hc as <-. injection Hx as <-. constructor; cbn; try lia; unfold good, ptr_al; auto.
      intros p Hp. unfold wsz. cbn. lia.
    - destruct (lookup m t) as [f|] eqn:El; [|discriminate]. destruct (expand n defs t) as [w|] eqn:Ew; [|discriminate].
      injection Hx as <-. unfold umul_checked in Hc.
      destruct (_ <=? USIZE_MAX) eqn:E1; [|discriminate]. destruct (s_pointers _ * c <=? USIZE_MAX) eqn:E2; [|discriminate].
      injection Hc as <-. destruct Ha as (Hsz & Hn & Hw). pose proof (lookup_ok _ _ _ _ _ Hm El Ew Hw) as Hf.
      constructor; cbn [i_size i_align s_bytes s_pointers].
      + pose proof (oi_bytes _ _ Hf). nia.
      + pose proof (oi_ptrs _ _ Hf). nia.
      + intros p Hp. cbn [elem_size]. rewrite <- (oi_size _ _ Hf) by auto. unfold wsz. cbn [s_bytes s_pointers]. lia.
      + apply Hf.
      + intros p Hp. cbn [alignment]. apply Hf. exact Hp.
      + intros Hpos. apply Hf. pose proof (oi_ptrs _ _ Hf). nia.
    - injection Hc as <-. injection Hx as <-. apply plain_ok; auto.
    - injection Hc as <-. injection Hx as <-. apply plain_ok; auto.
    - eapply lookup_ok; eauto.
  Qed.

  Lemma sound_snoc m k e : sound m -> nth_error defs (List.length m) = Some k -> calculate m k = Some e -> sound (m ++ [e]).
  Proof.
    intros Hm Hk Hc i e0 Hi n v Hx Ha. destruct (Nat.lt_ge_cases i (List.length m)) as [Hlt|Hge].
    - rewrite nth_error_app1 in Hi by exact Hlt. eapply Hm; eauto.
    - rewrite nth_error_app2 in Hi by exact Hge. destruct (i - List.length m)%nat as [|d] eqn:Ed; [|destruct d; discriminate].
      injection Hi as <-. assert (i = List.length m) as -> by lia. eapply (calculate_ok m); eauto.
  Qed.

  Lemma next_def ks k (m : list info) e : (forall i, nth_error (k :: ks) i = nth_error defs (List.length m + i)) ->
    nth_error defs (List.length m) = Some k /\ forall i, nth_error ks i = nth_error defs (List.length (m ++ [e]) + i).
  Proof.
    intros Hn. split.
    - specialize (Hn 0%nat). cbn [nth_error] in Hn. rewrite Nat.add_0_r in Hn. auto.
    - intros i. rewrite app_length. cbn [List.length]. specialize (Hn (S i)). cbn [nth_error] in Hn. rewrite Hn. f_equal. lia.
  Qed.

  Lemma fill_sound ks : forall m m', (forall i, nth_error ks i = nth_error defs (List.length m + i)) ->
    sound m -> fill_from m ks = Some m' -> sound m'.
  Proof.
    induction ks as [|k ks IH]; intros m m' Hn Hm Hf.
    - injection Hf as <-. exact Hm.
    - cbn [fill_from] in Hf. destruct (calculate m k) as [e|] eqn:Ec; [|discriminate].
      destruct (next_def ks k m e Hn) as [Hk Hn'].
      eapply IH; [exact Hn'| |exact Hf]. eapply sound_snoc; eauto.
  Qed.

  Lemma sound_nil : sound [].
  Proof. intros i e H. destruct i; discriminate. Qed.
End Table.

Lemma filled_sound defs m : fill defs = Some m -> sound defs m.
Proof.
  intros H. eapply (fill_sound defs defs []); [reflexivity|apply sound_nil|exact H].
Qed.

Lemma aw32 a : align_wasm32 a = aw 4 a. Proof. destruct a; reflexivity. Qed.
Lemma aw64 a : align_wasm64 a = aw 8 a. Proof. destruct a; reflexivity. Qed.

Lemma size_align_ok defs m n t v e : fill defs = Some m -> expand n defs t = Some v -> allowed v -> lookup m t = Some e ->
  size_wasm32 (i_size e) = elem_size 4 v /\ align_wasm32 (i_align e) = alignment 4 v /\
  size_wasm64 (i_size e) = elem_size 8 v /\ align_wasm64 (i_align e) = alignment 8 v.
Proof.
  intros Hf Hx Ha Hl. pose proof (lookup_ok _ _ _ _ _ _ (filled_sound _ _ Hf) Hl Hx Ha) as He.
  pose proof (ok_small _ _ He (allowed_size _ Ha)) as Hs.
  rewrite size32_ok, size64_ok, aw32, aw64 by exact Hs.
  repeat split; [apply He|apply He|apply He|apply He]; unfold width; auto.
Qed.

(** ** The table is always computed *)
Lemma lookup_total m i t : (i = List.length m)%nat -> earlier i t -> exists e, lookup m t = Some e.
Proof.
  intros -> H. destruct t as [p|j]; [eexists; reflexivity|]. cbn in *.
  destruct (nth_error m j) eqn:E; [eauto|]. apply nth_error_None in E. lia.
Qed.
Lemma lookups_total m i l : (i = List.length m)%nat -> Forall (earlier i) l -> exists es, lookups m l = Some es.
Proof.
  intros Hi. induction 1 as [|t l Ht _ [es IH]]; [eexists; reflexivity|]. cbn [lookups].
  destruct (lookup_total m i t Hi Ht) as [e ->]. rewrite IH. eauto.
Qed.
Lemma discriminant_total n : n <= 2 ^ 32 -> exists t, discriminant_type n = Some t.
Proof.
  intros H. unfold discriminant_type. replace (n - 1 <=? 2 ^ 32 - 1) with true by lia.
  destruct (n =? 0); [eauto|]. destruct (n - 1 <=? 255); [eauto|]. destruct (n - 1 <=? 65535); eauto.
Qed.

Definition def_ok (defs : list kind) (i : nat) (k : kind) : Prop :=
  k = KResource \/ exists n v, expand n defs (TId i) = Some v /\ allowed v.

Lemma calculate_total defs m k : sound defs m -> nth_error defs (List.length m) = Some k ->
  in_dependency_order defs -> def_ok defs (List.length m) k -> exists e, calculate m k = Some e.
Proof.
  intros Hm Hk Hord [-> |(n & v & Hx & Ha)]; [eexists; reflexivity|].
  pose proof (Hord _ _ Hk) as Hr.
  destruct n as [|n]; [discriminate|]. cbn [expand] in Hx. rewrite Hk in Hx.
  destruct k as [fs| | |fl|fs|cs|ne|t|a b|t|kk vv|t c|t|t|t|]; cbn [calculate refs] in *; try (eexists; reflexivity); try discriminate.
  - destruct (lookups_total m _ _ eq_refl Hr) as [es ->]. eexists; reflexivity.
  - destruct (lookups_total m _ _ eq_refl Hr) as [es ->]. eexists; reflexivity.
  - destruct (all_some _) as [vs|] eqn:Ev; [|discriminate]. injection Hx as <-.
    destruct (somes_expand _ _ _ _ Ev) as [_ Hz]. destruct (allowed_variant _ Ha) as [_ Hn].
    destruct (discriminant_total (zlen cs) ltac:(lia)) as [tag ->].
    destruct (lookups_total m _ _ eq_refl Hr) as [es ->]. eexists; reflexivity.
  - injection Hx as <-. destruct (allowed_variant _ Ha) as [_ Hn]. unfold zlen in Hn. rewrite repeat_length in Hn.
    destruct (discriminant_total ne ltac:(lia)) as [tag ->]. eexists; reflexivity.
  - destruct (lookups_total m _ _ eq_refl Hr) as [es ->]. eexists; reflexivity.
  - destruct (lookups_total m _ _ eq_refl Hr) as [es ->]. eexists; reflexivity.
  - inversion Hr as [|? ? Ht _]; subst. destruct (lookup_total m _ _ eq_refl Ht) as [f Hf]. rewrite Hf.
    destruct (expand n defs t) as [w|] eqn:Ew; [|discriminate]. injection Hx as <-. destruct Ha as (Hsz & Hn & Hw).
    pose proof (lookup_ok _ _ _ _ _ _ Hm Hf Ew Hw) as Hok.
    cbn [elem_size] in Hsz. rewrite <- (oi_size _ _ Hok) in Hsz by (right; reflexivity). unfold wsz, LIMIT in Hsz.
    pose proof (oi_bytes _ _ Hok). pose proof (oi_ptrs _ _ Hok). unfold umul_checked, USIZE_MAX.
    replace (_ * c <=? _) with true by nia. replace (s_pointers _ * c <=? _) with true by nia. eexists; reflexivity.
  - inversion Hr; subst. eapply lookup_total; eauto.
Qed.

Lemma fill_total_aux defs ks : forall m, (forall i, nth_error ks i = nth_error defs (List.length m + i)) ->
  sound defs m -> in_dependency_order defs -> (forall i k, nth_error defs i = Some k -> def_ok defs i k) ->
  exists m', fill_from m ks = Some m' /\ List.length m' = (List.length m + List.length ks)%nat.
Proof.
  induction ks as [|k ks IH]; intros m Hn Hm Hord Hok; cbn [fill_from].
  - exists m. split; [reflexivity|]. cbn. lia.
  - destruct (next_def defs ks k m (mkInfo (mkSize 0 0) APointer) Hn) as [Hk _].
    destruct (calculate_total defs m k Hm Hk Hord (Hok _ _ Hk)) as [e He]. rewrite He.
    destruct (next_def defs ks k m e Hn) as [_ Hn'].
    destruct (IH (m ++ [e]) Hn') as (m' & Hm' & Hl); auto.
    + eapply sound_snoc; eauto.
    + exists m'. split; [exact Hm'|]. rewrite app_length in Hl. cbn in *. lia.
Qed.

Lemma fill_total defs : in_dependency_order defs -> (forall i k, nth_error defs i = Some k -> def_ok defs i k) ->
  exists m, fill defs = Some m /\ List.length m = List.length defs.
Proof. intros H1 H2. apply (fill_total_aux defs defs []); auto. apply sound_nil. Qed.

(** ** Offsets *)
Lemma offsets_ok is vs : Forall2 ok_info is vs -> Forall (fun v => elem_size 8 v < LIMIT) vs -> forall p pos cur fin,
  width p -> wsz p cur = pos -> 0 <= s_bytes cur -> 0 <= s_pointers cur ->
  fold_left (rstep 8) vs (wsz 8 cur) < LIMIT -> fold_left (rstep p) vs pos <= fin ->
  laid_out p pos vs (map (wsz p) (offsets_from cur is)) fin /\ Forall small (offsets_from cur is).
Proof.
  induction 1 as [|e v is vs He Hvs IH]; intros Hl p pos cur fin Hp Hw Hb Hq H8 Hfin; cbn [offsets_from map laid_out].
  - split; [exact Hfin|constructor].
  - inversion Hl as [|? ? Hv Hl']; subst. cbn [fold_left] in *.
    assert (Hpos : 0 <= wsz p cur) by (unfold wsz; destruct Hp as [-> | ->]; lia).
    assert (Hpos8 : 0 <= wsz 8 cur) by (unfold wsz; lia).
    pose proof (ok_align_pos _ _ 8 He ltac:(right; reflexivity)) as Ha8.
    pose proof (ok_nonneg _ _ 8 He ltac:(right; reflexivity)) as Hn8.
    destruct (round_up_spec (wsz 8 cur) _ Ha8 Hpos8) as [R8 _].
    assert (Hm : rstep 8 (wsz 8 cur) v <= fold_left (rstep 8) vs (rstep 8 (wsz 8 cur) v)).
    { apply (rfold_mono 8 is); auto; [right; reflexivity|unfold rstep; lia]. }
    unfold LIMIT in *. unfold rstep at 1 in Hm.
    assert (Hs : small cur) by (repeat split; auto; lia).
    destruct (align_arch_ok cur (i_align e) Hs (oi_good _ _ He)) as (A1 & A2 & A3 & _).
    pose proof (A1 8 ltac:(right; reflexivity)) as A8. rewrite (oi_align _ _ He) in A8 by (right; reflexivity).
    assert (Hsa : small (align_to_arch cur (i_align e))) by (repeat split; auto; lia).
    assert (Hse : small (i_size e)) by (eapply ok_small; eauto).
    destruct (asize_add_ok _ _ Hsa Hse) as (B1 & B2 & _).
    { rewrite (oi_size _ _ He) by (right; reflexivity). lia. }
    specialize (IH Hl' p (rstep p (wsz p cur) v) (asize_add (align_to_arch cur (i_align e)) (i_size e)) fin Hp).
    destruct IH as [IH1 IH2].
    + rewrite B2, A1, (oi_size _ _ He), (oi_align _ _ He) by auto. reflexivity.
    + apply B1.
    + apply B1.
    + rewrite B2, A8, (oi_size _ _ He) by (right; reflexivity). exact H8.
    + exact Hfin.
    + rewrite A1, (oi_align _ _ He) by auto. pose proof (ok_align_pos _ _ p He Hp) as Ha.
      destruct (round_up_spec (wsz p cur) _ Ha Hpos) as [R1 R2].
      split; [|constructor; auto]. split; [exact R1|]. split; [exact R2|exact IH1].
Qed.

Lemma field_offsets_ok defs m n l vs offs : fill defs = Some m -> all_some (map (expand n defs) l) = Some vs ->
  allowed (VRecord vs) -> field_offsets m l = Some offs ->
  laid_out 4 0 vs (map size_wasm32 offs) (elem_size 4 (VRecord vs)) /\
  laid_out 8 0 vs (map size_wasm64 offs) (elem_size 8 (VRecord vs)).
Proof.
  intros Hf Hx Ha Ho. unfold field_offsets in Ho. destruct (lookups m l) as [is|] eqn:El; [|discriminate]. injection Ho as <-.
  pose proof (lookups_ok _ _ _ (filled_sound _ _ Hf) _ _ _ El Hx (allowed_record _ Ha)) as Hok.
  pose proof (allowed_sizes _ (allowed_record _ Ha)) as Hl.
  assert (Hfold : forall p, width p -> fold_left (rstep p) vs 0 <= elem_size p (VRecord vs)).
  { intros p Hp. change (elem_size p (VRecord vs)) with (round_up (fold_left (rstep p) vs 0) (max_of (map (alignment p) vs) 1)).
    pose proof (max_of_ge (map (alignment p) vs) 1). destruct (round_up_spec (fold_left (rstep p) vs 0) (max_of (map (alignment p) vs) 1)); try lia.
    eapply (rfold_mono p is); eauto. lia. }
  pose proof (allowed_size _ Ha) as Hsz. pose proof (Hfold 8 ltac:(right; reflexivity)) as H8.
  assert (Hgo : forall p, width p -> laid_out p 0 vs (map (wsz p) (offsets_from (mkSize 0 0) is)) (elem_size p (VRecord vs)) /\
            Forall small (offsets_from (mkSize 0 0) is)).
  { intros p Hp. apply offsets_ok; auto; try reflexivity; try (cbn; lia).
    - unfold wsz. cbn. lia.
    - change (wsz 8 (mkSize 0 0)) with 0. lia. }
  destruct (Hgo 4 ltac:(left; reflexivity)) as [G4 Gs]. destruct (Hgo 8 ltac:(right; reflexivity)) as [G8 _].
  split; [erewrite map_ext_in; [exact G4|]|erewrite map_ext_in; [exact G8|]];
    intros s Hs; rewrite Forall_forall in Gs; [apply size32_ok|apply size64_ok]; auto.
Qed.

Lemma aligns_fold is vs : Forall2 ok_info is vs -> forall a, good a ->
  good (fold_left (fun a f => align_max a (i_align f)) is a) /\
  forall p, width p -> aw p (fold_left (fun a f => align_max a (i_align f)) is a) = Z.max (aw p a) (max_of (map (alignment p) vs) 1).
Proof.
  induction 1 as [|e v is vs He Hvs IH]; intros a Ha; cbn [fold_left].
  - split; [exact Ha|]. intros p Hp. cbn [map max_of fold_right]. pose proof (aw_pos p a Hp Ha). lia.
  - destruct (align_max_ok a (i_align e) Ha (oi_good _ _ He)) as [C1 C2]. destruct (IH _ C1) as [I1 I2].
    split; [exact I1|]. intros p Hp. rewrite I2, C2, (oi_align _ _ He), max_of_cons by auto. lia.
Qed.

Lemma max_of_in l d x : In x l -> x <= max_of l d.
Proof. unfold max_of. induction l as [|y l IH]; intros H; [destruct H|]. cbn [fold_right]. destruct H as [-> |H]; [lia|]. apply IH in H. lia. Qed.

Lemma pow2_divides p a b : width p -> good a -> good b -> aw p a <= aw p b -> (aw p a | aw p b).
Proof.
  intros Hp Ha Hb Hle. destruct Hp as [-> | ->]; destruct Ha as [-> |[-> |[-> |[-> | ->]]]]; destruct Hb as [-> |[-> |[-> |[-> | ->]]]];
    try (vm_compute in Hle; congruence); cbn [aw];
    first [exists 1; reflexivity|exists 2; reflexivity|exists 4; reflexivity|exists 8; reflexivity].
Qed.

Lemma payload_offset_ok defs m n cases cs tag o : fill defs = Some m ->
  all_some (map (flip_opt (expand n defs)) cases) = Some cs -> allowed (VVariant cs) ->
  discriminant_type (zlen cases) = Some tag -> payload_offset m tag cases = Some o ->
  forall p size, (p, size) = (4, size_wasm32 o) \/ (p, size) = (8, size_wasm64 o) ->
  size = round_up (discriminant_bytes (zlen cs)) (case_alignment p cs) /\
  discriminant_bytes (zlen cs) <= size /\
  forall t, In (Some t) cs -> size mod alignment p t = 0 /\ size + elem_size p t <= elem_size p (VVariant cs).
Proof.
  intros Hf Hx Ha Ht Ho. unfold payload_offset in Ho. destruct (lookups m (somes cases)) as [is|] eqn:El; [|discriminate]. injection Ho as <-.
  destruct (somes_expand _ _ _ _ Hx) as [Hs Hz]. destruct (allowed_variant _ Ha) as [Hall Hn].
  pose proof (lookups_ok _ _ _ (filled_sound _ _ Hf) _ _ _ El Hs Hall) as Hok.
  assert (Htb : tag_bytes tag = discriminant_bytes (zlen cs)) by (rewrite Hz; apply tag_ok; [lia|exact Ht]).
  destruct (aligns_fold _ _ Hok align_default default_good) as [G1 G2].
  set (a := fold_left _ is align_default) in *.
  assert (Hal : forall p, width p -> aw p a = case_alignment p cs).
  { intros p Hp. rewrite G2 by auto. unfold case_alignment. change (fun c0 => match c0 with Some t => alignment p t | None => 1 end) with (oal p).
    rewrite somes_align. cbn [align_default aw]. pose proof (max_of_ge (map (alignment p) (somes cs)) 1). lia. }
  assert (Hdb : 0 < discriminant_bytes (zlen cs) <= 8) by (rewrite <- Htb; destruct tag; vm_compute; split; congruence).
  assert (Htsz : forall p, wsz p (asize_of_align (int_align tag)) = discriminant_bytes (zlen cs)).
  { intros p. rewrite <- Htb. destruct tag; unfold wsz; cbn; lia. }
  destruct (align_arch_ok (asize_of_align (int_align tag)) a) as (A1 & A2 & A3 & _); auto.
  { split; [|split]; [destruct tag; vm_compute; congruence|destruct tag; vm_compute; congruence|rewrite Htsz; lia]. }
  assert (Ha8 : 0 < aw 8 a <= 8) by (destruct G1 as [-> |[-> |[-> |[-> | ->]]]]; vm_compute; split; congruence).
  assert (Hsm : small (align_to_arch (asize_of_align (int_align tag)) a)).
  { split; [exact A2|]. split; [exact A3|]. rewrite A1, Htsz by (right; reflexivity).
    destruct (round_up_spec (discriminant_bytes (zlen cs)) (aw 8 a)); lia. }
  intros p size Hp.
  assert (Hw : width p) by (destruct Hp as [[= -> _]|[= -> _]]; unfold width; auto).
  assert (Hsize : size = round_up (discriminant_bytes (zlen cs)) (case_alignment p cs)).
  { rewrite <- Hal, <- (Htsz p), <- A1 by exact Hw.
    destruct Hp as [[= -> ->]|[= -> ->]]; [apply size32_ok|apply size64_ok]; exact Hsm. }
  rewrite <- Hal in Hsize by exact Hw. pose proof (aw_pos p a Hw G1) as Hap.
  destruct (round_up_spec (discriminant_bytes (zlen cs)) (aw p a) Hap ltac:(lia)) as [R1 R2]. rewrite <- Hsize in R1, R2.
  rewrite <- Hal by exact Hw. split; [exact Hsize|]. split; [lia|].
  intros t Hin. assert (Hin' : In t (somes cs)).
  { clear - Hin. induction cs as [|[c|] cs IH]; cbn [somes] in *; [destruct Hin| |]; destruct Hin as [E|Hin]; try discriminate; auto.
    - injection E as ->. left. reflexivity.
    - right. auto. }
  assert (He : exists e, ok_info e t).
  { clear - Hok Hin'. revert Hin'. induction Hok; intros Hin'; [destruct Hin'|]. destruct Hin' as [<- |H']; eauto. }
  destruct He as [e He]. split.
  - apply Z.mod_divide in R2; [|lia]. pose proof (ok_align_pos _ _ p He Hw). apply Z.mod_divide; [lia|].
    eapply Z.divide_trans; [|exact R2]. rewrite <- (oi_align _ _ He) by exact Hw. apply pow2_divides; auto; [apply He|].
    rewrite (oi_align _ _ He), G2 by exact Hw.
    pose proof (max_of_in (map (alignment p) (somes cs)) 1 (alignment p t) (in_map _ _ _ Hin')). lia.
  - change (elem_size p (VVariant cs)) with
      (round_up (round_up (discriminant_bytes (zlen cs)) (case_alignment p cs) + max_of (map (osz p) cs) 0)
         (Z.max (discriminant_bytes (zlen cs)) (case_alignment p cs))).
    rewrite <- Hal, <- Hsize by exact Hw. rewrite somes_size.
    pose proof (max_of_in (map (elem_size p) (somes cs)) 0 (elem_size p t) (in_map _ _ _ Hin')).
    pose proof (ok_nonneg _ _ p He Hw).
    destruct (round_up_spec (size + max_of (map (elem_size p) (somes cs)) 0) (Z.max (discriminant_bytes (zlen cs)) (aw p a))); lia.
Qed.
