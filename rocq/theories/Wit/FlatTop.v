(** [wasm_signature] against [flatten_functype]. *)
From Coq Require Import Permutation.
From Verif.Base Require Import Prelude.
From Verif.Wit Require Import LayoutModel Spec LayoutProofs LayoutTop FlatModel FlatSpec FlatProofs.

Lemma to_vec_append r l : wf r -> to_vec (append r l) = to_vec r ++ l.
Proof.
  intros H. unfold to_vec, append, wf in *. destruct r as [t c o]. cbn [f_types f_cur] in *.
  rewrite app_assoc, firstn_app. replace (c + List.length l)%nat with (List.length (firstn c t ++ l)) by (rewrite app_length, firstn_length; lia).
  rewrite Nat.sub_diag. cbn [firstn]. rewrite app_nil_r, firstn_all. reflexivity.
Qed.

Lemma push_assert_ok t r : (f_cur r < List.length (f_types r))%nat ->
  exists r', push_assert t r = Some r' /\ to_vec r' = to_vec r ++ [t].
Proof.
  intros H. unfold push_assert. assert (Hw : wf r) by (unfold wf; lia).
  destruct (push_pushed t r Hw) as [[Hf Hp]|[Hf _]].
  - injection Hp as ->. eexists. split; [reflexivity|]. apply to_vec_append. exact Hw.
  - exfalso. apply Hf. unfold fits. cbn. lia.
Qed.

Lemma inhabited_nonempty p v : inhabited v -> allowed v -> flatten p v <> [].
Proof.
  induction v as [t| |t n IH|fs IH|cs IH|n|] using vt_rect'; intros Hi Ha; cbn [flatten]; try discriminate.
  - destruct t; discriminate.
  - destruct Hi as [Hn Hi]. destruct Ha as (_ & _ & Ha). specialize (IH Hi Ha).
    destruct (Z.to_nat n) as [|k] eqn:E; [lia|]. cbn [repeat List.concat]. destruct (flatten p t); [congruence|discriminate].
  - destruct fs as [|f fs]; [destruct Hi; congruence|]. destruct Hi as [_ [Hf _]]. pose proof (allowed_record _ Ha) as Hal. inversion Hal; subst.
    inversion IH as [|? ? IHf _]; subst. cbn [map List.concat]. specialize (IHf Hf ltac:(assumption)). destruct (flatten p f); [congruence|discriminate].
  - destruct Ha as [_ Hn]. destruct (Z.to_nat ((n + 31) / 32)) as [|k] eqn:E; [|discriminate].
    exfalso. assert (1 <= (n + 31) / 32) by (apply Z.div_le_lower_bound; lia). lia.
Qed.

Lemma lower_types p vs : width p -> map (lower p) (List.concat (map flatw vs)) = flatten_list p vs.
Proof.
  intros Hp. unfold flatten_list. rewrite concat_map, map_map. f_equal. apply map_ext. intros v. apply flatw_lower. exact Hp.
Qed.

Definition result_ok (n : nat) (defs : list kind) (t : option ty) (v : option vt) : Prop :=
  match t, v with
  | Some t, Some v => expand n defs t = Some v /\ allowed v
  | None, None => True
  | _, _ => False
  end.

Lemma signature_ok defs n va f vs rv :
  Forall2 (fun t v => expand n defs t = Some v) (fn_params f) vs -> Forall allowed vs ->
  result_ok n defs (fn_result f) rv ->
  (fn_method f = true -> exists vs', vs = VHandle :: vs') ->
  (va = GuestImportAsync -> forall t, rv = Some t -> inhabited t) ->
  exists s, wasm_signature n defs va f = Some s /\
    forall p, width p -> (p = 8 -> fn_method f && is_export va = false) ->
      ((map (lower p) (sg_params s), map (lower p) (sg_results s)), (sg_indirect s, sg_retptr s)) = flatten_func p va vs rv.
Proof.
  intros Hvs Hall Hres Hm Hia. unfold wasm_signature.
  set (T := repeat WI32 (MAX_FLAT_PARAMS + 1)).
  assert (HT : List.length T = 17%nat) by reflexivity.
  assert (HwT : wf (flat_new T)) by (unfold wf; cbn [flat_new f_cur]; lia).
  pose proof (push_types_ok defs n (fn_params f) vs (push_flat_ok defs n) Hvs Hall (flat_new T) HwT) as HP.
  set (L := List.concat (map flatw vs)) in *.
  set (max := match va with GuestImportAsync => MAX_FLAT_ASYNC_PARAMS | _ => MAX_FLAT_PARAMS end).
  assert (Hmax : (max = 4 \/ max = 16)%nat) by (subst max; destruct va; auto).
  set (FP := if (max <? List.length L)%nat then [WPointer]
             else if fn_method f && is_export va then WPointer :: tl L else L).
  (* the parameters *)
  assert (Hpar : exists ok params params', push_list (push_flat n defs) (fn_params f) (flat_new T) = Some (ok, params) /\
    negb (Bool.eqb ok (negb (f_overflow params))) = false /\
    negb ok || (max <? f_cur params)%nat = (max <? List.length L)%nat /\
    (if (max <? List.length L)%nat then Some (mkFlat (set_nth (f_types params) 0 WPointer) 1 (f_overflow params))
          else if fn_method f && is_export va then
            match nth_error (f_types params) 0 with
            | Some WI32 => Some (mkFlat (set_nth (f_types params) 0 WPointer) (f_cur params) (f_overflow params))
            | _ => None
            end
          else Some params) = Some params' /\ to_vec params' = FP /\ (f_cur params' < List.length (f_types params'))%nat).
  { destruct HP as [[Hf ->]|(Hf & r' & -> & Ho & Hl)].
    - exists true, (append (flat_new T) L). unfold fits in Hf. cbn [flat_new f_cur f_types Nat.add] in Hf. rewrite HT in Hf.
      unfold append. cbn [flat_new f_cur f_types Nat.add firstn app f_overflow negb Bool.eqb orb].
      subst FP. destruct (max <? List.length L)%nat eqn:EL.
      + eexists. repeat split. 
        * unfold to_vec. cbn [f_types f_cur]. apply Nat.ltb_lt in EL. destruct L as [|x L']; [cbn in EL; lia|]. reflexivity.
        * cbn [f_types f_cur]. apply Nat.ltb_lt in EL. destruct L as [|x L']; [cbn in EL; lia|]. cbn [app set_nth List.length].
          rewrite app_length, skipn_length, HT. cbn [List.length] in EL. lia.
      + apply Nat.ltb_ge in EL. destruct (fn_method f && is_export va) eqn:Em.
        * apply andb_prop in Em. destruct Em as [Em _]. destruct (Hm Em) as [vs' Evs].
          assert (EL' : L = WI32 :: List.concat (map flatw vs')) by (subst L; rewrite Evs; reflexivity).
          rewrite EL' in *. cbn [app nth_error set_nth tl List.length]. eexists. repeat split.
          -- unfold to_vec. cbn [f_types f_cur firstn]. f_equal. rewrite firstn_app, Nat.sub_diag. cbn [firstn]. rewrite app_nil_r. apply firstn_all.
          -- cbn [f_types f_cur List.length]. rewrite app_length, skipn_length, HT. cbn [List.length] in EL. lia.
        * eexists. repeat split.
          -- unfold to_vec. cbn [f_types f_cur firstn]. rewrite firstn_app, Nat.sub_diag. cbn [firstn]. rewrite app_nil_r. apply firstn_all.
          -- cbn [f_types f_cur List.length]. rewrite app_length, skipn_length, HT. lia.
    - exists false, r'. unfold fits in Hf. cbn [flat_new f_cur f_types Nat.add] in Hf, Hl. rewrite HT in Hf, Hl. rewrite Ho.
      assert (EL : (max <? List.length L)%nat = true) by (apply Nat.ltb_lt; lia). subst FP. rewrite EL. cbn [negb Bool.eqb orb].
      eexists. repeat split.
      + unfold to_vec. cbn [f_types f_cur]. destruct (f_types r') as [|x l]; [cbn in Hl; lia|]. reflexivity.
      + cbn [f_types f_cur]. destruct (f_types r') as [|x l]; [cbn in Hl; lia|]. cbn [set_nth List.length] in *. lia. }
  destruct Hpar as (ok & params & params' & -> & -> & Hind & Hp' & Hvec & Hcap). fold max. rewrite Hind, Hp'.
  (* their lowering *)
  assert (Hspill : forall p, width p -> (p = 8 -> fn_method f && is_export va = false) ->
    (match va with GuestImportAsync => 4 | _ => 16 end <? zlen (flatten_list p vs)) = (max <? List.length L)%nat /\
    map (lower p) FP = (if match va with GuestImportAsync => 4 | _ => 16 end <? zlen (flatten_list p vs) then [core_ptr p] else flatten_list p vs)).
  { intros p Hp Hp8. assert (Hz : zlen (flatten_list p vs) = Z.of_nat (List.length L)).
    { rewrite <- lower_types by exact Hp. unfold zlen. rewrite map_length. reflexivity. }
    assert (Hb : (match va with GuestImportAsync => 4 | _ => 16 end <? zlen (flatten_list p vs)) = (max <? List.length L)%nat).
    { rewrite Hz. replace (match va with GuestImportAsync => 4 | _ => 16 end) with (Z.of_nat max) by (subst max; destruct va; reflexivity).
      destruct (Nat.ltb_spec max (List.length L)); [apply Z.ltb_lt|apply Z.ltb_ge]; lia. }
    split; [exact Hb|]. rewrite Hb. subst FP. destruct (max <? List.length L)%nat; [reflexivity|].
    rewrite <- lower_types by exact Hp. fold L. destruct (fn_method f && is_export va) eqn:Em; [|reflexivity].
    destruct Hp as [-> | ->]; [|specialize (Hp8 eq_refl); discriminate].
    apply andb_prop in Em. destruct Em as [Em _]. destruct (Hm Em) as [vs' Evs]. subst L. rewrite Evs. reflexivity. }
  (* the results *)
  set (R := flat_new (repeat WI32 MAX_FLAT_RESULTS)).
  assert (HR : (f_cur R < List.length (f_types R))%nat) by (cbn; lia).
  assert (HwR : wf R) by (unfold wf; lia).
  destruct (push_assert_ok WPointer params' Hcap) as (pp & Epp & Vpp).
  destruct (push_assert_ok WI32 R HR) as (ri & Eri & Vri).
  assert (Hsync : forall (imp : bool), va = (if imp then GuestImport else GuestExport) ->
    exists rs, match fn_result f with Some t => omap snd (push_flat n defs t R) | None => Some R end = Some rs /\
      List.length (f_types rs) = 1%nat /\
      forall p, width p -> let fr := match rv with Some t => flatten p t | None => [] end in
        (1 <? zlen fr) = f_overflow rs /\ (f_overflow rs = false -> map (lower p) (to_vec rs) = fr)).
  { intros imp _. destruct (fn_result f) as [t|], rv as [v|]; cbn [result_ok] in Hres; try contradiction.
    - destruct Hres as [Hx Hal]. destruct (push_flat_ok defs n t v R Hx Hal HwR) as [[Hf ->]|(Hf & r' & -> & Ho & Hl)].
      + exists (append R (flatw v)). split; [reflexivity|]. split; [apply append_length; exact Hf|]. intros p Hp fr.
        assert (Hfr : fr = map (lower p) (flatw v)) by (subst fr; rewrite flatw_lower by exact Hp; reflexivity).
        split.
        * unfold fits in Hf. cbn [R flat_new f_cur f_types repeat MAX_FLAT_RESULTS List.length Nat.add] in Hf. cbn [append f_overflow R flat_new].
          rewrite Hfr. unfold zlen. rewrite map_length. apply Z.ltb_ge. lia.
        * intros _. rewrite to_vec_append by exact HwR. cbn [to_vec R flat_new f_cur f_types firstn app]. congruence.
      + exists r'. split; [reflexivity|]. split; [exact Hl|]. intros p Hp fr.
        assert (Hfr : fr = map (lower p) (flatw v)) by (subst fr; rewrite flatw_lower by exact Hp; reflexivity).
        rewrite Ho. split; [|discriminate]. unfold fits in Hf. cbn [R flat_new f_cur f_types repeat MAX_FLAT_RESULTS List.length Nat.add] in Hf.
        rewrite Hfr. unfold zlen. rewrite map_length. apply Z.ltb_lt. lia.
    - eexists. split; [reflexivity|]. split; [reflexivity|]. intros p Hp. cbn. auto. }
  destruct va; cbn [is_export andb] in *.
  - destruct (Hsync true eq_refl) as (rs & -> & Hlr & Hrs). rewrite Epp. destruct (f_overflow rs) eqn:Eo.
    + eexists. split; [reflexivity|]. intros p Hp Hp8. destruct (Hspill p Hp Hp8) as [Hb HF]. destruct (Hrs p Hp) as [H1 H2].
      unfold flatten_func. rewrite H1. cbn [sg_params sg_results sg_indirect sg_retptr]. rewrite Vpp, Hvec, map_app, HF, Hb. reflexivity.
    + eexists. split; [reflexivity|]. intros p Hp Hp8. destruct (Hspill p Hp Hp8) as [Hb HF]. destruct (Hrs p Hp) as [H1 H2].
      unfold flatten_func. rewrite H1. cbn [sg_params sg_results sg_indirect sg_retptr]. rewrite Hvec, HF, Hb, H2 by reflexivity. reflexivity.
  - destruct (Hsync false eq_refl) as (rs & -> & Hlr & Hrs). destruct (f_overflow rs) eqn:Eo.
    + destruct (push_assert_ok WPointer (mkFlat (f_types rs) 0 true)) as (rp & Erp & Vrp); [cbn; lia|]. rewrite Erp.
      eexists. split; [reflexivity|]. intros p Hp Hp8. destruct (Hspill p Hp Hp8) as [Hb HF]. destruct (Hrs p Hp) as [H1 H2].
      unfold flatten_func. rewrite H1. cbn [sg_params sg_results sg_indirect sg_retptr]. rewrite Vrp, Hvec, HF, Hb. reflexivity.
    + eexists. split; [reflexivity|]. intros p Hp Hp8. destruct (Hspill p Hp Hp8) as [Hb HF]. destruct (Hrs p Hp) as [H1 H2].
      unfold flatten_func. rewrite H1. cbn [sg_params sg_results sg_indirect sg_retptr]. rewrite Hvec, HF, Hb, H2 by reflexivity. reflexivity.
  - rewrite Eri. destruct (fn_result f) as [t|], rv as [v|]; cbn [result_ok] in Hres; try contradiction.
    + rewrite Epp. cbn [omap]. eexists. split; [reflexivity|]. intros p Hp Hp8. destruct (Hspill p Hp Hp8) as [Hb HF].
      unfold flatten_func. destruct Hres as [_ Hal]. pose proof (inhabited_nonempty p v (Hia eq_refl v eq_refl) Hal) as Hne.
      assert (Hz : 0 <? zlen (flatten p v) = true) by (destruct (flatten p v); [congruence|]; rewrite zlen_cons; pose proof (zlen_nonneg l); apply Z.ltb_lt; lia).
      rewrite Hz. cbn [sg_params sg_results sg_indirect sg_retptr]. rewrite Vpp, Vri, Hvec, map_app, HF, Hb. reflexivity.
    + eexists. split; [reflexivity|]. intros p Hp Hp8. destruct (Hspill p Hp Hp8) as [Hb HF].
      unfold flatten_func. cbn [sg_params sg_results sg_indirect sg_retptr]. rewrite Vri, Hvec, HF, Hb. reflexivity.
  - rewrite Eri. eexists. split; [reflexivity|]. intros p Hp Hp8. destruct (Hspill p Hp Hp8) as [Hb HF].
    unfold flatten_func. cbn [sg_params sg_results sg_indirect sg_retptr]. rewrite Vri, Hvec, HF, Hb. reflexivity.
  - eexists. split; [reflexivity|]. intros p Hp Hp8. destruct (Hspill p Hp Hp8) as [Hb HF].
    unfold flatten_func. cbn [sg_params sg_results sg_indirect sg_retptr]. rewrite Hvec, HF, Hb. reflexivity.
Qed.

(** A single type pushed onto a fresh buffer of [k] slots. *)
Lemma push_flat_top defs n t v k : expand n defs t = Some v -> allowed v ->
  exists ok r, push_flat n defs t (flat_new (repeat WI32 k)) = Some (ok, r) /\
    forall p, width p ->
      (ok = true <-> (List.length (flatten p v) <= k)%nat) /\ f_overflow r = negb ok /\
      (ok = true -> map (lower p) (to_vec r) = flatten p v).
Proof.
  intros Hx Ha. set (R := flat_new (repeat WI32 k)). assert (HwR : wf R) by (unfold wf, R; cbn; lia).
  assert (Hk : List.length (f_types R) = k) by (unfold R; cbn; apply repeat_length).
  destruct (push_flat_ok defs n t v R Hx Ha HwR) as [[Hf ->]|(Hf & r' & -> & Ho & Hl)]; unfold fits in Hf; rewrite Hk in Hf; cbn [R flat_new f_cur Nat.add] in Hf.
  - exists true, (append R (flatw v)). split; [reflexivity|]. intros p Hp. rewrite <- (flatw_lower p v Hp), map_length.
    split; [split; auto|]. split; [reflexivity|]. intros _. rewrite to_vec_append by exact HwR. reflexivity.
  - exists false, r'. split; [reflexivity|]. intros p Hp. rewrite <- (flatw_lower p v Hp), map_length.
    split; [split; [discriminate|lia]|]. split; [exact Ho|discriminate].
Qed.

(** ** Order of cases *)
Section Merge.
  Context {A} (j : A -> A -> A).
  Hypothesis jc : forall a b, j a b = j b a.
  Hypothesis ja : forall a b c, j a (j b c) = j (j a b) c.
  Lemma merge_nil_l l : merge_case j [] l = l. Proof. destruct l; reflexivity. Qed.
  Lemma merge_nil_r l : merge_case j l [] = l. Proof. destruct l; reflexivity. Qed.
  Lemma merge_comm a : forall b, merge_case j a b = merge_case j b a.
  Proof. induction a as [|x a IH]; intros [|y b]; cbn [merge_case]; try reflexivity. rewrite jc, IH. reflexivity. Qed.
  Lemma merge_assoc a : forall b c, merge_case j a (merge_case j b c) = merge_case j (merge_case j a b) c.
  Proof.
    induction a as [|x a IH]; intros [|y b] [|z c]; cbn [merge_case]; try reflexivity. rewrite ja, IH. reflexivity.
  Qed.
  Lemma fold_merge_perm {B} (g : B -> list A) cs cs' : Permutation cs cs' ->
    forall acc, fold_left (fun acc c => merge_case j acc (g c)) cs acc = fold_left (fun acc c => merge_case j acc (g c)) cs' acc.
  Proof.
    induction 1 as [|x l l' _ IH|x y l|l l' l'' _ IH1 _ IH2]; intros acc; cbn [fold_left]; auto.
    - f_equal. rewrite <- !merge_assoc. f_equal. apply merge_comm.
    - rewrite IH1. apply IH2.
  Qed.
End Merge.

Lemma core_join_comm a b : core_join a b = core_join b a. Proof. destruct a, b; reflexivity. Qed.
Lemma core_join_assoc a b c : core_join a (core_join b c) = core_join (core_join a b) c. Proof. destruct a, b, c; reflexivity. Qed.

Lemma flatten_perm p cs cs' : Permutation cs cs' -> flatten p (VVariant cs) = flatten p (VVariant cs').
Proof.
  intros H. cbn [flatten]. f_equal.
  apply (fold_merge_perm core_join core_join_comm core_join_assoc (fun c => match c with Some t => flatten p t | None => [] end)). exact H.
Qed.

Lemma case_order defs n i i' cases cases' cs cs' k : 
  nth_error defs i = Some (KVariant cases) -> nth_error defs i' = Some (KVariant cases') ->
  expand n defs (TId i) = Some (VVariant cs) -> expand n defs (TId i') = Some (VVariant cs') ->
  Permutation cs cs' -> allowed (VVariant cs) -> allowed (VVariant cs') ->
  exists ok r r', push_flat n defs (TId i) (flat_new (repeat WI32 k)) = Some (ok, r) /\
    push_flat n defs (TId i') (flat_new (repeat WI32 k)) = Some (ok, r') /\ (ok = true -> to_vec r = to_vec r').
Proof.
  intros Hi Hi' Hx Hx' HP Ha Ha'. set (R := flat_new (repeat WI32 k)). assert (HwR : wf R) by (unfold wf, R; cbn; lia).
  assert (HF : flatw (VVariant cs) = flatw (VVariant cs')).
  { cbn [flatw]. f_equal. apply (fold_merge_perm join join_comm join_assoc (fun c => match c with Some t => flatw t | None => [] end)). exact HP. }
  pose proof (push_flat_ok defs n _ _ R Hx Ha HwR) as H1. pose proof (push_flat_ok defs n _ _ R Hx' Ha' HwR) as H2. rewrite HF in H1.
  destruct H1 as [[F1 ->]|(F1 & r1 & -> & _)], H2 as [[F2 ->]|(F2 & r2 & -> & _)]; try contradiction.
  - exists true. do 2 eexists. split; [reflexivity|]. split; reflexivity.
  - exists false. do 2 eexists. split; [reflexivity|]. split; [reflexivity|discriminate].
Qed.

(** ** Width *)
Definition core_bits (c : core) : Z := match c with I32 | F32 => 32 | _ => 64 end.
Lemma core_join_wide a b : core_bits a <= core_bits (core_join a b) /\ core_bits b <= core_bits (core_join a b).
Proof. destruct a, b; cbn; lia. Qed.
Lemma join_wide p a b : width p -> core_bits (lower p a) <= core_bits (lower p (join a b)) /\ core_bits (lower p b) <= core_bits (lower p (join a b)).
Proof. intros Hp. rewrite lower_join by exact Hp. apply core_join_wide. Qed.

Definition covers (l m : list core) : Prop :=
  forall i a, nth_error l i = Some a -> exists b, nth_error m i = Some b /\ core_bits a <= core_bits b.
Lemma covers_refl l : covers l l. Proof. intros i a H. exists a. split; [exact H|lia]. Qed.
Lemma covers_trans l m n : covers l m -> covers m n -> covers l n.
Proof. intros H1 H2 i a H. destruct (H1 _ _ H) as (b & Hb & ?). destruct (H2 _ _ Hb) as (c & Hc & ?). exists c. split; [exact Hc|lia]. Qed.
Lemma merge_covers acc : forall l, covers acc (merge_case core_join acc l) /\ covers l (merge_case core_join acc l).
Proof.
  induction acc as [|x acc IH]; intros [|y l]; cbn [merge_case]; try (split; try apply covers_refl; intros [|i] a H; discriminate).
  destruct (IH l) as [I1 I2]. destruct (core_join_wide x y) as [W1 W2].
  split; intros [|i] a H; cbn [nth_error] in *; try (injection H as <-; eexists; split; [reflexivity|assumption]); eauto.
Qed.
Lemma variant_covers p cs t : In (Some t) cs -> covers (flatten p t) (tl (flatten p (VVariant cs))).
Proof.
  cbn [flatten tl].
  enough (G : forall cs acc, covers acc (fold_left (fun acc c => merge_case core_join acc (match c with Some t => flatten p t | None => [] end)) cs acc) /\
    (In (Some t) cs -> covers (flatten p t) (fold_left (fun acc c => merge_case core_join acc (match c with Some t => flatten p t | None => [] end)) cs acc)))
    by apply (G cs []).
  clear cs. induction cs as [|c cs IH]; intros acc; cbn [fold_left In]; [split; [apply covers_refl|tauto]|].
  destruct (IH (merge_case core_join acc (match c with Some t => flatten p t | None => [] end))) as [I1 I2].
  split.
  - eapply covers_trans; [|exact I1]. apply merge_covers.
  - intros [-> | H]; [|auto]. eapply covers_trans; [|exact I1]. apply merge_covers.
Qed.
