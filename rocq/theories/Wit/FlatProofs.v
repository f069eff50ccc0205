(** Flattening: [abi.rs] against the canonical ABI. *)
From Verif.Base Require Import Prelude.
From Verif.Wit Require Import LayoutModel Spec LayoutProofs LayoutTop FlatModel FlatSpec.

Lemma map_repeat {A B} (f : A -> B) x n : map f (repeat x n) = repeat (f x) n.
Proof. induction n; cbn; congruence. Qed.

Lemma skipn_skipn {A} a b (l : list A) : skipn a (skipn b l) = skipn (a + b) l.
Proof.
  revert l. induction b as [|b IH]; intros l; [rewrite Nat.add_0_r; reflexivity|].
  destruct l as [|x l]; [rewrite !skipn_nil; reflexivity|]. rewrite Nat.add_succ_r. cbn [skipn]. apply IH.
Qed.

(** ** [join] *)
Lemma join_comm a b : join a b = join b a. Proof. destruct a, b; reflexivity. Qed.
Lemma join_assoc a b c : join a (join b c) = join (join a b) c. Proof. destruct a, b, c; reflexivity. Qed.
Lemma join_idem a : join a a = a. Proof. destruct a; reflexivity. Qed.
Lemma lower_join p a b : width p -> lower p (join a b) = core_join (lower p a) (lower p b).
Proof. intros [-> | ->]; destruct a, b; reflexivity. Qed.

(** ** Flattening to symbolic types *)
Definition flatw_prim (t : prim) : list wt :=
  match t with
  | PU64 | PS64 => [WI64] | PF32 => [WF32] | PF64 => [WF64] | PString => [WPointer; WLength] | _ => [WI32]
  end.
Fixpoint flatw (v : vt) : list wt :=
  match v with
  | VPrim t => flatw_prim t
  | VList => [WPointer; WLength]
  | VFixed t n => List.concat (repeat (flatw t) (Z.to_nat n))
  | VRecord fs => List.concat (map flatw fs)
  | VVariant cs => WI32 :: fold_left (fun acc c => merge_case join acc (match c with Some t => flatw t | None => [] end)) cs []
  | VFlags n => repeat WI32 (Z.to_nat ((n + 31) / 32))
  | VHandle => [WI32]
  end.

Section VtInd.
  Variable P : vt -> Prop.
  Hypothesis Hprim : forall p, P (VPrim p).
  Hypothesis Hlist : P VList.
  Hypothesis Hfixed : forall t n, P t -> P (VFixed t n).
  Hypothesis Hrec : forall fs, Forall P fs -> P (VRecord fs).
  Hypothesis Hvar : forall cs, Forall (fun c => match c with Some t => P t | None => True end) cs -> P (VVariant cs).
  Hypothesis Hflags : forall n, P (VFlags n).
  Hypothesis Hhandle : P VHandle.
  Fixpoint vt_rect' (v : vt) : P v :=
    match v with
    | VPrim p => Hprim p
    | VList => Hlist
    | VFixed t n => Hfixed t n (vt_rect' t)
    | VRecord fs => Hrec fs ((fix go l : Forall P l := match l with
        | [] => Forall_nil _ | x :: l => Forall_cons _ (vt_rect' x) (go l) end) fs)
    | VVariant cs => Hvar cs ((fix go l : Forall (fun c => match c with Some t => P t | None => True end) l := match l with
        | [] => Forall_nil _
        | Some x :: l => Forall_cons (Some x) (vt_rect' x) (go l)
        | None :: l => Forall_cons None I (go l) end) cs)
    | VFlags n => Hflags n
    | VHandle => Hhandle
    end.
End VtInd.

Lemma map_merge {A B} (f : A -> B) (j : A -> A -> A) (j' : B -> B -> B) : (forall a b, f (j a b) = j' (f a) (f b)) ->
  forall acc l, map f (merge_case j acc l) = merge_case j' (map f acc) (map f l).
Proof.
  intros H. induction acc as [|a acc IH]; intros [|x l]; cbn [map merge_case]; try reflexivity. rewrite H, IH. reflexivity.
Qed.

Lemma flatw_lower p v : width p -> map (lower p) (flatw v) = flatten p v.
Proof.
  intros Hp. induction v as [t| |t n IH|fs IH|cs IH|n|] using vt_rect'; cbn [flatw flatten map lower]; try reflexivity.
  - destruct t; reflexivity.
  - rewrite concat_map. f_equal. induction (Z.to_nat n); cbn [repeat map]; congruence.
  - rewrite concat_map, map_map. f_equal. apply map_ext_in. intros a Ha. rewrite Forall_forall in IH. auto.
  - f_equal.
    enough (G : forall acc, map (lower p) (fold_left (fun acc c => merge_case join acc (match c with Some t => flatw t | None => [] end)) cs acc)
      = fold_left (fun acc c => merge_case core_join acc (match c with Some t => flatten p t | None => [] end)) cs (map (lower p) acc)) by apply (G []).
    induction IH as [|c cs Hc _ IHcs]; intros acc; cbn [fold_left]; [reflexivity|].
    rewrite IHcs. f_equal. rewrite (map_merge (lower p) join core_join) by (intros; apply lower_join; auto).
    f_equal. destruct c; [exact Hc|reflexivity].
  - rewrite map_repeat. reflexivity.
Qed.

(** ** The bounded buffer *)
Definition fits (r : flat) (l : list wt) : Prop := (f_cur r + List.length l <= List.length (f_types r))%nat.
Definition wf (r : flat) : Prop := (f_cur r <= List.length (f_types r))%nat.
Definition append (r : flat) (l : list wt) : flat :=
  mkFlat (firstn (f_cur r) (f_types r) ++ l ++ skipn (f_cur r + List.length l) (f_types r))
         (f_cur r + List.length l) (f_overflow r).
(** The outcome of pushing [l]. *)
Definition pushed (r : flat) (l : list wt) (out : option (bool * flat)) : Prop :=
  (fits r l /\ out = Some (true, append r l)) \/
  (~ fits r l /\ exists r', out = Some (false, r') /\ f_overflow r' = true /\ List.length (f_types r') = List.length (f_types r)).

Lemma append_length r l : fits r l -> List.length (f_types (append r l)) = List.length (f_types r).
Proof.
  unfold fits, append. cbn [f_types]. intros H. rewrite !app_length, firstn_length, skipn_length. lia.
Qed.
Lemma append_wf r l : fits r l -> wf (append r l).
Proof. intros H. unfold wf. rewrite append_length by exact H. exact H. Qed.
Lemma append_nil r : wf r -> append r [] = r.
Proof.
  intros H. destruct r as [t c o]. unfold append. cbn [f_types f_cur f_overflow List.length app].
  rewrite Nat.add_0_r, firstn_skipn. reflexivity.
Qed.
Lemma append_app r l1 l2 : fits r l1 -> append (append r l1) l2 = append r (l1 ++ l2).
Proof.
  unfold fits, append. destruct r as [t c o]. cbn [f_types f_cur f_overflow]. intros H. rewrite app_length. f_equal; [|lia].
  assert (Hl : List.length (firstn c t ++ l1) = (c + List.length l1)%nat) by (rewrite app_length, firstn_length; lia).
  rewrite (app_assoc (firstn c t) l1 (skipn _ _)). rewrite firstn_app, Hl, Nat.sub_diag. cbn [firstn]. rewrite app_nil_r.
  rewrite firstn_all2 by lia. rewrite <- !app_assoc. f_equal. f_equal. f_equal.
  rewrite app_assoc, skipn_app, Hl. rewrite skipn_all2 by lia. cbn [app].
  replace (c + List.length l1 + List.length l2 - (c + List.length l1))%nat with (List.length l2) by lia.
  rewrite skipn_skipn. f_equal. lia.
Qed.

Lemma set_nth_mid {A} (a : list A) x y b : set_nth (a ++ y :: b) (List.length a) x = a ++ x :: b.
Proof. induction a; cbn; congruence. Qed.
Lemma nth_mid {A} (a : list A) y b : nth_error (a ++ y :: b) (List.length a) = Some y.
Proof. induction a; cbn; auto. Qed.

Lemma push_pushed t r : wf r -> pushed r [t] (Some (push t r)).
Proof.
  intros H. unfold push. destruct (nth_error (f_types r) (f_cur r)) as [x|] eqn:E.
  - left. assert (Hlt : (f_cur r < List.length (f_types r))%nat) by (apply nth_error_Some; congruence).
    split; [unfold fits; cbn; lia|]. f_equal. f_equal. unfold append. cbn [List.length]. f_equal; [|lia].
    destruct (nth_error_split _ _ E) as (a & b & Eab & Hl). rewrite Eab. rewrite <- Hl. rewrite set_nth_mid.
    rewrite firstn_app, Nat.sub_diag. cbn [firstn]. rewrite app_nil_r, firstn_all. f_equal. cbn [app]. f_equal.
    rewrite skipn_app. rewrite skipn_all2 by lia. replace (List.length a + 1 - List.length a)%nat with 1%nat by lia. reflexivity.
  - right. apply nth_error_None in E. split; [unfold fits; cbn; lia|]. eexists. split; [reflexivity|]. auto.
Qed.

Lemma pushed_then r l1 l2 x k : pushed r l1 x -> (fits r l1 -> wf (append r l1) -> pushed (append r l1) l2 (k (append r l1))) ->
  pushed r (l1 ++ l2) (and_then x k).
Proof.
  intros [[Hf ->]|(Hf & r' & -> & Ho & Hl)] Hk.
  - specialize (Hk Hf (append_wf _ _ Hf)). cbn [and_then]. destruct Hk as [[Hf2 ->]|(Hf2 & r' & -> & Ho & Hl)].
    + left. split; [|rewrite append_app by exact Hf; reflexivity]. unfold fits in *. rewrite append_length in Hf2 by exact Hf.
      cbn [append f_cur] in Hf2. rewrite app_length. lia.
    + right. split; [|exists r'; split; [reflexivity|split; [exact Ho|rewrite Hl; apply append_length; exact Hf]]].
      unfold fits in *. rewrite append_length in Hf2 by exact Hf. cbn [append f_cur] in Hf2. rewrite app_length. lia.
  - cbn [and_then]. right. split; [unfold fits in *; rewrite app_length; lia|]. eauto.
Qed.

Lemma push_list_pushed {A} (pf : A -> flat -> option (bool * flat)) (fl : A -> list wt) l :
  (forall t r, In t l -> wf r -> pushed r (fl t) (pf t r)) ->
  forall r, wf r -> pushed r (List.concat (map fl l)) (push_list pf l r).
Proof.
  induction l as [|t l IH]; intros H r Hr; cbn [map List.concat push_list].
  - left. split; [unfold fits, wf in *; cbn; lia|]. rewrite append_nil by exact Hr. reflexivity.
  - apply pushed_then; [apply H; [left; reflexivity|exact Hr]|].
    intros Hf Hw. apply IH; auto. intros t' r' Hin. apply H. right. exact Hin.
Qed.

(** ** Variants *)
Lemma merge_into_ok l : forall pre done a post o,
  (List.length l <= List.length a + List.length post)%nat ->
  merge_into (List.length pre) (List.length done) l (mkFlat (pre ++ done ++ a ++ post) (List.length pre + List.length done + List.length a) o)
  = Some (true, mkFlat (pre ++ done ++ merge_case join a l ++ skipn (List.length l - List.length a) post)
                  (List.length pre + List.length done + List.length (merge_case join a l)) o).
Proof.
  induction l as [|t l IH]; intros pre done a post o Hl; cbn [merge_into].
  - destruct a; cbn [merge_case List.length Nat.sub skipn]; reflexivity.
  - cbn [f_cur f_types f_overflow]. rewrite (Nat.add_comm (List.length done)).
    assert (Hix : forall y b, nth_error (pre ++ done ++ y :: b) (List.length pre + List.length done) = Some y).
    { intros y b. rewrite app_assoc, <- app_length. apply nth_mid. }
    assert (Hset : forall x y b, set_nth (pre ++ done ++ y :: b) (List.length pre + List.length done) x = pre ++ (done ++ [x]) ++ b).
    { intros x y b. rewrite app_assoc, <- app_length, set_nth_mid. rewrite <- !app_assoc. reflexivity. }
    assert (Hd : forall x, List.length (done ++ [x]) = S (List.length done)) by (intros; rewrite app_length; cbn; lia).
    destruct a as [|x a].
    + cbn [List.length app] in *. rewrite Nat.add_0_r. rewrite Nat.ltb_irrefl.
      destruct post as [|y post]; [cbn in Hl; lia|].
      replace (List.length pre + List.length done =? _)%nat with false
        by (symmetry; apply Nat.eqb_neq; rewrite !app_length; cbn [List.length]; lia).
      rewrite Hix, Hset. specialize (IH pre (done ++ [t]) [] post o). rewrite !Hd in IH. cbn [app List.length] in IH.
      rewrite Nat.add_0_r, Nat.add_succ_r in IH. rewrite IH by (cbn in Hl; lia). f_equal. f_equal.
      cbn [merge_case]. destruct l; cbn [merge_case List.length Nat.sub skipn app]; rewrite <- ?app_assoc; cbn [app]; f_equal; lia.
    + cbn [List.length app] in *. replace (List.length pre + List.length done <? _)%nat with true by (symmetry; apply Nat.ltb_lt; lia).
      rewrite Hix, Hset. specialize (IH pre (done ++ [join x t]) a post o). rewrite !Hd in IH.
      replace (List.length pre + S (List.length done) + List.length a)%nat with (List.length pre + List.length done + S (List.length a))%nat in IH by lia.
      rewrite IH by lia. cbn [merge_case List.length Nat.sub]. f_equal. f_equal. rewrite <- !app_assoc. cbn [app]. f_equal. lia.
Qed.

Definition case_flat (c : option vt) : list wt := match c with Some t => flatw t | None => [] end.
Definition merges (cs : list (option vt)) (acc : list wt) : list wt :=
  fold_left (fun acc c => merge_case join acc (match c with Some t => flatw t | None => [] end)) cs acc.

Lemma merge_length {A} (j : A -> A -> A) a l : List.length (merge_case j a l) = Nat.max (List.length a) (List.length l).
Proof. revert l. induction a as [|x a IH]; intros [|y l]; cbn [merge_case List.length]; auto. rewrite IH. reflexivity. Qed.
Lemma merges_ge cs : forall acc, (List.length acc <= List.length (merges cs acc))%nat.
Proof.
  induction cs as [|c cs IH]; intros acc; cbn; [lia|]. etransitivity; [|apply IH]. rewrite merge_length. lia.
Qed.

Section Flat.
  Variable defs : list kind.

  Definition good_push (n : nat) : Prop :=
    forall t v r, expand n defs t = Some v -> allowed v -> wf r -> pushed r (flatw v) (push_flat n defs t r).

  Lemma push_cases_ok n l : good_push n -> forall vs, all_some (map (flip_opt (expand n defs)) l) = Some vs ->
    Forall allowed (somes vs) -> forall temp pre acc post o, f_cur temp = 0%nat ->
    List.length (f_types temp) = (List.length acc + List.length post)%nat ->
    let r := mkFlat (pre ++ acc ++ post) (List.length pre + List.length acc) o in
    let out := push_cases (push_flat n defs) (List.length pre) l temp r in
    ((List.length (merges vs acc) <= List.length acc + List.length post)%nat /\
      out = Some (true, mkFlat (pre ++ merges vs acc ++ skipn (List.length (merges vs acc) - List.length acc) post)
                          (List.length pre + List.length (merges vs acc)) o)) \/
    ((List.length acc + List.length post < List.length (merges vs acc))%nat /\
      exists r', out = Some (false, r') /\ f_overflow r' = true /\ List.length (f_types r') = List.length (f_types r)).
  Proof.
    intros Hg. induction l as [|c l IH]; intros vs Hx Ha temp pre acc post o Ht Hlen; cbn [push_cases].
    - injection Hx as <-. left. cbn [merges fold_left]. split; [lia|]. rewrite Nat.sub_diag. reflexivity.
    - cbn [map all_some] in Hx. destruct (flip_opt (expand n defs) c) as [c'|] eqn:Ec; [|discriminate].
      destruct (all_some (map _ l)) as [vs'|] eqn:Evs; [|discriminate]. injection Hx as <-.
      destruct c as [t|]; cbn [flip_opt] in Ec.
      + destruct (expand n defs t) as [v|] eqn:Ev; [|discriminate]. injection Ec as <-. cbn [somes] in Ha. inversion Ha as [|? ? Hav Ha']; subst.
        assert (Hwt : wf temp) by (unfold wf; lia).
        assert (Hms : merges (Some v :: vs') acc = merges vs' (merge_case join acc (flatw v))) by reflexivity.
        rewrite Hms. pose proof (merges_ge vs' (merge_case join acc (flatw v))) as Hge. rewrite merge_length in Hge.
        destruct (Hg t v temp Ev Hav Hwt) as [[Hf ->]|(Hf & r' & -> & _)].
        * unfold fits in Hf. rewrite Ht, Hlen in Hf. cbn [Nat.add] in Hf. cbn [append f_cur f_types f_overflow]. rewrite Ht. cbn [Nat.add firstn app].
          rewrite firstn_app, Nat.sub_diag. cbn [firstn]. rewrite app_nil_r, firstn_all.
          pose proof (merge_into_ok (flatw v) pre [] acc post o Hf) as Hm. cbn [List.length app] in Hm. rewrite Nat.add_0_r in Hm. rewrite Hm.
          cbn [and_then].
          destruct (IH vs' eq_refl Ha' (mkFlat (flatw v ++ skipn (List.length (flatw v)) (f_types temp)) 0 (f_overflow temp)) pre
                      (merge_case join acc (flatw v)) (skipn (List.length (flatw v) - List.length acc) post) o) as [[H1 H2]|(H1 & r'' & H2 & H3 & H4)].
          { reflexivity. }
          { cbn [f_types]. rewrite app_length, !skipn_length, merge_length. lia. }
          { left. rewrite skipn_length, merge_length in H1. split; [lia|]. rewrite H2. f_equal. f_equal. f_equal. f_equal. f_equal.
            rewrite skipn_skipn. f_equal. rewrite merge_length. lia. }
          { right. rewrite skipn_length, merge_length in H1. split; [lia|]. exists r''. split; [exact H2|]. split; [exact H3|].
            rewrite H4. cbn [f_types]. rewrite !app_length, skipn_length, merge_length. lia. }
        * right. unfold fits in Hf. rewrite Ht, Hlen in Hf. split; [lia|]. eexists. split; [reflexivity|]. cbn. auto.
      + injection Ec as <-. cbn [somes] in Ha. 
        assert (Hms : merges (None :: vs') acc = merges vs' acc) by (cbn [merges fold_left]; destruct acc; reflexivity).
        rewrite Hms. apply IH; auto.
  Qed.

  Lemma push_variants_ok n l vs : good_push n -> all_some (map (flip_opt (expand n defs)) l) = Some vs ->
    Forall allowed (somes vs) -> forall r, wf r -> pushed r (merges vs []) (push_variants (push_flat n defs) l r).
  Proof.
    intros Hg Hx Ha r Hr. unfold push_variants. destruct r as [t c o]. unfold wf in Hr. cbn [f_types f_cur] in *.
    pose proof (push_cases_ok n l Hg vs Hx Ha (flat_new (skipn c t)) (firstn c t) [] (skipn c t) o eq_refl eq_refl) as H.
    cbn [app List.length] in H. rewrite firstn_skipn in H. rewrite firstn_length in H. replace (Nat.min c (List.length t)) with c in H by lia.
    rewrite Nat.add_0_r in H. rewrite skipn_length in H. cbv zeta in H.
    destruct H as [[H1 H2]|(H1 & r' & H2 & H3 & H4)].
    - left. split; [unfold fits; cbn; lia|]. rewrite H2. unfold append. cbn [f_types f_cur f_overflow]. f_equal. f_equal. f_equal.
      rewrite Nat.sub_0_r, skipn_skipn. rewrite (Nat.add_comm c). reflexivity.
    - right. split; [unfold fits; cbn; lia|]. exists r'. auto.
  Qed.

  Lemma push_prim_ok p r : wf r -> pushed r (flatw_prim p) (push_prim p r).
  Proof.
    intros Hr. destruct p; try (apply push_pushed; exact Hr).
    change (flatw_prim PString) with ([WPointer] ++ [WLength]). apply (pushed_then r [WPointer] [WLength]); [apply push_pushed; exact Hr|].
    intros _ Hw. apply push_pushed; exact Hw.
  Qed.

  Lemma all_some_in n l vs : all_some (map (expand n defs) l) = Some vs ->
    Forall2 (fun t v => expand n defs t = Some v) l vs.
  Proof.
    revert vs. induction l as [|t l IH]; intros vs H; cbn [map all_some] in H.
    - injection H as <-. constructor.
    - destruct (expand n defs t) eqn:E; [|discriminate]. destruct (all_some _) eqn:E2; [|discriminate]. injection H as <-. constructor; auto.
  Qed.

  Lemma push_types_ok n l vs : good_push n -> Forall2 (fun t v => expand n defs t = Some v) l vs -> Forall allowed vs ->
    forall r, wf r -> pushed r (List.concat (map flatw vs)) (push_list (push_flat n defs) l r).
  Proof.
    intros Hg H. induction H as [|t v l vs Ht _ IH]; intros Ha r Hr; cbn [map List.concat push_list].
    - left. split; [unfold fits, wf in *; cbn; lia|]. rewrite append_nil by exact Hr. reflexivity.
    - inversion Ha; subst. apply pushed_then; [apply Hg; auto|]. intros Hf Hw. apply IH; auto.
  Qed.

  Lemma concat_repeat_unit (l : list wt) k : List.concat (map (fun _ : unit => l) (repeat tt k)) = List.concat (repeat l k).
  Proof. f_equal. induction k; cbn; congruence. Qed.
  Lemma concat_singles (x : wt) k : List.concat (repeat [x] k) = repeat x k.
  Proof. induction k; cbn; congruence. Qed.

  Lemma variant_pushed n l vs r : good_push n -> all_some (map (flip_opt (expand n defs)) l) = Some vs ->
    Forall allowed (somes vs) -> wf r ->
    pushed r (flatw (VVariant vs)) (and_then (Some (push WI32 r)) (push_variants (push_flat n defs) l)).
  Proof.
    intros Hg Hx Ha Hr. change (flatw (VVariant vs)) with ([WI32] ++ merges vs []).
    apply pushed_then; [apply push_pushed; exact Hr|]. intros _ Hw. apply push_variants_ok; auto.
  Qed.

  Lemma tag_i32 n tag : discriminant_type n = Some tag -> wt_of_int tag = WI32.
  Proof.
    unfold discriminant_type. intros H.
    repeat match type of H with (if ?b then _ else _) = _ => destruct b; [injection H as <-; reflexivity|] end. discriminate.
  Qed.

  Lemma merges_nones k : merges (repeat None k) [] = [].
  Proof. induction k; cbn; auto. Qed.

  Lemma repr_count_ok n : 0 < n < 2 ^ 60 -> repr_count (repr n) = (n + 31) / 32.
  Proof.
    intros Hn. unfold repr. destruct (n =? 0) eqn:E0; [lia|].
    destruct (n <=? 8) eqn:E1; [cbn [repr_count]; apply Z.div_unique with (r := n - 1); lia|].
    destruct (n <=? 16) eqn:E2; [cbn [repr_count]; apply Z.div_unique with (r := n - 1); lia|].
    cbn [repr_count]. rewrite align_to_ok by (unfold pow2; lia). unfold round_up. rewrite Z.div_mul by lia. reflexivity.
  Qed.

  Lemma push_flat_ok n : good_push n.
  Proof.
    induction n as [|n IH]; intros t v r Hx Ha Hr.
    - destruct t as [p|i]; [|discriminate]. injection Hx as <-. apply push_prim_ok. exact Hr.
    - destruct t as [p|i]; [injection Hx as <-; apply push_prim_ok; exact Hr|].
      cbn [expand push_flat] in *. destruct (nth_error defs i) as [k|]; [|discriminate].
      destruct k as [fs| | |fl|fs|cs|ne|t|a b|t|kk vv|t c|t|t|t|]; try discriminate.
      + destruct (all_some _) as [vs|] eqn:Ev; [|discriminate]. injection Hx as <-.
        apply push_types_ok; auto; [apply all_some_in; exact Ev|apply allowed_record; exact Ha].
      + injection Hx as <-. apply push_pushed. exact Hr.
      + injection Hx as <-. destruct Ha as [_ Hn]. cbn [flatw]. rewrite repr_count_ok by exact Hn.
        rewrite <- concat_singles, <- concat_repeat_unit.
        apply (push_list_pushed (fun _ => push_prim PU32) (fun _ => [WI32])); [|exact Hr].
        intros _ r' _ Hw. apply push_pushed. exact Hw.
      + destruct (all_some _) as [vs|] eqn:Ev; [|discriminate]. injection Hx as <-.
        apply push_types_ok; auto; [apply all_some_in; exact Ev|apply allowed_record; exact Ha].
      + destruct (all_some _) as [vs|] eqn:Ev; [|discriminate]. injection Hx as <-.
        destruct (allowed_variant _ Ha) as [Hall Hn]. destruct (somes_expand _ _ _ _ Ev) as [_ Hz].
        destruct (discriminant_total (zlen cs)) as [tag Htag]; [lia|]. rewrite Htag, (tag_i32 _ _ Htag). apply variant_pushed; auto.
      + injection Hx as <-. destruct (allowed_variant _ Ha) as [_ Hn]. unfold zlen in Hn. rewrite repeat_length in Hn.
        destruct (discriminant_total ne) as [tag Htag]; [lia|]. rewrite Htag. cbn [omap]. rewrite (tag_i32 _ _ Htag).
        change (flatw (VVariant (repeat None (Z.to_nat ne)))) with (WI32 :: merges (repeat None (Z.to_nat ne)) []).
        rewrite merges_nones. apply push_pushed. exact Hr.
      + destruct (expand n defs t) as [w|] eqn:Ew; [|discriminate]. injection Hx as <-. destruct (allowed_variant _ Ha) as [Hall _].
        apply variant_pushed; auto. cbn [map flip_opt all_some]. rewrite Ew. reflexivity.
      + destruct (flip_opt _ a) as [a'|] eqn:Ea; [|discriminate]. destruct (flip_opt _ b) as [b'|] eqn:Eb; [|discriminate].
        injection Hx as <-. destruct (allowed_variant _ Ha) as [Hall _].
        apply variant_pushed; auto. cbn [map all_some]. rewrite Ea, Eb. reflexivity.
      + injection Hx as <-. apply (push_prim_ok PString). exact Hr.
      + injection Hx as <-. apply (push_prim_ok PString). exact Hr.
      + destruct (expand n defs t) as [w|] eqn:Ew; [|discriminate]. injection Hx as <-. destruct Ha as (_ & _ & Hw).
        cbn [flatw]. replace (repeat (flatw w) (Z.to_nat c)) with (map flatw (repeat w (Z.to_nat c))) by apply (map_repeat flatw).
        apply push_types_ok; auto; [induction (Z.to_nat c); cbn; constructor; auto|apply Forall_forall; intros x Hin; apply repeat_spec in Hin; subst; exact Hw].
      + injection Hx as <-. apply push_pushed. exact Hr.
      + injection Hx as <-. apply push_pushed. exact Hr.
      + apply IH; auto.
  Qed.
End Flat.
