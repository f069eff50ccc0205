(** Proofs about the parser of expressions. *)
From Coq Require Import List Arith Bool Lia.
Import ListNotations.
From Verif.Folded Require Import Model Spec.

Definition pushes (l : list (option nat * instr)) (o : code) : code := fold_left (fun o x => push (fst x) (snd x) o) l o.
Lemma pushes_app : forall a b o, pushes (a ++ b) o = pushes b (pushes a o). Proof. intros a b o. apply fold_left_app. Qed.
Lemma pushes_cons : forall h i l o, pushes ((h, i) :: l) o = pushes l (push h i o). Proof. reflexivity. Qed.
Lemma pushes_nil : forall o, pushes [] o = o. Proof. reflexivity. Qed.
Lemma pushes_code : forall l o, pushes l o = mkCode (raw o ++ map snd l) (hints o ++ hints_at (length (raw o)) l).
Proof.
  induction l as [| [h i] l IH]; intros [r hs]; [simpl; rewrite !app_nil_r; reflexivity |]. rewrite pushes_cons, IH. unfold push. cbn [raw hints map snd hints_at].
  rewrite <- !app_assoc, app_length. cbn [length]. rewrite Nat.add_1_r. destruct h as [v |]; [rewrite <- app_assoc |]; reflexivity.
Qed.
Lemma pushes_start : forall l, pushes l (mkCode [] []) = code_of l. Proof. intro l. rewrite pushes_code. reflexivity. Qed.

(** The levels in which a sequence may stand. *)
Definition seq_ctx (st : list level) (t : tree) : Prop :=
  match st with LIf (Clause _) _ :: _ => all_folded t | LIf _ _ :: _ | BranchHint :: _ => False | _ => True end.
Lemma parse_hint : forall h rest o st t, hint_ok h -> seq_ctx st t -> parse (hint h ++ rest) o st None = parse rest o st h.
Proof.
  intros [v |] rest o st t H C; [| reflexivity]. simpl in *. apply Nat.leb_le in H. rewrite H. destruct st as [| [i h | [i | |] h | |] st]; try reflexivity; destruct C.
Qed.

Lemma complete : forall t, wf t -> forall o st rest, seq_ctx st t -> parse (text t ++ rest) o st None = parse rest (pushes (flat t) o) st None.
Proof.
  induction t as [| h i n IHn | h i a IHa n IHn | h i b IHb n IHn | h i c IHc t IHt n IHn | h i c IHc t IHt e IHe n IHn]; intros W o st rest C; cbn [text flat wf] in *.
  - reflexivity.
  - destruct W as (H & Wn). rewrite <- app_assoc, (parse_hint _ _ _ _ _ H C). cbn [app]. rewrite pushes_cons, <- IHn by (try exact Wn; destruct st as [| [? ? | [? | |] ? | |] ?]; simpl in *; auto; contradiction).
    cbn [parse]. destruct st as [| [? ? | [? | |] ? | |] ?]; simpl in C; try contradiction; reflexivity.
  - destruct W as (H & B & Wa & Wn). rewrite <- app_assoc, (parse_hint _ _ _ _ _ H C). cbn [app]. rewrite <- app_assoc. cbn [app].
    transitivity (parse (text a ++ RP :: text n ++ rest) o (EndWith i h :: st) None).
    { cbn [parse]. destruct i; try (destruct B; fail); destruct st as [| [? ? | [? | |] ? | |] ?]; simpl in C; try contradiction; reflexivity. }
    rewrite (IHa Wa) by exact I. cbn [parse]. rewrite (IHn Wn) by (destruct st as [| [? ? | [? | |] ? | |] ?]; simpl in *; auto). rewrite pushes_app, pushes_cons. reflexivity.
  - destruct W as (H & Wb & Wn). rewrite <- app_assoc, (parse_hint _ _ _ _ _ H C). cbn [app]. rewrite <- app_assoc. cbn [app].
    transitivity (parse (text b ++ RP :: text n ++ rest) (push h (IBlock i) o) (EndWith IEnd None :: st) None).
    { cbn [parse]. destruct st as [| [? ? | [? | |] ? | |] ?]; simpl in C; try contradiction; reflexivity. }
    rewrite (IHb Wb) by exact I. cbn [parse]. rewrite (IHn Wn) by (destruct st as [| [? ? | [? | |] ? | |] ?]; simpl in *; auto). rewrite pushes_cons, pushes_app, pushes_cons. reflexivity.
  - destruct W as (H & F & Wc & Wt & Wn). rewrite <- app_assoc, (parse_hint _ _ _ _ _ H C). cbn [app]. rewrite <- app_assoc. cbn [app]. rewrite <- app_assoc. cbn [app].
    transitivity (parse (text c ++ LP :: Then :: text t ++ RP :: RP :: text n ++ rest) o (LIf (Clause (IIf i)) h :: st) None).
    { cbn [parse]. destruct st as [| [? ? | [? | |] ? | |] ?]; simpl in C; try contradiction; reflexivity. }
    rewrite (IHc Wc) by exact F. cbn [parse]. rewrite (IHt Wt) by exact I. cbn [parse]. rewrite (IHn Wn) by (destruct st as [| [? ? | [? | |] ? | |] ?]; simpl in *; auto).
    rewrite pushes_app, pushes_cons, pushes_app, pushes_cons. reflexivity.
  - destruct W as (H & F & Wc & Wt & We & Wn). rewrite <- app_assoc, (parse_hint _ _ _ _ _ H C). cbn [app]. rewrite <- app_assoc. cbn [app]. rewrite <- app_assoc. cbn [app]. rewrite <- app_assoc. cbn [app].
    transitivity (parse (text c ++ LP :: Then :: text t ++ RP :: LP :: Ins IElse :: text e ++ RP :: RP :: text n ++ rest) o (LIf (Clause (IIf i)) h :: st) None).
    { cbn [parse]. destruct st as [| [? ? | [? | |] ? | |] ?]; simpl in C; try contradiction; reflexivity. }
    rewrite (IHc Wc) by exact F. cbn [parse]. rewrite (IHt Wt) by exact I. cbn [parse]. rewrite (IHe We) by exact I. cbn [parse]. rewrite (IHn Wn) by (destruct st as [| [? ? | [? | |] ? | |] ?]; simpl in *; auto).
    rewrite pushes_app, pushes_cons, pushes_app, pushes_cons, pushes_app, pushes_cons. reflexivity.
Qed.
Lemma parse_ends : forall o rest, ends rest -> parse rest o [] None = Some (o, rest). Proof. intros o rest [-> | [r ->]]; reflexivity. Qed.

Lemma closed_suffix : forall a b, closed (a ++ b) -> closed b.
Proof. induction a as [| x a IH]; intros b H; [exact H |]. apply IH. destruct x; simpl in H; try exact H. apply H. Qed.

(** What a sequence may stop at. *)
Definition stops (st : list level) (ts : list tok) : Prop :=
  match st with
  | [] => ends ts
  | LIf (Clause _) _ :: _ => exists r, ts = LP :: Then :: r
  | _ => exists r, ts = RP :: r
  end.
Definition ctx (st : list level) : Prop := match st with LIf InThen _ :: _ | LIf InElse _ :: _ | BranchHint :: _ => False | _ => True end.
Definition clause (st : list level) : bool := match st with LIf (Clause _) _ :: _ => true | _ => false end.

Lemma sound : forall n ts, length ts < n -> closed ts -> forall o st p r, parse ts o st p = Some r -> ctx st -> hint_ok p ->
  exists t ts2, hint p ++ ts = text t ++ ts2 /\ wf t /\ (clause st = true -> all_folded t) /\ stops st ts2 /\ parse ts2 (pushes (flat t) o) st None = Some r /\ length ts2 <= length ts /\ closed ts2.
Proof.
  induction n as [| n IH]; intros ts L Cl o st p r H C Hp; [lia |]. destruct ts as [| k ts].
  - destruct st; [| discriminate]. destruct p; [discriminate |]. exists Nil, []. split; [reflexivity |]. split; [exact I |]. split; [intros _; exact I |]. split; [left; reflexivity |]. split; [exact H | split; [lia | exact I]].
  - cbn [length] in L. destruct k as [| | i | | v].
    + destruct ts as [| k ts]; [discriminate |]. cbn [length] in L. destruct k as [| | i | | v].
      * cbn in H. discriminate.
      * cbn in H. discriminate.
      * assert (Cl' : closed ts) by exact Cl. destruct i as [m | m | | | m].
        2: { (* if *)
          assert (H' : parse ts o (LIf (Clause (IIf m)) p :: st) None = Some r) by (cbn [parse] in H; destruct st as [| [? ? | [? | |] ? | |] ?]; simpl in C; try contradiction; exact H). clear H.
          destruct (IH ts ltac:(lia) Cl' _ _ _ _ H' I I) as (c & ts2 & E & Wc & Fc & S & P & Len & Cl2). destruct S as [ts3 ->]. cbn [hint app] in E. cbn [length] in Len. cbn [parse] in P.
          assert (Cl3 : closed ts3) by exact Cl2. destruct (IH ts3 ltac:(lia) Cl3 _ _ _ _ P I I) as (t & ts4 & E4 & Wt & _ & S4 & P4 & Len4 & Cl4). destruct S4 as [ts5 ->]. cbn [hint app] in E4. cbn [length] in Len4. cbn [parse] in P4.
          destruct ts5 as [| [| | | |] ts5]; try (cbn in P4; discriminate).
          - (* else *) destruct ts5 as [| [| | [| | | |] | |] ts5]; try (cbn in P4; discriminate). cbn [parse] in P4. cbn [length] in Len4.
            assert (Cl5 : closed ts5) by exact Cl4. destruct (IH ts5 ltac:(lia) Cl5 _ _ _ _ P4 I I) as (e & ts6 & E6 & We & _ & S6 & P6 & Len6 & Cl6). destruct S6 as [ts7 ->]. cbn [hint app] in E6. cbn [length] in Len6. cbn [parse] in P6.
            destruct ts7 as [| [| | | |] ts7]; try (cbn in P6; discriminate). { destruct ts7 as [| [| | | |] ?]; cbn in P6; discriminate. } cbn [parse] in P6. cbn [length] in Len6.
            assert (Cl7 : closed ts7) by exact Cl6. destruct (IH ts7 ltac:(lia) Cl7 _ _ _ _ P6 C I) as (t' & ts8 & E8 & W8 & F8 & S8 & P8 & Len8 & Cl8). cbn [hint app] in E8.
            exists (IfElse p m c t e t'), ts8. split; [| split; [| split; [| split; [exact S8 | split; [| split; [cbn [length]; lia | exact Cl8]]]]]].
            + cbn [text]. rewrite E, E4, E6, E8. repeat (rewrite <- app_assoc; cbn [app]). reflexivity.
            + cbn [wf]. auto 10.
            + intro K. cbn [all_folded]. auto.
            + cbn [flat]. rewrite pushes_app, pushes_cons, pushes_app, pushes_cons, pushes_app, pushes_cons. exact P8.
          - (* no else *) cbn [parse] in P4. cbn [length] in Len4.
            assert (Cl5 : closed ts5) by exact Cl4. destruct (IH ts5 ltac:(lia) Cl5 _ _ _ _ P4 C I) as (t' & ts8 & E8 & W8 & F8 & S8 & P8 & Len8 & Cl8). cbn [hint app] in E8.
            exists (IfThen p m c t t'), ts8. split; [| split; [| split; [| split; [exact S8 | split; [| split; [cbn [length]; lia | exact Cl8]]]]]].
            + cbn [text]. rewrite E, E4, E8. repeat (rewrite <- app_assoc; cbn [app]). reflexivity.
            + cbn [wf]. auto 10.
            + intro K. cbn [all_folded]. auto.
            + cbn [flat]. rewrite pushes_app, pushes_cons, pushes_app, pushes_cons. exact P8. }
        1: { (* block *)
          assert (H' : parse ts (push p (IBlock m) o) (EndWith IEnd None :: st) None = Some r) by (cbn [parse] in H; destruct st as [| [? ? | [? | |] ? | |] ?]; simpl in C; try contradiction; exact H). clear H.
          destruct (IH ts ltac:(lia) Cl' _ _ _ _ H' I I) as (b & ts2 & E & Wb & _ & S & P & Len & Cl2). destruct S as [ts3 ->]. cbn [hint app] in E. cbn [length] in Len. cbn [parse] in P.
          assert (Cl3 : closed ts3) by exact Cl2. destruct (IH ts3 ltac:(lia) Cl3 _ _ _ _ P C I) as (t' & ts8 & E8 & W8 & F8 & S8 & P8 & Len8 & Cl8). cbn [hint app] in E8.
          exists (Blk p m b t'), ts8. split; [| split; [| split; [| split; [exact S8 | split; [| split; [cbn [length]; lia | exact Cl8]]]]]].
          - cbn [text]. rewrite E, E8. repeat (rewrite <- app_assoc; cbn [app]). reflexivity.
          - cbn [wf]. auto.
          - intro K. cbn [all_folded]. auto.
          - cbn [flat]. rewrite pushes_cons, pushes_app, pushes_cons. exact P8. }
        all: match type of H with parse (_ :: Ins ?j :: _) _ _ _ = _ =>
          assert (H' : parse ts o (EndWith j p :: st) None = Some r) by (cbn [parse] in H; destruct st as [| [? ? | [? | |] ? | |] ?]; simpl in C; try contradiction; exact H); clear H;
          destruct (IH ts ltac:(lia) Cl' _ _ _ _ H' I I) as (b & ts2 & E & Wb & _ & S & P & Len & Cl2); destruct S as [ts3 ->]; cbn [hint app] in E; cbn [length] in Len; cbn [parse] in P;
          assert (Cl3 : closed ts3) by exact Cl2; destruct (IH ts3 ltac:(lia) Cl3 _ _ _ _ P C I) as (t' & ts8 & E8 & W8 & F8 & S8 & P8 & Len8 & Cl8); cbn [hint app] in E8;
          exists (Fold p j b t'), ts8; split; [cbn [text]; rewrite E, E8; repeat (rewrite <- app_assoc; cbn [app]); reflexivity |];
          split; [cbn [wf no_block]; auto |]; split; [intro K; cbn [all_folded]; auto |]; split; [exact S8 |]; split; [cbn [flat]; rewrite pushes_app, pushes_cons; exact P8 |]; split; [cbn [length]; lia | exact Cl8] end.
      * (* then *) cbn [parse] in H. destruct st as [| [? ? | [i | |] h | |] st']; try discriminate. destruct p; [discriminate |].
        exists Nil, (LP :: Then :: ts). split; [reflexivity |]. split; [exact I |]. split; [intros _; exact I |]. split; [exists ts; reflexivity |]. split; [exact H | split; [lia | exact Cl]].
      * (* hint *) cbn in Cl. destruct Cl as [[ts' ->] Cl]. cbn [length] in L.
        assert (X : p = None /\ v <= 1 /\ parse ts' o st (Some v) = Some r).
        { cbn [parse] in H. destruct (Nat.leb_spec v 1) as [V | V]; destruct st as [| [? ? | [? | |] ? | |] ?]; simpl in C; try contradiction; try discriminate; destruct p; try discriminate; auto. }
        destruct X as (-> & V & H'). destruct (IH ts' ltac:(lia) Cl _ _ _ _ H' C V) as (t & ts2 & E & W & F & S & P & Len & Cl2).
        exists t, ts2. split; [exact E |]. split; [exact W |]. split; [exact F |]. split; [exact S |]. split; [exact P |]. split; [cbn [length]; lia | exact Cl2].
    + (* RP *) destruct st as [| l st].
      * destruct p; [discriminate |]. exists Nil, (RP :: ts). split; [reflexivity |]. split; [exact I |]. split; [intros _; exact I |]. split; [right; exists ts; reflexivity |]. split; [exact H | split; [lia | exact Cl]].
      * assert (X : p = None /\ clause (l :: st) = false) by (cbn [parse] in H; destruct l as [? ? | [? | |] ? | |]; simpl in C; try contradiction; destruct p; try discriminate; auto).
        destruct X as [-> K]. exists Nil, (RP :: ts). split; [reflexivity |]. split; [exact I |]. split; [intros _; exact I |].
        split; [destruct l as [? ? | [? | |] ? | |]; try discriminate; exists ts; reflexivity |]. split; [exact H | split; [lia | exact Cl]].
    + (* flat *) assert (X : clause st = false /\ parse ts (push p i o) st None = Some r) by (cbn [parse] in H; destruct st as [| [? ? | [? | |] ? | |] ?]; simpl in C; try contradiction; try discriminate; auto).
      destruct X as [K H']. assert (Cl' : closed ts) by exact Cl. destruct (IH ts ltac:(lia) Cl' _ _ _ _ H' C I) as (t & ts2 & E & W & F & S & P & Len & Cl2). cbn [hint app] in E.
      exists (Plain p i t), ts2. split; [cbn [text]; rewrite E, <- app_assoc; reflexivity |]. split; [cbn [wf]; auto |]. split; [rewrite K; discriminate |]. split; [exact S |]. split; [exact P |]. split; [cbn [length]; lia | exact Cl2].
    + discriminate.
    + discriminate.
Qed.

Lemma ordered_more : forall l a b c, ordered a l b -> b <= c -> ordered a l c.
Proof. induction l as [| [n v] l IH]; intros a b c H L; simpl in *; [lia |]. destruct H as (A & V & H). split; [exact A | split; [exact V | exact (IH _ _ _ H L)]]. Qed.
Lemma ordered_snoc : forall l a b v, ordered a l b -> v <= 1 -> ordered a (l ++ [(b, v)]) (S b).
Proof. induction l as [| [n w] l IH]; intros a b v H V; simpl in *; [auto |]. destruct H as (A & W & H). auto. Qed.
Lemma ordered_bound : forall l a b, ordered a l b -> a <= b.
Proof. induction l as [| [n v] l IH]; intros a b H; simpl in H; [exact H |]. destruct H as (A & _ & H). apply IH in H. lia. Qed.
Definition good (o : code) : Prop := ordered 0 (hints o) (length (raw o)).
Lemma good_push : forall h i o, hint_ok h -> good o -> good (push h i o).
Proof.
  intros h i o H G. unfold good, push in *. cbn [raw hints]. rewrite app_length. cbn [length]. rewrite Nat.add_1_r. destruct h as [v |]; [apply ordered_snoc; assumption | apply (ordered_more _ _ _ _ G); lia].
Qed.
Definition level_ok (l : level) : Prop := match l with EndWith _ h | LIf _ h => hint_ok h | _ => True end.
Lemma parse_good : forall n ts, length ts < n -> forall o st p o' r, good o -> Forall level_ok st -> hint_ok p -> parse ts o st p = Some (o', r) -> good o'.
Proof.
  induction n as [| n IH]; intros ts L o st p o' r G F Hp H; [lia |].
  assert (Fin : finish p o ts = Some (o', r) -> good o') by (destruct p; [discriminate | intro X; injection X as <- _; exact G]).
  destruct ts as [| [| | i | | v] ts]; try discriminate; cbn [length] in L.
  - destruct st; [exact (Fin H) | discriminate].
  - destruct ts as [| [| | i | | v] ts]; try discriminate; cbn [length] in L.
    + assert (Gen : match i with IBlock _ => parse ts (push p i o) (EndWith IEnd None :: st) None | IIf _ => parse ts o (LIf (Clause i) p :: st) None | _ => parse ts o (EndWith i p :: st) None end = Some (o', r) -> good o').
      { intro X. destruct i; (eapply IH; [| | | | exact X]); try lia; try exact I; try exact G; try (apply good_push; assumption); constructor; try exact F; try exact Hp; exact I. }
      cbn [parse] in H. destruct st as [| [? ? | [? | |] ? | |] st]; try exact (Gen H); [| discriminate].
      destruct i; try discriminate. eapply IH; [| | | | exact H]; [lia | apply good_push; [exact I | exact G] | | exact Hp]. inversion F; subst. repeat constructor; assumption.
    + cbn [parse] in H. destruct st as [| [? ? | [i | |] h | |] st]; try discriminate. destruct p; [discriminate |]. inversion F; subst. eapply IH; [| | | | exact H]; [lia | apply good_push; assumption | | exact I]. repeat constructor; assumption.
    + assert (X : v <= 1 /\ parse ts o (BranchHint :: st) (Some v) = Some (o', r)).
      { cbn [parse] in H. destruct (Nat.leb_spec v 1); destruct st as [| [? ? | [? | |] ? | |] st]; try discriminate; destruct p; try discriminate; auto. }
      destruct X as [V X]. eapply IH; [| | | | exact X]; [lia | exact G | constructor; [exact I | exact F] | exact V].
  - cbn [parse] in H. destruct st as [| l st]; [exact (Fin H) |]. inversion F; subst.
    destruct l as [? ? | [? | |] ? | |]; try (destruct p; [discriminate |]); try discriminate; (eapply IH; [| | | | exact H]); try lia; try assumption; try exact I; apply good_push; try assumption; exact I.
  - assert (X : parse ts (push p i o) st None = Some (o', r)) by (cbn [parse] in H; destruct st as [| [? ? | [? | |] ? | |] st]; try discriminate; exact H).
    eapply IH; [| | | | exact X]; [lia | apply good_push; assumption | exact F | exact I].
Qed.

Lemma hints_later : forall l m n v r, hints_at m l = (n, v) :: r -> m <= n.
Proof. induction l as [| [[w |] i] l IH]; intros m n v r H; simpl in H; [discriminate | injection H as <- _ _; lia |]. apply IH in H. lia. Qed.
Lemma emit_at : forall enc start l i tmp out, emit enc start i (map snd l) (hints_at i l) tmp out = (tmp ++ flat_map (fun x => enc (snd x)) l, out ++ offsets enc (start + length tmp) l).
Proof.
  intros enc start l. induction l as [| [h x] l IH]; intros i tmp out; [simpl; rewrite !app_nil_r; reflexivity |]. cbn [map snd flat_map offsets].
  assert (Next : forall out, emit enc start (S i) (map snd l) (hints_at (S i) l) (tmp ++ enc x) out = (tmp ++ enc x ++ flat_map (fun x => enc (snd x)) l, out ++ offsets enc (start + length tmp + length (enc x)) l)).
  { intro o. rewrite IH, app_length, <- app_assoc, Nat.add_assoc. reflexivity. }
  destruct h as [v |]; cbn [hints_at emit].
  - rewrite Nat.eqb_refl, Next, <- app_assoc. reflexivity.
  - cbn [app]. rewrite <- (Next out). destruct (hints_at (S i) l) as [| [n v] r] eqn:E; [reflexivity |]. apply hints_later in E. destruct (Nat.eqb_spec n i); [lia | reflexivity].
Qed.

Lemma folded_complete : forall f ts out i st, folded_loop (ftext f ++ ts) out (i :: st) = folded_loop ts (out ++ fflat f) (i :: st).
Proof.
  induction f as [| j a IHa n IHn]; intros ts out i st; cbn [ftext fflat]; [rewrite app_nil_r; reflexivity |]. cbn [app folded_loop]. rewrite <- app_assoc, IHa. cbn [app folded_loop]. rewrite IHn, <- !app_assoc. reflexivity.
Qed.
Lemma folded_sound : forall n ts, length ts < n -> forall out i st r, folded_loop ts out (i :: st) = Some r ->
  exists f rest, ts = ftext f ++ RP :: rest /\ folded_loop (RP :: rest) (out ++ fflat f) (i :: st) = Some r.
Proof.
  induction n as [| n IH]; intros ts L out i st r H; [lia |]. destruct ts as [| [| | j | | v] ts]; try discriminate; cbn [length] in L.
  - destruct ts as [| [| | j | | v] ts]; try discriminate. cbn [length] in L. cbn [folded_loop] in H. destruct (IH ts ltac:(lia) _ _ _ _ H) as (a & ts2 & E & P). cbn [folded_loop] in P.
    assert (L2 : length ts2 < n) by (apply (f_equal (@length tok)) in E; rewrite app_length in E; cbn [length] in E; lia).
    destruct (IH ts2 L2 _ _ _ _ P) as (m & ts3 & E3 & P3). exists (FCons j a m), ts3. split; [cbn [ftext]; rewrite E, E3; cbn [app]; rewrite <- app_assoc; reflexivity |].
    cbn [fflat]. rewrite <- !app_assoc in P3. exact P3.
  - exists FNil, ts. split; [reflexivity |]. rewrite app_nil_r. exact H.
Qed.
