(** Proofs about folded printing. *)
From Coq Require Import List NArith Arith Bool Lia.
Import ListNotations.
From Verif.Folded Require Import Model Spec.
From Verif.Foldprint Require Import Model Spec.

Fixpoint tapp (a b : tree) : tree :=
  match a with
  | Nil => b
  | Plain h i n => Plain h i (tapp n b)
  | Fold h i x n => Fold h i x (tapp n b)
  | Blk h i x n => Blk h i x (tapp n b)
  | IfThen h i c t n => IfThen h i c t (tapp n b)
  | IfElse h i c t e n => IfElse h i c t e (tapp n b)
  end.
Lemma tapp_text : forall a b, text (tapp a b) = text a ++ text b.
Proof. induction a; intro b; cbn [tapp text]; repeat match goal with H : forall b, text (tapp ?n b) = _ |- context [text (tapp ?n _)] => rewrite H end; repeat (rewrite <- app_assoc; cbn [app]); reflexivity. Qed.
Lemma tapp_flat : forall a b, flat (tapp a b) = flat a ++ flat b.
Proof. induction a; intro b; cbn [tapp flat]; repeat match goal with H : forall b, flat (tapp ?n b) = _ |- context [flat (tapp ?n _)] => rewrite H end; cbn [app]; repeat (rewrite <- app_assoc; cbn [app]); reflexivity. Qed.
Lemma tapp_wf : forall a b, wf a -> wf b -> wf (tapp a b).
Proof. induction a; intros b A B; cbn [tapp wf] in *; intuition. Qed.
Lemma tapp_folded : forall a b, all_folded a -> all_folded b -> all_folded (tapp a b).
Proof. induction a; intros b A B; cbn [tapp all_folded] in *; intuition. Qed.

(** One printed instruction stands for some flat instructions; so do lists. *)
Definition den (x : finst) (o : list (option nat * instr)) : Prop := exists t, wf t /\ all_folded t /\ print x = text t /\ flat t = o.
Definition dens (l : list finst) (o : list (option nat * instr)) : Prop := exists os, Forall2 den l os /\ concat os = o.
Lemma dens_nil : dens [] []. Proof. exists []. split; [constructor | reflexivity]. Qed.
Lemma dens_app : forall a b x y, dens a x -> dens b y -> dens (a ++ b) (x ++ y).
Proof. intros a b x y (p & P & <-) (q & Q & <-). exists (p ++ q). split; [apply Forall2_app; assumption | apply concat_app]. Qed.
Lemma dens_split : forall a b o, dens (a ++ b) o -> exists x y, dens a x /\ dens b y /\ o = x ++ y.
Proof. intros a b o (os & F & <-). apply Forall2_app_inv_l in F. destruct F as (p & q & P & Q & ->). exists (concat p), (concat q). split; [exists p; auto | split; [exists q; auto | apply concat_app]]. Qed.
Lemma dens_one : forall x o, den x o -> dens [x] o. Proof. intros x o D. exists [o]. split; [constructor; [exact D | constructor] | apply app_nil_r]. Qed.
Lemma dens_tree : forall l o, dens l o -> exists t, wf t /\ all_folded t /\ flat_map print l = text t /\ flat t = o.
Proof.
  intros l o (os & F & <-). induction F as [| x y l os (t & W & A & P & E) F IH]; [exists Nil; repeat split |]. destruct IH as (t' & W' & A' & P' & E'). exists (tapp t t').
  split; [apply tapp_wf; assumption |]. split; [apply tapp_folded; assumption |]. cbn [flat_map concat]. rewrite tapp_text, tapp_flat, P, P', E, E'. auto.
Qed.

Lemma den_plain : forall n l o r h, hint_ok h -> dens l o -> den (FI (Ins (IOther n)) l r h) (o ++ [(h, IOther n)]).
Proof.
  intros n l o r h H D. apply dens_tree in D. destruct D as (t & W & A & P & E). exists (Fold h (IOther n) t Nil). split; [cbn; auto |]. split; [exact I |]. cbn [print text flat]. rewrite P, E. auto.
Qed.
Lemma den_block : forall n l o r, dens l o -> den (FI (Ins (IBlock n)) l r None) ((None, IBlock n) :: o ++ [(None, IEnd)]).
Proof. intros n l o r D. apply dens_tree in D. destruct D as (t & W & A & P & E). exists (Blk None n t Nil). split; [cbn; auto |]. split; [exact I |]. cbn [print text flat hint app]. rewrite P, E. auto. Qed.
Lemma den_if : forall n c oc l o r r' h, hint_ok h -> dens c oc -> dens l o -> den (FI (Ins (IIf n)) (c ++ [FI Then l r' None]) r h) (oc ++ (h, IIf n) :: o ++ [(None, IEnd)]).
Proof.
  intros n c oc l o r r' h H Dc D. apply dens_tree in D. apply dens_tree in Dc. destruct D as (t & W & A & P & E). destruct Dc as (t' & W' & A' & P' & E'). exists (IfThen h n t' t Nil). split; [cbn; auto 10 |]. split; [exact I |].
  cbn [print text flat]. rewrite flat_map_app. cbn [flat_map print hint app]. rewrite P, P', E, E', app_nil_r. split; [| reflexivity]. repeat (rewrite <- app_assoc; cbn [app]). reflexivity.
Qed.
Lemma den_else : forall n c oc l o e oe r r' r'' h, hint_ok h -> dens c oc -> dens l o -> dens e oe ->
  den (FI (Ins (IIf n)) (c ++ [FI Then l r' None; FI (Ins IElse) e r'' None]) r h) (oc ++ (h, IIf n) :: o ++ (None, IElse) :: oe ++ [(None, IEnd)]).
Proof.
  intros n c oc l o e oe r r' r'' h H Dc D De. apply dens_tree in D. apply dens_tree in Dc. apply dens_tree in De. destruct D as (t & W & A & P & E). destruct Dc as (t' & W' & A' & P' & E'). destruct De as (t2 & W2 & A2 & P2 & E2).
  exists (IfElse h n t' t t2 Nil). split; [cbn; auto 10 |]. split; [exact I |].
  cbn [print text flat]. rewrite flat_map_app. cbn [flat_map print hint app]. rewrite P, P', E, E', P2, E2, app_nil_r. split; [| reflexivity]. repeat (rewrite <- app_assoc; cbn [app]). reflexivity.
Qed.

(** What an open block stands for. *)
Inductive opened : block -> list (option nat * instr) -> Prop :=
  | O_block : forall n l o p c h, dens l o -> opened (mkB KBlock (Ins (IBlock n)) l p c h) ((None, IBlock n) :: o)
  | O_if : forall n p op_ l o c h, hint_ok h -> dens p op_ -> dens l o -> opened (mkB KIf (Ins (IIf n)) l (Some p) c h) (op_ ++ (h, IIf n) :: o)
  | O_else : forall n p op_ l o c oc h, hint_ok h -> dens p op_ -> dens c oc -> dens l o -> opened (mkB KElse (Ins (IIf n)) l (Some p) (Some c) h) (op_ ++ (h, IIf n) :: oc ++ (None, IElse) :: o).
Inductive inv : list block -> list (option nat * instr) -> Prop :=
  | I_root : forall l o p c h, dens l o -> inv [mkB KBlock RP l p c h] o
  | I_cons : forall b o st os, opened b o -> inv st os -> inv (b :: st) (os ++ o).

(** Replacing the instructions of the innermost block. *)
Lemma inv_set : forall b st os, inv (b :: st) os -> exists pre o, os = pre ++ o /\ dens (b_folded b) o /\ forall l o', dens l o' -> inv (set_folded b l :: st) (pre ++ o').
Proof.
  intros b st os H. inversion H as [l o p c h D E1 E2 | b' o st' os' O I' E1 E2]; subst.
  - exists [], os. split; [reflexivity |]. split; [exact D |]. intros l' o' D'. apply I_root. exact D'.
  - inversion O; subst; cbn [b_folded].
    + exists (os' ++ [(None, IBlock n)]), o0. split; [rewrite <- app_assoc; reflexivity |]. split; [assumption |]. intros l' o' D'. rewrite <- app_assoc. apply I_cons; [apply O_block; exact D' | exact I'].
    + exists (os' ++ op_ ++ [(h, IIf n)]), o0. split; [rewrite <- !app_assoc; reflexivity |]. split; [assumption |]. intros l' o' D'. rewrite <- !app_assoc. apply I_cons; [apply O_if; assumption | exact I'].
    + exists (os' ++ op_ ++ (h, IIf n) :: oc ++ [(None, IElse)]), o0. split; [repeat (rewrite <- !app_assoc; cbn [app]); reflexivity |]. split; [assumption |]. intros l' o' D'. repeat (rewrite <- !app_assoc; cbn [app]). apply I_cons; [apply O_else; assumption | exact I'].
Qed.
Lemma plain_dens : forall l o n ps rs h, hint_ok h -> dens l o -> dens (handle_plain l (Ins (IOther n)) ps rs h) (o ++ [(h, IOther n)]).
Proof.
  intros l o n ps rs h H D. unfold handle_plain.
  assert (G : forall k r, dens (firstn k l ++ [FI (Ins (IOther n)) (skipn k l) r h]) (o ++ [(h, IOther n)])).
  { intros k r. rewrite <- (firstn_skipn k l) in D. apply dens_split in D. destruct D as (x & y & X & Y & ->). rewrite <- app_assoc. apply dens_app; [exact X |]. apply dens_one. apply den_plain; assumption. }
  destruct (0 <? ps)%N; [destruct (search (rev l) 0 ps) as [[k | u] |] |]; apply G.
Qed.
Lemma pop_app : forall l a x, pop_last l = (a, x) -> l = a ++ x.
Proof. intros l a x. unfold pop_last. destruct (rev l) as [| y r] eqn:E; intro H; injection H as <- <-; apply (f_equal (@rev finst)) in E; rewrite rev_involutive in E; exact E. Qed.

Lemma visit_inv : forall o st st' os p, inv st os -> visit o st None = Some (st', p) -> p = None /\ inv st' (os ++ [(option_map value (o_hint o), o_instr o)]).
Proof.
  intros [h i ps rs] st st' os p V H. unfold visit in H. cbn [o_hint o_instr o_params o_results] in *.
  assert (Hh : match h with Some taken => Some (if taken then 1 else 0) | None => None end = option_map value h) by (destruct h; reflexivity). rewrite Hh in H. clear Hh.
  assert (K : hint_ok (option_map value h)) by (destruct h as [[|] |]; cbn; auto). revert H K. generalize (option_map value h) as q. intros q H K.
  destruct i as [n | n | | | n].
  - destruct q; [discriminate |]. injection H as <- <-. split; [reflexivity |]. apply I_cons; [apply O_block, dens_nil | exact V].
  - destruct st as [| b st]; [discriminate |]. destruct (pop_last (b_folded b)) as [l pr] eqn:E. injection H as <- <-. split; [reflexivity |]. apply pop_app in E.
    apply inv_set in V. destruct V as (pre & o & -> & D & S). rewrite E in D. apply dens_split in D. destruct D as (x & y & X & Y & ->). rewrite app_assoc, <- app_assoc. apply I_cons; [apply O_if; [exact K | exact Y | apply dens_nil] | apply S; exact X].
  - destruct q; [discriminate |]. destruct st as [| [[| |] pl l pr c hh] st]; try discriminate. injection H as <- <-. split; [reflexivity |].
    inversion V as [| b' o st'' os' O I' E1 E2]; subst. inversion O; subst. rewrite <- app_assoc. apply I_cons; [| exact I']. rewrite <- app_assoc. cbn [app]. apply O_else; try assumption. apply dens_nil.
  - destruct q; [discriminate |]. destruct st as [| b st]; [discriminate |]. destruct (close b rs) as [x |] eqn:E; [| discriminate]. destruct st as [| c st]; [discriminate |]. injection H as <- <-. split; [reflexivity |].
    inversion V as [| b' o st'' os' O I' E1 E2]; subst. assert (Dx : den x (o ++ [(None, IEnd)])).
    { inversion O; subst; cbn in E; injection E as <-; cbn [app].
      - apply den_block. assumption.
      - rewrite <- app_assoc. cbn [app]. apply den_if; assumption.
      - repeat (rewrite <- app_assoc; cbn [app]). apply den_else; assumption. }
    apply inv_set in I'. destruct I' as (pre & o2 & -> & D & S). repeat rewrite <- app_assoc. apply S. apply dens_app; [exact D | apply dens_one; exact Dx].
  - destruct st as [| b st]; [discriminate |]. injection H as <- <-. split; [reflexivity |]. apply inv_set in V. destruct V as (pre & o & -> & D & S). rewrite <- app_assoc. apply S. apply plain_dens; assumption.
Qed.
Lemma visit_all_inv : forall ops st st' os, inv st os -> visit_all ops st None = Some st' -> inv st' (os ++ meaning ops).
Proof.
  induction ops as [| o ops IH]; intros st st' os V H; cbn [visit_all meaning map] in *; [injection H as <-; rewrite app_nil_r; exact V |].
  destruct (visit o st None) as [[st1 p] |] eqn:E; [| discriminate]. apply (visit_inv _ _ _ _ _ V) in E. destruct E as [-> V1]. apply (IH _ _ _ V1) in H. rewrite <- app_assoc in H. exact H.
Qed.

(** Counting of operands. *)
Lemma yields_app : forall a b, yields (a ++ b) = (yields a + yields b)%N. Proof. induction a as [| x a IH]; intro b; simpl; [reflexivity | rewrite IH; lia]. Qed.
Lemma search_sum : forall r count params k, (params < u32max)%N -> (count <= params)%N -> search r count params = Some (inl k) ->
  k < length r /\ (count + yields (skipn k (rev r)))%N = params.
Proof.
  induction r as [| x r IH]; intros count params k U C H; [discriminate |]. cbn [search] in H. cbn [rev length]. unfold sat_add in H.
  destruct (N.eqb_spec (N.min (count + f_results x) u32max) params) as [E | E].
  - injection H as <-. split; [lia |]. rewrite skipn_app, rev_length, Nat.sub_diag. rewrite <- (rev_length r), skipn_all. simpl. lia.
  - destruct (N.ltb_spec params (N.min (count + f_results x) u32max)) as [L | L]; [discriminate |]. destruct (IH _ _ _ U L H) as [K S]. split; [lia |].
    rewrite skipn_app, rev_length, yields_app. replace (k - length r) with 0 by lia. simpl. lia.
Qed.
Lemma search_finds : forall c a count params, (params < u32max)%N -> (count < params)%N -> (count + yields c)%N = params -> exists k, search (rev (a ++ c)) count params = Some (inl k).
Proof.
  intro c. induction c as [| x c IH] using rev_ind; intros a count params U L S; [simpl in S; lia |]. rewrite yields_app in S. simpl in S. rewrite app_assoc, rev_app_distr. cbn [rev app search]. unfold sat_add.
  destruct (N.eqb_spec (N.min (count + f_results x) u32max) params) as [E | E]; [eauto |]. destruct (N.ltb_spec params (N.min (count + f_results x) u32max)) as [M | M]; [lia |].
  replace (N.min (count + f_results x) u32max) with (count + f_results x)%N by lia. apply IH; lia.
Qed.

(** Nested bodies are printed. *)
Lemma set_same : forall b, set_folded b (b_folded b) = b. Proof. intros []. reflexivity. Qed.
Lemma visit_nested : forall m, nested m -> forall ops, meaning ops = m -> forall b st rest, exists l, visit_all (ops ++ rest) (b :: st) None = visit_all rest (set_folded b l :: st) None.
Proof.
  intros m N. induction N as [| h n l Nl IHl | n bd l Nb IHb Nl IHl | h n t l Nt IHt Nl IHl | h n t e l Nt IHt Ne IHe Nl IHl]; intros ops E b st rest.
  - destruct ops; [| discriminate]. exists (b_folded b). rewrite set_same. reflexivity.
  - destruct ops as [| [h' i ps rs] ops]; [discriminate |]. cbn in E. injection E as E1 E2 E. subst i. cbn [app visit_all]. unfold visit. cbn [o_hint o_instr o_params o_results].
    match goal with |- context [set_folded b ?x :: st] => destruct (IHl ops E (set_folded b x) st rest) as [l' R] end. rewrite R. exists l'. reflexivity.
  - destruct ops as [| [h' i ps rs] ops]; [discriminate |]. cbn in E. injection E as E1 E2 E. subst i. destruct h'; [discriminate |]. apply map_eq_app in E. destruct E as (o1 & o2 & -> & Eb & E). apply map_eq_cons in E. destruct E as ([h2 i2 ps2 rs2] & o3 & -> & E3 & E). cbn in E3. injection E3 as H2 ->. destruct h2; [discriminate |].
    rewrite <- app_comm_cons, <- app_assoc. cbn [visit_all]. unfold visit at 1. cbn [o_hint o_instr]. destruct (IHb o1 Eb (mkB KBlock (Ins (IBlock n)) [] None None None) (b :: st) ((mkOp None IEnd ps2 rs2 :: o3) ++ rest)) as [lb R]. rewrite R. cbn [app visit_all visit o_hint o_instr close set_folded b_kind b_pred b_cons b_plain b_folded b_hint o_results].
    match goal with |- exists _, visit_all _ (?B :: st) None = _ => destruct (IHl o3 E B st rest) as [l' R'] end. exists l'. exact R'.
  - destruct ops as [| [h' i ps rs] ops]; [discriminate |]. cbn in E. injection E as E1 E2 E. subst i. apply map_eq_app in E. destruct E as (o1 & o2 & -> & Eb & E). apply map_eq_cons in E. destruct E as ([h2 i2 ps2 rs2] & o3 & -> & E3 & E). cbn in E3. injection E3 as H2 ->. destruct h2; [discriminate |].
    rewrite <- app_comm_cons, <- app_assoc. cbn [visit_all]. unfold visit at 1. cbn [o_hint o_instr]. destruct (pop_last (b_folded b)) as [l0 pr].
    match goal with |- context [mkB KIf ?p ?f ?a ?c ?q :: ?s] => destruct (IHt o1 Eb (mkB KIf p f a c q) s ((mkOp None IEnd ps2 rs2 :: o3) ++ rest)) as [lb R] end. rewrite R. cbn [app visit_all visit o_hint o_instr close set_folded b_kind b_pred b_cons b_plain b_folded b_hint o_results].
    match goal with |- exists _, visit_all _ (?B :: st) None = _ => destruct (IHl o3 E B st rest) as [l' R'] end. exists l'. exact R'.
  - destruct ops as [| [h' i ps rs] ops]; [discriminate |]. cbn in E. injection E as E1 E2 E. subst i. apply map_eq_app in E. destruct E as (o1 & o2 & -> & Eb & E). apply map_eq_cons in E. destruct E as ([h2 i2 ps2 rs2] & o3 & -> & E3 & E). cbn in E3. injection E3 as H2 ->. destruct h2; [discriminate |].
    apply map_eq_app in E. destruct E as (o4 & o5 & -> & Ee & E). apply map_eq_cons in E. destruct E as ([h6 i6 ps6 rs6] & o6 & -> & E6 & E). cbn in E6. injection E6 as H6 ->. destruct h6; [discriminate |].
    rewrite <- app_comm_cons, <- app_assoc. cbn [visit_all]. unfold visit at 1. cbn [o_hint o_instr]. destruct (pop_last (b_folded b)) as [l0 pr].
    match goal with |- context [mkB KIf ?p ?f ?a ?c ?q :: ?s] => destruct (IHt o1 Eb (mkB KIf p f a c q) s ((mkOp None IElse ps2 rs2 :: o4 ++ mkOp None IEnd ps6 rs6 :: o6) ++ rest)) as [lb R] end. rewrite R. cbn [app visit_all visit o_hint o_instr set_folded b_kind b_pred b_cons b_plain b_folded b_hint]. rewrite <- app_assoc.
    match goal with |- context [mkB KElse ?p ?f ?a ?c ?q :: ?s] => destruct (IHe o4 Ee (mkB KElse p f a c q) s ((mkOp None IEnd ps6 rs6 :: o6) ++ rest)) as [le R2] end. rewrite R2. cbn [app visit_all visit o_hint o_instr close set_folded b_kind b_pred b_cons b_plain b_folded b_hint o_results].
    match goal with |- exists _, visit_all _ (?B :: st) None = _ => destruct (IHl o6 E B st rest) as [l' R'] end. exists l'. exact R'.
Qed.

Lemma offsets_later : forall enc l at_ off v r, offsets enc at_ l = (off, v) :: r -> at_ <= off.
Proof. intros enc l. induction l as [| [[w |] i] l IH]; intros at_ off v r H; cbn in H; [discriminate | injection H as <- _ _; lia |]. apply IH in H. lia. Qed.
Lemma attach_offsets : forall enc arity l at_, (forall i, enc i <> []) -> Forall (fun x => hint_ok (fst x)) l -> meaning (attach enc arity at_ (map snd l) (offsets enc at_ l)) = l.
Proof.
  intros enc arity l at_ NE F. revert at_. induction F as [| [h i] l H F IH]; intro at_; [reflexivity |]. cbn [map snd attach offsets]. cbn [fst] in H. destruct h as [v |].
  - cbn [app]. rewrite Nat.eqb_refl. cbn [meaning map o_hint o_instr option_map]. fold (meaning (attach enc arity (at_ + length (enc i)) (map snd l) (offsets enc (at_ + length (enc i)) l))). rewrite IH. cbn in H. destruct v as [| [| v]]; [reflexivity | reflexivity | lia].
  - cbn [app]. assert (X : forall hs, hs = offsets enc (at_ + length (enc i)) l -> match hs with (off, v) :: r => if Nat.eqb off at_ then (Some (Nat.eqb v 1), r) else (None, hs) | [] => (None, []) end = (None, hs)).
    { intros [| [off v] r] E; [reflexivity |]. symmetry in E. apply offsets_later in E. specialize (NE i). destruct (Nat.eqb_spec off at_); [| reflexivity]. destruct (enc i); [contradiction | cbn in E; lia]. }
    rewrite (X _ eq_refl). cbn [meaning map o_hint o_instr option_map]. fold (meaning (attach enc arity (at_ + length (enc i)) (map snd l) (offsets enc (at_ + length (enc i)) l))). rewrite IH. reflexivity.
Qed.
Lemma flat_hints : forall t, wf t -> Forall (fun x : option nat * instr => hint_ok (fst x)) (flat t).
Proof. induction t; cbn [wf flat]; intro W; repeat match goal with H : _ /\ _ |- _ => destruct H end; repeat (first [apply Forall_app; split | constructor]); cbn; auto. Qed.
