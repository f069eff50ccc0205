(** Proofs about the expansion of inline function types. *)
From Coq Require Import List Arith Bool Lia.
Import ListNotations.
From Verif.Inline Require Import Model Spec.

Definition ext (m m' : list (fty * idx)) : Prop := forall k i, lookup k m = Some i -> lookup k m' = Some i.
Lemma ext_refl : forall m, ext m m. Proof. intros m k i H. exact H. Qed.
Lemma ext_trans : forall a b c, ext a b -> ext b c -> ext a c. Proof. intros a b c H1 H2 k i H. auto. Qed.
Lemma lookup_app : forall k m m', lookup k (m ++ m') = match lookup k m with Some i => Some i | None => lookup k m' end.
Proof. intros k m m'. induction m as [| [k' i] m IH]; simpl; [reflexivity |]. destruct (fty_dec k k'); auto. Qed.
Lemma insert_ext : forall k i m, ext m (insert k i m).
Proof. intros k i m k' i' H. unfold insert. destruct (lookup k m); [exact H |]. rewrite lookup_app, H. reflexivity. Qed.

(** The map is that of the first definitions. *)
Definition first_entry (l : list (option id * tdef)) (k : fty) (i : idx) : Prop :=
  exists a b x d, l = a ++ (Some x, d) :: b /\ i = Sym x /\ d_kind d = KFunc k /\ forall e, In e a -> d_kind (snd e) <> KFunc k.
Definition right (l : list (option id * tdef)) (m : list (fty * idx)) : Prop :=
  forall k, match lookup k m with Some i => first_entry l k i | None => forall e, In e l -> d_kind (snd e) <> KFunc k end.
Lemma first_entry_app : forall l l' k i, first_entry l k i -> first_entry (l ++ l') k i.
Proof. intros l l' k i (a & b & x & d & E & H). exists a, (b ++ l'), x, d. split; [| exact H]. rewrite E, <- app_assoc. reflexivity. Qed.
Lemma right_func : forall l m x d k, right l m -> d_kind d = KFunc k -> right (l ++ [(Some x, d)]) (insert k (Sym x) m).
Proof.
  intros l m x d k R D k'. unfold insert. pose proof (R k') as R'. pose proof (R k) as Rk. destruct (lookup k m) as [i |] eqn:L.
  - destruct (lookup k' m) eqn:L'; [apply first_entry_app; exact R' |]. intros e He. apply in_app_or in He. destruct He as [He | [<- | []]]; [auto |]. simpl. rewrite D. intro C. injection C as C. subst. congruence.
  - rewrite lookup_app. destruct (lookup k' m) eqn:L'; [apply first_entry_app; exact R' |]. simpl. destruct (fty_dec k' k) as [-> | N].
    + exists l, [], x, d. repeat split; auto.
    + intros e He. apply in_app_or in He. destruct He as [He | [<- | []]]; [auto |]. simpl. rewrite D. congruence.
Qed.
Lemma right_other : forall l m x d, right l m -> (forall k, d_kind d <> KFunc k) -> right (l ++ [(x, d)]) m.
Proof.
  intros l m x d R D k. specialize (R k). destruct (lookup k m); [apply first_entry_app; exact R |]. intros e He. apply in_app_or in He. destruct He as [He | [<- | []]]; [auto | apply D].
Qed.

(** The second pass: the new types, over the definitions [l0] and identifiers from [c0]. *)
Definition entries (n : list (id * tdef)) : list (option id * tdef) := map (fun e => (Some (fst e), snd e)) n.
Record inv (l0 : list (option id * tdef)) (c0 : nat) (s : st) : Prop := mkInv {
  i_right : right (l0 ++ entries (s_new s)) (s_map s);
  i_fresh : forall e, In e (s_new s) -> exists n, fst e = Gen n /\ c0 <= n < s_next s;
  i_nodup : NoDup (map fst (s_new s));
  i_le : c0 <= s_next s;
  i_keys : exists ks, map snd (s_new s) = map to_def ks /\ NoDup ks /\ forall k e, In k ks -> In e l0 -> d_kind (snd e) <> KFunc k
}.
Lemma nodup_snoc : forall A (l : list A) x, NoDup l -> ~ In x l -> NoDup (l ++ [x]).
Proof.
  intros A l x H N. induction H as [| y l Hy H IH]; simpl; [repeat constructor; intros [] |]. constructor.
  - intro C. apply in_app_or in C. destruct C as [C | [-> | []]]; [auto |]. apply N. left. reflexivity.
  - apply IH. intro C. apply N. right. exact C.
Qed.
(** New types are those of uses that need one. *)
Definition asks (us : list (bool * use)) (n n' : list (id * tdef)) : Prop := forall e, In e n' -> In e n \/ exists a, In a us /\ needs a /\ snd e = to_def (signature (snd a)).
Lemma asks_refl : forall us n, asks us n n. Proof. intros us n e H. left. exact H. Qed.
Lemma asks_app : forall u1 u2 n n1 n2, asks u1 n n1 -> asks u2 n1 n2 -> asks (u1 ++ u2) n n2.
Proof.
  intros u1 u2 n n1 n2 A B e H. destruct (B e H) as [H1 | (a & Ha & X)]; [| right; exists a; split; [apply in_or_app; right; exact Ha | exact X]].
  destruct (A e H1) as [H2 | (a & Ha & X)]; [left; exact H2 | right; exists a; split; [apply in_or_app; left; exact Ha | exact X]].
Qed.
Lemma key_new : forall k s i s', key_to_idx k s = (i, s') -> forall e, In e (s_new s') -> In e (s_new s) \/ snd e = to_def k.
Proof.
  intros k s i s' H e He. unfold key_to_idx in H. destruct (lookup k (s_map s)); injection H as <- <-; [left; exact He |]. simpl in He. apply in_app_or in He. destruct He as [He | [<- | []]]; auto.
Qed.
Lemma key_inv : forall l0 c0 k s i s', inv l0 c0 s -> key_to_idx k s = (i, s') -> inv l0 c0 s' /\ ext (s_map s) (s_map s') /\ lookup k (s_map s') = Some i.
Proof.
  intros l0 c0 k s i s' I H. unfold key_to_idx in H. destruct (lookup k (s_map s)) as [j |] eqn:L; injection H as <- <-; [split; [exact I | split; [apply ext_refl | exact L]] |].
  destruct I as [R F N Le (ks & K1 & K2 & K3)]. split; [| split; [apply insert_ext |]].
  - pose proof (R k) as Rk. rewrite L in Rk. constructor; simpl.
    + unfold entries. rewrite map_app, app_assoc. simpl. apply right_func; [exact R | reflexivity].
    + intros e He. apply in_app_or in He. destruct He as [He | [<- | []]]; [destruct (F e He) as (n & E & B); exists n; split; [exact E | lia] |]. exists (s_next s). split; [reflexivity | lia].
    + rewrite map_app. apply nodup_snoc; [exact N |]. intro C. apply in_map_iff in C. destruct C as (e & E & He). destruct (F e He) as (n & E' & B). rewrite E' in E. simpl in E. injection E as E. lia.
    + lia.
    + exists (ks ++ [k]). split; [rewrite !map_app, K1; reflexivity |]. split.
      * apply nodup_snoc; [exact K2 |]. intro C. assert (Hd : In (to_def k) (map snd (s_new s))) by (rewrite K1; apply in_map; exact C).
        apply in_map_iff in Hd. destruct Hd as (e & E & He). apply (Rk (Some (fst e), snd e)); [apply in_or_app; right; unfold entries; apply in_map_iff; exists e; auto |]. simpl. rewrite E. reflexivity.
      * intros k' e Hk He. apply in_app_or in Hk. destruct Hk as [Hk | [<- | []]]; [exact (K3 k' e Hk He) |]. apply Rk. apply in_or_app. left. exact He.
  - simpl. unfold insert. rewrite L, lookup_app, L. simpl. destruct (fty_dec k k); [reflexivity | contradiction].
Qed.

(** What a use becomes, for a map. *)
Definition became (m : list (fty * idx)) (a b : bool * use) : Prop :=
  fst b = fst a /\
  match u_index (snd a) with
  | Some _ => snd b = snd a
  | None =>
    (fst a = true /\ simple (signature (snd a)) /\ snd b = mkUse None (Some (signature (snd a)))) \/
    (~ (fst a = true /\ simple (signature (snd a))) /\ exists i, snd b = mkUse (Some i) (u_inline (snd a)) /\ lookup (signature (snd a)) m = Some i)
  end.
Lemma became_ext : forall m m' a b, ext m m' -> became m a b -> became m' a b.
Proof.
  intros m m' a b E [H1 H2]. split; [exact H1 |]. destruct (u_index (snd a)); [exact H2 |]. destruct H2 as [H2 | (N & i & H2 & H3)]; [left; exact H2 | right]. split; [exact N |]. exists i. auto.
Qed.
Lemma becames_ext : forall m m' l l', ext m m' -> Forall2 (became m) l l' -> Forall2 (became m') l l'.
Proof. intros m m' l l' E H. induction H; constructor; auto. eapply became_ext; eassumption. Qed.

Section Step.
Variables (l0 : list (option id * tdef)) (c0 : nat).
(** A step of the second pass is good. *)
Definition good {A} (us : A -> list (bool * use)) (br : A -> A) (f : A -> st -> A * st) : Prop :=
  forall a s a' s', f a s = (a', s') -> inv l0 c0 s -> inv l0 c0 s' /\ ext (s_map s) (s_map s') /\ Forall2 (became (s_map s')) (us a) (us a') /\ br a' = br a /\ asks (us a) (s_new s) (s_new s').
Lemma walk_good : forall A us (br : A -> A) f, good us br f -> good (flat_map us) (map br) (walk f).
Proof.
  intros A us br f G l. induction l as [| a l IH]; intros s l' s' H I; simpl in H.
  - injection H as <- <-. split; [exact I | split; [apply ext_refl | split; [constructor | split; [reflexivity | apply asks_refl]]]].
  - destruct (f a s) as [a' s1] eqn:F. destruct (walk f l s1) as [l1 s2] eqn:W. injection H as <- <-.
    destruct (G _ _ _ _ F I) as (I1 & E1 & B1 & S1 & Q1). destruct (IH _ _ _ W I1) as (I2 & E2 & B2 & S2 & Q2).
    split; [exact I2 | split; [eapply ext_trans; eassumption | split]]; simpl; [| rewrite S1, S2; split; [reflexivity | eapply asks_app; eassumption]].
    apply Forall2_app; [eapply becames_ext; eassumption | exact B2].
Qed.
Lemma opt_good : forall A us (br : A -> A) f, good us br f -> good (fun o => match o with Some a => us a | None => [] end) (option_map br) (walk_opt f).
Proof.
  intros A us br f G [a |] s a' s' H I; simpl in H.
  - destruct (f a s) as [a1 s1] eqn:F. injection H as <- <-. destruct (G _ _ _ _ F I) as (I1 & E1 & B1 & S1 & Q1). simpl. rewrite S1. auto 10.
  - injection H as <- <-. split; [exact I | split; [apply ext_refl | split; [constructor | split; [reflexivity | apply asks_refl]]]].
Qed.
Lemma use_good : forall b u s u' s', expand_use u s = (u', s') -> (u_index u = None -> ~ (b = true /\ simple (signature u))) -> inv l0 c0 s ->
  inv l0 c0 s' /\ ext (s_map s) (s_map s') /\ became (s_map s') (b, u) (b, u') /\ asks [(b, u)] (s_new s) (s_new s').
Proof.
  intros b u s u' s' H N I. unfold expand_use in H. destruct (u_index u) as [j |] eqn:U.
  - injection H as <- <-. split; [exact I | split; [apply ext_refl |]]. split; [| apply asks_refl]. split; [reflexivity |]. simpl. rewrite U. reflexivity.
  - destruct (key_to_idx _ s) as [i s1] eqn:K in H. injection H as <- <-. destruct (key_inv _ _ _ _ _ _ I K) as (I1 & E1 & L1). split; [exact I1 | split; [exact E1 |]]. split.
    2: { intros e He. destruct (key_new _ _ _ _ K e He) as [He' | He']; [left; exact He' | right]. exists (b, u). split; [left; reflexivity | split; [split; [exact U | exact (N eq_refl)] | exact He']]. }
    split; [reflexivity |]. simpl. rewrite U. right. split; [exact (N eq_refl) |]. exists i. split; [reflexivity | exact L1].
Qed.
Lemma plain_use_good : forall u s u' s', expand_use u s = (u', s') -> inv l0 c0 s -> inv l0 c0 s' /\ ext (s_map s) (s_map s') /\ became (s_map s') (false, u) (false, u') /\ asks [(false, u)] (s_new s) (s_new s').
Proof. intros u s u' s' H I. eapply use_good; [exact H | intros _ [C _]; discriminate | exact I]. Qed.
Lemma instr_good : good instr_uses bare_instr expand_instr.
Proof.
  intros i s i' s' H I. destruct i as [k u | k u | n]; simpl in H.
  - destruct (u_index u) as [j |] eqn:U.
    + injection H as <- <-. split; [exact I | split; [apply ext_refl | split; [| split; [reflexivity | apply asks_refl]]]]. repeat constructor. simpl. rewrite U. reflexivity.
    + destruct (u_inline u) as [f |] eqn:V.
      * destruct ((length (f_params f) =? 0) && (length (f_results f) <=? 1)) eqn:T.
        -- injection H as <- <-. split; [exact I | split; [apply ext_refl | split; [| split; [reflexivity | apply asks_refl]]]]. repeat constructor. simpl. rewrite U. left. apply andb_prop in T. destruct T as [T1 T2].
           apply Nat.eqb_eq in T1. apply Nat.leb_le in T2. unfold signature, simple. rewrite V. split; [reflexivity |]. split; [split; [apply length_zero_iff_nil; exact T1 | exact T2] |]. destruct u; simpl in *. congruence.
        -- destruct (expand_use u s) as [u1 s1] eqn:X. injection H as <- <-.
           assert (N : u_index u = None -> ~ (true = true /\ simple (signature u))).
           { intros _ [_ [C1 C2]]. unfold signature in *. rewrite V in *. rewrite C1 in T. simpl in T. apply Nat.leb_le in C2. congruence. }
           destruct (use_good true _ _ _ _ X N I) as (I1 & E1 & B1 & Q1). split; [exact I1 | split; [exact E1 | split; [| split; [reflexivity | exact Q1]]]]. constructor; [exact B1 | constructor].
      * injection H as <- <-. split; [exact I | split; [apply ext_refl | split; [| split; [reflexivity | apply asks_refl]]]]. repeat constructor. simpl. rewrite U. left. unfold signature, simple. rewrite V. simpl. repeat split; lia.
  - destruct (expand_use u s) as [u1 s1] eqn:X. injection H as <- <-. destruct (plain_use_good _ _ _ _ X I) as (I1 & E1 & B1 & Q1). split; [exact I1 | split; [exact E1 | split; [| split; [reflexivity | exact Q1]]]]. constructor; [exact B1 | constructor].
  - injection H as <- <-. split; [exact I | split; [apply ext_refl | split; [constructor | split; [reflexivity | apply asks_refl]]]].
Qed.
Lemma expr_good : good expr_uses (map bare_instr) expand_expr.
Proof. apply walk_good. exact instr_good. Qed.
Lemma oexpr_good : good opt_uses (option_map (map bare_instr)) (walk_opt expand_expr).
Proof. exact (opt_good _ _ _ _ expr_good). Qed.
Lemma sig_good : good (fun x => match x with SUse _ u => [(false, u)] | SOther _ => [] end) (fun x => match x with SUse k _ => SUse k no_use | SOther n => SOther n end) expand_sig.
Proof.
  intros [k u | n] s x' s' H I; simpl in H.
  - destruct (expand_use u s) as [u1 s1] eqn:X. injection H as <- <-. destruct (plain_use_good _ _ _ _ X I) as (I1 & E1 & B1 & Q1). split; [exact I1 | split; [exact E1 | split; [| split; [reflexivity | exact Q1]]]]. constructor; [exact B1 | constructor].
  - injection H as <- <-. split; [exact I | split; [apply ext_refl | split; [constructor | split; [reflexivity | apply asks_refl]]]].
Qed.
Lemma field_good : good field_uses bare expand_field.
Proof.
  intros f s f' s' H I. destruct f as [x d | l | l | u b | e | e | o es | u | e | n]; simpl in H.
  1, 2, 10: injection H as <- <-; split; [exact I | split; [apply ext_refl | split; [constructor | split; [reflexivity | apply asks_refl]]]].
  2: { destruct (expand_use u s) as [u1 s1] eqn:X. destruct (walk_opt expand_expr b s1) as [b1 s2] eqn:Y. injection H as <- <-.
       destruct (plain_use_good _ _ _ _ X I) as (I1 & E1 & B1 & Q1). destruct (oexpr_good _ _ _ _ Y I1) as (I2 & E2 & B2 & S2 & Q2).
       split; [exact I2 | split; [eapply ext_trans; eassumption | split]]; simpl; [| rewrite S2; split; [reflexivity | exact (asks_app _ _ _ _ _ Q1 Q2)]]. constructor; [eapply became_ext; eassumption | exact B2]. }
  4: { destruct (walk_opt expand_expr o s) as [o1 s1] eqn:X. destruct (walk expand_expr es s1) as [es1 s2] eqn:Y. injection H as <- <-.
       destruct (oexpr_good _ _ _ _ X I) as (I1 & E1 & B1 & S1 & Q1). destruct (walk_good _ _ _ _ expr_good _ _ _ _ Y I1) as (I2 & E2 & B2 & S2 & Q2).
       split; [exact I2 | split; [eapply ext_trans; eassumption | split]]; simpl; [| rewrite S1, S2; split; [reflexivity | exact (asks_app _ _ _ _ _ Q1 Q2)]]. apply Forall2_app; [eapply becames_ext; eassumption | exact B2]. }
  4: { destruct (expand_use u s) as [u1 s1] eqn:X. injection H as <- <-. destruct (plain_use_good _ _ _ _ X I) as (I1 & E1 & B1 & Q1). split; [exact I1 | split; [exact E1 | split; [| split; [reflexivity | exact Q1]]]]. constructor; [exact B1 | constructor]. }
  1: { destruct (walk expand_sig l s) as [l1 s1] eqn:X. injection H as <- <-. destruct (walk_good _ _ _ _ sig_good _ _ _ _ X I) as (I1 & E1 & B1 & S1 & Q1). split; [exact I1 | split; [exact E1 | split; [exact B1 |]]]. simpl. rewrite S1. split; [reflexivity | exact Q1]. }
  all: destruct (walk_opt expand_expr e s) as [e1 s1] eqn:X; injection H as <- <-; destruct (oexpr_good _ _ _ _ X I) as (I1 & E1 & B1 & S1 & Q1); split; [exact I1 | split; [exact E1 | split; [exact B1 |]]]; simpl; rewrite S1; split; [reflexivity | exact Q1].
Qed.
End Step.

(** The second pass leaves the types alone. *)
Lemma field_types : forall f s f' s', expand_field f s = (f', s') -> single_types [f'] = single_types [f] /\ all_types [f'] = all_types [f].
Proof.
  intros f s f' s' H. destruct f; simpl in H; repeat match type of H with context [let (_, _) := ?e in _] => destruct e end; injection H as <- <-; split; reflexivity.
Qed.
Lemma single_cons : forall f fs, single_types (f :: fs) = single_types [f] ++ single_types fs. Proof. intros f fs. unfold single_types. simpl. rewrite app_nil_r. reflexivity. Qed.
Lemma all_cons : forall f fs, all_types (f :: fs) = all_types [f] ++ all_types fs. Proof. intros f fs. unfold all_types. simpl. rewrite app_nil_r. reflexivity. Qed.
Lemma fields_types : forall fs s fs' s', walk expand_field fs s = (fs', s') -> single_types fs' = single_types fs /\ all_types fs' = all_types fs.
Proof.
  induction fs as [| f fs IH]; intros s fs' s' H; simpl in H; [injection H as <- <-; auto |].
  destruct (expand_field f s) as [f1 s1] eqn:F. destruct (walk expand_field fs s1) as [fs1 s2] eqn:W. injection H as <- <-. destruct (field_types _ _ _ _ F) as [A B]. destruct (IH _ _ _ W) as [C D].
  rewrite single_cons, (single_cons f), all_cons, (all_cons f), A, B, C, D. auto.
Qed.
Definition ids (l : list (option id * tdef)) : list id := flat_map (fun e => match fst e with Some x => [x] | None => [] end) l.
Lemma ids_app : forall a b, ids (a ++ b) = ids a ++ ids b. Proof. intros a b. apply flat_map_app. Qed.

(** The first pass. *)
Lemma header_pass : forall fs l s fs' s', walk expand_header fs s = (fs', s') -> right l (s_map s) -> (forall n, ~ In (Gen n) (type_ids fs)) ->
  right (l ++ single_types fs') (s_map s') /\ s_new s' = s_new s /\ s_next s <= s_next s' /\ uses fs' = uses fs /\ map bare fs' = map bare fs /\
  map snd (single_types fs') = map snd (single_types fs) /\ (forall e, In e (single_types fs') -> fst e <> None) /\
  (NoDup (type_ids fs) -> NoDup (type_ids fs')) /\ (forall x, In x (type_ids fs') -> In x (type_ids fs) \/ exists n, x = Gen n /\ s_next s <= n < s_next s').
Proof.
  induction fs as [| f fs IH]; intros l s fs' s' H R G; simpl in H.
  - injection H as <- <-. simpl. rewrite app_nil_r. split; [exact R |]. repeat split; auto.
  - destruct (expand_header f s) as [f1 s1] eqn:F. destruct (walk expand_header fs s1) as [fs1 s2] eqn:W. injection H as <- <-.
    assert (T : forall a b, type_ids (a :: b) = ids (all_types [a]) ++ type_ids b) by (intros a b; unfold type_ids; rewrite all_cons; apply ids_app).
    assert (Gf : forall n, ~ In (Gen n) (type_ids fs)) by (intros n C; apply (G n); rewrite T; apply in_or_app; right; exact C).
    destruct f as [x d | r | | | | | | | | ].
    1: { simpl in F. set (xc := match x with Some x => (x, s_next s) | None => (Gen (s_next s), S (s_next s)) end) in F. destruct xc as [y c] eqn:XC. injection F as <- <-.
      assert (R1 : right (l ++ [(Some y, d)]) (match d_kind d with KFunc k => insert k (Sym y) (s_map s) | KOther _ => s_map s end)).
      { destruct (d_kind d) as [k | n] eqn:K; [apply right_func; assumption | apply right_other; [exact R | intros k C; congruence]]. }
      destruct (IH _ _ _ _ W R1 Gf) as (A1 & A2 & A3 & A4 & A5 & A6 & A7 & A8 & A9). simpl in A2, A3, A9.
      assert (Hc : s_next s <= c) by (subst xc; destruct x; injection XC as <- <-; lia).
      assert (Y : (x = Some y /\ c = s_next s) \/ (x = None /\ y = Gen (s_next s) /\ c = S (s_next s))) by (subst xc; destruct x; injection XC as <- <-; auto).
      split; [rewrite single_cons; rewrite <- app_assoc in A1; exact A1 |]. split; [exact A2 |]. split; [lia |]. split; [exact A4 |]. split.
      { simpl. rewrite A5. f_equal. f_equal. destruct Y as [[-> _] | (-> & -> & _)]; reflexivity. }
      split; [simpl; rewrite A6; reflexivity |]. split; [intros e [<- | He]; [discriminate | exact (A7 e He)] |].
      rewrite !T. simpl. destruct Y as [[-> ->] | (-> & -> & ->)]; simpl.
      - split.
        + intro N. inversion N as [| ? ? N1 N2]; subst. constructor; [| exact (A8 N2)]. intro C. destruct (A9 _ C) as [C' | (n & -> & _)]; [exact (N1 C') |]. apply (G n). rewrite T. simpl. left. reflexivity.
        + intros z [<- | Hz]; [left; left; reflexivity |]. destruct (A9 _ Hz) as [Hz' | (n & E & B)]; [left; right; exact Hz' | right; exists n; split; [exact E | lia]].
      - split.
        + intro N. constructor; [| exact (A8 N)]. intro C. destruct (A9 _ C) as [C' | (n & E & B)]; [exact (Gf _ C') |]. injection E as E. lia.
        + intros z [<- | Hz]; [right; exists (s_next s); split; [reflexivity | lia] |]. destruct (A9 _ Hz) as [Hz' | (n & E & B)]; [left; exact Hz' | right; exists n; split; [exact E | lia]]. }
    all: simpl in F; injection F as <- <-; destruct (IH _ _ _ _ W R Gf) as (A1 & A2 & A3 & A4 & A5 & A6 & A7 & A8 & A9).
    2-9: split; [exact A1 |]; split; [exact A2 |]; split; [exact A3 |]; split; [unfold uses in *; simpl; rewrite A4; reflexivity |]; split; [simpl; rewrite A5; reflexivity |]; split; [exact A6 |]; split; [exact A7 |]; split; [exact A8 | exact A9].
    split; [exact A1 |]; split; [exact A2 |]; split; [exact A3 |]; split; [exact A4 |]; split; [simpl; rewrite A5; reflexivity |]; split; [exact A6 |]; split; [exact A7 |]. rewrite !T. split.
    + assert (Gr : forall n, ~ In (Gen n) (ids (all_types [FRec r]))) by (intros n C; apply (G n); rewrite T; apply in_or_app; left; exact C).
      revert Gr. generalize (ids (all_types [FRec r])). induction l0 as [| z q IHq]; simpl; intros Gq Nq; [exact (A8 Nq) |].
      inversion Nq as [| ? ? N1 N2]; subst. constructor; [| apply IHq; [intros n C; apply (Gq n); right; exact C | exact N2]].
      intro C. apply in_app_or in C. destruct C as [C | C]; [apply N1; apply in_or_app; left; exact C |]. destruct (A9 _ C) as [C' | (n & -> & _)]; [apply N1; apply in_or_app; right; exact C' | apply (Gq n); left; reflexivity].
    + intros z Hz. apply in_app_or in Hz. destruct Hz as [Hz | Hz]; [left; apply in_or_app; left; exact Hz |]. destruct (A9 _ Hz) as [Hz' | E]; [left; apply in_or_app; right; exact Hz' | right; exact E].
Qed.

(** Both passes together. *)
Lemma single_app : forall a b, single_types (a ++ b) = single_types a ++ single_types b. Proof. intros a b. apply flat_map_app. Qed.
Lemma all_app : forall a b, all_types (a ++ b) = all_types a ++ all_types b. Proof. intros a b. apply flat_map_app. Qed.
Definition added (n : list (id * tdef)) : list field := map (fun e => FType (Some (fst e)) (snd e)) n.
Lemma added_single : forall n, single_types (added n) = entries n. Proof. induction n as [| e n IH]; simpl; [reflexivity | rewrite IH; reflexivity]. Qed.
Lemma added_all : forall n, all_types (added n) = entries n. Proof. induction n as [| e n IH]; simpl; [reflexivity | rewrite IH; reflexivity]. Qed.
Lemma added_uses : forall n, uses (added n) = []. Proof. induction n as [| e n IH]; simpl; [reflexivity | exact IH]. Qed.
Lemma entries_ids : forall n, ids (entries n) = map fst n. Proof. induction n as [| e n IH]; simpl; [reflexivity | rewrite IH; reflexivity]. Qed.
Lemma nodup_app : forall A (a b : list A), NoDup a -> NoDup b -> (forall x, In x a -> ~ In x b) -> NoDup (a ++ b).
Proof.
  intros A a b Ha Hb H. induction Ha as [| x a Hx Ha IH]; simpl; [exact Hb |]. constructor; [| apply IH; intros y Hy; apply H; right; exact Hy].
  intro C. apply in_app_or in C. destruct C as [C | C]; [exact (Hx C) | exact (H x (or_introl eq_refl) C)].
Qed.
Lemma expand_all : forall c fs, source fs ->
  Forall2 (expanded (expand c fs)) (uses fs) (uses (expand c fs)) /\ NoDup (type_ids (expand c fs)) /\ (forall e, In e (single_types (expand c fs)) -> fst e <> None) /\
  exists ks, map bare (expand c fs) = map bare fs ++ map (fun k => FType None (to_def k)) ks /\ map snd (single_types (expand c fs)) = map snd (single_types fs) ++ map to_def ks /\
    NoDup ks /\ (forall k e, In k ks -> In e (single_types fs) -> d_kind (snd e) <> KFunc k) /\ forall k, In k ks -> exists a, In a (uses fs) /\ needs a /\ signature (snd a) = k.
Proof.
  intros c fs [ND G]. unfold expand. destruct (walk expand_header fs (mkSt c [] [])) as [fs1 s1] eqn:W1. destruct (walk expand_field fs1 s1) as [fs2 s2] eqn:W2.
  assert (R0 : right [] (s_map (mkSt c [] []))) by (intro k; simpl; intros e []).
  destruct (header_pass _ _ _ _ _ W1 R0 G) as (A1 & A2 & A3 & A4 & A5 & A6 & A7 & A8 & A9). simpl in A1, A2, A3, A9.
  assert (I1 : inv (single_types fs1) (s_next s1) s1).
  { constructor; rewrite ?A2; simpl; [rewrite app_nil_r; exact A1 | intros e [] | constructor | lia |]. exists []. split; [reflexivity | split; [constructor | intros k e []]]. }
  destruct (walk_good _ _ _ _ _ _ (field_good _ _) _ _ _ _ W2 I1) as (I2 & E2 & B2 & S2 & Q2). change (flat_map field_uses) with uses in B2, Q2. destruct (fields_types _ _ _ _ W2) as [T1 T2].
  fold (added (s_new s2)). destruct I2 as [R2 F2 N2 L2 (ks & K1 & K2 & K3)].
  assert (ST : single_types (fs2 ++ added (s_new s2)) = single_types fs1 ++ entries (s_new s2)) by (rewrite single_app, added_single, T1; reflexivity).
  split; [| split; [| split]].
  - assert (U : uses (fs2 ++ added (s_new s2)) = uses fs2) by (unfold uses; rewrite flat_map_app; fold (uses (added (s_new s2))); rewrite added_uses, app_nil_r; reflexivity).
    rewrite U, <- A4. revert B2. generalize (uses fs1) (uses fs2). intros p q B2. induction B2 as [| a b p' q' B B2 IH]; constructor; [| exact IH]. destruct B as [B1 B3]. split; [exact B1 |].
    destruct (u_index (snd a)); [exact B3 |]. destruct B3 as [B3 | (N & i & B3 & B4)]; [left; exact B3 | right]. split; [exact N |].
    pose proof (R2 (signature (snd a))) as Rk. rewrite B4 in Rk. destruct Rk as (x1 & x2 & x & d & Z1 & Z2 & Z3 & Z4). subst i. exists x, d. split; [exact B3 |]. exists x1, x2. rewrite ST. auto.
  - unfold type_ids. fold (ids (all_types (fs2 ++ added (s_new s2)))). rewrite all_app, added_all, T2, ids_app, entries_ids. apply nodup_app; [exact (A8 ND) | exact N2 |].
    intros x Hx C. apply in_map_iff in C. destruct C as (e & E & He). destruct (F2 e He) as (n & E' & B). subst x. rewrite E' in Hx. destruct (A9 _ Hx) as [Hx' | (m & Em & Bm)]; [exact (G n Hx') |]. injection Em as Em. lia.
  - intros e He. rewrite ST in He. apply in_app_or in He. destruct He as [He | He]; [exact (A7 e He) |]. unfold entries in He. apply in_map_iff in He. destruct He as (e' & <- & _). discriminate.
  - exists ks. split; [| split; [| split; [exact K2 | split]]].
    + rewrite map_app, S2, A5. f_equal. unfold added. rewrite map_map. simpl. clear -F2 K1. revert ks K1. induction (s_new s2) as [| e n IH]; intros ks K1; destruct ks as [| k ks]; try discriminate K1; [reflexivity |].
      simpl in K1. injection K1 as K1 K1'. simpl. rewrite <- K1. destruct (F2 e (or_introl eq_refl)) as (m & E & _). rewrite E. simpl. f_equal. apply IH; [intros e' He'; apply F2; right; exact He' | exact K1'].
    + rewrite ST, map_app, A6. f_equal. unfold entries. rewrite map_map. simpl. exact K1.
    + intros k e Hk He C. assert (He' : In (snd e) (map snd (single_types fs1))) by (rewrite A6; apply in_map; exact He). apply in_map_iff in He'. destruct He' as (e' & E & He'). apply (K3 k e' Hk He'). rewrite E. exact C.
    + intros k Hk. assert (Hd : In (to_def k) (map snd (s_new s2))) by (rewrite K1; apply in_map; exact Hk). apply in_map_iff in Hd. destruct Hd as (e & E & He).
      destruct (Q2 e He) as [C | (a & Ha & Na & Ea)]; [rewrite A2 in C; destruct C |]. exists a. rewrite <- A4. split; [exact Ha | split; [exact Na |]]. rewrite E in Ea. unfold to_def in Ea. congruence.
Qed.
