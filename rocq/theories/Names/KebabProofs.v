(** The label grammar, and what kebab strings satisfy. *)
From Coq Require Import ZArith Lia List Bool String.
From Verif Require Import Base.Prelude Names.Kebab.
Import ListNotations.
Open Scope Z_scope.

(** The component model's grammar:
<<
    label          ::= <first-fragment> ( '-' <fragment> )*
    first-fragment ::= <first-word> | <first-acronym>
    first-word     ::= [a-z] [0-9a-z]*
    first-acronym  ::= [A-Z] [0-9A-Z]*
    fragment       ::= <word> | <acronym>
    word           ::= [0-9a-z]+
    acronym        ::= [0-9A-Z]+
>> *)
Definition fragment (w : str) : Prop :=
  w <> [] /\ (Forall (fun c => dg c || lc c = true) w \/ Forall (fun c => dg c || uc c = true) w).
Definition first_fragment (w : str) : Prop :=
  fragment w /\ match w with c :: _ => dg c = false | [] => False end.
(** Words joined by dashes. *)
Fixpoint join (w : str) (ws : list str) : str :=
  match ws with [] => w | v :: ws => w ++ dash :: join v ws end.
Definition label (s : str) : Prop := exists w ws, s = join w ws /\ first_fragment w /\ Forall fragment ws.

Lemma class : forall c, (lc c = true -> uc c = false /\ dg c = false /\ c <> dash) /\
  (uc c = true -> lc c = false /\ dg c = false /\ c <> dash) /\ (dg c = true -> lc c = false /\ uc c = false /\ c <> dash) /\
  (c = dash -> lc c = false /\ uc c = false /\ dg c = false).
Proof.
  intros c. unfold lc, uc, dg, dash, in_range.
  repeat split; intros; repeat match goal with H : _ && _ = true |- _ => apply andb_true_iff in H as [? ?] end;
  try (apply andb_false_iff; rewrite ?Z.leb_gt, ?Z.leb_le in *; lia); rewrite ?Z.leb_le in *; lia.
Qed.

(** What is left to read inside a fragment: [lower]/[upper] say which letters
    were seen, [any] whether something was. *)
Definition rest_of (lower upper : bool) (w : str) : Prop :=
  (upper = false /\ Forall (fun c => dg c || lc c = true) w) \/ (lower = false /\ Forall (fun c => dg c || uc c = true) w).
Definition tail_ok (lower upper any : bool) (s : str) : Prop :=
  exists w ws, s = join w ws /\ rest_of lower upper w /\ (any = false -> w <> []) /\ Forall fragment ws.

Lemma join_cons : forall c w ws, c :: join w ws = join (c :: w) ws.
Proof. intros c w [|v ws]; reflexivity. Qed.
Lemma ends_cons : forall c s d, s <> [] -> ends_with_char (c :: s) d = ends_with_char s d.
Proof.
  intros c s d N. unfold ends_with_char. cbn [rev]. destruct (rev s) eqn:E; [|reflexivity].
  apply (f_equal (@rev Z)) in E. rewrite rev_involutive in E. cbn in E. contradiction.
Qed.
Definition nonempty_end (s : str) : bool := negb (match s with [] => true | _ => false end) && negb (ends_with_char s dash).
Lemma word_no_dash : forall lower upper w, rest_of lower upper w -> ~ In dash w.
Proof.
  intros lower upper w [[_ F]|[_ F]] H; rewrite Forall_forall in F; apply F in H; discriminate H.
Qed.

(** Reading one more character of the current fragment. *)
Lemma tail_char : forall lower upper any lower' upper' c s,
  c <> dash ->
  (forall w, rest_of lower upper (c :: w) <-> rest_of lower' upper' w) ->
  tail_ok lower upper any (c :: s) <-> tail_ok lower' upper' true s.
Proof.
  intros lower upper any lower' upper' c s N H. split.
  - intros (w & ws & E & R & A & F). destruct w as [|c' w].
    + destruct ws; cbn in E; [discriminate|]. inversion E; subst. contradiction.
    + rewrite <- join_cons in E. inversion E; subst. exists w, ws. repeat split; auto. apply H, R. intros; discriminate.
  - intros (w & ws & E & R & A & F). exists (c :: w), ws. rewrite <- join_cons. subst. repeat split; auto. apply H, R. intros _; discriminate.
Qed.

Lemma rest_other : forall lower upper c w, lc c = false -> uc c = false -> dg c = false -> ~ rest_of lower upper (c :: w).
Proof. intros lower upper c w E1 E2 E3 [[_ F]|[_ F]]; inversion F; subst; rewrite ?E1, ?E2, ?E3 in *; discriminate. Qed.

Lemma loop_later : forall s lower upper any dgt, (lower && upper = false) -> any = (lower || upper || dgt)%bool ->
  (kebab_loop s lower upper false dgt = true /\ (s = [] -> any = true) /\ ends_with_char s dash = false) <-> tail_ok lower upper any s.
Proof.
  induction s as [|c s IH]; intros lower upper any dgt HLU HA.
  - split.
    + intros (_ & H & _). exists [], []. repeat split; [|intros E; rewrite E in H; discriminate (H eq_refl)|constructor].
      destruct upper; [right|left]; split; try constructor; destruct lower; auto; discriminate.
    + intros (w & ws & E & R & A & F). destruct ws as [|v ws]; cbn in E; [|destruct w; discriminate].
      subst w. repeat split. intros _. destruct any; [reflexivity|]. exfalso. apply A; reflexivity.
  - assert (X : forall lower' upper' dgt', c <> dash ->
      (lower' && upper' = false)%bool -> (lower' || upper' || dgt' = true)%bool ->
      (forall w, rest_of lower upper (c :: w) <-> rest_of lower' upper' w) ->
      (kebab_loop s lower' upper' false dgt' = true /\ (c :: s = [] -> any = true) /\ ends_with_char (c :: s) dash = false) <-> tail_ok lower upper any (c :: s)).
    { intros lower' upper' dgt' ND E1 E2 H. rewrite (tail_char _ _ _ lower' upper' _ _ ND H).
      rewrite <- (IH lower' upper' true dgt' E1 (eq_sym E2)).
      destruct s as [|d s].
      - cbn. unfold ends_with_char. cbn. split; [intros (? & ? & ?); repeat split; auto|intros _; repeat split; try discriminate].
        apply Z.eqb_neq. exact ND.
      - rewrite ends_cons by discriminate. split; intros (? & ? & ?); repeat split; auto; intros; discriminate. }
    destruct (class c) as (C1 & C2 & C3 & C4).
    cbn [kebab_loop]. destruct (lc c) eqn:L.
    + destruct (C1 eq_refl) as (U & D & ND). rewrite U, D. cbn [andb].
      destruct lower, upper; try discriminate HLU; cbn [negb andb orb].
      * apply X; auto. intros w. unfold rest_of. split.
        -- intros [[? F]|[? F]]; [|discriminate]. inversion F; auto.
        -- intros [[? F]|[? F]]; [|discriminate]. left. split; auto. constructor; [rewrite L; apply orb_true_r|auto].
      * assert ((c =? dash) = false) as -> by (apply Z.eqb_neq; exact ND). cbn [andb]. split; [intros (? & _); discriminate|].
        intros (w & ws & E & R & _). destruct w as [|c' w]; [destruct ws; cbn in E; inversion E; subst; contradiction|].
        rewrite <- join_cons in E. inversion E; subst c'. destruct R as [[? _]|[_ R]]; [discriminate|]. inversion R; subst. rewrite D, U in *. discriminate.
      * apply X; auto. intros w. unfold rest_of. split.
        -- intros [[? F]|[? F]]; inversion F; subst; [left; auto|]. rewrite D, U in *. discriminate.
        -- intros [[? F]|[? F]]; [|discriminate]. left. split; auto. constructor; [rewrite L; apply orb_true_r|auto].
    + destruct (uc c) eqn:U.
      * destruct (C2 eq_refl) as (_ & D & ND). rewrite D. cbn [andb].
        destruct lower, upper; try discriminate HLU; cbn [negb andb orb].
        -- assert ((c =? dash) = false) as -> by (apply Z.eqb_neq; exact ND). cbn [andb]. split; [intros (? & _); discriminate|].
           intros (w & ws & E & R & _). destruct w as [|c' w]; [destruct ws; cbn in E; inversion E; subst; contradiction|].
           rewrite <- join_cons in E. inversion E; subst c'. destruct R as [[_ R]|[? _]]; [|discriminate]. inversion R; subst. rewrite D, L in *. discriminate.
        -- apply X; auto. intros w. unfold rest_of. split.
           ++ intros [[? F]|[? F]]; [discriminate|]. inversion F; auto.
           ++ intros [[? F]|[? F]]; [discriminate|]. right. split; auto. constructor; [rewrite U; apply orb_true_r|auto].
        -- apply X; auto. intros w. unfold rest_of. split.
           ++ intros [[? F]|[? F]]; inversion F; subst; [rewrite D, L in *; discriminate|]. right; auto.
           ++ intros [[? F]|[? F]]; [discriminate|]. right. split; auto. constructor; [rewrite U; apply orb_true_r|auto].
      * cbn [andb]. destruct (dg c) eqn:D.
        -- destruct (C3 eq_refl) as (_ & _ & ND). cbn [andb].
           assert (Y : forall w, rest_of lower upper (c :: w) <-> rest_of lower upper w).
           { intros w. unfold rest_of. split; intros [[? F]|[? F]].
             - left. inversion F; auto.
             - right. inversion F; auto.
             - left. split; auto. constructor; auto. rewrite D. reflexivity.
             - right. split; auto. constructor; auto. rewrite D. reflexivity. }
           destruct lower, upper; try discriminate HLU; cbn [negb andb orb]; apply X; auto.
        -- cbn [andb]. destruct (Z.eqb_spec c dash) as [->|ND]; cbn [andb].
           ++ replace (lower || upper || dgt)%bool with any by exact HA. clear HA X.
              assert (Z : tail_ok lower upper any (dash :: s) <-> any = true /\ tail_ok false false false s).
              { split.
                - intros (w & ws & E & R & A & F). destruct w as [|c' w].
                  + destruct ws as [|v ws]; cbn in E; inversion E; subst. split; [destruct any; [reflexivity|exfalso; apply A; reflexivity]|].
                    inversion F as [|? ? [N F1] F2]; subst. exists v, ws. repeat split; auto.
                    destruct F1; [left|right]; auto.
                  + rewrite <- join_cons in E. inversion E; subst c'. exfalso. exact (rest_other _ _ _ _ L U D R).
                - intros (-> & w & ws & E & R & A & F). exists [], (w :: ws). cbn. subst. repeat split; auto; try discriminate.
                  + destruct upper; [right|left]; split; try constructor; destruct lower; auto; discriminate.
                  + constructor; auto. split; [apply A; reflexivity|]. destruct R as [[_ R]|[_ R]]; auto. }
              rewrite Z. rewrite <- (IH false false false false eq_refl eq_refl).
              destruct any.
              ** destruct s as [|d s].
                 --- cbn. unfold ends_with_char. cbn. split; [intros (? & ? & ?); discriminate|intros (_ & _ & H & _); discriminate (H eq_refl)].
                 --- rewrite ends_cons by discriminate. split; [intros (? & ? & ?)|intros (_ & ? & ? & ?)]; repeat split; auto; discriminate.
              ** split; [intros (? & _)|intros (? & _)]; discriminate.
           ++ split; [intros (? & _); discriminate|].
              intros (w & ws & E & R & _). destruct w as [|c' w]; [destruct ws; cbn in E; inversion E; subst; contradiction|].
              rewrite <- join_cons in E. inversion E; subst c'. exfalso. exact (rest_other _ _ _ _ L U D R).
Qed.

(** In the first fragment: nothing read yet, or some letters. *)
Lemma loop_first : forall s lower upper dgt, (lower && upper = false) -> (lower || upper = true) ->
  (kebab_loop s lower upper true dgt = true /\ ends_with_char s dash = false) <-> tail_ok lower upper true s.
Proof.
  intros s lower upper dgt HLU HA. rewrite <- (loop_later s lower upper true dgt HLU) by (rewrite HA; reflexivity).
  assert (E : forall s lower upper dgt, lower || upper = true -> kebab_loop s lower upper true dgt = kebab_loop s lower upper false dgt).
  { clear. induction s as [|c s IH]; intros lower upper dgt H; [reflexivity|]. cbn [kebab_loop].
    destruct lower, upper; try discriminate H; cbn [negb andb orb]; rewrite ?andb_false_r, ?IH by reflexivity; reflexivity. }
  rewrite E by exact HA. tauto.
Qed.

Theorem kebab_label : forall s, is_kebab_case s = true <-> label s.
Proof.
  intros s. unfold is_kebab_case. destruct s as [|c s].
  - split; [discriminate|]. intros (w & ws & E & [[N _] _] & _). destruct w; [contradiction|destruct ws; discriminate].
  - cbn [negb andb]. rewrite andb_true_iff, negb_true_iff.
    assert (G : label (c :: s) <-> (lc c = true /\ tail_ok true false true s) \/ (uc c = true /\ tail_ok false true true s)).
    { split.
      - intros (w & ws & E & [[N F] D] & FF). destruct w as [|c' w]; [contradiction|]. rewrite <- join_cons in E. inversion E; subst c'.
        destruct F as [F|F]; inversion F; subst; rewrite D in *; cbn [orb] in *; [left|right]; (split; [assumption|]);
        exists w, ws; repeat split; auto; try discriminate; [left|right]; auto.
      - intros [[C (w & ws & E & R & _ & F)]|[C (w & ws & E & R & _ & F)]]; destruct (class c) as (C1 & C2 & _);
        exists (c :: w), ws; rewrite <- join_cons; subst s; (split; [reflexivity|]); (split; [|exact F]);
        destruct R as [[? R]|[? R]]; try discriminate.
        + split; [split; [discriminate|]; left; constructor; [rewrite C; apply orb_true_r|exact R]|apply C1, C].
        + split; [split; [discriminate|]; right; constructor; [rewrite C; apply orb_true_r|exact R]|apply C2, C]. }
    rewrite G. cbn [kebab_loop negb andb orb]. destruct (class c) as (C1 & C2 & C3 & C4).
    assert (EE : (ends_with_char (c :: s) dash = false) <-> (s = [] -> c <> dash) /\ ends_with_char s dash = false).
    { destruct s as [|d s].
      - unfold ends_with_char. cbn. rewrite Z.eqb_neq. split; [intros H; split; auto|intros [H _]; auto].
      - rewrite ends_cons by discriminate. split; [intros H; split; auto; discriminate|tauto]. }
    destruct (lc c) eqn:L.
    + destruct (C1 eq_refl) as (U & D & ND). rewrite U. cbn [andb]. rewrite <- (loop_first s true false false eq_refl eq_refl), EE.
      split; [intros (? & _ & ?); left; auto|intros [(_ & ? & ?)|(? & _)]; [|discriminate]; repeat split; auto].
    + destruct (uc c) eqn:U.
      * destruct (C2 eq_refl) as (_ & D & ND). cbn [andb]. rewrite <- (loop_first s false true false eq_refl eq_refl), EE.
        split; [intros (? & _ & ?); right; auto|intros [(? & _)|(_ & ? & ?)]; [discriminate|]; repeat split; auto].
      * cbn [andb]. rewrite !andb_false_r. split; [intros (? & _); discriminate|intros [(? & _)|(? & _)]; discriminate].
Qed.

(** * Equality, order and hashing. *)
Lemma kebab_ascii : forall s, is_kebab_case s = true -> Forall (fun c => 0 <= c < 128) s.
Proof.
  intros s H. apply kebab_label in H as (w & ws & -> & [F _] & FF).
  assert (X : forall v, fragment v -> Forall (fun c => 0 <= c < 128) v).
  { intros v [_ [G|G]]; eapply Forall_impl; try exact G; intros c; unfold dg, lc, uc, in_range;
    rewrite orb_true_iff, !andb_true_iff, !Z.leb_le; lia. }
  revert w F. induction FF as [|v ws Hv FF IH]; intros w Hw; cbn [join]; [apply X, Hw|].
  apply Forall_app. split; [apply X, Hw|]. constructor; [unfold dash; lia|apply IH, Hv].
Qed.
Lemma ascii_len : forall s, Forall (fun c => 0 <= c < 128) s -> str_len s = Z.of_nat (List.length s).
Proof.
  induction 1 as [|c s Hc _ IH]; [reflexivity|]. cbn [str_len fold_right]. fold (str_len s). rewrite IH.
  unfold char_len. destruct (Z.ltb_spec c 128); [|lia]. cbn [List.length]. lia.
Qed.
Lemma zip_lower : forall a b, List.length a = List.length b -> zip_all a b = true <-> map to_lower a = map to_lower b.
Proof.
  induction a as [|x a IH]; intros [|y b] H; try discriminate H; cbn [zip_all map]; [tauto|].
  rewrite andb_true_iff, Z.eqb_eq, IH by (injection H; auto). split; [intros [-> ->]; reflexivity|intros E; inversion E; auto].
Qed.

(** Equality is equality of the lowercased strings. *)
Lemma eq_lower : forall a b, Forall (fun c => 0 <= c < 128) a -> Forall (fun c => 0 <= c < 128) b ->
  kebab_eq a b = true <-> map to_lower a = map to_lower b.
Proof.
  intros a b Ha Hb. unfold kebab_eq. rewrite !ascii_len by assumption.
  destruct (Z.eqb_spec (Z.of_nat (List.length a)) (Z.of_nat (List.length b))) as [E|E]; cbn [negb].
  - apply zip_lower. lia.
  - split; [discriminate|]. intros M. apply (f_equal (@List.length Z)) in M. rewrite !map_length in M. lia.
Qed.

Section Lex.
Variable f : Z -> Z.
Lemma lex_eq : forall a b, lex f a b = Datatypes.Eq <-> map f a = map f b.
Proof.
  induction a as [|x a IH]; intros [|y b]; cbn; try (split; [discriminate|]; intros H; discriminate); [tauto|].
  destruct (Z.compare_spec (f x) (f y)) as [E|E|E].
  - rewrite IH, E. split; [intros ->; reflexivity|intros H; inversion H; auto].
  - split; [discriminate|]. intros H; inversion H. lia.
  - split; [discriminate|]. intros H; inversion H. lia.
Qed.
Lemma lex_opp : forall a b, lex f b a = CompOpp (lex f a b).
Proof.
  induction a as [|x a IH]; intros [|y b]; cbn; try reflexivity.
  rewrite (Z.compare_antisym (f x) (f y)). destruct (f x ?= f y); cbn; auto.
Qed.
Lemma lex_trans : forall a b c, lex f a b <> Datatypes.Gt -> lex f b c <> Datatypes.Gt ->
  lex f a c <> Datatypes.Gt /\ (lex f a b = Datatypes.Lt \/ lex f b c = Datatypes.Lt -> lex f a c = Datatypes.Lt).
Proof.
  induction a as [|x a IH]; intros [|y b] [|z c]; cbn; intros H1 H2; try congruence; try (split; [congruence|intros [?|?]; congruence]);
  try (split; [congruence|auto]).
  destruct (Z.compare_spec (f x) (f y)) as [E|E|E]; destruct (Z.compare_spec (f y) (f z)) as [E'|E'|E']; try congruence;
  destruct (Z.compare_spec (f x) (f z)) as [E''|E''|E'']; try lia; try (split; [discriminate|auto]; fail).
  apply (IH b c H1 H2).
Qed.
End Lex.
