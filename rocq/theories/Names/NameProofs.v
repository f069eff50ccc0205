(** The grammar of plain and interface names, and what parsing, the accessors
    and the comparison do. *)
From Coq Require Import ZArith Lia List Bool String Permutation.
From Verif Require Import Base.Prelude Names.Kebab Names.KebabProofs Names.Name.
Import ListNotations.
Open Scope Z_scope.

(** * Searching. *)
Lemma strip_app : forall p s, strip_prefix p (p ++ s) = Some s.
Proof. induction p as [|x p IH]; intros s; [reflexivity|]. cbn. rewrite Z.eqb_refl. apply IH. Qed.
Lemma strip_some : forall p s r, strip_prefix p s = Some r -> s = p ++ r.
Proof.
  induction p as [|x p IH]; intros [|y s] r H; cbn in H; try (inversion H; reflexivity). destruct (Z.eqb_spec x y); [|discriminate].
  subst. cbn. f_equal. apply IH, H.
Qed.
Lemma find_app : forall c a b, ~ In c a -> find c (a ++ c :: b) = Some (a, c :: b).
Proof.
  induction a as [|x a IH]; intros b H; cbn; [rewrite Z.eqb_refl; reflexivity|].
  destruct (Z.eqb_spec x c); [exfalso; apply H; left; assumption|]. rewrite IH by (intros X; apply H; right; exact X). reflexivity.
Qed.
Lemma find_some : forall c s a b, find c s = Some (a, b) -> s = a ++ b /\ b = c :: tl b /\ ~ In c a.
Proof.
  induction s as [|x s IH]; intros a b H; cbn in H; [discriminate|]. destruct (Z.eqb_spec x c) as [->|N].
  - inversion H; subst. repeat split. intros [].
  - destruct (find c s) as [[a' b']|]; [|discriminate]. inversion H; subst. destruct (IH a' b eq_refl) as (E1 & E2 & E3).
    repeat split; [cbn; f_equal; exact E1|exact E2|]. intros [X|X]; [congruence|contradiction].
Qed.
Lemma find_none : forall c s, find c s = None <-> ~ In c s.
Proof.
  induction s as [|x s IH]; cbn; [tauto|]. destruct (Z.eqb_spec x c); [split; [discriminate|intros H; exfalso; apply H; auto]|].
  destruct (find c s) as [[]|]; [split; [discriminate|]|tauto]. intros H. exfalso. assert (~ In c s) by tauto. rewrite <- IH in *. discriminate.
Qed.
Lemma rfind_app : forall c a b, ~ In c b -> rfind c (a ++ c :: b) = Some (a, c :: b).
Proof.
  assert (N : forall c b, ~ In c b -> rfind c b = None).
  { induction b as [|x b IH]; intros H; [reflexivity|]. cbn. rewrite IH by (intros X; apply H; right; exact X).
    destruct (Z.eqb_spec x c); [exfalso; apply H; left; assumption|reflexivity]. }
  induction a as [|x a IH]; intros b H; cbn; [rewrite N by exact H; rewrite Z.eqb_refl; reflexivity|]. rewrite IH by exact H. reflexivity.
Qed.

(** * The grammar. *)
Definition lower_label (s : str) : Prop := label s /\ Forall (fun c => uc c = false) s.
Fixpoint each (sep : Z) (l : list str) : str := match l with [] => [] | w :: l => sep :: w ++ each sep l end.
(** [pkgpath ::= <namespace>+ <label> <projection>*], all but the first label
    after a colon; without nested names, one namespace and at most one projection. *)
Definition path (nested require : bool) (s : str) : Prop :=
  exists n p ns projs, s = n ++ each 58 (p :: ns) ++ each 47 projs /\
    lower_label n /\ lower_label p /\ Forall lower_label ns /\ Forall label projs /\
    (nested = false -> ns = [] /\ (List.length projs <= 1)%nat) /\ (require = true -> projs <> []).
(** Names, by kind.  The version of an interface name is not checked here. *)
Definition plain_name (nested : bool) (k : pkind) (s : str) : Prop :=
  match k with
  | PLabel => label s
  | PConstructor => exists r, s = lit "[constructor]" ++ r /\ label r
  | PMethod => exists r m, s = lit "[method]" ++ r ++ lit "." ++ m /\ label r /\ label m
  | PStatic => exists r m, s = lit "[static]" ++ r ++ lit "." ++ m /\ label r /\ label m
  | PInterface => exists p v, s = p ++ v /\ path nested true p /\ (v = [] \/ exists w, v = lit "@" ++ w /\ ~ In 62 w)
  | _ => False
  end.

(** Labels are made of kebab characters. *)
Lemma label_chars : forall s, label s -> Forall (fun c => kebab_char c = true) s.
Proof.
  intros s (w & ws & -> & [F _] & FF).
  assert (X : forall v, fragment v -> Forall (fun c => kebab_char c = true) v).
  { intros v [_ [G|G]]; eapply Forall_impl; try exact G; intros c; unfold kebab_char; destruct (lc c), (uc c), (dg c); cbn; congruence. }
  revert w F. induction FF as [|v ws Hv FF IH]; intros w Hw; cbn [join]; [apply X, Hw|].
  apply Forall_app. split; [apply X, Hw|]. constructor; [reflexivity|apply IH, Hv].
Qed.
Lemma label_not_in : forall s c, label s -> kebab_char c = false -> ~ In c s.
Proof. intros s c H E X. apply label_chars in H. rewrite Forall_forall in H. apply H in X. congruence. Qed.
Lemma label_nonempty : forall s, label s -> s <> [].
Proof. intros s H ->. apply kebab_label in H. discriminate. Qed.
Definition stops (s : str) : Prop := match s with [] => True | c :: _ => kebab_char c = false end.
Lemma span_app : forall f a b, Forall (fun c => f c = true) a -> (match b with [] => True | c :: _ => f c = false end) -> span f (a ++ b) = (a, b).
Proof.
  induction 1 as [|c a Hc _ IH]; intros H.
  - destruct b as [|c b]; [reflexivity|]. cbn. rewrite H. reflexivity.
  - cbn. rewrite Hc, IH by exact H. reflexivity.
Qed.
Lemma span_spec : forall f s a b, span f s = (a, b) -> s = a ++ b.
Proof.
  induction s as [|c s IH]; intros a b H; cbn in H; [inversion H; reflexivity|]. destruct (f c).
  - destruct (span f s) as [a' b'] eqn:E. inversion H; subst. cbn. f_equal. apply IH. reflexivity.
  - inversion H; reflexivity.
Qed.
Lemma take_kebab_some : forall s k r, take_kebab s = Some (k, r) -> s = k ++ r /\ label k.
Proof.
  intros s k r H. unfold take_kebab in H. destruct (span kebab_char s) as [a b] eqn:E. destruct (is_kebab_case a) eqn:K; [|discriminate].
  inversion H; subst. split; [eapply span_spec, E|apply kebab_label, K].
Qed.
Lemma take_kebab_app : forall k r, label k -> stops r -> take_kebab (k ++ r) = Some (k, r).
Proof.
  intros k r L S. unfold take_kebab. rewrite span_app; [|apply label_chars, L|exact S]. apply kebab_label in L. rewrite L. reflexivity.
Qed.
Lemma take_lower_some : forall s r, take_lowercase_kebab s = Some r -> exists k, s = k ++ r /\ lower_label k.
Proof.
  intros s r H. unfold take_lowercase_kebab in H. destruct (take_kebab s) as [[k r']|] eqn:E; [|discriminate].
  destruct (existsb uc k) eqn:X; [discriminate|]. inversion H; subst. apply take_kebab_some in E as [-> L]. exists k. repeat split; auto.
  apply Forall_forall. intros c Hc. destruct (uc c) eqn:U; [|reflexivity]. assert (existsb uc k = true) by (apply existsb_exists; eauto). congruence.
Qed.
Lemma take_lower_app : forall k r, lower_label k -> stops r -> take_lowercase_kebab (k ++ r) = Some r.
Proof.
  intros k r [L U] S. unfold take_lowercase_kebab. rewrite take_kebab_app by assumption.
  destruct (existsb uc k) eqn:X; [|reflexivity]. apply existsb_exists in X as (c & Hc & E). rewrite Forall_forall in U. rewrite U in E by exact Hc. discriminate.
Qed.

Lemma strip1 : forall c s r, strip_prefix [c] s = Some r <-> s = c :: r.
Proof. intros c s r. split; [intros H; apply strip_some in H; exact H|intros ->; apply (strip_app [c])]. Qed.
Lemma strip1_none : forall c s, strip_prefix [c] s = None <-> (forall r, s <> c :: r).
Proof.
  intros c s. split.
  - intros H r ->. pose proof (strip_app [c] r) as X. cbn [app] in X. congruence.
  - intros H. destruct (strip_prefix [c] s) as [r|] eqn:E; [|reflexivity]. apply strip1 in E. exfalso. exact (H r E).
Qed.

Definition sep_stops (sep : Z) (s : str) : Prop := stops s /\ forall r, s <> sep :: r.
Lemma namespaces_some : forall fuel s r, namespaces fuel s = Some r -> exists ns, s = each 58 ns ++ r /\ Forall lower_label ns.
Proof.
  induction fuel as [|fuel IH]; intros s r H; cbn [namespaces] in H.
  - inversion H. exists []. split; [reflexivity|constructor].
  - change (lit ":") with [58] in H. destruct (strip_prefix [58] s) as [s1|] eqn:E; [|inversion H; exists []; split; [reflexivity|constructor]].
    destruct (take_lowercase_kebab s1) as [s2|] eqn:T; [|discriminate]. apply strip1 in E. subst s.
    apply take_lower_some in T as (k & -> & L). apply IH in H as (ns & -> & F). exists (k :: ns). cbn [each].
    cbn [app]. rewrite <- !app_assoc. split; [reflexivity|constructor; auto].
Qed.
Lemma each_stops : forall sep l r, kebab_char sep = false -> stops r -> stops (each sep l ++ r).
Proof. intros sep [|w l] r H S; [exact S|exact H]. Qed.
Lemma namespaces_app : forall ns r fuel, Forall lower_label ns -> sep_stops 58 r -> (List.length ns <= fuel)%nat ->
  namespaces fuel (each 58 ns ++ r) = Some r.
Proof.
  induction ns as [|k ns IH]; intros r fuel F [S N] HF.
  - cbn [each app]. destruct fuel; [reflexivity|]. cbn [namespaces]. change (lit ":") with [58].
    rewrite (proj2 (strip1_none 58 r) N). reflexivity.
  - destruct fuel as [|fuel]; [cbn in HF; lia|]. inversion F; subst. cbn [namespaces each app]. change (lit ":") with [58].
    rewrite (proj2 (strip1 58 _ _) eq_refl). rewrite <- app_assoc, take_lower_app by (auto; apply each_stops; auto).
    apply IH; auto; [split; auto|cbn in HF; lia].
Qed.
Lemma projections_some : forall fuel s r, projections fuel s = Some r -> exists ns, s = each 47 ns ++ r /\ Forall label ns.
Proof.
  induction fuel as [|fuel IH]; intros s r H; cbn [projections] in H.
  - inversion H. exists []. split; [reflexivity|constructor].
  - change (lit "/") with [47] in H. destruct (strip_prefix [47] s) as [s1|] eqn:E; [|inversion H; exists []; split; [reflexivity|constructor]].
    destruct (take_kebab s1) as [[k s2]|] eqn:T; [|discriminate]. apply strip1 in E. subst s.
    apply take_kebab_some in T as [-> L]. apply IH in H as (ns & -> & F). exists (k :: ns). cbn [each].
    cbn [app]. rewrite <- !app_assoc. split; [reflexivity|constructor; auto].
Qed.
Lemma projections_app : forall ns r fuel, Forall label ns -> sep_stops 47 r -> (List.length ns <= fuel)%nat ->
  projections fuel (each 47 ns ++ r) = Some r.
Proof.
  induction ns as [|k ns IH]; intros r fuel F [S N] HF.
  - cbn [each app]. destruct fuel; [reflexivity|]. cbn [projections]. change (lit "/") with [47].
    rewrite (proj2 (strip1_none 47 r) N). reflexivity.
  - destruct fuel as [|fuel]; [cbn in HF; lia|]. inversion F; subst. cbn [projections each app]. change (lit "/") with [47].
    rewrite (proj2 (strip1 47 _ _) eq_refl). rewrite <- app_assoc, take_kebab_app by (auto; apply each_stops; auto).
    apply IH; auto; [split; auto|cbn in HF; lia].
Qed.
Lemma each_length : forall sep l r, (List.length l <= List.length (each sep l ++ r))%nat.
Proof.
  intros sep l r. induction l as [|w l IH]; [apply Nat.le_0_l|]. cbn [each app List.length]. rewrite !app_length in *. lia.
Qed.

Lemma path_some : forall nested require s r, pkg_path nested require s = Some r -> exists p, s = p ++ r /\ path nested require p.
Proof.
  intros nested require s r H. unfold pkg_path, expect_str in H. change (lit ":") with [58] in H. change (lit "/") with [47] in H.
  destruct (take_lowercase_kebab s) as [s1|] eqn:T1; [|discriminate]. apply take_lower_some in T1 as (n & -> & L1).
  destruct (strip_prefix [58] s1) as [s2|] eqn:E; [|discriminate]. apply strip1 in E. subst s1.
  destruct (take_lowercase_kebab s2) as [s3|] eqn:T2; [|discriminate]. apply take_lower_some in T2 as (p & -> & L2).
  assert (A : exists ns s4, (if nested then namespaces (List.length s3) s3 else Some s3) = Some s4 /\ s3 = each 58 ns ++ s4 /\ Forall lower_label ns /\ (nested = false -> ns = [])).
  { destruct nested.
    - destruct (namespaces (List.length s3) s3) as [s4|] eqn:N; [|discriminate]. apply namespaces_some in N as (ns & E & F). exists ns, s4. auto.
      repeat split; auto; discriminate.
    - exists [], s3. repeat split; auto. }
  destruct A as (ns & s4 & A1 & -> & A3 & A4). rewrite A1 in H. clear A1.
  destruct (strip_prefix [47] s4) as [s5|] eqn:E.
  - apply strip1 in E. subst s4. destruct (take_kebab s5) as [[k s6]|] eqn:K; [|discriminate]. apply take_kebab_some in K as [-> LK].
    assert (B : exists ps, s6 = each 47 ps ++ r /\ Forall label ps /\ (nested = false -> ps = [])).
    { destruct nested; [apply projections_some in H as (ps & E & F); exists ps; repeat split; auto; discriminate|].
      inversion H. exists []. repeat split; auto. }
    destruct B as (ps & -> & B2 & B3).
    exists (n ++ each 58 (p :: ns) ++ each 47 (k :: ps)). split.
    + cbn [each]. repeat (rewrite <- ?app_assoc; cbn [app]). reflexivity.
    + exists n, p, ns, (k :: ps). refine (conj eq_refl (conj L1 (conj L2 (conj A3 (conj _ (conj _ _)))))).
      * constructor; auto.
      * intros X. rewrite B3 by exact X. split; [apply A4, X|cbn; lia].
      * discriminate.
  - destruct require; [discriminate|]. inversion H; subst. exists (n ++ each 58 (p :: ns)). split.
    + cbn [each]. repeat (rewrite <- ?app_assoc; cbn [app]). reflexivity.
    + exists n, p, ns, []. cbn [each]. rewrite app_nil_r. refine (conj eq_refl (conj L1 (conj L2 (conj A3 (conj (Forall_nil _) (conj _ _)))))); [|discriminate]. intros X. split; [apply A4, X|cbn; lia].
Qed.
Lemma path_app : forall nested require p r, path nested require p ->
  stops r -> (forall x, r <> 47 :: x) -> (forall x, r <> 58 :: x) -> pkg_path nested require (p ++ r) = Some r.
Proof.
  intros nested require p r (n & q & ns & projs & -> & L1 & L2 & F1 & F2 & Hn & Hr) S N1 N2.
  unfold pkg_path, expect_str. change (lit ":") with [58]. change (lit "/") with [47].
  rewrite <- !app_assoc. cbn [each app]. rewrite take_lower_app by (auto; reflexivity).
  rewrite (proj2 (strip1 58 _ _) eq_refl). rewrite <- app_assoc.
  assert (S1 : stops (each 47 projs ++ r)) by (apply each_stops; auto).
  rewrite take_lower_app by (auto; apply each_stops; auto).
  match goal with |- match ?x with Some _ => _ | None => _ end = _ => assert (E : x = Some (each 47 projs ++ r)) end.
  { destruct nested.
    - apply namespaces_app; auto; [|apply each_length]. split; auto. intros x E. destruct projs; cbn in E; [exact (N2 _ E)|inversion E].
    - destruct (Hn eq_refl) as [-> _]. reflexivity. }
  rewrite E. clear E. destruct projs as [|k projs].
  - cbn [each app]. rewrite (proj2 (strip1_none 47 r) N1). destruct require; [exfalso; apply Hr; reflexivity|reflexivity].
  - cbn [each app]. rewrite (proj2 (strip1 47 _ _) eq_refl). inversion F2; subst. rewrite <- app_assoc, take_kebab_app by (auto; apply each_stops; auto).
    destruct nested.
    + apply projections_app; auto; [split; auto|apply each_length].
    + destruct (Hn eq_refl) as [_ X]. destruct projs; [reflexivity|cbn in X; lia].
Qed.

(** * Parsing is the grammar. *)
(** The first character that is not a kebab character. *)
Definition first_other (s : str) : option Z := match snd (span kebab_char s) with [] => None | c :: _ => Some c end.
Lemma first_other_app : forall k c r, Forall (fun c => kebab_char c = true) k -> kebab_char c = false -> first_other (k ++ c :: r) = Some c.
Proof. intros k c r H E. unfold first_other. rewrite span_app by auto. reflexivity. Qed.
Lemma first_other_label : forall k, label k -> first_other k = None.
Proof. intros k H. unfold first_other. rewrite <- (app_nil_r k), span_app by (auto using label_chars). reflexivity. Qed.

Definition prefixes : list str :=
  [CONSTRUCTOR; METHOD; STATIC; lit "unlocked-dep="; lit "locked-dep="; lit "url="; lit "integrity="].
Lemma prefix_other : forall p s r, In p prefixes -> strip_prefix p s = Some r -> first_other s = Some 61 \/ first_other s = Some 91.
Proof.
  intros p s r H E. apply strip_some in E. subst s. cbn in H.
  repeat destruct H as [<-|H]; try contradiction; auto.
Qed.
Lemma no_prefix : forall p s, In p prefixes -> first_other s <> Some 61 -> first_other s <> Some 91 -> strip_prefix p s = None.
Proof.
  intros p s H N1 N2. destruct (strip_prefix p s) eqn:E; [|reflexivity]. destruct (prefix_other p s s0 H E); contradiction.
Qed.

Definition plain_kind (k : pkind) : bool := match k with PLabel | PConstructor | PMethod | PStatic | PInterface => true | _ => false end.

Lemma method_part : forall s, (match take_until 46 s with Some (r, s) => if is_kebab_case r then expect_kebab s else None | None => None end) = Some []
  <-> exists r m, s = r ++ lit "." ++ m /\ label r /\ label m.
Proof.
  intros s. unfold take_until, expect_kebab. split.
  - destruct (find 46 s) as [[a b]|] eqn:E; [|discriminate]. apply find_some in E as (-> & E & N).
    destruct (is_kebab_case a) eqn:K1; [|discriminate]. destruct (is_kebab_case (tl b)) eqn:K2; [|discriminate]. intros _.
    exists a, (tl b). repeat split; [rewrite E at 1; reflexivity| |]; apply kebab_label; assumption.
  - intros (r & m & -> & L1 & L2). change (lit "." ++ m) with (46 :: m). rewrite find_app by (apply label_not_in; auto).
    apply kebab_label in L1, L2. rewrite L1. cbn [tl]. rewrite L2. reflexivity.
Qed.
Lemma expect_nil : forall s r, expect_kebab s = Some r -> r = [].
Proof. intros s r. unfold expect_kebab. destruct (is_kebab_case s); congruence. Qed.
Lemma method_nil : forall s r, (match take_until 46 s with Some (r, s) => if is_kebab_case r then expect_kebab s else None | None => None end) = Some r -> r = [].
Proof.
  intros s r. destruct (take_until 46 s) as [[a b]|]; [|discriminate]. destruct (is_kebab_case a); [apply expect_nil|discriminate].
Qed.

Lemma ret_some : forall (k k' : pkind) (r : option str) x, (match r with Some s => Some (k, s) | None => None end) = Some (k', x) -> k = k' /\ r = Some x.
Proof. intros k k' [s|] x H; inversion H; auto. Qed.

Theorem parse_sound : forall semver nested s k, new_name semver nested s = Some k -> plain_kind k = true -> plain_name nested k s.
Proof.
  intros semver nested s k H P. unfold new_name in H. destruct (parse semver nested s) as [[k' r]|] eqn:E; [|discriminate].
  destruct r; [|discriminate]. inversion H; subst k'. clear H. unfold parse in E.
  destruct (strip_prefix CONSTRUCTOR s) as [s1|] eqn:S1.
  { apply ret_some in E as [<- E]. apply strip_some in S1. exists s1. split; [exact S1|]. unfold expect_kebab in E.
    destruct (is_kebab_case s1) eqn:K; [|discriminate]. apply kebab_label, K. }
  destruct (strip_prefix METHOD s) as [s2|] eqn:S2.
  { apply ret_some in E as [<- E]. apply strip_some in S2. apply method_part in E as (r & m & -> & L1 & L2). exists r, m. auto. }
  destruct (strip_prefix STATIC s) as [s3|] eqn:S3.
  { apply ret_some in E as [<- E]. apply strip_some in S3. apply method_part in E as (r & m & -> & L1 & L2). exists r, m. auto. }
  destruct (strip_prefix (lit "unlocked-dep=") s); [apply ret_some in E as [<- _]; discriminate|].
  destruct (strip_prefix (lit "locked-dep=") s); [apply ret_some in E as [<- _]; discriminate|].
  destruct (strip_prefix (lit "url=") s); [apply ret_some in E as [<- _]; discriminate|].
  destruct (strip_prefix (lit "integrity=") s); [apply ret_some in E as [<- _]; discriminate|].
  destruct (contains 58 s) eqn:C.
  - apply ret_some in E as [<- E]. unfold pkg_name in E. destruct (pkg_path nested true s) as [t|] eqn:PP; [|discriminate].
    apply path_some in PP as (p & -> & HP). exists p, t. split; [reflexivity|]. split; [exact HP|].
    change (lit "@") with [64] in E. destruct (strip_prefix [64] t) as [w|] eqn:SW; [|inversion E; auto].
    apply strip1 in SW. subst t. right. exists w. split; [reflexivity|]. cbn [orb] in E.
    destruct (find 62 w) as [[a b]|] eqn:F; [|apply find_none, F]. inversion E; subst. apply find_some in F as (_ & X & _). discriminate.
  - apply ret_some in E as [<- E]. unfold expect_kebab in E. destruct (is_kebab_case s) eqn:K; [|discriminate]. apply kebab_label, K.
Qed.

Theorem parse_complete : forall semver nested s k, plain_name nested k s -> new_name semver nested s = Some k.
Proof.
  intros semver nested s k H. unfold new_name.
  enough (parse semver nested s = Some (k, [])) as -> by reflexivity.
  destruct k; cbn [plain_name] in H; try contradiction; unfold parse.
  - assert (N : forall p, In p prefixes -> strip_prefix p s = None) by (intros p Hp; apply no_prefix; auto; rewrite first_other_label by exact H; discriminate).
    rewrite !N by (cbn; tauto).
    assert (contains 58 s = false) as ->.
    { unfold contains. rewrite (proj2 (find_none 58 s)) by (apply label_not_in; auto). reflexivity. }
    unfold expect_kebab. apply kebab_label in H. rewrite H. reflexivity.
  - destruct H as (r & -> & L). fold CONSTRUCTOR. rewrite strip_app. unfold expect_kebab. apply kebab_label in L. rewrite L. reflexivity.
  - destruct H as (r & m & -> & L). fold METHOD. rewrite strip_app. change (strip_prefix CONSTRUCTOR (METHOD ++ r ++ lit "." ++ m)) with (@None str). cbv iota.
    rewrite (proj2 (method_part (r ++ lit "." ++ m))) by (exists r, m; tauto). reflexivity.
  - destruct H as (r & m & -> & L). fold STATIC. rewrite strip_app.
    change (strip_prefix CONSTRUCTOR (STATIC ++ r ++ lit "." ++ m)) with (@None str).
    change (strip_prefix METHOD (STATIC ++ r ++ lit "." ++ m)) with (@None str). cbv iota.
    rewrite (proj2 (method_part (r ++ lit "." ++ m))) by (exists r, m; tauto). reflexivity.
  - destruct H as (p & v & -> & HP & HV).
    assert (FO : first_other (p ++ v) = Some 58 /\ contains 58 (p ++ v) = true).
    { destruct HP as (n & q & ns & projs & -> & L1 & _). cbn [each]. rewrite <- !app_assoc. cbn [app]. split.
      - apply first_other_app; [apply label_chars, L1|reflexivity].
      - unfold contains. rewrite find_app by (apply label_not_in; [apply L1|reflexivity]). reflexivity. }
    destruct FO as [FO C].
    assert (N : forall x, In x prefixes -> strip_prefix x (p ++ v) = None) by (intros x Hx; apply no_prefix; auto; rewrite FO; discriminate).
    rewrite !N by (cbn; tauto). rewrite C. unfold pkg_name. rewrite path_app; auto.
    + change (lit "@") with [64]. destruct HV as [->|(w & -> & Hw)]; [reflexivity|]. change (lit "@" ++ w) with ([64] ++ w). rewrite strip_app.
      rewrite (proj2 (find_none 62 w)) by exact Hw. reflexivity.
    + destruct HV as [->|(w & -> & Hw)]; [exact Logic.I|reflexivity].
    + intros x E. destruct HV as [->|(w & -> & Hw)]; inversion E.
    + intros x E. destruct HV as [->|(w & -> & Hw)]; inversion E.
Qed.

(** * The parts of parsed names. *)
Lemma resource_parts : forall r m, label r -> resource (r ++ lit "." ++ m) = Some r /\ method (r ++ lit "." ++ m) = Some m.
Proof. intros r m L. unfold resource, method. change (lit "." ++ m) with (46 :: m). rewrite find_app by (apply label_not_in; auto). split; reflexivity. Qed.

Lemma each_not_in : forall sep c l, kebab_char c = false -> c <> sep -> Forall label l -> ~ In c (each sep l).
Proof.
  intros sep c l K N F. induction F as [|w l Hw F IH]; [intros []|]. cbn [each]. intros [X|X]; [congruence|].
  apply in_app_or in X as [X|X]; [exact (label_not_in _ _ Hw K X)|contradiction].
Qed.
Lemma lower_labels : forall l, Forall lower_label l -> Forall label l.
Proof. intros l. apply Forall_impl. intros a [H _]. exact H. Qed.

(** The last of the labels after the first namespace, and what comes before. *)
Lemma each_last : forall sep p ns, exists q m, each sep (p :: ns) = q ++ sep :: m /\ In m (p :: ns) /\ (ns = [] -> q = [] /\ m = p).
Proof.
  intros sep p ns. revert p. induction ns as [|x ns IH]; intros p.
  - exists [], p. cbn. rewrite app_nil_r. auto.
  - destruct (IH x) as (q & m & E & I0 & _). exists (sep :: p ++ q), m. repeat split; try discriminate.
    + cbn [each] in *. rewrite E. cbn [app]. rewrite <- app_assoc. reflexivity.
    + right. exact I0.
Qed.
