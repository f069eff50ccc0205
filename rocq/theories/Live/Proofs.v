From Coq Require Import List Arith Lia.
Import ListNotations.
From Verif.Live Require Import Model Spec.

Lemma mem_In i s : mem i s = true <-> In i s.
Proof. unfold mem. rewrite existsb_exists. split; [intros (x & H & E); apply Nat.eqb_eq in E; subst; exact H|intros H; exists i; split; [exact H|apply Nat.eqb_refl]]. Qed.
Section Live.
Variable r : resolve.
Notation refers := (refers r).
Notation reaches := (reaches r).
Notation good := (fun s => NoDup s /\ in_order r s).
Lemma reaches_trans i j k : reaches i j -> reaches j k -> reaches i k.
Proof. intros H. induction 1; [exact H|econstructor; eassumption]. Qed.
Lemma reaches_first i j k : refers i j -> reaches j k -> reaches i k.
Proof. intros H. apply reaches_trans. econstructor; [constructor|exact H]. Qed.
Lemma good_snoc s i : good s -> ~ In i s -> (forall j, refers i j -> In j s) -> good (s ++ [i]).
Proof.
  intros [N O] Hi Hd. split.
  - apply NoDup_rev in N. rewrite <- (rev_involutive (s ++ [i])). apply NoDup_rev. rewrite rev_app_distr. constructor; [rewrite <- in_rev; exact Hi|exact N].
  - intros a x b E j Hj. destruct b as [|y b] using rev_ind.
    + apply app_inj_tail in E. destruct E as [-> ->]. apply Hd. exact Hj.
    + rewrite app_comm_cons, app_assoc in E. apply app_inj_tail in E. destruct E as [-> ->]. eapply O; [reflexivity|exact Hj].
Qed.
(** [L] walked over, from [s] to [s']. *)
Definition walked (L : nat -> Prop) (s s' : list nat) : Prop :=
  exists add, s' = s ++ add /\ good s' /\ (forall i, L i -> In i s') /\ forall j, In j add -> exists i, L i /\ reaches i j.
Definition walks (L : nat -> Prop) (f : list nat -> outcome) : Prop := forall s s', good s -> f s = Done s' -> walked L s s'.
Lemma walks_none (L : nat -> Prop) : (forall i, ~ L i) -> walks L (fun s => Done s).
Proof. intros H s s' G E. injection E as <-. exists []. rewrite app_nil_r. split; [reflexivity|]. split; [exact G|]. split; [intros i Hi; destruct (H i Hi)|intros j []]. Qed.
Lemma walked_both (L L1 L2 : nat -> Prop) s s1 s2 : (forall i, L i <-> L1 i \/ L2 i) -> walked L1 s s1 -> walked L2 s1 s2 -> walked L s s2.
Proof.
  intros H (a & -> & G1 & I1 & R1) (b & -> & G2 & I2 & R2). exists (a ++ b). rewrite app_assoc. split; [reflexivity|]. split; [exact G2|]. split.
  - intros i Hi. apply H in Hi. destruct Hi as [Hi|Hi]; [apply in_or_app; left; apply I1; exact Hi|apply I2; exact Hi].
  - intros j Hj. apply in_app_or in Hj. destruct Hj as [Hj|Hj]; [destruct (R1 j Hj) as (i & Hi & X)|destruct (R2 j Hj) as (i & Hi & X)]; exists i; (split; [apply H; auto|exact X]).
Qed.
Lemma walks_bind (L L1 L2 : nat -> Prop) f g : (forall i, L i <-> L1 i \/ L2 i) -> walks L1 f -> walks L2 g -> walks L (fun s => bind (f s) g).
Proof. intros H Hf Hg s s' G E. destruct (f s) as [s1| |] eqn:Ef; try discriminate. cbn [bind] in E. pose proof (Hf _ _ G Ef) as W1. eapply walked_both; [exact H|exact W1|]. apply Hg; [|exact E]. destruct W1 as (a & _ & G1 & _). exact G1. Qed.
Lemma walks_same (L L' : nat -> Prop) f : (forall i, L i <-> L' i) -> walks L' f -> walks L f.
Proof.
  intros H Hf s s' G E. destruct (Hf _ _ G E) as (a & X & G' & I1 & R1). exists a. split; [exact X|]. split; [exact G'|]. split; [intros i Hi; apply I1, H, Hi|].
  intros j Hj. destruct (R1 j Hj) as (i & Hi & Y). exists i. split; [apply H; exact Hi|exact Y].
Qed.
Lemma walks_each {A} (L : A -> nat -> Prop) f l : (forall a, In a l -> walks (L a) (fun s => f s a)) -> walks (fun i => exists a, In a l /\ L a i) (fun s => each f s l).
Proof.
  induction l as [|a l IH]; intros H; cbn [each]; [apply walks_none; intros i (x & [] & _)|].
  eapply (walks_bind _ (L a)); [|apply H; left; reflexivity|apply IH; intros b Hb; apply H; right; exact Hb].
  intros i. split; [intros (x & [->|Hx] & Hi); [left; exact Hi|right; exists x; auto]|intros [Hi|(x & Hx & Hi)]; [exists a|exists x]; split; auto; [left; reflexivity|right; exact Hx]].
Qed.
Lemma walks_opt {A} (L : A -> nat -> Prop) f o : (forall a, o = Some a -> walks (L a) (fun s => f s a)) -> walks (fun i => exists a, o = Some a /\ L a i) (fun s => opt f s o).
Proof.
  intros H. destruct o as [a|]; cbn [opt]; [|apply walks_none; intros i (x & Hx & _); discriminate]. eapply walks_same; [|apply H; reflexivity]. intros i. split; [intros (x & E & Hx); injection E as <-; exact Hx|intros Hi; exists a; auto].
Qed.
Lemma walks_type vid t : (forall i, walks (eq i) (fun s => vid s i)) -> walks (fun i => t = Id i) (fun s => visit_type vid s t).
Proof. intros H. destruct t as [|i]; cbn [visit_type]; [apply walks_none; discriminate|]. eapply walks_same; [|apply H]. intros j. split; [intros E; injection E; auto|intros ->; reflexivity]. Qed.
Lemma walks_types vid l : (forall i, walks (eq i) (fun s => vid s i)) -> walks (fun i => In (Id i) l) (fun s => each (visit_type vid) s l).
Proof.
  intros H. eapply walks_same; [|apply (walks_each (fun t i => t = Id i))]; [|intros t _; apply walks_type; exact H].
  intros i. split; [intros Hi; exists (Id i); auto|intros (t & Ht & ->); exact Ht].
Qed.
Lemma walks_otype vid o : (forall i, walks (eq i) (fun s => vid s i)) -> walks (fun i => o = Some (Id i)) (fun s => opt (visit_type vid) s o).
Proof.
  intros H. eapply walks_same; [|apply (walks_opt (fun t i => t = Id i))]; [|intros t _; apply walks_type; exact H].
  intros i. split; [intros ->; exists (Id i); auto|intros (t & -> & ->); reflexivity].
Qed.
Lemma walks_def vid k : (forall i, walks (eq i) (fun s => vid s i)) -> walks (made_of k) (fun s => visit_def vid s k).
Proof.
  intros H. assert (One : forall (c : ty -> kind) t, (forall i, made_of (c t) i <-> t = Id i) -> walks (made_of (c t)) (fun s => visit_type vid s t)).
  { intros c t E. eapply walks_same; [exact E|]. apply walks_type. exact H. }
  destruct k as [l| |i|i| |l|l| |t|a b|t|a b|t n|[t|]|[t|]|t|]; cbn [visit_def];
    try (apply walks_none; intros i X; inversion X; fail).
  - eapply walks_same; [|apply walks_types; exact H]. intros i. split; [intros X; inversion X; assumption|intros; constructor; assumption].
  - eapply walks_same; [|apply H]. intros j. split; [intros X; inversion X; reflexivity|intros <-; constructor].
  - eapply walks_same; [|apply H]. intros j. split; [intros X; inversion X; reflexivity|intros <-; constructor].
  - eapply walks_same; [|apply walks_types; exact H]. intros i. split; [intros X; inversion X; assumption|intros; constructor; assumption].
  - eapply walks_same; [|apply (walks_each (fun o i => o = Some (Id i)))]; [|intros o _; apply walks_otype; exact H].
    intros i. split; [intros X; inversion X; eauto|intros (o & Ho & ->); constructor; assumption].
  - apply (One Option). intros i. split; [intros X; inversion X; reflexivity|intros ->; constructor].
  - eapply walks_bind; [|apply (walks_otype vid a H)|apply (walks_otype vid b H)]. intros i. split; [intros X; inversion X; auto|intros [->| ->]; constructor].
  - apply (One ListOf). intros i. split; [intros X; inversion X; reflexivity|intros ->; constructor].
  - eapply walks_bind; [|apply (walks_type vid a H)|apply (walks_type vid b H)]. intros i. split; [intros X; inversion X; auto|intros [->| ->]; constructor].
  - apply (One (fun t => FixedLengthList t n)). intros i. split; [intros X; inversion X; reflexivity|intros ->; constructor].
  - apply (One (fun t => Future (Some t))). intros i. split; [intros X; inversion X; reflexivity|intros ->; constructor].
  - apply (One (fun t => Stream (Some t))). intros i. split; [intros X; inversion X; reflexivity|intros ->; constructor].
  - apply (One Alias). intros i. split; [intros X; inversion X; reflexivity|intros ->; constructor].
  - intros s s' _ E. discriminate.
Qed.
Lemma walks_id n : forall i, walks (eq i) (fun s => visit_id r n s i).
Proof.
  induction n as [|n IH]; intros i s s' G E; cbn [visit_id] in E; (destruct (mem i s) eqn:M; [injection E as <-; apply mem_In in M; exists []; rewrite app_nil_r; split; [reflexivity|]; split; [exact G|]; split; [intros ? <-; exact M|intros j []]|]);
    (destruct (nth_error (r_types r) i) as [k|] eqn:Ek; [|discriminate]); [discriminate|].
  destruct (visit_def (visit_id r n) s k) as [s1| |] eqn:Ed; try discriminate. cbn [bind] in E. destruct (mem i s1) eqn:M1; [discriminate|]. injection E as <-.
  destruct (walks_def _ k IH s s1 G Ed) as (a & -> & G1 & I1 & R1). assert (N1 : ~ In i (s ++ a)) by (intros X; apply mem_In in X; congruence).
  exists (a ++ [i]). rewrite app_assoc. split; [reflexivity|]. split; [|split].
  - apply good_snoc; [exact G1|exact N1|]. intros j (k' & Ek' & Hj). rewrite Ek in Ek'. injection Ek' as <-. apply I1. exact Hj.
  - intros ? <-. apply in_or_app. right. left. reflexivity.
  - intros j Hj. exists i. split; [reflexivity|]. apply in_app_or in Hj. destruct Hj as [Hj|[<-|[]]]; [|constructor]. destruct (R1 j Hj) as (x & Hx & Rx). eapply reaches_first; [exists k; eauto|exact Rx].
Qed.
Lemma walks_func n f : walks (of_func f) (fun s => visit_func r n s f).
Proof.
  unfold visit_func. eapply (walks_bind _ (fun i => f_kind f = Static i \/ f_kind f = AsyncStatic i) (fun i => In (Id i) (f_params f) \/ f_result f = Some (Id i))); [| |eapply walks_bind; [|apply walks_types; apply walks_id|apply walks_otype; apply walks_id]]; [| |intros i; reflexivity].
  - intros i. unfold of_func. tauto.
  - destruct (f_kind f); try (apply walks_none; intros j [X|X]; discriminate); (eapply walks_same; [|apply walks_id]); intros j; (split; [intros [X|X]; inversion X; reflexivity|intros <-; auto]).
Qed.
Lemma walks_interface n i : walks (of_interface r i) (fun s => visit_interface r n s i).
Proof.
  unfold visit_interface. destruct (nth_error (r_interfaces r) i) as [d|] eqn:E; [|intros s s' _ X; discriminate].
  eapply walks_bind; [|apply (walks_each (fun i j => i = j)); intros a _; apply walks_id|apply (walks_each of_func); intros f _; apply walks_func].
  intros j. unfold of_interface. rewrite E. split.
  - intros (d' & X & H). injection X as <-. destruct H as [H|H]; [left; exists j; auto|right; exact H].
  - intros [(x & Hx & <-)|H]; exists d; auto.
Qed.
Lemma walks_item n x : walks (of_item r x) (fun s => visit_item r n s x).
Proof.
  destruct x as [i|f|i]; cbn [visit_item of_item]; [apply walks_interface|apply walks_func|]. eapply walks_same; [|apply walks_id]. intros j. split; intros X; symmetry; exact X.
Qed.
Lemma walks_call n c : walks (named r c) (fun s => run_call r n s c).
Proof.
  destruct c as [i|i|x|f|i|t]; cbn [run_call named]; [apply walks_interface| |apply walks_item|apply walks_func| |apply walks_type; apply walks_id].
  - unfold visit_world. destruct (nth_error (r_worlds r) i) as [w|] eqn:E; [|intros s s' _ X; discriminate]. eapply walks_same; [|apply (walks_each (of_item r)); intros x _; apply walks_item].
    intros j. split.
    + intros (w' & x & X & Hx & Hj). rewrite E in X. injection X as <-. exists x. split; [apply in_or_app; exact Hx|exact Hj].
    + intros (x & Hx & Hj). exists w, x. split; [exact E|]. split; [apply in_app_or; exact Hx|exact Hj].
  - eapply walks_same; [|apply walks_id]. intros j. split; intros X; symmetry; exact X.
Qed.
Lemma good_nil : good []. Proof. split; [constructor|]. intros a i b E. destruct a; discriminate. Qed.
Lemma good_closed s i j : in_order r s -> In i s -> reaches i j -> In j s.
Proof. intros O Hi. induction 1 as [|j k _ IH Hk]; [exact Hi|]. apply in_split in IH. destruct IH as (a & b & E). rewrite E. apply in_or_app. left. eapply O; eauto. Qed.
Theorem live_sound n l s : live r n l = Done s -> answers r l s.
Proof.
  intros E. destruct (walks_each (named r) (run_call r n) l (fun c _ => walks_call n c) [] s good_nil E) as (a & -> & (N & O) & Hi & Hr). cbn [app] in *.
  split; [exact N|]. split; [exact O|]. intros j. split.
  - intros Hj. destruct (Hr j Hj) as (i & (c & Hc & Hn) & R). eauto.
  - intros (c & i & Hc & Hn & R). eapply good_closed; [exact O| |exact R]. apply Hi. eauto.
Qed.

(** * Termination *)
Section Total.
Hypothesis W : whole r.
Variable rank : nat -> nat.
Hypothesis HR : forall i j, refers i j -> rank j < rank i.
Lemma rank_le i j : reaches i j -> rank j <= rank i. Proof. induction 1 as [|j k _ IH Hk]; [lia|]. specialize (HR _ _ Hk). lia. Qed.
Definition stops (f : list nat -> outcome) : Prop := forall s, good s -> exists s', f s = Done s'.
Lemma stops_bind L f g : walks L f -> stops f -> stops g -> stops (fun s => bind (f s) g).
Proof. intros Hw Hf Hg s G. destruct (Hf s G) as (s1 & E). rewrite E. cbn [bind]. apply Hg. destruct (Hw _ _ G E) as (a & _ & G1 & _). exact G1. Qed.
Lemma stops_done : stops (fun s => Done s). Proof. intros s _. eauto. Qed.
Lemma stops_each {A} (L : A -> nat -> Prop) f l : (forall a, In a l -> walks (L a) (fun s => f s a)) -> (forall a, In a l -> stops (fun s => f s a)) -> stops (fun s => each f s l).
Proof.
  induction l as [|a l IH]; intros Hw Hs; cbn [each]; [apply stops_done|]. eapply stops_bind; [apply Hw; left; reflexivity|apply Hs; left; reflexivity|].
  apply IH; intros b Hb; [apply Hw|apply Hs]; right; exact Hb.
Qed.
Lemma stops_type vid t : (forall i, t = Id i -> stops (fun s => vid s i)) -> stops (fun s => visit_type vid s t).
Proof. intros H. destruct t; cbn [visit_type]; [apply stops_done|]. apply H. reflexivity. Qed.
Lemma stops_otype vid o : (forall i, o = Some (Id i) -> stops (fun s => vid s i)) -> stops (fun s => opt (visit_type vid) s o).
Proof. intros H. destruct o as [t|]; cbn [opt]; [|apply stops_done]. apply stops_type. intros i ->. apply H. reflexivity. Qed.
Lemma stops_types vid l : (forall i, walks (eq i) (fun s => vid s i)) -> (forall i, In (Id i) l -> stops (fun s => vid s i)) -> stops (fun s => each (visit_type vid) s l).
Proof. intros Hw H. apply (stops_each (fun t i => t = Id i)); intros t Ht; [apply walks_type; exact Hw|]. apply stops_type. intros i ->. apply H. exact Ht. Qed.
Lemma stops_def vid k : k <> Unknown -> (forall i, walks (eq i) (fun s => vid s i)) -> (forall i, made_of k i -> stops (fun s => vid s i)) -> stops (fun s => visit_def vid s k).
Proof.
  intros U Hw H. destruct k as [l| |i|i| |l|l| |t|a b|t|a b|t n|[t|]|[t|]|t|]; cbn [visit_def]; try apply stops_done; try congruence;
    try (apply stops_type; intros j ->; apply H; constructor); try (apply H; constructor).
  - apply stops_types; [exact Hw|]. intros i Hi. apply H. constructor. exact Hi.
  - apply stops_types; [exact Hw|]. intros i Hi. apply H. constructor. exact Hi.
  - apply (stops_each (fun o i => o = Some (Id i))); intros o Ho; [apply walks_otype; exact Hw|]. apply stops_otype. intros i ->. apply H. constructor. exact Ho.
  - eapply stops_bind; [apply walks_otype; exact Hw| |]; apply stops_otype; intros i ->; apply H; constructor.
  - eapply stops_bind; [apply walks_type; exact Hw| |]; apply stops_type; intros i ->; apply H; constructor.
Qed.
Lemma stops_id n : forall i, i < length (r_types r) -> rank i < n -> stops (fun s => visit_id r n s i).
Proof.
  induction n as [|n IH]; intros i Hi Hn s G; [lia|]. cbn [visit_id]. destruct (mem i s) eqn:M; [eauto|].
  destruct (nth_error (r_types r) i) as [k|] eqn:Ek; [|apply nth_error_None in Ek; lia]. destruct (W i k Ek) as [U Hk].
  destruct (stops_def (visit_id r n) k U (walks_id n)) with (s := s) as (s1 & E1); [|exact G|].
  - intros j Hj. apply IH; [apply Hk; exact Hj|]. assert (rank j < rank i) by (apply HR; exists k; auto). lia.
  - rewrite E1. cbn [bind]. destruct (mem i s1) eqn:M1; [|eauto]. exfalso. apply mem_In in M1. destruct (walks_def _ k (walks_id n) s s1 G E1) as (a & -> & _ & _ & R1).
    apply in_app_or in M1. destruct M1 as [M1|M1]; [apply mem_In in M1; congruence|]. destruct (R1 i M1) as (x & Hx & Rx). apply rank_le in Rx. assert (rank x < rank i) by (apply HR; exists k; auto). lia.
Qed.
Variable n : nat.
Hypothesis Hn : forall i, i < length (r_types r) -> rank i < n.
Lemma stops_id' i : i < length (r_types r) -> stops (fun s => visit_id r n s i). Proof. intros H. apply stops_id; auto. Qed.
Lemma stops_func f : (forall i, of_func f i -> i < length (r_types r)) -> stops (fun s => visit_func r n s f).
Proof.
  intros H. unfold visit_func. unfold of_func in H. eapply (stops_bind (fun i => f_kind f = Static i \/ f_kind f = AsyncStatic i)).
  - destruct (f_kind f); try (apply walks_none; intros j [X|X]; discriminate); (eapply walks_same; [|apply walks_id]); intros j; (split; [intros [X|X]; inversion X; reflexivity|intros <-; auto]).
  - destruct (f_kind f) eqn:E; try apply stops_done; apply stops_id', H; auto.
  - eapply stops_bind; [apply walks_types; apply walks_id| |].
    + apply stops_types; [apply walks_id|]. intros i Hi. apply stops_id', H. auto.
    + apply stops_otype. intros i Hi. apply stops_id', H. auto.
Qed.
Lemma stops_interface i : i < length (r_interfaces r) -> (forall j, of_interface r i j -> j < length (r_types r)) -> stops (fun s => visit_interface r n s i).
Proof.
  intros Hi H. unfold visit_interface. destruct (nth_error (r_interfaces r) i) as [d|] eqn:E; [|apply nth_error_None in E; lia]. unfold of_interface in H.
  eapply stops_bind; [apply (walks_each (fun i j => i = j)); intros a _; apply walks_id| |].
  - apply (stops_each (fun i j => i = j)); intros a Ha; [apply walks_id|]. apply stops_id', H. exists d. auto.
  - apply (stops_each of_func); intros f Hf; [apply walks_func|]. apply stops_func. intros j Hj. apply H. exists d. split; [exact E|]. right. eauto.
Qed.
Lemma stops_item x : item_exists r x -> (forall j, of_item r x j -> j < length (r_types r)) -> stops (fun s => visit_item r n s x).
Proof. intros Hx H. destruct x as [i|f|i]; cbn [visit_item item_exists of_item] in *; [apply stops_interface; assumption|apply stops_func; assumption|apply stops_id', H; reflexivity]. Qed.
Lemma stops_call c : exists_ r c -> stops (fun s => run_call r n s c).
Proof.
  intros [H Hc]. destruct c as [i|i|x|f|i|t]; cbn [run_call named] in *; [apply stops_interface; assumption| |apply stops_item; assumption|apply stops_func; assumption|apply stops_id', H; reflexivity|].
  - destruct Hc as (w & E & Hw). unfold visit_world. rewrite E. rewrite Forall_forall in Hw. apply (stops_each (of_item r)); intros x Hx; [apply walks_item|]. apply stops_item; [apply Hw; exact Hx|].
    intros j Hj. apply H. exists w, x. split; [exact E|]. split; [apply in_app_or; exact Hx|exact Hj].
  - apply stops_type. intros i ->. apply stops_id', H. reflexivity.
Qed.
Lemma stops_live l : Forall (exists_ r) l -> exists s, live r n l = Done s.
Proof.
  intros H. rewrite Forall_forall in H. apply (stops_each (named r) (run_call r n) l); [intros c _; apply walks_call|intros c Hc; apply stops_call, H, Hc|exact good_nil].
Qed.
End Total.
Lemma ranks_bounded (rank : nat -> nat) m : exists n, forall i, i < m -> rank i < n.
Proof. induction m as [|m (n & H)]; [exists 0; intros; lia|]. exists (S (n + rank m)). intros i Hi. destruct (Nat.eq_dec i m) as [->|]; [lia|]. specialize (H i). lia. Qed.
Theorem live_total l : whole r -> acyclic r -> Forall (exists_ r) l -> exists n, forall m, n <= m -> exists s, live r m l = Done s.
Proof.
  intros W (rank & HR) H. destruct (ranks_bounded rank (length (r_types r))) as (n & Hn). exists n. intros m Hm. apply (stops_live W rank HR m); [intros i Hi; specialize (Hn i Hi); lia|exact H].
Qed.

(** * Cycles *)
Lemma before s : in_order r s -> forall a i b, s = a ++ i :: b -> forall j k, refers i j -> reaches j k -> In k a.
Proof.
  intros O a i b E j k Hj. induction 1 as [|x k _ IH Hk]; [exact (O a i b E j Hj)|]. apply in_split in IH. destruct IH as (c & d & ->). apply in_or_app. left. apply (O c x (d ++ i :: b)); [|exact Hk]. rewrite E, <- app_assoc. reflexivity.
Qed.
Lemma no_cycle s i j : NoDup s -> in_order r s -> In i s -> refers i j -> ~ reaches j i.
Proof.
  intros N O Hi Hj R. apply in_split in Hi. destruct Hi as (a & b & E). pose proof (before s O a i b E j i Hj R) as X. rewrite E in N. apply NoDup_remove_2 in N. apply N. apply in_or_app. auto.
Qed.
End Live.
