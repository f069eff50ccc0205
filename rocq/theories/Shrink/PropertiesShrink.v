(** C35: what wasm-shrink returns, and when it stops. *)
From Coq Require Import ZArith Lia List Bool.
From Verif Require Import Base.Prelude Shrink.Model.
Import ListNotations.
Open Scope Z_scope.

(** Each element is shorter than the one below it. *)
Fixpoint shrinking (l : list bytes) (above : bytes) : Prop :=
  match l with [] => True | b :: l => zlen b < zlen (hd above l) /\ shrinking l above end.

Section Shrink.
Context {W : Type}.
Variable predicate : W -> bytes -> W * option bool.
Variable mutate : W -> bytes -> W * option (list (option bytes)).
Variable low_probability : W -> W * bool.
Variable on_new_smallest : option (W -> bytes -> W * bool).
Variable valid : bytes -> bool.
Variable hash : bytes -> Z.
Variable attempts : Z.
Variable allow_empty debug : bool.
Notation candidates := (candidates predicate low_probability hash).
Notation turn := (turn predicate mutate low_probability on_new_smallest hash attempts debug).
Notation search := (search predicate mutate low_probability on_new_smallest hash attempts debug).
Notation run := (run predicate mutate low_probability on_new_smallest valid hash attempts allow_empty debug).
Notation on_new_best := (on_new_best on_new_smallest debug).
Notation on_new_interesting := (on_new_interesting on_new_smallest debug).

Record SInv (input current : bytes) (s : @state W) : Prop := {
  i_asked : In (best s, Some true) (asked s);
  i_current : zlen (best s) <= zlen current;
  i_input : zlen (best s) <= zlen input;
  i_attempt : 0 <= attempt s <= attempts;
  i_told : forall f, on_new_smallest = Some f -> best s = hd input (told s);
  i_shrink : shrinking (told s) input;
  i_count : zlen (asked s) + zlen (best s) * attempts + (attempts - attempt s) <= 2 + (zlen input + 1) * attempts }.

Lemma zl_cons {A} (x : A) l : zlen (x :: l) = 1 + zlen l.
Proof. unfold zlen. cbn [List.length]. lia. Qed.
Lemma zl_nonneg {A} (l : list A) : 0 <= zlen l.
Proof. unfold zlen. lia. Qed.

Lemma candidates_spec current : forall ms i (s : @state W), candidates i current ms s <> Panic /\
  (forall s' r, candidates i current ms s = Ok (s', r) ->
     best s' = best s /\ told s' = told s /\ incl (asked s) (asked s') /\
     attempt s <= attempt s' <= attempt s + Z.max 0 (zlen ms - (match i with O => 1 | S _ => 0 end)) /\
     zlen (asked s') - zlen (asked s) <= attempt s' - attempt s + (match i with O => 1 | S _ => 0 end) /\
     (forall b, r = Some b -> In (b, Some true) (asked s'))).
Proof.
  induction ms as [|m ms IH]; intros i s; cbn [Model.candidates].
  - split; [discriminate|]. intros s' r [= <- <-]. split; [reflexivity|]. split; [reflexivity|]. split; [apply incl_refl|].
    split; [destruct i; cbn; lia|]. split; [destruct i; cbn; lia|]. discriminate.
  - set (s1 := match i with O => s | S _ => add_attempt s end).
    assert (best s1 = best s /\ told s1 = told s /\ asked s1 = asked s /\ attempt s1 = attempt s + match i with O => 0 | S _ => 1 end) as (B1 & T1 & A1 & N1).
    { subst s1. destruct i; unfold add_attempt; cbn [best told asked attempt]; repeat split; try reflexivity; lia. }
    clearbody s1. rewrite zl_cons. pose proof (zl_nonneg ms).
    assert (forall s2 : @state W, best s2 = best s1 -> told s2 = told s1 -> attempt s2 = attempt s1 ->
       incl (asked s1) (asked s2) -> zlen (asked s2) <= zlen (asked s1) + 1 -> 
       candidates (S i) current ms s2 <> Panic /\
       (forall s' r, candidates (S i) current ms s2 = Ok (s', r) ->
         best s' = best s /\ told s' = told s /\ incl (asked s) (asked s') /\
         attempt s <= attempt s' <= attempt s + Z.max 0 (1 + zlen ms - (match i with O => 1 | S _ => 0 end)) /\
         zlen (asked s') - zlen (asked s) <= attempt s' - attempt s + (match i with O => 1 | S _ => 0 end) /\
         (forall b, r = Some b -> In (b, Some true) (asked s')))) as K.
    { intros s2 B2 T2 N2 A2 L2. destruct (IH (S i) s2) as (NP & IHs). split; [exact NP|]. intros s' r E. destruct (IHs s' r E) as (X1 & X2 & X3 & X4 & X5 & X6).
      rewrite A1 in *. split; [congruence|]. split; [congruence|]. split; [eapply incl_tran; eassumption|]. split; [destruct i; lia|]. split; [destruct i; lia|]. exact X6. }
    destruct m as [b|].
    2:{ apply K; auto; [apply incl_refl|lia]. }
    destruct (existsb (Z.eqb (hash b)) (already_tested s1)); [apply K; auto; [apply incl_refl|lia]|].
    unfold ask. cbn [world]. destruct (predicate (world s1) b) as [w r]. cbn [best already_tested attempt asked told].
    destruct r as [[|]|].
    + unfold should_accept. cbn [world]. destruct (zlen b <? zlen current).
      * split; [discriminate|]. intros s' r [= <- <-]. cbn [best told asked attempt]. rewrite A1. split; [congruence|]. split; [congruence|]. split; [apply incl_tl, incl_refl|].
        rewrite zl_cons. split; [destruct i; lia|]. split; [destruct i; lia|]. intros b0 [= <-]. now left.
      * destruct (low_probability w) as [w' a]. destruct a.
        -- split; [discriminate|]. intros s' r [= <- <-]. cbn [best told asked attempt set_world]. rewrite A1. split; [congruence|]. split; [congruence|]. split; [apply incl_tl, incl_refl|].
           rewrite zl_cons. split; [destruct i; lia|]. split; [destruct i; lia|]. intros b0 [= <-]. now left.
        -- apply K; auto; cbn; [apply incl_tl, incl_refl|rewrite zl_cons; lia].
    + apply K; auto; cbn; [apply incl_tl, incl_refl|rewrite zl_cons; lia].
    + split; [discriminate|]. intros; discriminate.
Qed.

(** One turn keeps the invariant, never panics and comes nearer to the end. *)
Lemma turn_spec input current (s : @state W) : SInv input current s -> attempt s < attempts ->
  turn current s <> Panic /\
  (forall s' current', turn current s = Ok (s', current') -> SInv input current' s' /\
     zlen (best s') * (attempts + 1) + (attempts - attempt s') < zlen (best s) * (attempts + 1) + (attempts - attempt s)).
Proof.
  intros V La. destruct V as [V1 V2 V3 V4 V5 V6 V7]. unfold Model.turn. cbn [world add_attempt].
  destruct (mutate (world s) current) as [w ms].
  set (s1 := set_world w (add_attempt s)).
  assert (attempt s1 = attempt s + 1 /\ best s1 = best s /\ told s1 = told s /\ asked s1 = asked s) as (N1 & B1 & T1 & A1) by (repeat split; reflexivity).
  clearbody s1.
  assert (SInv input current s1) as Vs1.
  { split; rewrite ?B1, ?T1, ?A1, ?N1; try assumption; lia. }
  assert (zlen (best s1) * (attempts + 1) + (attempts - attempt s1) < zlen (best s) * (attempts + 1) + (attempts - attempt s)) as D1 by (rewrite B1; lia).
  destruct ms as [ms|]; [|split; [discriminate|]; intros s' c' [= <- <-]; now split].
  destruct (firstn _ ms) as [|m l] eqn:F; [split; [discriminate|]; intros s' c' [= <- <-]; now split|].
  rewrite <- F. assert (zlen (firstn (Z.to_nat (Z.min (attempts - attempt s1) 10)) ms) <= attempts - attempt s1 /\ 1 <= zlen (firstn (Z.to_nat (Z.min (attempts - attempt s1) 10)) ms)) as (L1 & L2).
  { split; [|rewrite F, zl_cons; pose proof (zl_nonneg l); lia]. pose proof (firstn_le_length (Z.to_nat (Z.min (attempts - attempt s1) 10)) ms). unfold zlen. lia. }
  clear F m l. set (ms' := firstn _ ms) in *. clearbody ms'.
  destruct (candidates_spec current ms' 0%nat s1) as (NP & CS).
  destruct (candidates 0%nat current ms' s1) as [[s2 r]| |] eqn:E; [|split; [discriminate|]; intros; discriminate|congruence].
  destruct (CS s2 r eq_refl) as (B2 & T2 & I2 & N2 & K2 & R2). clear CS NP.
  assert (SInv input current s2) as Vs2.
  { destruct Vs1 as [W1 W2 W3 W4 W5 W6 W7]. split; rewrite ?B2, ?T2; try assumption.
    - now apply I2.
    - lia.
    - rewrite A1, B1, N1 in *. lia. }
  assert (zlen (best s2) * (attempts + 1) + (attempts - attempt s2) < zlen (best s) * (attempts + 1) + (attempts - attempt s)) as D2 by (rewrite B2, B1 in *; lia).
  destruct r as [b|]; [|split; [discriminate|]; intros s' c' [= <- <-]; now split].
  unfold Model.on_new_interesting.
  assert (zlen (best s2) <=? zlen current = true) as -> by (apply Z.leb_le, Vs2). rewrite andb_false_r.
  destruct (zlen b <? zlen (best s2)) eqn:Lb.
  2:{ split; [discriminate|]. intros s' c' [= <- <-]. split; [|exact D2]. destruct Vs2 as [W1 W2 W3 W4 W5 W6 W7]. apply Z.ltb_ge in Lb. split; assumption. }
  unfold Model.on_new_best. rewrite Lb. cbn [orb negb]. rewrite andb_false_r. apply Z.ltb_lt in Lb.
  assert (forall w' tl, (tl = told s2 \/ tl = b :: told s2) -> (forall f, on_new_smallest = Some f -> tl = b :: told s2) -> (on_new_smallest <> None \/ tl = told s2) ->
    SInv input b (State w' b (already_tested s2) 0 (asked s2) tl)) as K.
  { intros w' tl C Tf Nf. destruct Vs2 as [W1 W2 W3 W4 W5 W6 W7]. split; cbn [best asked attempt told].
    - now apply R2.
    - lia.
    - lia.
    - lia.
    - intros f Hf. now rewrite (Tf f Hf).
    - destruct C as [-> | ->]; [exact W6|]. cbn [shrinking]. split; [|exact W6]. destruct Nf as [Nf|Nf].
      + destruct on_new_smallest as [f|] eqn:Ef; [|congruence]. rewrite <- (W5 f eq_refl). exact Lb.
      + exfalso. clear - Nf. apply (f_equal (@List.length _)) in Nf. cbn in Nf. lia.
    - pose proof (zl_nonneg b). nia. }
  assert (zlen b * (attempts + 1) + (attempts - 0) < zlen (best s) * (attempts + 1) + (attempts - attempt s)) as D3 by (rewrite B2, B1 in Lb; nia).
  destruct on_new_smallest as [f|] eqn:Ef.
  - destruct (f (world s2) b) as [w' ok]. destruct ok; [|split; [discriminate|]; intros; discriminate].
    split; [discriminate|]. intros s' c' [= <- <-]. split; [|exact D3]. apply K; [now right|reflexivity|left; discriminate].
  - split; [discriminate|]. intros s' c' [= <- <-]. split; [|exact D3]. apply K; [now left|discriminate|now right].
Qed.

Lemma search_spec input : forall fuel current (s : @state W), SInv input current s ->
  (search fuel current s <> Some Panic) /\
  (zlen (best s) * (attempts + 1) + (attempts - attempt s) < Z.of_nat fuel -> search fuel current s <> None) /\
  (forall s', search fuel current s = Some (Ok s') -> exists current', SInv input current' s').
Proof.
  induction fuel as [|fuel IH]; intros current s V; cbn [Model.search].
  - split; [discriminate|]. split; [|discriminate]. destruct V. pose proof (zl_nonneg (best s)). intros F. nia.
  - destruct (Z.ltb_spec (attempt s) attempts) as [L|L].
    + destruct (turn_spec input current s V L) as (NP & T). destruct (turn current s) as [[s' c']| |].
      * destruct (T s' c' eq_refl) as (V' & D). destruct (IH c' s' V') as (A & B & C). split; [exact A|]. split; [|exact C]. intros F. apply B. lia.
      * split; [discriminate|]. split; discriminate.
      * congruence.
    + split; [discriminate|]. split; [discriminate|]. intros s' [= <-]. exists current. exact V.
Qed.

Lemma start_inv w input w' r w1 r1 : predicate w input = (w1, Some true) -> predicate w1 EMPTY_WASM = (w', r1) -> r = r1 -> 0 <= attempts ->
  SInv input input (State w' input [] 0 [(EMPTY_WASM, r); (input, Some true)] []).
Proof.
  intros _ _ _ A. split; cbn [best asked attempt told hd shrinking]; try lia; try reflexivity; [right; now left|].
  rewrite !zl_cons. change (zlen (@nil (bytes * option bool))) with 0. lia.
Qed.

(** Whatever the predicate, the mutator, the random numbers and the callback do:
    what is returned was found interesting by the predicate, is no larger than
    the input, comes with the true sizes, and was reached by asking the predicate
    at most [attempts] times for each byte that was saved, and once more; the
    callback was given smaller and smaller modules, the last of which is the
    result. *)
Theorem C35_result fuel w input i s : 0 <= attempts -> (forall b, valid b = true -> 8 <= zlen b) ->
  run fuel w input = Some (Ok (i, s)) ->
  In (output i, Some true) (asked s) /\ zlen (output i) <= zlen input /\
  input_size i = zlen input /\ output_size i = zlen (output i) /\
  zlen (asked s) <= 2 + (zlen input - zlen (output i) + 1) * attempts /\
  (forall f, on_new_smallest = Some f ->
     (told s = [] -> output i = input) /\ (told s <> [] -> exists earlier, told s = output i :: earlier) /\
     (zlen (output i) < zlen input \/ told s = [] -> shrinking (told s) input)).
Proof.
  intros A HV. unfold Model.run. destruct (valid input) eqn:Vi; [|discriminate]. cbn [negb]. pose proof (HV _ Vi) as L8.
  unfold ask at 1. cbn [world best already_tested attempt asked told]. destruct (predicate w input) as [w1 r1] eqn:P1. destruct r1 as [[|]|]; try discriminate.
  unfold ask at 1. cbn [world best already_tested attempt asked told]. destruct (predicate w1 EMPTY_WASM) as [w2 r2] eqn:P2.
  destruct r2 as [[|]|]; try discriminate.
  - destruct allow_empty; [|discriminate]. unfold Model.on_new_best. cbn [best already_tested attempt asked told world].
    destruct (debug && _); [discriminate|]. 
    assert (zlen EMPTY_WASM = 8) as LE by reflexivity.
    destruct on_new_smallest as [f|] eqn:Ef.
    + destruct (f w2 EMPTY_WASM) as [w' ok]. destruct ok; [|discriminate]. intros [= <- <-]. cbn [output finish input_size output_size asked told best].
      split; [now left|]. split; [lia|]. split; [reflexivity|]. split; [reflexivity|]. rewrite !zl_cons. change (zlen (@nil (bytes * option bool))) with 0.
      split; [nia|]. intros f0 _. split; [discriminate|]. split; [intros _; now exists []|]. intros [H|H]; [|discriminate]. cbn. split; [exact H|exact I].
    + intros [= <- <-]. cbn [output finish input_size output_size asked told best].
      split; [now left|]. split; [lia|]. split; [reflexivity|]. split; [reflexivity|]. rewrite !zl_cons. change (zlen (@nil (bytes * option bool))) with 0.
      split; [nia|]. intros f0 H. discriminate.
  - pose proof (start_inv w input w2 _ w1 _ P1 P2 eq_refl A) as V.
    destruct (search_spec input fuel input _ V) as (_ & _ & C).
    destruct (search fuel input _) as [[s'| |]|]; try discriminate. intros [= <- <-]. destruct (C s' eq_refl) as (c' & [V1 V2 V3 V4 V5 V6 V7]).
    cbn [output finish input_size output_size]. split; [exact V1|]. split; [exact V3|]. split; [reflexivity|]. split; [reflexivity|].
    split; [nia|]. intros f Ef. specialize (V5 f Ef). destruct (told s') as [|b tl] eqn:T; cbn in V5.
    + split; [now intros _|]. split; [congruence|]. intros _. exact I.
    + split; [discriminate|]. split; [intros _; exists tl; now rewrite V5|]. intros _. exact V6.
Qed.

(** It stops: [(size + 1) * (attempts + 1)] turns are enough. *)
Theorem C35_stops fuel w input : 0 <= attempts -> (zlen input + 1) * (attempts + 1) <= Z.of_nat fuel -> run fuel w input <> None.
Proof.
  intros A F. unfold Model.run. destruct (valid input); [|discriminate]. cbn [negb].
  unfold ask at 1. cbn [world best already_tested attempt asked told]. destruct (predicate w input) as [w1 r1] eqn:P1. destruct r1 as [[|]|]; try discriminate.
  unfold ask at 1. cbn [world best already_tested attempt asked told]. destruct (predicate w1 EMPTY_WASM) as [w2 r2] eqn:P2.
  destruct r2 as [[|]|]; try discriminate.
  - destruct allow_empty; discriminate.
  - pose proof (start_inv w input w2 _ w1 _ P1 P2 eq_refl A) as V.
    destruct (search_spec input fuel input _ V) as (_ & B & _). cbn [best attempt] in B.
    destruct (search fuel input _) as [[s'| |]|]; try discriminate. exfalso. apply B; [lia|reflexivity].
Qed.

(** No assertion fails, except one: see [C35_debug_refuted]. *)
Theorem C35_assertions_partial fuel w input : 0 <= attempts -> (forall b, valid b = true -> 8 <= zlen b) ->
  debug = false \/ zlen input <> 8 \/ input = EMPTY_WASM \/ allow_empty = false -> run fuel w input <> Some Panic.
Proof.
  intros A HV C. unfold Model.run. destruct (valid input) eqn:Vi; [|discriminate]. cbn [negb]. pose proof (HV _ Vi) as L8.
  unfold ask at 1. cbn [world best already_tested attempt asked told]. destruct (predicate w input) as [w1 r1] eqn:P1. destruct r1 as [[|]|]; try discriminate.
  unfold ask at 1. cbn [world best already_tested attempt asked told]. destruct (predicate w1 EMPTY_WASM) as [w2 r2] eqn:P2.
  destruct r2 as [[|]|]; try discriminate.
  - destruct allow_empty eqn:Ea; [|discriminate]. unfold Model.on_new_best. cbn [best world already_tested asked told].
    assert (debug && negb ((zlen EMPTY_WASM <? zlen input) || (beq EMPTY_WASM EMPTY_WASM && beq input EMPTY_WASM)) = false) as ->.
    { destruct C as [-> |[C|[-> |C]]]; [reflexivity| | |discriminate].
      - assert (zlen EMPTY_WASM <? zlen input = true) as -> by (apply Z.ltb_lt; change (zlen EMPTY_WASM) with 8; lia). apply andb_false_r.
      - apply andb_false_intro2. reflexivity. }
    destruct on_new_smallest as [f|]; [|discriminate]. destruct (f _ EMPTY_WASM) as [w' ok]. destruct ok; discriminate.
  - pose proof (start_inv w input w2 _ w1 _ P1 P2 eq_refl A) as V.
    destruct (search_spec input fuel input _ V) as (NP & _ & _).
    destruct (search fuel input _) as [[s'| |]|]; try discriminate. congruence.
Qed.
End Shrink.
Print Assumptions C35_result.
Print Assumptions C35_stops.
Print Assumptions C35_assertions_partial.

(** The last attempt is spent without asking for a candidate: with one attempt
    the mutator's modules are never tried. *)
Theorem C35_one_attempt {W} predicate mutate low_probability on_new_smallest valid hash allow_empty debug fuel (w : W) input i s :
  run predicate mutate low_probability on_new_smallest valid hash 1 allow_empty debug fuel w input = Some (Ok (i, s)) ->
  output i = input \/ output i = EMPTY_WASM /\ allow_empty = true.
Proof.
  unfold Model.run. destruct (valid input); [|discriminate]. cbn [negb].
  unfold ask at 1. cbn [world best already_tested attempt asked told]. destruct (predicate w input) as [w1 r1]. destruct r1 as [[|]|]; try discriminate.
  unfold ask at 1. cbn [world best already_tested attempt asked told]. destruct (predicate w1 EMPTY_WASM) as [w2 r2].
  destruct r2 as [[|]|]; try discriminate.
  - destruct allow_empty; [|discriminate]. unfold on_new_best. destruct (debug && _); [discriminate|].
    destruct on_new_smallest as [f|]; [|intros [= <- <-]; now right]. destruct (f _ EMPTY_WASM) as [w' ok]. destruct ok; [|discriminate]. intros [= <- <-]. now right.
  - destruct fuel as [|fuel]; [discriminate|]. cbn [search attempt]. change (0 <? 1) with true. cbv iota. unfold turn. cbn [world add_attempt].
    destruct (mutate w2 input) as [w3 ms]. cbn [set_world attempt add_attempt]. change (Z.to_nat (Z.min (1 - (0 + 1)) 10)) with 0%nat. cbn [firstn].
    destruct ms; (destruct fuel as [|fuel]; [discriminate|]); cbn [search attempt]; change (0 + 1 <? 1) with false; cbv iota; intros [= <- <-]; now left.
Qed.
Print Assumptions C35_one_attempt.

(** With [debug_assert!] compiled in, shrinking the empty component (eight bytes,
    not those of the empty module) with [allow_empty] panics. *)
Definition EMPTY_COMPONENT : bytes := [0; 97; 115; 109; 13; 0; 1; 0].
Theorem C35_debug_refuted :
  run (W := unit) (fun w _ => (w, Some true)) (fun w _ => (w, None)) (fun w => (w, false)) None (fun b => 8 <=? zlen b) (fun _ => 0) 1000 true true 5000 tt EMPTY_COMPONENT = Some Panic.
Proof. vm_compute. reflexivity. Qed.
Print Assumptions C35_debug_refuted.

(** A predicate that wants a 7 in the module and a mutator that drops the last
    byte, then the first of the rest. *)
Example C35_case :
  let predicate (w : nat) (b : bytes) := (S w, Some (existsb (Z.eqb 7) b)) in
  let mutate (w : nat) (b : bytes) := (S w, Some [Some (removelast b); None; Some (tl b)]) in
  exists i s, run predicate mutate (fun w => (w, false)) (Some (fun w _ => (w, true))) (fun b => 8 <=? zlen b) (fun b => fold_left (fun a x => a * 1000 + x) b 0) 5 true true 200 0%nat
    [1; 2; 7; 3; 4; 5; 6; 8; 9] = Some (Ok (i, s)) /\ output i = [7] /\ List.length (told s) = 8%nat.
Proof. eexists. eexists. split; [vm_compute; reflexivity|]. split; reflexivity. Qed.
