(** Property C57: the live types of WIT items are those reached from them, each after the types it is made of. *)
From Coq Require Import List Arith Lia.
Import ListNotations.
From Verif.Live Require Import Model Spec Proofs.

(** Every sequence of calls on a [Resolve] without cycles ends without a panic, with the types reached from those named by the calls, each once, and each after the types
    it is made of ([answers], Spec.v).  [n] stands for the depth of the stack that is needed. *)
Theorem C57_live : forall r l, whole r -> acyclic r -> Forall (exists_ r) l ->
  exists n, forall m, n <= m -> exists s, live r m l = Done s /\ answers r l s.
Proof.
  intros r l W A H. destruct (live_total r l W A H) as (n & Hn). exists n. intros m Hm. destruct (Hn m Hm) as (s & E). exists s. split; [exact E|]. eapply live_sound. exact E.
Qed.
Print Assumptions C57_live.

(** Whatever the [Resolve] is, an answer is right; so a walk that comes to an end has met no cycle. *)
Theorem C57_answer : forall r n l s, live r n l = Done s -> answers r l s.
Proof. exact live_sound. Qed.
Print Assumptions C57_answer.
Theorem C57_cycle : forall r n l c i j k, In c l -> named r c i -> reaches r i j -> refers r j k -> reaches r k j -> forall s, live r n l <> Done s.
Proof.
  intros r n l c i j k Hc Hi Hj Hk Rk s E. destruct (live_sound r n l s E) as (N & O & M). eapply no_cycle; [exact N|exact O|apply M; eauto|exact Hk|exact Rk].
Qed.
Print Assumptions C57_cycle.

(** The order of the calls, and calls made twice, do not change which types are live. *)
Theorem C57_order : forall r n n' l l' s s', (forall c, In c l <-> In c l') -> live r n l = Done s -> live r n' l' = Done s' -> forall j, In j s <-> In j s'.
Proof.
  intros r n n' l l' s s' H E E' j. destruct (live_sound _ _ _ _ E) as (_ & _ & M), (live_sound _ _ _ _ E') as (_ & _ & M'). rewrite M, M'. split; intros (c & i & Hc & X); exists c, i; split; auto; apply H; exact Hc.
Qed.
Print Assumptions C57_order.

(** The code does not visit the resource of a method: it relies on the first parameter, a borrowed handle of it. *)
Theorem C57_method : forall r n l s f i t, live r n l = Done s -> In (AddFunc f) l -> (f_kind f = Method i \/ f_kind f = AsyncMethod i) -> In (Id t) (f_params f) ->
  nth_error (r_types r) t = Some (Borrow i) -> In i s.
Proof.
  intros r n l s f i t E Hc _ Ht Eb. destruct (live_sound _ _ _ _ E) as (_ & _ & M). apply M. exists (AddFunc f), t. split; [exact Hc|]. split; [right; right; left; exact Ht|].
  econstructor; [constructor|]. exists (Borrow i). split; [exact Eb|constructor].
Qed.
Print Assumptions C57_method.

(** The types of the test [chain] (live.rs:243-262), with a map, a result and a function with a handle: resource, record, variant, flags, enum, tuple. *)
Definition chain : resolve :=
  mkResolve [Resource; Own 0; Record [Id 1; Prim]; Variant [None; Some (Id 2)]; Flags; Enum; Tuple [Id 5; Id 4; Id 3]; Borrow 0; MapOf Prim (Id 6); Result (Some Prim) (Some (Id 5)); Alias (Id 8)]
    [mkInterface [10; 6] [mkFunction (Method 0) [Id 7; Prim] (Some (Id 9)); mkFunction (Static 0) [] None]]
    [mkWorld [ItemInterface 0] [ItemType 4; ItemFunction (mkFunction Freestanding [Id 3] None)]].
Example C57_case : whole chain /\ acyclic chain /\ Forall (exists_ chain) [AddFunc (mkFunction Freestanding [Id 6] None); AddWorld 0] /\
  live chain 20 [AddFunc (mkFunction Freestanding [Id 6] None); AddWorld 0] = Done [5; 4; 0; 1; 2; 3; 6; 8; 10; 7; 9].
Proof.
  assert (W : forall i k, nth_error (r_types chain) i = Some k -> k <> Unknown /\ forall j, made_of k j -> j < i).
  { intros i k H. do 11 (destruct i as [|i]; [injection H as <-; split; [discriminate|]; intros j Hj; inversion Hj; subst; cbn [In] in *;
      intuition (try discriminate); repeat match goal with X : Id _ = Id _ |- _ => injection X as <- | X : Some (Id _) = Some (Id _) |- _ => injection X as <- end; lia|]).
    destruct i; discriminate. }
  assert (B : forall i k, nth_error (r_types chain) i = Some k -> i < 11) by (intros i k H; apply (nth_error_Some (r_types chain) i); congruence).
  split; [|split; [|split; [|vm_compute; reflexivity]]].
  - intros i k H. destruct (W i k H) as [U D]. split; [exact U|]. intros j Hj. specialize (D j Hj). specialize (B i k H). cbn. lia.
  - exists (fun i => i). intros i j (k & H & Hj). exact (proj2 (W i k H) j Hj).
  - constructor; [|constructor; [|constructor]]; (split; [|cbn; eauto 6 using Forall; try (eexists; split; [reflexivity|repeat constructor])]).
    + intros i [H|[H|[[H|[]]|H]]]; cbn in H; try discriminate. injection H as <-. cbn. lia.
    + intros i (w & x & Ew & Hx & Hi). injection Ew as <-. cbn in Hx. destruct Hx as [[<-|[]]|[<-|[<-|[]]]]; cbn [of_item] in Hi.
      * destruct Hi as (d & Ed & Hi). injection Ed as <-. cbn [i_types i_functions] in Hi. unfold of_func in Hi. cbn [length chain r_types].
        destruct Hi as [[<-|[<-|[]]]|(f & [<-|[<-|[]]] & Hf)]; [lia|lia|..]; cbn in Hf; intuition (try discriminate); repeat match goal with X : Id _ = Id _ |- _ => injection X as <- | X : Some (Id _) = Some (Id _) |- _ => injection X as <- | X : Static _ = Static _ |- _ => injection X as <- end; lia.
      * subst i. cbn. lia.
      * destruct Hi as [H|[H|[[H|[]]|H]]]; cbn in H; try discriminate. injection H as <-. cbn. lia.
Qed.
