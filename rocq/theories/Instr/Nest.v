(** The stack of open blocks accepts exactly the well-nested sequences. *)
From Verif.Base Require Import Prelude.
From Verif.Reader Require Import Model.
From Verif.Types Require Import RefModel CodecModel.
From Verif.Instr Require Import ImmModel Ops Imms Den BodyModel BodySpec.
From Coq Require Import Lia.

Definition of_list (s : list frame_kind) : cstack := match s with [] => mkStack [] None | k :: t => mkStack t (Some k) end.
Definition eff (i : instr) (s : list frame_kind) : list frame_kind :=
  match i with
  | In_Block _ => FBlock :: s
  | In_Loop _ => FLoop :: s
  | In_If _ => FIf :: s
  | In_Else => FElse :: tl s
  | In_Try _ => FLegacyTry :: s
  | In_Catch _ => FLegacyCatch :: tl s
  | In_CatchAll => FLegacyCatchAll :: tl s
  | In_TryTable _ _ => FTryTable :: s
  | In_Delegate _ => tl s
  | In_End => tl s
  | _ => s
  end.
Lemma cs_push_list k s : cs_push k (of_list s) = of_list (k :: s).
Proof. destruct s; reflexivity. Qed.
Lemma cs_pop_list s : cs_pop (of_list s) = of_list (tl s).
Proof. destruct s as [|k [|k2 s]]; reflexivity. Qed.
Lemma eff_ok i s : cs_visit (den i) (of_list s) = of_list (eff i s).
Proof.
  destruct i; cbn [den cs_visit eff]; rewrite ?cs_pop_list, ?cs_push_list; try reflexivity; unfold den;
  repeat match goal with |- context [match ?x with _ => _ end] => destruct x end; reflexivity.
Qed.
Inductive steps : list frame_kind -> list instr -> list frame_kind -> Prop :=
| st_nil s : steps s [] s
| st_cons k s i l s' : frame_ok k i -> steps (eff i (k :: s)) l s' -> steps (k :: s) (i :: l) s'.
Lemma steps_app s l s1 l' s2 : steps s l s1 -> steps s1 l' s2 -> steps s (l ++ l') s2.
Proof. induction 1; intros; cbn [app]; [assumption|]. constructor; auto. Qed.
Lemma steps_end k s l s' : steps s l s' -> steps (k :: s) (In_End :: l) s'.
Proof. intros. constructor; [exact I|exact H]. Qed.
Lemma plain_eff i s : plain i -> eff i s = s.
Proof. destruct i; try reflexivity; intros []. Qed.
Lemma plain_frame i k : plain i -> frame_ok k i.
Proof. destruct i; intros H; try exact I; destruct H. Qed.
Lemma nested_steps : (forall l, nested l -> forall k s, steps (k :: s) l (k :: s)) /\
  (forall h, handlers h -> forall k s, k = FLegacyTry \/ k = FLegacyCatch -> steps (k :: s) h s).
Proof.
  apply nested_ind2.
  - intros. constructor.
  - intros i l Hp _ IH k s. constructor; [apply plain_frame, Hp|]. rewrite plain_eff by exact Hp. apply IH.
  - intros t b l _ IHb _ IHl k s. constructor; [exact I|]. cbn [eff]. eapply steps_app; [apply IHb|]. apply steps_end, IHl.
  - intros t b l _ IHb _ IHl k s. constructor; [exact I|]. cbn [eff]. eapply steps_app; [apply IHb|]. apply steps_end, IHl.
  - intros t cs b l _ IHb _ IHl k s. constructor; [exact I|]. cbn [eff]. eapply steps_app; [apply IHb|]. apply steps_end, IHl.
  - intros t b l _ IHb _ IHl k s. constructor; [exact I|]. cbn [eff]. eapply steps_app; [apply IHb|]. apply steps_end, IHl.
  - intros t b c l _ IHb _ IHc _ IHl k s. constructor; [exact I|]. cbn [eff]. eapply steps_app; [apply IHb|].
    constructor; [reflexivity|]. cbn [eff tl]. eapply steps_app; [apply IHc|]. apply steps_end, IHl.
  - intros t b h l _ IHb _ IHh _ IHl k s. constructor; [exact I|]. cbn [eff]. eapply steps_app; [apply IHb|].
    eapply steps_app; [apply IHh; auto|apply IHl].
  - intros t b d l _ IHb _ IHl k s. constructor; [exact I|]. cbn [eff]. eapply steps_app; [apply IHb|].
    constructor; [reflexivity|]. apply IHl.
  - intros k s _. apply steps_end. constructor.
  - intros t b h _ IHb _ IHh k s Hk. constructor; [exact Hk|]. cbn [eff tl]. eapply steps_app; [apply IHb|]. apply IHh. auto.
  - intros b _ IHb k s Hk. constructor; [exact Hk|]. cbn [eff tl]. eapply steps_app; [apply IHb|]. apply steps_end. constructor.
Qed.

(** What may follow the body of an open block of kind [k], up to its end. *)
Inductive closes : frame_kind -> list instr -> Prop :=
| cl_end k : k <> FLegacyTry -> k <> FLegacyCatch -> closes k [In_End]
| cl_else b : nested b -> closes FIf (In_Else :: b ++ [In_End])
| cl_handlers k h : k = FLegacyTry \/ k = FLegacyCatch -> handlers h -> closes k h
| cl_delegate d : closes FLegacyTry [In_Delegate d].
Ltac shape := repeat (progress cbn [app] || rewrite <- app_assoc); reflexivity.
Lemma steps_split n : forall l, (List.length l < n)%nat -> forall k s, steps (k :: s) l [] ->
  exists b c l', l = b ++ c ++ l' /\ nested b /\ closes k c /\ steps s l' [].
Proof.
  induction n as [|n IH]; intros l Hn k s H; [lia|]. inversion H as [|k0 s0 i l1 s1 Hf H1]; subst. cbn [List.length] in Hn.
  assert (Hpush : forall k1, k1 <> FLegacyTry -> k1 <> FLegacyCatch -> k1 <> FIf -> steps (k1 :: k :: s) l1 [] ->
    exists b1 b c l', l1 = b1 ++ In_End :: b ++ c ++ l' /\ nested b1 /\ nested b /\ closes k c /\ steps s l' []).
  { intros k1 N1 N2 N3 H2. destruct (IH l1 ltac:(lia) k1 (k :: s) H2) as (b1 & c1 & l2 & -> & Hb1 & Hc1 & H3).
    inversion Hc1 as [k2 _ _|? ?|k2 h [->| ->] _|?]; subst; try contradiction. rewrite !app_length in Hn. cbn [List.length] in Hn.
    destruct (IH l2 ltac:(lia) k s H3) as (b & c & l' & -> & Hb & Hc & H4). exists b1, b, c, l'. auto. }
  assert (Hd : plain i \/ ~ plain i) by (destruct i; cbn [plain]; auto).
  destruct Hd as [Hd|Hd].
  { rewrite plain_eff in H1 by exact Hd. destruct (IH l1 ltac:(lia) k s H1) as (b & c & l' & -> & Hb & Hc & H4).
    exists (i :: b), c, l'. split; [reflexivity|]. split; [constructor; assumption|auto]. }
  destruct i; try (exfalso; apply Hd; exact I); clear Hd; cbn [eff tl] in H1.
  - (* block *) destruct (Hpush FBlock) as (b1 & b & c & l' & -> & Hb1 & Hb & Hc & H4); try discriminate; [exact H1|].
    eexists (In_Block _ :: b1 ++ In_End :: b), c, l'. split; [shape|]. split; [constructor; assumption|auto].
  - (* loop *) destruct (Hpush FLoop) as (b1 & b & c & l' & -> & Hb1 & Hb & Hc & H4); try discriminate; [exact H1|].
    eexists (In_Loop _ :: b1 ++ In_End :: b), c, l'. split; [shape|]. split; [constructor; assumption|auto].
  - (* if *) destruct (IH l1 ltac:(lia) FIf (k :: s) H1) as (b1 & c1 & l2 & -> & Hb1 & Hc1 & H3). rewrite !app_length in Hn.
    assert (Hl : (List.length l2 < n)%nat) by lia. destruct (IH l2 Hl k s H3) as (b & c & l' & -> & Hb & Hc & H4).
    inversion Hc1 as [k2 _ _|b2 Hb2|k2 h [Ek|Ek] _|?]; subst; try discriminate.
    + eexists (In_If _ :: b1 ++ In_End :: b), c, l'. split; [shape|]. split; [constructor; assumption|auto].
    + eexists (In_If _ :: b1 ++ In_Else :: b2 ++ In_End :: b), c, l'. split; [shape|]. split; [constructor; assumption|auto].
  - (* else *) cbn [frame_ok] in Hf. subst k. destruct (IH l1 ltac:(lia) FElse s H1) as (b1 & c1 & l2 & -> & Hb1 & Hc1 & H3).
    inversion Hc1 as [k2 _ _|b2 Hb2|k2 h [Ek|Ek] _|?]; subst; try discriminate.
    eexists [], (In_Else :: b1 ++ [In_End]), l2. split; [shape|]. split; [constructor|]. split; [constructor; exact Hb1|exact H3].
  - (* end *) destruct k; try (eexists [], [In_End], l1; split; [reflexivity|]; split; [constructor|]; split; [|exact H1];
      first [constructor; discriminate | constructor; [auto|constructor]]).
  - (* try_table *) destruct (Hpush FTryTable) as (b1 & b & c & l' & -> & Hb1 & Hb & Hc & H4); try discriminate; [exact H1|].
    eexists (In_TryTable _ _ :: b1 ++ In_End :: b), c, l'. split; [shape|]. split; [constructor; assumption|auto].
  - (* try *) destruct (IH l1 ltac:(lia) FLegacyTry (k :: s) H1) as (b1 & c1 & l2 & -> & Hb1 & Hc1 & H3). rewrite !app_length in Hn.
    assert (Hl : (List.length l2 < n)%nat) by lia. destruct (IH l2 Hl k s H3) as (b & c & l' & -> & Hb & Hc & H4).
    inversion Hc1 as [k2 N _|?|k2 h _ Hh|d]; subst; [destruct N; reflexivity| |].
    + eexists (In_Try _ :: b1 ++ c1 ++ b), c, l'. split; [shape|]. split; [constructor; assumption|auto].
    + eexists (In_Try _ :: b1 ++ In_Delegate d :: b), c, l'. split; [shape|]. split; [constructor; assumption|auto].
  - (* delegate *) cbn [frame_ok] in Hf. subst k. eexists [], [In_Delegate _], l1. split; [shape|]. split; [constructor|]. split; [apply cl_delegate|exact H1].
  - (* catch *) cbn [frame_ok] in Hf. destruct (IH l1 ltac:(lia) FLegacyCatch s H1) as (b1 & c1 & l2 & -> & Hb1 & Hc1 & H3).
    inversion Hc1 as [k2 _ N|?|k2 h _ Hh|?]; subst; [destruct N; reflexivity|].
    eexists [], (In_Catch _ :: b1 ++ c1), l2. split; [shape|]. split; [constructor|]. split; [|exact H3].
    apply cl_handlers; [exact Hf|]. constructor; assumption.
  - (* catch_all *) cbn [frame_ok] in Hf. destruct (IH l1 ltac:(lia) FLegacyCatchAll s H1) as (b1 & c1 & l2 & -> & Hb1 & Hc1 & H3).
    inversion Hc1 as [k2 _ N|?|k2 h [Ek|Ek] Hh|?]; subst; try discriminate.
    eexists [], (In_CatchAll :: b1 ++ [In_End]), l2. split; [shape|]. split; [constructor|]. split; [|exact H3].
    apply cl_handlers; [exact Hf|]. constructor; assumption.
Qed.
(** An expression is finished when it is a well-nested sequence followed by [end]. *)
Lemma steps_nested l : steps [FBlock] l [] <-> exists b, l = b ++ [In_End] /\ nested b.
Proof.
  split.
  - intros H. destruct (steps_split (S (List.length l)) l ltac:(lia) FBlock [] H) as (b & c & l' & -> & Hb & Hc & H').
    inversion H'; subst. inversion Hc as [k2 _ _|?|k2 h [Ek|Ek] Hh|?]; subst; try discriminate. exists b. auto.
  - intros (b & -> & Hb). eapply steps_app; [apply (proj1 nested_steps), Hb|]. apply steps_end. constructor.
Qed.
