(** Rust's [slice::binary_search_by_key] over strictly increasing keys. *)
From Verif.Base Require Import Prelude.

Inductive found := FOk (i : nat) | FErr (i : nat).

(** The loop of the standard library ([core::slice::binary_search_by]): halve
    [size], moving [base] to the middle unless the middle key is greater. *)
Fixpoint bs_loop {A} (fuel : nat) (key : A -> Z) (l : list A) (k : Z) (base size : nat) : nat :=
  match fuel with
  | O => base
  | S fuel =>
      if (size <=? 1)%nat then base
      else
        let half := (size / 2)%nat in
        let mid := (base + half)%nat in
        match nth_error l mid with
        | Some x => bs_loop fuel key l k (if k <? key x then base else mid) (size - half)
        | None => base
        end
  end.
Definition binary_search {A} (key : A -> Z) (l : list A) (k : Z) : found :=
  let base := bs_loop (List.length l) key l k 0 (List.length l) in
  match nth_error l base with
  | None => FErr 0
  | Some x => if key x =? k then FOk base else FErr (if key x <? k then S base else base)
  end.

Definition increasing {A} (key : A -> Z) (l : list A) : Prop :=
  forall i j x y, (i < j)%nat -> nth_error l i = Some x -> nth_error l j = Some y -> key x < key y.

Lemma bs_loop_ok {A} (key : A -> Z) l k : increasing key l ->
  forall fuel base size, (size <= fuel)%nat -> (1 <= size)%nat -> (base + size <= List.length l)%nat ->
  (forall i x, (i < base)%nat -> nth_error l i = Some x -> key x < k) ->
  (forall i x, (base + size <= i)%nat -> nth_error l i = Some x -> k < key x) ->
  let b := bs_loop fuel key l k base size in
  (b < List.length l)%nat /\ (forall i x, (i < b)%nat -> nth_error l i = Some x -> key x < k) /\
  (forall i x, (b < i)%nat -> nth_error l i = Some x -> k < key x).
Proof.
  intros Hinc. induction fuel as [|fuel IH]; intros base size Hf Hs Hl Hlo Hhi; [lia|]. cbn [bs_loop].
  destruct (size <=? 1)%nat eqn:E1.
  - apply Nat.leb_le in E1. cbv zeta. split; [lia|]. split; [exact Hlo|]. intros i x Hi. apply Hhi. lia.
  - apply Nat.leb_gt in E1. assert (Hh : (1 <= size / 2 < size)%nat).
    { split; [apply Nat.div_le_lower_bound; lia|apply Nat.div_lt; lia]. }
    destruct (nth_error l (base + size / 2)) as [x|] eqn:Ex; [|apply nth_error_None in Ex; lia].
    assert (H2 : (size / 2 * 2 <= size)%nat) by (rewrite Nat.mul_comm; apply Nat.mul_div_le; lia).
    destruct (k <? key x) eqn:Ek.
    + apply IH; try lia; auto. intros i y Hi Hy. apply Z.ltb_lt in Ek.
      destruct (Nat.eq_dec i (base + size / 2)) as [-> | Hne]; [congruence|].
      pose proof (Hinc (base + size / 2)%nat i x y ltac:(lia) Ex Hy). lia.
    + apply IH; try lia.
      * intros i y Hi Hy. apply Z.ltb_ge in Ek.
        pose proof (Hinc i (base + size / 2)%nat y x ltac:(lia) Hy Ex). lia.
      * intros i y Hi Hy. apply Hhi in Hy; auto. lia.
Qed.

(** What the documentation of [binary_search_by_key] promises. *)
Lemma binary_search_ok {A} (key : A -> Z) l k : increasing key l ->
  match binary_search key l k with
  | FOk i => exists x, nth_error l i = Some x /\ key x = k
  | FErr i => (i <= List.length l)%nat /\
      (forall j x, (j < i)%nat -> nth_error l j = Some x -> key x < k) /\
      (forall j x, (i <= j)%nat -> nth_error l j = Some x -> k < key x)
  end.
Proof.
  intros Hinc. unfold binary_search. destruct l as [|a l'].
  - cbn. split; [lia|]. split; intros j x _ H; destruct j; discriminate.
  - set (l := a :: l') in *.
    destruct (bs_loop_ok key l k Hinc (List.length l) 0 (List.length l)) as (Hb & Hlo & Hhi); try lia.
    { cbn. lia. } { intros i x Hi H. assert (i < List.length l)%nat by (apply nth_error_Some; congruence). lia. }
    set (b := bs_loop _ _ _ _ _ _) in *.
    destruct (nth_error l b) as [x|] eqn:Ex; [|apply nth_error_None in Ex; lia].
    destruct (key x =? k) eqn:Ek; [exists x; split; [exact Ex|apply Z.eqb_eq; exact Ek]|].
    apply Z.eqb_neq in Ek. destruct (key x <? k) eqn:El.
    + apply Z.ltb_lt in El. split; [lia|]. split; [|intros j y Hj; apply Hhi; lia].
      intros j y Hj Hy. destruct (Nat.eq_dec j b) as [-> | ]; [congruence|]. apply (Hlo j y); [lia|exact Hy].
    + apply Z.ltb_ge in El. split; [lia|]. split; [exact Hlo|].
      intros j y Hj Hy. destruct (Nat.eq_dec j b) as [-> | ]; [|apply (Hhi j y); [lia|exact Hy]].
      assert (x = y) by congruence. subst. lia.
Qed.
