(** Proofs about inline data. *)
From Coq Require Import List ZArith Bool Lia.
Import ListNotations.
From Verif.Inldata Require Import Model Spec.
Open Scope Z_scope.

Lemma to_le_length : forall w v, length (to_le w v) = w. Proof. induction w as [| w IH]; intro v; simpl; [reflexivity | rewrite IH; reflexivity]. Qed.
Lemma to_le_bytes : forall w v, Forall (fun x => 0 <= x < 256) (to_le w v).
Proof. induction w as [| w IH]; intro v; simpl; constructor; [apply Z.mod_pos_bound; lia | apply IH]. Qed.
Lemma from_to : forall w v, from_le (to_le w v) = v mod 256 ^ Z.of_nat w.
Proof.
  induction w as [| w IH]; intro v; [simpl; rewrite Z.mod_1_r; reflexivity |]. cbn [to_le from_le]. rewrite IH, Nat2Z.inj_succ, Z.pow_succ_r by lia.
  rewrite Z.rem_mul_r by (try lia; apply Z.pow_pos_nonneg; lia). lia.
Qed.
Lemma fold_flat : forall A (f : A -> list Z) l acc, fold_left (fun dst v => dst ++ f v) l acc = acc ++ flat_map f l.
Proof. intros A f l. induction l as [| a l IH]; intro acc; simpl; [rewrite app_nil_r; reflexivity |]. rewrite IH, <- app_assoc. reflexivity. Qed.
Lemma kept_nums : forall w vs, kept (Nums w vs) = flat_map (to_le w) vs. Proof. intros w vs. simpl. rewrite (fold_flat Z (to_le w)). reflexivity. Qed.
Lemma flat_length : forall w vs, length (flat_map (to_le w) vs) = (w * length vs)%nat.
Proof. intros w vs. induction vs as [| v vs IH]; simpl; [lia |]. rewrite app_length, to_le_length, IH. lia. Qed.
Lemma len_size : forall d, len d = size_of d.
Proof. intros [b | w vs]; unfold len; [reflexivity |]. rewrite kept_nums, flat_length. simpl. lia. Qed.
Lemma total_sum : forall l n, fold_left (fun n d => n + len d) l n = n + total l.
Proof. induction l as [| d l IH]; intro n; simpl; [lia |]. rewrite IH, len_size. lia. Qed.
Lemma pushed : forall l, fold_left push_onto l [] = flat_map kept l. Proof. intro l. unfold push_onto. rewrite (fold_flat written kept). reflexivity. Qed.
Lemma bytes_total : forall l, Z.of_nat (length (flat_map kept l)) = total l.
Proof. induction l as [| d l IH]; simpl; [reflexivity |]. rewrite app_length, Nat2Z.inj_add, IH. f_equal. exact (len_size d). Qed.
Lemma total_app : forall a b, total (a ++ b) = total a + total b. Proof. induction a as [| d a IH]; intro b; simpl; [reflexivity | rewrite IH; lia]. Qed.
Lemma slice_at : forall a b c, slice (a ++ b ++ c) (Z.of_nat (length a)) (Z.of_nat (length b)) = b.
Proof.
  intros a b c. unfold slice. rewrite !Nat2Z.id, skipn_app, skipn_all, Nat.sub_diag. simpl. rewrite firstn_app, Nat.sub_diag, firstn_all. simpl. apply app_nil_r.
Qed.
Lemma page_size_iff : forall s k, page_size s = Some k <-> 0 <= k /\ s = 2 ^ k.
Proof.
  intros s k. unfold page_size. split.
  - destruct (Z.ltb_spec 0 s) as [P | P]; simpl; [| discriminate]. destruct (Z.eqb_spec (2 ^ Z.log2 s) s) as [E | E]; [| discriminate]. intro H. injection H as <-. split; [apply Z.log2_nonneg | auto].
  - intros [K ->]. rewrite Z.log2_pow2 by exact K. rewrite Z.eqb_refl. destruct (Z.ltb_spec 0 (2 ^ k)) as [_ | C]; [reflexivity |]. pose proof (Z.pow_pos_nonneg 2 k). lia.
Qed.
