(** Malformed flags are rejected. *)
From Verif.Base Require Import Prelude.
From Verif.Reader Require Import Model Spec.
From Verif.Codec Require Import Kit Local.
From Verif.Types Require Import RefModel CodecModel EntityModel LocalTypes.
From Coq Require Import Lia.

Lemma read_u8_inv r b r' : read_u8 r = Ok (b, r') -> consumes r [b] r'.
Proof. unfold read_u8. destruct r as [[|x t] p o f]; cbn; [discriminate|]. intros [= <- <-]. repeat split. Qed.
Lemma field_strict r f r' : read_field r = Ok (f, r') ->
  exists bs m r1, read_storage r = Ok (pf_elem f, r1) /\ consumes r bs r1 /\ consumes r (bs ++ [m]) r' /\ (m = 0 /\ pf_mut f = false \/ m = 1 /\ pf_mut f = true).
Proof.
  unfold read_field, bind. destruct (read_storage r) as [[s r1]|e] eqn:E; [|discriminate]. destruct (read_u8 r1) as [[m r2]|e] eqn:E2; [|discriminate].
  destruct (sim_storage _ _ _ E) as (bs & C & _). pose proof (consumes_app _ _ _ _ _ C (read_u8_inv _ _ _ E2)) as C2.
  destruct (Z.eqb_spec m 0) as [->|]; [|destruct (Z.eqb_spec m 1) as [->|]; [|discriminate]]; intros [= <- <-]; cbn [pf_elem pf_mut]; exists bs; eexists; exists r1; eauto 7.
Qed.
Lemma peek1_inv r d r' : peek_bytes 1 r = Ok (d, r') -> r' = r /\ exists t, r_rem r = nth 0 d 0 :: t.
Proof.
  unfold peek_bytes. destruct (Z.leb_spec 1 (bytes_remaining r)); [|discriminate]. intros [= <- <-]. split; [reflexivity|].
  unfold bytes_remaining in *. destruct (r_rem r) as [|x t]; [cbn in *; unfold zlen in *; cbn in *; lia|]. exists t. reflexivity.
Qed.
(** The form of an import: by its own name, or, after an empty name, by the byte 0x7F or 0x7E. *)
Lemma imports_strict r q r' : read_imports r = Ok (q, r') ->
  exists m n r1 r2 d t, read_string r = Ok (m, r1) /\ read_string r1 = Ok (n, r2) /\ r_rem r2 = d :: t /\
  match q with
  | QSingle m' n' _ => m' = m /\ n' = n /\ (n = [] -> d <> 0x7F /\ d <> 0x7E)
  | QCompact1 m' _ => m' = m /\ n = [] /\ d = 0x7F
  | QCompact2 m' _ _ => m' = m /\ n = [] /\ d = 0x7E
  end.
Proof.
  unfold read_imports. unfold bind at 1. destruct (read_string r) as [[m r1]|e] eqn:E1; [|discriminate].
  unfold bind at 1. destruct (read_string r1) as [[n r2]|e] eqn:E2; [|discriminate].
  unfold bind at 1. destruct (peek_bytes 1 r2) as [[d r3]|e] eqn:E3; [|discriminate]. destruct (peek1_inv _ _ _ E3) as (-> & t & Et).
  destruct (is_empty n && (nth 0 d 0 =? 0x7F)) eqn:B1; [|destruct (is_empty n && (nth 0 d 0 =? 0x7E)) eqn:B2].
  - apply andb_prop in B1. destruct B1 as [Bn Bd]. apply Z.eqb_eq in Bd. unfold bind. intros H.
    repeat match type of H with match ?x with _ => _ end = _ => destruct x as [[? ?]|]; try discriminate end. injection H as <- <-.
    exists m, n, r1, r2, (nth 0 d 0), t. split; [reflexivity|]. split; [exact E2|]. split; [exact Et|]. split; [reflexivity|]. split; [destruct n; [reflexivity|discriminate]|exact Bd].
  - apply andb_prop in B2. destruct B2 as [Bn Bd]. apply Z.eqb_eq in Bd. unfold bind. intros H.
    repeat match type of H with match ?x with _ => _ end = _ => destruct x as [[? ?]|]; try discriminate end. injection H as <- <-.
    exists m, n, r1, r2, (nth 0 d 0), t. split; [reflexivity|]. split; [exact E2|]. split; [exact Et|]. split; [reflexivity|]. split; [destruct n; [reflexivity|discriminate]|exact Bd].
  - unfold bind. intros H. destruct (read_entity r2) as [[ty r3]|]; [|discriminate]. injection H as <- <-.
    exists m, n, r1, r2, (nth 0 d 0), t. split; [reflexivity|]. split; [exact E2|]. split; [exact Et|]. split; [reflexivity|]. split; [reflexivity|]. intros ->. cbn [is_empty] in *.
    rewrite Bool.andb_true_l in B1, B2. apply Z.eqb_neq in B1, B2. auto.
Qed.
