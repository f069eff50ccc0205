(** C64: branch hint sections. *)
From Verif.Base Require Import Prelude Utf8.
From Verif.Reader Require Import Model Spec.
From Verif.Leb Require Import Model Top.
From Verif.Encoder Require Import Model.
From Verif.Codec Require Import Kit.
From Verif.Types Require Import RefModel CodecModel EntityModel EntitySpec EntityProofs.
From Verif.Sections Require Import SeeModel Item.
From Verif.Hints Require Import Model.
From Coq Require Import Lia.

(** Hints that can be written: offsets of 32 bits, values 0 and 1. *)
Definition hint_ok (h : Z * Z) : Prop := in_u 32 (fst h) /\ (snd h = 0 \/ snd h = 1).
Definition function_ok (f : Z * list (Z * Z)) : Prop := in_u 32 (fst f) /\ Forall hint_ok (snd f) /\ zlen (snd f) < 2 ^ 32.
(** What should be read of a hint. *)
Definition meant (h : Z * Z) : Z * bool := (fst h, snd h =? 1).

Section hints.
Context (ft : features).
Local Notation F := (eq ft).
Lemma short {A} (l : list A) : zlen l < 2 ^ 32 -> in_u 32 (zlen l). Proof. unfold in_u, zlen. lia. Qed.
Lemma dec_skip {A} o (d : R A) a : decodes F o d a -> decodes F o (skip_raw d) (bytes_of o).
Proof.
  intros (bs & -> & Hb & Hd). exists bs. split; [reflexivity|]. split; [exact Hb|]. intros rest pos off ft' Hf Hr. unfold skip_raw.
  rewrite Hd by auto. cbn [r_pos r_rem bytes_of]. replace (pos + zlen bs - pos) with (zlen bs) by lia. unfold zlen. rewrite Nat2Z.id.
  rewrite firstn_app, firstn_all, Nat.sub_diag. cbn [firstn]. rewrite app_nil_r. reflexivity.
Qed.
Lemma dec_hint h : hint_ok h -> decodes F (enc_hint h) read_hint (meant h).
Proof.
  destruct h as [o v]. intros [Ho Hv]. cbn [fst snd] in *. unfold enc_hint, read_hint, meant. cbn [fst snd]. eapply dec_bind; [apply dec_u32, Ho|].
  change (encode_u32 1) with (o_byte 1). apply dec_byte_bind; [unfold is_byte; lia|]. cbn [Z.eqb Pos.eqb].
  destruct Hv as [-> | ->]; [change (encode_u32 0) with (o_byte 0)|change (encode_u32 1) with (o_byte 1)]; rewrite <- (oapp_nil_r (o_byte _)); (apply dec_byte_bind; [unfold is_byte; lia|]); apply dec_ret.
Qed.
Lemma dec_hints l : Forall hint_ok l -> decodes F (o_all enc_hint l) (read_n (List.length l) read_hint) (map meant l).
Proof. intros H. apply dec_read_n. eapply Forall_impl; [|exact H]. exact dec_hint. Qed.
Lemma dec_function f : function_ok f -> decodes F (enc_function f) read_function (fst f, bytes_of (o_vec enc_hint (snd f))).
Proof.
  intros (Hf & Hh & Hn). unfold enc_function, read_function. eapply dec_bind; [apply dec_u32, Hf|]. apply (dec_bind_ret F _ _ (fun b => (fst f, b))).
  apply (dec_skip _ _ tt). unfold o_vec. eapply dec_bind; [apply dec_usize, short, Hn|]. unfold zlen. rewrite Nat2Z.id. apply (dec_bind_ret F _ _ (fun _ => tt) (map meant (snd f))). apply dec_hints, Hh.
Qed.
Lemma hints_read f off : function_ok f -> section_items read_hint ft off (bytes_of (o_vec enc_hint (snd f))) = Ok (map meant (snd f)).
Proof.
  intros (Hf & Hh & Hn). destruct (section_of_counted ft read_hint (o_all enc_hint (snd f)) (zlen (snd f)) (map meant (snd f))) as (b & E & _ & S); [apply short, Hn|unfold zlen; rewrite Nat2Z.id; apply dec_hints, Hh|].
  unfold o_vec. rewrite E. apply S.
Qed.
End hints.

(** What is written as a section of branch hints is read back: the same functions in the same order, each with the same hints. *)
Theorem C64_roundtrip : forall ft l, Forall function_ok l -> zlen l < 2 ^ 32 ->
  exists b, section_data l = Some b /\ forall off, exists fs, section_items read_function ft off b = Ok fs /\
    Forall2 (fun p f => fst p = fst f /\ forall off', section_items read_hint ft off' (snd p) = Ok (map meant (snd f))) fs l.
Proof.
  intros ft l H Hn. pose (g := fun f : Z * list (Z * Z) => (fst f, bytes_of (o_vec enc_hint (snd f)))).
  destruct (section_of_counted ft read_function (o_all enc_function l) (zlen l) (map g l)) as (b & E & _ & S); [apply short, Hn| |].
  { unfold zlen. rewrite Nat2Z.id. apply dec_read_n. eapply Forall_impl; [|exact H]. apply dec_function. }
  exists b. split.
  - unfold section_data. rewrite <- E. unfold encode_usize. replace (zlen l <=? 2 ^ 32 - 1) with true; [reflexivity|]. symmetry. apply Z.leb_le. lia.
  - intros off. exists (map g l). split; [apply S|]. clear - H. induction H as [|f l Hf _ IH]; [constructor|]. constructor; [|exact IH]. split; [reflexivity|]. intros off'. apply hints_read, Hf.
Qed.
Print Assumptions C64_roundtrip.

(** Two functions, with two hints and one. *)
Example C64_case : let l := [(3, [(5, 1); (300, 0)]); (4, [(7, 0)])] in
  section_data l = Some [2; 3; 2; 5; 1; 1; 172; 2; 1; 0; 4; 1; 7; 1; 0] /\ Forall function_ok l /\ zlen l < 2 ^ 32.
Proof. split; [reflexivity|]. split; [|reflexivity]. repeat constructor; cbn; auto; try lia; reflexivity. Qed.
