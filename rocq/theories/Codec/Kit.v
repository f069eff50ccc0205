(** Tools for stating and proving that what an encoder writes is what a reader
    reads, for readers written in the [R] monad. *)
From Verif.Base Require Import Prelude Utf8.
From Verif.Reader Require Import Model Spec Mono.
From Verif.Leb Require Import Model Proofs ReaderProofs Top.
From Verif.Encoder Require Import Model.
From Coq Require Import Lia.

(** The bytes an encoder appends to its sink; [None] is a panic. *)
Definition out : Type := option (list Z).
Definition oapp (a b : out) : out :=
  match a, b with Some x, Some y => Some (x ++ y) | _, _ => None end.
Declare Scope out_scope.
Infix "+++" := oapp (at level 60, right associativity) : out_scope.
Open Scope out_scope.
Definition o_nil : out := Some [].
Definition o_byte (b : Z) : out := Some [b].
(** [for x in l { x.encode(sink) }]. *)
Fixpoint o_all {A} (f : A -> out) (l : list A) : out :=
  match l with [] => o_nil | a :: t => f a +++ o_all f t end.
(** [Encode for [T]] and [encode_vec] (wasm-encoder lib.rs:108-115, 170-181). *)
Definition o_vec {A} (f : A -> out) (l : list A) : out := encode_usize (zlen l) +++ o_all f l.
(** [Encode for str] (lib.rs:124-129). *)
Definition o_str (s : list Z) : out := encode_bytes s.

(** [m.map_err(f)]. *)
Definition map_err {A} (f : error -> error) (m : R A) : R A :=
  fun r => match m r with Ok x => Ok x | Err e => Err (f e) end.

(** Reading, with features satisfying [F], from bytes that start with [o]
    returns [b] and stops right after [o]. *)
Definition decodes {B} (F : features -> Prop) (o : out) (d : R B) (b : B) : Prop :=
  exists bs, o = Some bs /\ bytes_ok bs /\
  forall rest pos off ft, F ft -> bytes_ok rest ->
    d (mkReader (bs ++ rest) pos off ft) = Ok (b, mkReader rest (pos + zlen bs) off ft).

(** Whatever bytes are read with features satisfying [F], the value returned
    satisfies [P]. *)
Definition yields {B} (F : features -> Prop) (d : R B) (P : B -> Prop) : Prop :=
  forall r b r', F (r_feat r) -> bytes_ok (r_rem r) -> d r = Ok (b, r') ->
    P b /\ bytes_ok (r_rem r') /\ r_feat r' = r_feat r.

Section kit.
Context (F : features -> Prop).

Lemma dec_ret {B} (b : B) : decodes F o_nil (ret b) b.
Proof.
  exists []. repeat split; [constructor|]. intros. unfold ret. cbn [app zlen List.length]. rewrite Z.add_0_r. reflexivity.
Qed.
Lemma oapp_nil_l o : o_nil +++ o = o.
Proof. destruct o; reflexivity. Qed.
Lemma oapp_nil_r o : o +++ o_nil = o.
Proof. destruct o as [b|]; [|reflexivity]. cbn. rewrite app_nil_r. reflexivity. Qed.
Lemma oapp_assoc a b c : (a +++ b) +++ c = a +++ b +++ c.
Proof. destruct a, b, c; try reflexivity. cbn. rewrite app_assoc. reflexivity. Qed.
Lemma dec_bind {A B} o1 o2 (d : R A) (k : A -> R B) a b :
  decodes F o1 d a -> decodes F o2 (k a) b -> decodes F (o1 +++ o2) (bind d k) b.
Proof.
  intros (b1 & -> & H1 & E1) (b2 & -> & H2 & E2). exists (b1 ++ b2). split; [reflexivity|].
  split; [apply bytes_ok_app; auto|]. intros rest pos off ft Hf Hr. unfold bind.
  rewrite <- app_assoc, E1 by (auto; apply bytes_ok_app; auto). rewrite E2 by auto.
  unfold zlen. rewrite app_length, Nat2Z.inj_add, Z.add_assoc. reflexivity.
Qed.
(** A reader whose first part consumes everything. *)
Lemma dec_bind_ret {A B} o (d : R A) (f : A -> B) a : decodes F o d a -> decodes F o (let* x := d in ret (f x)) (f a).
Proof. intros H. rewrite <- (oapp_nil_r o). eapply dec_bind; [exact H|apply dec_ret]. Qed.
Lemma dec_ext {B} o (d d' : R B) b : (forall r, d r = d' r) -> decodes F o d b -> decodes F o d' b.
Proof. intros H (bs & E & Hb & Hd). exists bs. repeat split; auto. intros. rewrite <- H. apply Hd; auto. Qed.
Lemma dec_byte x : is_byte x -> decodes F (o_byte x) read_u8 x.
Proof. intros H. exists [x]. split; [reflexivity|]. split; [constructor; [exact H|constructor]|]. intros. reflexivity. Qed.
Lemma dec_byte_bind {B} x o (k : Z -> R B) b : is_byte x -> decodes F o (k x) b -> decodes F (o_byte x +++ o) (bind read_u8 k) b.
Proof. intros H. apply dec_bind, dec_byte, H. Qed.
Lemma dec_peek {B} x o (k : Z -> R B) b : decodes F (o_byte x +++ o) (k x) b -> decodes F (o_byte x +++ o) (bind peek k) b.
Proof.
  intros (bs & E & Hb & Hd). exists bs. split; [exact E|]. split; [exact Hb|]. intros rest pos off ft Hf Hr. unfold bind, peek. cbn [r_rem].
  destruct o as [o|]; [|discriminate]. injection E as <-. cbn [app]. exact (Hd rest pos off ft Hf Hr).
Qed.
Lemma dec_peek1 {B} x (k : Z -> R B) b : decodes F (o_byte x) (k x) b -> decodes F (o_byte x) (bind peek k) b.
Proof. intros H. rewrite <- (oapp_nil_r (o_byte x)) in *. apply dec_peek, H. Qed.
Lemma dec_get_pos {B} o (k : Z -> R B) b : (forall p, decodes F o (k p) b) -> decodes F o (bind get_pos k) b.
Proof.
  intros H. destruct (H 0) as (bs & E & Hb & _). exists bs. split; [exact E|]. split; [exact Hb|]. intros rest pos off ft Hf Hr.
  unfold bind, get_pos. destruct (H (original_position (mkReader (bs ++ rest) pos off ft))) as (bs' & E' & _ & Hd). rewrite E in E'. injection E' as <-.
  apply Hd; auto.
Qed.
Lemma dec_map_err {B} f o (d : R B) b : decodes F o d b -> decodes F o (map_err f d) b.
Proof. intros (bs & E & Hb & Hd). exists bs. repeat split; auto. intros. unfold map_err. rewrite Hd by auto. reflexivity. Qed.

Lemma dec_u32 v : in_u 32 v -> decodes F (encode_u32 v) read_var_u32 v.
Proof.
  intros H. destruct (u32_roundtrip v H) as (bs & E & Hd). exists bs. split; [exact E|]. split; [|intros; apply Hd; auto].
  eapply uN_bytes, enc_u_correct with (n := 32); [exact E|exact H|lia].
Qed.
Lemma dec_u64 v : in_u 64 v -> decodes F (encode_u64 v) read_var_u64 v.
Proof.
  intros H. destruct (u64_roundtrip v H) as (bs & E & Hd). exists bs. split; [exact E|]. split; [|intros; apply Hd; auto].
  eapply uN_bytes, enc_u_correct with (n := 64); [exact E|exact H|lia].
Qed.
Lemma dec_i32 v : in_s 32 v -> decodes F (encode_s32 v) read_var_i32 v.
Proof.
  intros H. destruct (i32_roundtrip v H) as (bs & E & Hd). exists bs. split; [exact E|]. split; [|intros; apply Hd; auto].
  eapply sN_bytes, enc_s_correct with (n := 32); [exact E|exact H|lia].
Qed.
Lemma dec_i64 v : in_s 64 v -> decodes F (encode_s64 v) read_var_i64 v.
Proof.
  intros H. destruct (i64_roundtrip v H) as (bs & E & Hd). exists bs. split; [exact E|]. split; [|intros; apply Hd; auto].
  eapply sN_bytes, enc_s_correct with (n := 64); [exact E|exact H|lia].
Qed.
Lemma dec_s33 v : in_u 32 v -> decodes F (encode_s64 v) read_var_s33 v.
Proof.
  intros H. destruct (s33_index_roundtrip v H) as (bs & E & Hd). exists bs. split; [exact E|]. split; [|intros; apply Hd; auto].
  eapply sN_bytes, enc_s_correct with (n := 64); [exact E| |lia]. unfold in_u, in_s in *. change (2 ^ (64 - 1)) with (2 ^ 63). assert (2 ^ 32 < 2 ^ 63) by (apply Z.pow_lt_mono_r; lia). lia.
Qed.
Lemma dec_usize v : in_u 32 v -> decodes F (encode_usize v) read_var_u32 v.
Proof.
  intros H. unfold encode_usize. replace (v <=? _) with true; [apply dec_u32, H|]. symmetry. apply Z.leb_le. unfold in_u in H. lia.
Qed.
Lemma dec_size v limit desc : in_u 32 v -> v <= limit -> decodes F (encode_usize v) (read_size limit desc) v.
Proof.
  intros H Hl. unfold read_size. apply dec_get_pos. intros p. rewrite <- (oapp_nil_r (encode_usize v)).
  eapply dec_bind; [apply dec_usize, H|]. destruct (Z.ltb_spec limit v); [lia|]. apply dec_ret.
Qed.

Lemma zlen_in_u {A} (l : list A) n : zlen l <= n -> n < 2 ^ 32 -> in_u 32 (zlen l).
Proof. unfold in_u, zlen. lia. Qed.

Lemma dec_read_n {A B} (e : A -> out) (d : R B) (g : A -> B) l :
  Forall (fun a => decodes F (e a) d (g a)) l -> decodes F (o_all e l) (read_n (List.length l) d) (map g l).
Proof.
  induction 1 as [|a l Ha _ IH]; [apply dec_ret|]. cbn [o_all List.length read_n map].
  eapply dec_bind; [exact Ha|]. rewrite <- (oapp_nil_r (o_all e l)). eapply dec_bind; [exact IH|apply dec_ret].
Qed.
Lemma dec_list {A B} (e : A -> out) (d : R B) (g : A -> B) limit desc l :
  zlen l <= limit -> limit < 2 ^ 32 -> Forall (fun a => decodes F (e a) d (g a)) l ->
  decodes F (o_vec e l) (read_list limit desc d) (map g l).
Proof.
  intros Hl Hm H. unfold o_vec, read_list. eapply dec_bind; [apply dec_size; [eapply zlen_in_u; eauto|exact Hl]|].
  unfold zlen. rewrite Nat2Z.id. apply dec_read_n, H.
Qed.

Lemma zlen_app {A} (l l' : list A) : zlen (l ++ l') = zlen l + zlen l'.
Proof. unfold zlen. rewrite app_length. lia. Qed.
Lemma dec_read_bytes s : bytes_ok s -> decodes F (Some s) (read_bytes (zlen s)) s.
Proof.
  intros H. exists s. repeat split; auto. intros rest pos off ft Hf Hr. unfold read_bytes, bytes_remaining. cbn [r_rem].
  rewrite zlen_app. destruct (Z.leb_spec (zlen s) (zlen s + zlen rest)) as [_|Hx]; [|unfold zlen in Hx; lia].
  replace (Z.to_nat (zlen s)) with (List.length s) by (unfold zlen; lia). cbv zeta.
  rewrite firstn_app, Nat.sub_diag, firstn_all, firstn_O, app_nil_r.
  rewrite skipn_app, skipn_all, Nat.sub_diag. reflexivity.
Qed.
Lemma dec_string s : bytes_ok s -> utf8_valid s = true -> zlen s <= MAX_WASM_STRING_SIZE -> decodes F (o_str s) read_string s.
Proof.
  intros H Hu Hl. replace (o_str s) with (encode_usize (zlen s) +++ Some s)
    by (unfold o_str, encode_bytes, oapp; destruct (encode_usize (zlen s)); reflexivity).
  unfold read_string, MAX_WASM_STRING_SIZE in *.
  eapply dec_bind; [apply dec_usize; eapply zlen_in_u; [exact Hl|lia]|].
  destruct (Z.ltb_spec 100000 (zlen s)); [lia|]. unfold internal_read_string. rewrite <- (oapp_nil_r (Some s)).
  eapply dec_bind; [apply dec_read_bytes, H|]. rewrite Hu. apply dec_ret.
Qed.
Lemma dec_opt_list (limit : Z) desc o : 1 <= limit < 2 ^ 32 -> (forall v, o = Some v -> in_u 32 v) ->
  decodes F (match o with Some v => o_byte 1 +++ encode_u32 v | None => o_byte 0 end) (read_list limit desc read_var_u32) (match o with Some v => [v] | None => [] end).
Proof.
  intros Hl Ho. destruct o as [v|].
  - assert (Hq : decodes F (o_vec encode_u32 [v]) (read_list limit desc read_var_u32) (map (fun x => x) [v])).
    { apply dec_list; [unfold zlen; cbn [List.length]; lia|lia|]. constructor; [apply dec_u32, Ho; reflexivity|constructor]. }
    destruct Hq as (bs & E & Hb & Hd). exists bs. split; [|split; [exact Hb|exact Hd]]. rewrite <- E. unfold o_vec, o_all. cbn [zlen List.length]. change (encode_usize (Z.of_nat 1)) with (Some [1]). rewrite oapp_nil_r. reflexivity.
  - exact (dec_list encode_u32 read_var_u32 (fun x => x) limit desc [] ltac:(unfold zlen; cbn [List.length]; lia) ltac:(lia) (Forall_nil _)).
Qed.
End kit.

(** * What readers can return *)
Section yields.
Context (F : features -> Prop).
Lemma y_ret {B} (b : B) (P : B -> Prop) : P b -> yields F (ret b) P.
Proof. intros H r b' r' _ Hr E. injection E as <- <-. auto. Qed.
Lemma y_bind {A B} (d : R A) (k : A -> R B) P Q : yields F d P -> (forall a, P a -> yields F (k a) Q) -> yields F (bind d k) Q.
Proof.
  intros H1 H2 r b r' Hf Hr E. unfold bind in E. destruct (d r) as [[a r1]|e] eqn:E1; [|discriminate].
  destruct (H1 _ _ _ Hf Hr E1) as (Ha & Hr1 & Ef). rewrite <- Ef in Hf. destruct (H2 a Ha _ _ _ Hf Hr1 E) as (Hb & Hr2 & Ef2).
  split; [exact Hb|]. split; [exact Hr2|congruence].
Qed.
Lemma y_weaken {B} (d : R B) (P Q : B -> Prop) : (forall b, P b -> Q b) -> yields F d P -> yields F d Q.
Proof. intros H Hy r b r' Hf Hr E. destruct (Hy _ _ _ Hf Hr E) as (? & ? & ?). auto. Qed.
Lemma y_fail_at {B} msg d (P : B -> Prop) : yields F (fail_at msg d) P.
Proof. intros r b r' _ _ E. discriminate. Qed.
Lemma y_fail_pos {B} msg p (P : B -> Prop) : yields F (fail_pos msg p) P.
Proof. intros r b r' _ _ E. discriminate. Qed.
Lemma y_get_pos : yields F get_pos (fun _ => True).
Proof. intros r b r' _ Hr E. injection E as <- <-. auto. Qed.
Lemma y_map_err {B} f (d : R B) P : yields F d P -> yields F (map_err f d) P.
Proof.
  intros H r b r' Hf Hr E. unfold map_err in E. destruct (d r) as [[a r1]|e] eqn:E1; [|discriminate]. injection E as <- <-. exact (H _ _ _ Hf Hr E1).
Qed.
Lemma y_u8 : yields F read_u8 is_byte.
Proof. intros [rem pos off ft] b r' _ Hr E. unfold read_u8 in E. cbn in *. destruct rem as [|x t]; [discriminate|]. injection E as <- <-. inversion Hr; subst. cbn. auto. Qed.
Lemma y_peek : yields F peek is_byte.
Proof. intros [rem pos off ft] b r' _ Hr E. unfold peek in E. cbn in *. destruct rem as [|x t]; [discriminate|]. injection E as <- <-. inversion Hr; subst. cbn. auto. Qed.
Lemma y_if {B} (c : bool) (d d' : R B) P : (c = true -> yields F d P) -> (c = false -> yields F d' P) -> yields F (if c then d else d') P.
Proof. destruct c; auto. Qed.

Lemma y_consumes r bs r' : bytes_ok (r_rem r) -> consumes r bs r' -> bytes_ok (r_rem r') /\ r_feat r' = r_feat r.
Proof. intros H (E & _ & _ & Ef). rewrite E in H. apply bytes_ok_app in H. split; [apply H|exact Ef]. Qed.
Lemma y_u32 : yields F read_var_u32 (in_u 32).
Proof.
  intros r b r' _ Hr E. apply u32_exact in E; [|exact Hr]. destruct E as (bs & Hu & Hc).
  split; [exact (uN_range _ _ _ Hu)|eapply y_consumes; eauto].
Qed.
Lemma y_u64 : yields F read_var_u64 (in_u 64).
Proof.
  intros r b r' _ Hr E. apply u64_exact in E; [|exact Hr]. destruct E as (bs & Hu & Hc).
  split; [exact (uN_range _ _ _ Hu)|eapply y_consumes; eauto].
Qed.
Lemma y_i32 : yields F read_var_i32 (in_s 32).
Proof.
  intros r b r' _ Hr E. apply i32_exact in E; [|exact Hr]. destruct E as (bs & Hu & Hc).
  split; [exact (sN_range _ _ _ Hu)|eapply y_consumes; eauto].
Qed.
Lemma y_i64 : yields F read_var_i64 (in_s 64).
Proof.
  intros r b r' _ Hr E. apply i64_exact in E; [|exact Hr]. destruct E as (bs & Hu & Hc).
  split; [exact (sN_range _ _ _ Hu)|eapply y_consumes; eauto].
Qed.
Lemma y_s33 : yields F read_var_s33 (fun _ => True).
Proof.
  intros r b r' _ Hr E. apply read_var_s33_char in E; [|exact Hr]. destruct E as (bs & m & Hu & Hc & _).
  split; [exact I|eapply y_consumes; eauto].
Qed.
Lemma y_size limit desc : yields F (read_size limit desc) (fun n => in_u 32 n /\ n <= limit).
Proof.
  unfold read_size. eapply y_bind; [apply y_get_pos|]. intros p _. eapply y_bind; [apply y_u32|]. intros n Hn.
  destruct (Z.ltb_spec limit n); [apply y_fail_pos|]. apply y_ret. auto.
Qed.
Lemma y_read_n {A} n (d : R A) P : yields F d P -> yields F (read_n n d) (fun l => Forall P l /\ List.length l = n).
Proof.
  intros H. induction n as [|n IH]; cbn [read_n]; [apply y_ret; auto|].
  eapply y_bind; [exact H|]. intros a Ha. eapply y_bind; [exact IH|]. intros l [Hl Hn]. apply y_ret. split; [constructor; auto|cbn; congruence].
Qed.
Lemma y_list {A} limit desc (d : R A) P : yields F d P -> yields F (read_list limit desc d) (fun l => Forall P l /\ zlen l <= limit).
Proof.
  intros H. unfold read_list. eapply y_bind; [apply y_size|]. intros n [[Hn _] Hl].
  eapply y_weaken; [|apply y_read_n, H]. cbv beta. intros l [Hf E]. split; [exact Hf|]. unfold zlen. rewrite E. lia.
Qed.
Lemma y_read_bytes n : 0 <= n -> yields F (read_bytes n) (fun s => bytes_ok s /\ zlen s = n).
Proof.
  intros Hn [rem pos off ft] b r' _ Hr E. unfold read_bytes, bytes_remaining in E. cbn [r_rem] in *.
  destruct (Z.leb_spec n (zlen rem)) as [Hl|]; [|discriminate]. injection E as <- <-. cbn.
  rewrite <- (firstn_skipn (Z.to_nat n) rem) in Hr. apply bytes_ok_app in Hr. destruct Hr as [H1 H2]. split; [|auto]. split; [exact H1|].
  unfold zlen in *. rewrite firstn_length. lia.
Qed.
Lemma y_string : yields F read_string (fun s => bytes_ok s /\ utf8_valid s = true /\ zlen s <= MAX_WASM_STRING_SIZE).
Proof.
  unfold read_string. eapply y_bind; [apply y_u32|]. intros n [Hn _]. destruct (Z.ltb_spec MAX_WASM_STRING_SIZE n) as [|Hm]; [apply y_fail_at|].
  unfold internal_read_string. eapply y_bind; [apply y_read_bytes; exact Hn|]. intros s [Hs Hl].
  destruct (utf8_valid s) eqn:E; [|apply y_fail_at]. apply y_ret. rewrite Hl. auto.
Qed.
End yields.
(** * Honesty of the new combinators *)
Lemma honest_map_err {A} f (m : R A) : (forall e, e_hint (f e) = e_hint e) -> honest m -> honest (map_err f m).
Proof.
  intros Hf H r. specialize (H r). unfold map_err. destruct (m r) as [[a r']|e].
  - destruct H as [H1 H2]. split; [exact H1|]. intros ext. rewrite H2. reflexivity.
  - rewrite Hf. destruct (e_hint e) as [h|].
    + destruct H as [H1 H2]. split; [exact H1|]. intros ext He. destruct (H2 ext He) as (e' & E & h' & Hh). rewrite E.
      exists (f e'). split; [reflexivity|]. exists h'. rewrite Hf. exact Hh.
    + intros ext. rewrite H. reflexivity.
Qed.

(** * Statements about a writer and a reader *)
(** [p] is the parsed form of some value within the limits. *)
Definition from {A B} (ok : A -> Prop) (d : A -> B) (p : B) : Prop := exists v, ok v /\ p = d v.
Lemma from_list {A B} (ok : A -> Prop) (d : A -> B) l : Forall (from ok d) l -> exists l', Forall ok l' /\ l = map d l'.
Proof.
  induction 1 as [|p l (v & Hv & ->) _ (l' & Hl & ->)]; [exists []; auto|]. exists (v :: l'). auto.
Qed.
(** Reading what was written, whatever bytes follow it, gives a value that
    converts to the one written, and stops where it ends. *)
Definition reads_as {A B} (F : features -> Prop) (enc : A -> out) (d : R B) (conv : B -> option A) (v : A) : Prop :=
  exists bs p, enc v = Some bs /\ conv p = Some v /\
  forall rest pos off ft, F ft -> bytes_ok rest -> d (mkReader (bs ++ rest) pos off ft) = Ok (p, mkReader rest (pos + zlen bs) off ft).
Lemma reads_as_intro {A B} F (enc : A -> out) (d : R B) conv den v :
  decodes F (enc v) d (den v) -> conv (den v) = Some v -> reads_as F enc d conv v.
Proof. intros (bs & E & _ & H) Hc. exists bs, (den v). repeat split; auto. Qed.
(** Whatever was read can be converted and written again, and reads as the same value. *)
Definition rewrites {A B} (F : features -> Prop) (enc : A -> out) (d : R B) (conv : B -> option A) : Prop :=
  forall r p r', F (r_feat r) -> bytes_ok (r_rem r) -> d r = Ok (p, r') ->
  exists v bs, conv p = Some v /\ enc v = Some bs /\
  forall rest pos off ft, F ft -> bytes_ok rest -> d (mkReader (bs ++ rest) pos off ft) = Ok (p, mkReader rest (pos + zlen bs) off ft).
Lemma rewrites_intro {A B} F (enc : A -> out) (d : R B) conv den ok :
  yields F d (from ok den) -> (forall v, ok v -> decodes F (enc v) d (den v)) -> (forall v, ok v -> conv (den v) = Some v) ->
  rewrites F enc d conv.
Proof.
  intros Hy Hd Hc r p r' Hf Hr E. destruct (Hy _ _ _ Hf Hr E) as [(v & Hv & ->) _]. destruct (Hd v Hv) as (bs & Eb & _ & H).
  exists v, bs. repeat split; auto.
Qed.
Lemma zlen_map {A B} (f : A -> B) l : zlen (map f l) = zlen l.
Proof. unfold zlen. rewrite map_length. reflexivity. Qed.

(** * A tactic for honesty *)
Create HintDb honest.
#[export] Hint Resolve honest_ret honest_fail_at honest_fail_pos honest_get_pos honest_read_u8 honest_peek honest_read_bytes honest_peek_bytes
  honest_read_var_u32 honest_read_var_u64 honest_read_var_s33 honest_read_var_i32 honest_read_var_i64 honest_read_string honest_skip_string
  honest_read_size honest_read_u32 honest_read_u64 honest_read_u7 honest_read_reader honest_skip_bytes honest_read_unlimited_string : honest.
Ltac honest_step :=
  first [ solve [auto 1 with honest nocore] | apply honest_read_list | apply honest_read_n | apply honest_if
        | (apply honest_map_err; [solve [auto with honest]|])
        | (apply honest_bind; [|intros ?]) | assumption
        | match goal with |- honest (match ?x with _ => _ end) => destruct x end ].
Ltac honesty := repeat honest_step.
