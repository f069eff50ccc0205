(** A successful read depends only on the bytes it consumes: not on what follows
    them, nor on where the reader stands. *)
From Verif.Base Require Import Prelude Utf8.
From Verif.Reader Require Import Model Spec.
From Verif.Leb Require Import Model.
From Verif.Codec Require Import Kit.
From Coq Require Import Lia.

(** When [m] succeeds, it consumes some bytes, and [m'] returns the same value from those bytes wherever
    they stand and whatever follows. *)
Definition sim {A} (m m' : R A) : Prop := forall r a r', m r = Ok (a, r') ->
  exists bs, consumes r bs r' /\
  forall rest pos off, m' (mkReader (bs ++ rest) pos off (r_feat r)) = Ok (a, mkReader rest (pos + zlen bs) off (r_feat r)).
Definition local {A} (m : R A) : Prop := sim m m.
(** [m] consumes at least one byte. *)
Definition eats {A} (m : R A) : Prop := forall r a r', m r = Ok (a, r') -> r_pos r < r_pos r'.
Definition moves {A} (m : R A) : Prop := forall r a r', m r = Ok (a, r') -> r_pos r <= r_pos r'.

Lemma consumes_nil r : consumes r [] r.
Proof. unfold consumes. change (zlen (@nil Z)) with 0. repeat split; lia. Qed.
Lemma consumes_app r b1 r1 b2 r2 : consumes r b1 r1 -> consumes r1 b2 r2 -> consumes r (b1 ++ b2) r2.
Proof.
  intros (A1 & A2 & A3 & A4) (B1 & B2 & B3 & B4). unfold consumes. rewrite A1, B1, zlen_app, <- app_assoc. repeat split; [lia|congruence|congruence].
Qed.
Lemma sim_ret {A} (a : A) : sim (ret a) (ret a).
Proof.
  intros r b r' E. injection E as <- <-. exists []. split; [apply consumes_nil|]. intros. cbn [app]. change (zlen (@nil Z)) with 0. rewrite Z.add_0_r. reflexivity.
Qed.
Lemma sim_fail_at {A} msg d (m : R A) : sim (fail_at msg d) m.
Proof. intros r a r' E. discriminate. Qed.
Lemma sim_fail_pos {A} msg p (m : R A) : sim (fail_pos msg p) m.
Proof. intros r a r' E. discriminate. Qed.
Lemma sim_bind {A B} (m m' : R A) (k k' : A -> R B) : sim m m' -> (forall a, sim (k a) (k' a)) -> sim (bind m k) (bind m' k').
Proof.
  intros H1 H2 r b r' E. unfold bind in E. destruct (m r) as [[a r1]|e] eqn:E1; [|discriminate].
  destruct (H1 _ _ _ E1) as (b1 & C1 & D1). destruct (H2 a _ _ _ E) as (b2 & C2 & D2). exists (b1 ++ b2).
  split; [eapply consumes_app; eauto|]. intros rest pos off. unfold bind. rewrite <- app_assoc, D1.
  destruct C1 as (_ & _ & _ & Ef). rewrite <- Ef, D2, zlen_app, Z.add_assoc. reflexivity.
Qed.
Lemma sim_get_pos {B} (k k' : Z -> R B) : (forall p p', sim (k p) (k' p')) -> sim (bind get_pos k) (bind get_pos k').
Proof.
  intros H r b r' E. unfold bind, get_pos in E. destruct (H (original_position r) (original_position r) _ _ _ E) as (bs & C & _).
  exists bs. split; [exact C|]. intros rest pos off. unfold bind, get_pos.
  destruct (H (original_position r) (original_position (mkReader (bs ++ rest) pos off (r_feat r))) _ _ _ E) as (bs2 & C2 & D2).
  assert (Hb : bs2 = bs). { destruct C as (E1 & _), C2 as (E2 & _). rewrite E1 in E2. apply app_inv_tail in E2. auto. }
  subst bs2. apply D2.
Qed.
Lemma sim_if {A} (b : bool) (m1 m2 n1 n2 : R A) : sim m1 n1 -> sim m2 n2 -> sim (if b then m1 else m2) (if b then n1 else n2).
Proof. destruct b; auto. Qed.
Lemma sim_u8 : sim read_u8 read_u8.
Proof.
  intros [rem pos off ft] a r' E. unfold read_u8, advance in E. cbn in E. destruct rem as [|b t]; [discriminate|]. injection E as <- <-.
  exists [b]. split; [unfold consumes; cbn; repeat split; reflexivity|]. intros. reflexivity.
Qed.
Lemma sim_peek {B} (k k' : Z -> R B) : (forall b, sim (k b) (k' b)) -> (forall b, eats (k b)) -> sim (bind peek k) (bind peek k').
Proof.
  intros H He r b r' E. unfold bind, peek in E. destruct (r_rem r) as [|x t] eqn:Er; [discriminate|].
  destruct (H x _ _ _ E) as (bs & C & D). exists bs. split; [exact C|]. intros rest pos off. unfold bind, peek. cbn [r_rem].
  pose proof (He x _ _ _ E) as Hp. destruct C as (C1 & C2 & _). destruct bs as [|y bs]; [change (zlen (@nil Z)) with 0 in C2; lia|].
  rewrite Er in C1. injection C1 as <- _. cbn [app]. apply D.
Qed.
Lemma sim_peek_bytes {B} (k k' : list Z -> R B) : (forall b, sim (k b) (k' b)) -> (forall b, eats (k b)) -> sim (bind (peek_bytes 1) k) (bind (peek_bytes 1) k').
Proof.
  intros H He r b r' E. unfold bind, peek_bytes, bytes_remaining in E. destruct (Z.leb_spec 1 (zlen (r_rem r))) as [Hl|]; [|discriminate].
  destruct (r_rem r) as [|x t] eqn:Er; [change (zlen (@nil Z)) with 0 in Hl; lia|]. change (firstn (Z.to_nat 1) (x :: t)) with [x] in E.
  destruct (H [x] _ _ _ E) as (bs & C & D). exists bs. split; [exact C|]. intros rest pos off. unfold bind, peek_bytes, bytes_remaining. cbn [r_rem].
  pose proof (He [x] _ _ _ E) as Hp. destruct C as (C1 & C2 & _). destruct bs as [|y bs]; [change (zlen (@nil Z)) with 0 in C2; lia|].
  rewrite Er in C1. injection C1 as <- _. cbn [app]. destruct (Z.leb_spec 1 (zlen (x :: bs ++ rest))) as [_|Hn]; [|unfold zlen in Hn; cbn [List.length] in Hn; lia].
  change (firstn (Z.to_nat 1) (x :: bs ++ rest)) with [x]. apply D.
Qed.
Lemma sim_read_bytes n : sim (read_bytes n) (read_bytes n).
Proof.
  destruct (Z.ltb_spec n 0) as [Hneg|Hn].
  { intros r a r' E. unfold read_bytes, bytes_remaining in *. pose proof (zlen_nonneg (r_rem r)) as Hz. destruct (Z.leb_spec n (zlen (r_rem r))); [|lia].
    replace (Z.to_nat n) with O in * by lia. cbn [firstn skipn] in *. injection E as <- <-. change (zlen (@nil Z)) with 0. exists [].
    split; [unfold consumes, advance; cbn; change (zlen (@nil Z)) with 0; repeat split; lia|]. intros rest pos off. cbn [app r_rem]. pose proof (zlen_nonneg rest).
    destruct (Z.leb_spec n (zlen rest)); [|lia]. reflexivity. }
  intros r a r' E. unfold read_bytes, bytes_remaining in E. destruct (Z.leb_spec n (zlen (r_rem r))) as [Hl|]; [|discriminate]. injection E as <- <-.
  assert (Hf : zlen (firstn (Z.to_nat n) (r_rem r)) = n) by (unfold zlen in *; rewrite firstn_length; lia).
  exists (firstn (Z.to_nat n) (r_rem r)). split; [unfold consumes, advance; cbn; rewrite firstn_skipn; auto|].
  intros rest pos off. unfold read_bytes, bytes_remaining, advance. cbn. rewrite zlen_app, Hf. pose proof (zlen_nonneg rest).
  destruct (Z.leb_spec n (n + zlen rest)); [|lia].
  assert (Hln : List.length (firstn (Z.to_nat n) (r_rem r)) = Z.to_nat n) by (unfold zlen in Hf; lia).
  rewrite firstn_app, skipn_app, Hln, Nat.sub_diag, firstn_O, app_nil_r. change (skipn 0 rest) with rest.
  rewrite firstn_all2 by lia. rewrite skipn_all2 by lia. rewrite Hf. reflexivity.
Qed.
Lemma sim_u_loop bits thr tl tg acc shift :
  sim (fun r => var_u_loop bits thr tl tg (r_rem r) (r_pos r) (r_off r) (r_feat r) acc shift)
      (fun r => var_u_loop bits thr tl tg (r_rem r) (r_pos r) (r_off r) (r_feat r) acc shift).
Proof.
  intros [rem pos off ft] a r' E. cbn [r_rem r_pos r_off r_feat] in *. revert pos acc shift a r' E.
  induction rem as [|b t IH]; intros pos acc shift a r' E; cbn [var_u_loop] in E; [discriminate|].
  destruct (_ && _) eqn:Ec in E; [discriminate|]. destruct (Z.land b 0x80 =? 0) eqn:Eb.
  - injection E as <- <-. exists [b]. split; [unfold consumes; cbn; repeat split; reflexivity|]. intros. cbn [app var_u_loop]. rewrite Ec, Eb. reflexivity.
  - destruct (IH _ _ _ _ _ E) as (bs & (C1 & C2 & C3 & C4) & D). cbn in C1, C2, C3, C4. exists (b :: bs). split.
    + unfold consumes. cbn. rewrite C1, C2. change (b :: bs) with ([b] ++ bs). rewrite zlen_app. change (zlen [b]) with 1. repeat split; auto; lia.
    + intros rest pos' off'. cbn [app var_u_loop r_rem r_pos r_off r_feat] in *. rewrite Ec, Eb. rewrite D. change (b :: bs) with ([b] ++ bs). rewrite zlen_app. change (zlen [b]) with 1.
      rewrite Z.add_assoc. reflexivity.
Qed.
Lemma sim_s_loop bits mbits thr tl tg acc shift :
  sim (fun r => var_s_loop bits mbits thr tl tg (r_rem r) (r_pos r) (r_off r) (r_feat r) acc shift)
      (fun r => var_s_loop bits mbits thr tl tg (r_rem r) (r_pos r) (r_off r) (r_feat r) acc shift).
Proof.
  intros [rem pos off ft] a r' E. cbn [r_rem r_pos r_off r_feat] in *. revert pos acc shift a r' E.
  induction rem as [|b t IH]; intros pos acc shift a r' E; cbn [var_s_loop] in E; [discriminate|].
  destruct (thr <=? shift) eqn:Et; [destruct (_ || _) eqn:Ec in E; [discriminate|]|destruct (Z.land b 0x80 =? 0) eqn:Eb].
  - injection E as <- <-. exists [b]. split; [unfold consumes; cbn; repeat split; reflexivity|]. intros. cbn [app var_s_loop]. rewrite Et, Ec. reflexivity.
  - injection E as <- <-. exists [b]. split; [unfold consumes; cbn; repeat split; reflexivity|]. intros. cbn [app var_s_loop]. rewrite Et, Eb. reflexivity.
  - destruct (IH _ _ _ _ _ E) as (bs & (C1 & C2 & C3 & C4) & D). cbn in C1, C2, C3, C4. exists (b :: bs). split.
    + unfold consumes. cbn. rewrite C1, C2. change (b :: bs) with ([b] ++ bs). rewrite zlen_app. change (zlen [b]) with 1. repeat split; auto; lia.
    + intros rest pos' off'. cbn [app var_s_loop r_rem r_pos r_off r_feat] in *. rewrite Et, Eb. rewrite D. change (b :: bs) with ([b] ++ bs). rewrite zlen_app. change (zlen [b]) with 1.
      rewrite Z.add_assoc. reflexivity.
Qed.
Lemma sim_u32 : sim read_var_u32 read_var_u32.
Proof. apply sim_bind; [apply sim_u8|]. intros b. apply sim_if; [apply sim_ret|apply sim_u_loop]. Qed.
Lemma sim_u64 : sim read_var_u64 read_var_u64.
Proof. apply sim_bind; [apply sim_u8|]. intros b. apply sim_if; [apply sim_ret|apply sim_u_loop]. Qed.
Lemma sim_i32 : sim read_var_i32 read_var_i32.
Proof. apply sim_bind; [apply sim_u8|]. intros b. apply sim_if; [apply sim_ret|apply sim_s_loop]. Qed.
Lemma sim_s33 : sim read_var_s33 read_var_s33.
Proof. apply sim_bind; [apply sim_u8|]. intros b. apply sim_if; [apply sim_ret|apply sim_s_loop]. Qed.
Lemma sim_i64 : sim read_var_i64 read_var_i64.
Proof. apply sim_s_loop. Qed.
Lemma sim_read_n {A} n (m m' : R A) : sim m m' -> sim (read_n n m) (read_n n m').
Proof. intros H. induction n as [|n IH]; cbn [read_n]; [apply sim_ret|]. apply sim_bind; [exact H|]. intros a. apply sim_bind; [exact IH|]. intros l. apply sim_ret. Qed.
Lemma sim_size limit d : sim (read_size limit d) (read_size limit d).
Proof. apply sim_get_pos. intros p p'. apply sim_bind; [apply sim_u32|]. intros n. destruct (limit <? n); [apply sim_fail_pos|apply sim_ret]. Qed.
Lemma sim_list {A} limit d (m m' : R A) : sim m m' -> sim (read_list limit d m) (read_list limit d m').
Proof. intros H. apply sim_bind; [apply sim_size|]. intros n. apply sim_read_n, H. Qed.
Lemma sim_f32 : sim read_u32 read_u32.
Proof. apply sim_bind; [apply sim_read_bytes|]. intros; apply sim_ret. Qed.
Lemma sim_f64 : sim read_u64 read_u64.
Proof. apply sim_bind; [apply sim_read_bytes|]. intros; apply sim_ret. Qed.
Lemma sim_map_err {A} f f' (m m' : R A) : sim m m' -> sim (map_err f m) (map_err f' m').
Proof.
  intros H r a r' E. unfold map_err in E. destruct (m r) as [[b r1]|e] eqn:E1; [|discriminate]. injection E as <- <-.
  destruct (H _ _ _ E1) as (bs & C & D). exists bs. split; [exact C|]. intros. unfold map_err. rewrite D. reflexivity.
Qed.
Lemma sim_ask {A} (m m' : features -> R A) : (forall ft, sim (m ft) (m' ft)) -> sim (fun r => m (r_feat r) r) (fun r => m' (r_feat r) r).
Proof. intros H r a r' E. destruct (H _ _ _ _ E) as (bs & C & D). exists bs. split; [exact C|]. intros. cbn [r_feat]. apply D. Qed.
(** A length that was read is not negative. *)
Lemma u32_nonneg r n r' : read_var_u32 r = Ok (n, r') -> bytes_ok (r_rem r) -> 0 <= n.
Proof. intros E Hr. destruct (y_u32 (fun _ => True) _ _ _ I Hr E) as ((Hn & _) & _). exact Hn. Qed.

Lemma sim_string : sim read_string read_string.
Proof.
  apply sim_bind; [apply sim_u32|]. intros n. destruct (_ <? n); [apply sim_fail_at|]. apply sim_bind; [apply sim_read_bytes|]. intros s.
  destruct (utf8_valid s); [apply sim_ret|apply sim_fail_at].
Qed.
Lemma sim_skip_string : sim skip_string skip_string.
Proof.
  apply sim_bind; [apply sim_u32|]. intros n. destruct (_ <? n); [apply sim_fail_at|]. apply sim_bind; [apply sim_read_bytes|]. intros s. apply sim_ret.
Qed.
(** * Progress *)
Lemma moves_ret {A} (a : A) : moves (ret a).
Proof. intros r b r' E. injection E as <- <-. lia. Qed.
Lemma moves_local {A} (m : R A) : local m -> moves m.
Proof. intros H r a r' E. destruct (H _ _ _ E) as (bs & (_ & C & _) & _). pose proof (zlen_nonneg bs). lia. Qed.
Lemma eats_fail_at {A} msg d : eats (@fail_at A msg d).
Proof. intros r a r' E. discriminate. Qed.
Lemma eats_fail_pos {A} msg d : eats (@fail_pos A msg d).
Proof. intros r a r' E. discriminate. Qed.
Lemma eats_if {A} (b : bool) (m n : R A) : eats m -> eats n -> eats (if b then m else n).
Proof. destruct b; auto. Qed.
Lemma eats_bind_l {A B} (m : R A) (k : A -> R B) : eats m -> (forall a, moves (k a)) -> eats (bind m k).
Proof.
  intros H1 H2 r b r' E. unfold bind in E. destruct (m r) as [[a r1]|e] eqn:E1; [|discriminate].
  specialize (H1 _ _ _ E1). specialize (H2 a _ _ _ E). lia.
Qed.
Lemma eats_bind_r {A B} (m : R A) (k : A -> R B) : moves m -> (forall a, eats (k a)) -> eats (bind m k).
Proof.
  intros H1 H2 r b r' E. unfold bind in E. destruct (m r) as [[a r1]|e] eqn:E1; [|discriminate].
  specialize (H1 _ _ _ E1). specialize (H2 a _ _ _ E). lia.
Qed.
Lemma moves_bind {A B} (m : R A) (k : A -> R B) : moves m -> (forall a, moves (k a)) -> moves (bind m k).
Proof.
  intros H1 H2 r b r' E. unfold bind in E. destruct (m r) as [[a r1]|e] eqn:E1; [|discriminate].
  specialize (H1 _ _ _ E1). specialize (H2 a _ _ _ E). lia.
Qed.
Lemma moves_if {A} (b : bool) (m n : R A) : moves m -> moves n -> moves (if b then m else n).
Proof. destruct b; auto. Qed.
Lemma moves_peek : moves peek.
Proof. intros r a r' E. unfold peek in E. destruct (r_rem r); [discriminate|]. injection E as <- <-. lia. Qed.
Lemma moves_get_pos : moves get_pos.
Proof. intros r a r' E. injection E as <- <-. lia. Qed.
Lemma eats_u8 : eats read_u8.
Proof. intros r a r' E. unfold read_u8 in E. destruct (r_rem r); [discriminate|]. injection E as <- <-. cbn. lia. Qed.
Lemma eats_moves {A} (m : R A) : eats m -> moves m.
Proof. intros H r a r' E. specialize (H _ _ _ E). lia. Qed.
Lemma eats_map_err {A} f (m : R A) : eats m -> eats (map_err f m).
Proof. intros H r a r' E. unfold map_err in E. destruct (m r) as [[b r1]|e] eqn:E1; [|discriminate]. injection E as <- <-. eapply H, E1. Qed.
Lemma eats_u32 : eats read_var_u32.
Proof. apply eats_bind_l; [apply eats_u8|]. intros b. apply moves_if; [apply moves_ret|]. apply (moves_local _ (sim_u_loop _ _ _ _ _ _)). Qed.
Lemma eats_s33 : eats read_var_s33.
Proof. apply eats_bind_l; [apply eats_u8|]. intros b. apply moves_if; [apply moves_ret|]. apply (moves_local _ (sim_s_loop _ _ _ _ _ _ _)). Qed.

(** A value read from exactly some bytes. *)
Lemma local_bytes {A} (m : R A) : local m -> forall r a r', m r = Ok (a, r') -> exists bs, consumes r bs r' /\
  firstn (Z.to_nat (r_pos r' - r_pos r)) (r_rem r) = bs /\
  forall rest pos off, m (mkReader (bs ++ rest) pos off (r_feat r)) = Ok (a, mkReader rest (pos + zlen bs) off (r_feat r)).
Proof.
  intros H r a r' E. destruct (H _ _ _ E) as (bs & C & D). exists bs. split; [exact C|]. split; [|exact D].
  destruct C as (C1 & C2 & _). rewrite C2. replace (r_pos r + zlen bs - r_pos r) with (zlen bs) by lia.
  replace (Z.to_nat (zlen bs)) with (List.length bs) by (unfold zlen; lia). rewrite C1, firstn_app, Nat.sub_diag, firstn_all, firstn_O. apply app_nil_r.
Qed.
