(** Appending bytes to the input of a reader operation. *)
From Verif.Base Require Import Prelude.
From Verif.Reader Require Import Model Spec.

(** An operation is [honest] when, on every input:
    - success is stable under appending bytes, leaves the appended bytes unread,
      only moves forward, and stays inside the input;
    - an error that does not blame the end of the input is stable too;
    - an end-of-input error announces a positive number of missing bytes, and any
      extension shorter than announced still fails with an end-of-input error. *)
Definition honest {A} (m : R A) : Prop := forall r,
  match m r with
  | Ok (a, r') =>
      (exists bs, consumes r bs r') /\
      forall ext, m (extend r ext) = Ok (a, extend r' ext)
  | Err e =>
      match e_hint e with
      | None => forall ext, m (extend r ext) = Err e
      | Some h => 0 < h /\ forall ext, zlen ext < h ->
          exists e', m (extend r ext) = Err e' /\ is_eof e'
      end
  end.

Lemma consumes_refl r : consumes r [] r.
Proof. unfold consumes. cbn. rewrite Z.add_0_r. auto. Qed.

Lemma consumes_trans r1 a r2 b r3 :
  consumes r1 a r2 -> consumes r2 b r3 -> consumes r1 (a ++ b) r3.
Proof.
  unfold consumes. intros (H1 & H2 & H3 & H4) (G1 & G2 & G3 & G4).
  rewrite H1, G1, app_assoc, zlen_app. repeat split; congruence || lia.
Qed.

Lemma extend_pos r ext : original_position (extend r ext) = original_position r.
Proof. reflexivity. Qed.

Lemma honest_ret {A} (a : A) : honest (ret a).
Proof. intros r. cbn. split; [exists []; apply consumes_refl|reflexivity]. Qed.

Lemma honest_fail_at {A} msg d : honest (@fail_at A msg d).
Proof. intros r. cbn. reflexivity. Qed.

Lemma honest_fail_pos {A} msg p : honest (@fail_pos A msg p).
Proof. intros r. cbn. reflexivity. Qed.

Lemma honest_get_pos : honest get_pos.
Proof. intros r. cbn. split; [exists []; apply consumes_refl|reflexivity]. Qed.

Lemma honest_bind {A B} (m : R A) (f : A -> R B) :
  honest m -> (forall a, honest (f a)) -> honest (bind m f).
Proof.
  intros Hm Hf r. specialize (Hm r). unfold bind.
  destruct (m r) as [[a r']|e].
  - destruct Hm as ([bs Hc] & Hext). specialize (Hf a r').
    destruct (f a r') as [[b r'']|e'].
    + destruct Hf as ([bs' Hc'] & Hext'). split.
      * exists (bs ++ bs'). eapply consumes_trans; eauto.
      * intros ext. rewrite Hext. apply Hext'.
    + destruct (e_hint e').
      * destruct Hf as [Hpos Hf]. split; [exact Hpos|]. intros ext Hl. rewrite Hext. auto.
      * intros ext. rewrite Hext. auto.
  - destruct (e_hint e).
    + destruct Hm as [Hpos Hm]. split; [exact Hpos|]. intros ext Hl.
      destruct (Hm ext Hl) as (e' & -> & He'). eauto.
    + intros ext. rewrite Hm. reflexivity.
Qed.

Lemma honest_if {A} (b : bool) (m1 m2 : R A) : honest m1 -> honest m2 -> honest (if b then m1 else m2).
Proof. destruct b; auto. Qed.

Lemma honest_read_u8 : honest read_u8.
Proof.
  intros [rem p o f]. unfold read_u8, extend. cbn [r_rem r_pos r_off r_feat].
  destruct rem as [|b t]; cbn.
  - split; [lia|]. intros ext Hl.
    destruct ext; [|rewrite zlen_cons in Hl; pose proof (zlen_nonneg ext); lia].
    cbn. eexists. split; [reflexivity|]. eexists; reflexivity.
  - split; [|reflexivity]. exists [b]. repeat split.
Qed.

Lemma honest_peek : honest peek.
Proof.
  intros [rem p o f]. unfold peek, extend. cbn [r_rem r_pos r_off r_feat].
  destruct rem as [|b t]; cbn.
  - split; [lia|]. intros ext Hl.
    destruct ext; [|rewrite zlen_cons in Hl; pose proof (zlen_nonneg ext); lia].
    cbn. eexists. split; [reflexivity|]. eexists; reflexivity.
  - split; [|reflexivity]. exists []. apply consumes_refl.
Qed.

Lemma firstn_app_le {A} n (a b : list A) : (n <= List.length a)%nat -> firstn n (a ++ b) = firstn n a.
Proof. intros. rewrite firstn_app. replace (n - List.length a)%nat with O by lia. cbn. apply app_nil_r. Qed.
Lemma skipn_app_le {A} n (a b : list A) : (n <= List.length a)%nat -> skipn n (a ++ b) = skipn n a ++ b.
Proof. intros. rewrite skipn_app. replace (n - List.length a)%nat with O by lia. reflexivity. Qed.

Lemma honest_read_bytes n : honest (read_bytes n).
Proof.
  intros [rem p o f]. unfold read_bytes, extend, bytes_remaining. cbn [r_rem r_pos r_off r_feat].
  destruct (Z.leb_spec n (zlen rem)).
  - split.
    + exists (firstn (Z.to_nat n) rem). unfold consumes, advance. cbn.
      rewrite firstn_skipn. repeat split; lia.
    + intros ext. rewrite zlen_app. pose proof (zlen_nonneg ext).
      destruct (Z.leb_spec n (zlen rem + zlen ext)); [|lia].
      unfold zlen in *. rewrite firstn_app_le, skipn_app_le by lia. reflexivity.
  - cbn. split; [lia|]. intros ext Hl. rewrite zlen_app.
    destruct (Z.leb_spec n (zlen rem + zlen ext)); [lia|].
    eexists. split; [reflexivity|]. eexists; reflexivity.
Qed.

Lemma honest_peek_bytes n : honest (peek_bytes n).
Proof.
  intros [rem p o f]. unfold peek_bytes, extend, bytes_remaining. cbn [r_rem r_pos r_off r_feat].
  destruct (Z.leb_spec n (zlen rem)).
  - split; [exists []; apply consumes_refl|].
    intros ext. rewrite zlen_app. pose proof (zlen_nonneg ext).
    destruct (Z.leb_spec n (zlen rem + zlen ext)); [|lia].
    unfold zlen in *. rewrite firstn_app_le by lia. reflexivity.
  - cbn. split; [lia|]. intros ext Hl. rewrite zlen_app.
    destruct (Z.leb_spec n (zlen rem + zlen ext)); [lia|].
    eexists. split; [reflexivity|]. eexists; reflexivity.
Qed.

Lemma honest_u_loop bits thr tl tg acc shift :
  honest (fun r => var_u_loop bits thr tl tg (r_rem r) (r_pos r) (r_off r) (r_feat r) acc shift).
Proof.
  intros [rem p o f]. unfold extend. cbn [r_rem r_pos r_off r_feat].
  revert p acc shift. induction rem as [|b t IH]; intros p acc shift; cbn [var_u_loop app].
  - cbn. split; [lia|]. intros ext Hl.
    destruct ext; [|rewrite zlen_cons in Hl; pose proof (zlen_nonneg ext); lia].
    cbn. eexists. split; [reflexivity|]. eexists; reflexivity.
  - destruct ((thr <=? shift) && negb (Z.shiftr b (bits - shift) =? 0)); [cbn; reflexivity|].
    destruct (Z.land b 128 =? 0).
    + cbn. split; [|reflexivity]. exists [b]. repeat split.
    + specialize (IH (p + 1) (Z.lor acc (wrapu bits (Z.shiftl (Z.land b 127) shift))) (shift + 7)).
      destruct (var_u_loop _ _ _ _ t _ _ _ _ _) as [[v r']|e]; [|exact IH].
      destruct IH as ([bs Hc] & Hext). split; [|exact Hext].
      exists (b :: bs). destruct Hc as (H1 & H2 & H3 & H4). cbn in *.
      unfold consumes. cbn. rewrite H1, H2, zlen_cons. repeat split; auto; lia.
Qed.

Lemma honest_s_loop bits mbits thr tl tg acc shift :
  honest (fun r => var_s_loop bits mbits thr tl tg (r_rem r) (r_pos r) (r_off r) (r_feat r) acc shift).
Proof.
  intros [rem p o f]. unfold extend. cbn [r_rem r_pos r_off r_feat].
  revert p acc shift. induction rem as [|b t IH]; intros p acc shift; cbn [var_s_loop app].
  - cbn. split; [lia|]. intros ext Hl.
    destruct ext; [|rewrite zlen_cons in Hl; pose proof (zlen_nonneg ext); lia].
    cbn. eexists. split; [reflexivity|]. eexists; reflexivity.
  - destruct (thr <=? shift).
    + destruct (_ || _); [cbn; reflexivity|]. cbn. split; [|reflexivity]. exists [b]. repeat split.
    + destruct (Z.land b 128 =? 0).
      * cbn. split; [|reflexivity]. exists [b]. repeat split.
      * specialize (IH (p + 1) (Z.lor acc (wraps mbits (Z.shiftl (Z.land b 127) shift))) (shift + 7)).
        destruct (var_s_loop _ _ _ _ _ t _ _ _ _ _) as [[v r']|e]; [|exact IH].
        destruct IH as ([bs Hc] & Hext). split; [|exact Hext].
        exists (b :: bs). destruct Hc as (H1 & H2 & H3 & H4). cbn in *.
        unfold consumes. cbn. rewrite H1, H2, zlen_cons. repeat split; auto; lia.
Qed.

Lemma honest_read_var_u32 : honest read_var_u32.
Proof.
  apply honest_bind; [apply honest_read_u8|]. intros b. apply honest_if; [apply honest_ret|].
  apply honest_u_loop.
Qed.
Lemma honest_read_var_u64 : honest read_var_u64.
Proof.
  apply honest_bind; [apply honest_read_u8|]. intros b. apply honest_if; [apply honest_ret|].
  apply honest_u_loop.
Qed.
Lemma honest_read_var_i32 : honest read_var_i32.
Proof.
  apply honest_bind; [apply honest_read_u8|]. intros b. apply honest_if; [apply honest_ret|].
  apply honest_s_loop.
Qed.
Lemma honest_read_var_s33 : honest read_var_s33.
Proof.
  apply honest_bind; [apply honest_read_u8|]. intros b. apply honest_if; [apply honest_ret|].
  apply honest_s_loop.
Qed.
Lemma honest_read_var_i64 : honest read_var_i64.
Proof. apply honest_s_loop. Qed.

Lemma honest_read_u32 : honest read_u32.
Proof. apply honest_bind; [apply honest_read_bytes|intros; apply honest_ret]. Qed.
Lemma honest_read_u64 : honest read_u64.
Proof. apply honest_bind; [apply honest_read_bytes|intros; apply honest_ret]. Qed.
Lemma honest_read_u7 : honest read_u7.
Proof.
  apply honest_bind; [apply honest_read_u8|]. intros b.
  apply honest_if; [apply honest_fail_at|apply honest_ret].
Qed.
Lemma honest_read_size l d : honest (read_size l d).
Proof.
  apply honest_bind; [apply honest_get_pos|]. intros p.
  apply honest_bind; [apply honest_read_var_u32|]. intros b.
  apply honest_if; [apply honest_fail_pos|apply honest_ret].
Qed.

Lemma honest_skip_bytes n : honest (skip_bytes n).
Proof.
  intros r. unfold skip_bytes. pose proof (honest_read_bytes n r) as H.
  destruct (read_bytes n r) as [[bs r']|e].
  - destruct H as [Hc Hext]. split; [exact Hc|]. intros ext. rewrite Hext. reflexivity.
  - destruct (e_hint e); [|intros ext; rewrite H; reflexivity].
    destruct H as [Hp H]. split; [exact Hp|]. intros ext Hl.
    destruct (H ext Hl) as (e' & -> & ?). eauto.
Qed.

Lemma honest_internal_read_string n : honest (internal_read_string n).
Proof.
  apply honest_bind; [apply honest_read_bytes|]. intros bs.
  apply honest_if; [apply honest_ret|apply honest_fail_at].
Qed.
Lemma honest_read_string : honest read_string.
Proof.
  apply honest_bind; [apply honest_read_var_u32|]. intros n.
  apply honest_if; [apply honest_fail_at|apply honest_internal_read_string].
Qed.
Lemma honest_read_unlimited_string : honest read_unlimited_string.
Proof. apply honest_bind; [apply honest_read_var_u32|]. apply honest_internal_read_string. Qed.
Lemma honest_skip_string : honest skip_string.
Proof.
  apply honest_bind; [apply honest_read_var_u32|]. intros n.
  apply honest_if; [apply honest_fail_at|].
  apply honest_bind; [apply honest_read_bytes|intros; apply honest_ret].
Qed.
Lemma honest_read_n {A} n (item : R A) : honest item -> honest (read_n n item).
Proof.
  intros Hi. induction n; cbn [read_n]; [apply honest_ret|].
  apply honest_bind; [exact Hi|]. intros a.
  apply honest_bind; [exact IHn|]. intros l. apply honest_ret.
Qed.
Lemma honest_read_list {A} l d (item : R A) : honest item -> honest (read_list l d item).
Proof.
  intros Hi. apply honest_bind; [apply honest_read_size|]. intros n. apply honest_read_n, Hi.
Qed.
Lemma honest_read_reader : honest read_reader.
Proof. apply honest_bind; [apply honest_read_var_u32|]. apply honest_skip_bytes. Qed.
