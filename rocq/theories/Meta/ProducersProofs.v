(** The producers section: what is written is read back, and merging does what it says. *)
From Verif.Base Require Import Prelude Utf8.
From Verif.Reader Require Import Model Spec.
From Verif.Leb Require Import Spec Model Proofs Top.
From Verif.Encoder Require Import Model.
From Verif.Codec Require Import Kit Local.
From Verif.Types Require Import RefModel CodecModel EntityModel EntitySpec EntityProofs LocalTypes.
From Verif.Sections Require Import SeeModel Item NameModel NameProofs.
From Verif.Meta Require Import Model Spec DocCanon RewriteProofs.
From Coq Require Import Lia.

(** * Maps *)
Lemma same_neq a b : a <> b -> same a b = false.
Proof. intros H. destruct (same a b) eqn:E; [|reflexivity]. apply same_eq in E. contradiction. Qed.
Lemma get_insert {V} (m : list (list Z * V)) k v k' : im_get (im_insert m k v) k' = if same k' k then Some v else im_get m k'.
Proof.
  induction m as [|[k0 v0] m IH]; cbn [im_insert im_get]; [reflexivity|]. destruct (same k k0) eqn:E.
  - apply same_eq in E. subst k0. cbn [im_get]. destruct (same k' k); reflexivity.
  - cbn [im_get]. rewrite IH. destruct (same k' k0) eqn:E0; [|reflexivity]. apply same_eq in E0. subst k0.
    destruct (same k' k) eqn:E1; [|reflexivity]. apply same_eq in E1. subst k'. rewrite same_refl in E. discriminate.
Qed.
Lemma keys_insert {V} (m : list (list Z * V)) k v k' : In k' (map fst (im_insert m k v)) <-> k' = k \/ In k' (map fst m).
Proof.
  induction m as [|[k0 v0] m IH]; cbn [im_insert map fst In]; [intuition auto|]. destruct (same k k0) eqn:E; cbn [map fst In]; [|rewrite IH; intuition auto].
  apply same_eq in E. subst k0. intuition auto.
Qed.
Lemma nodup_insert {V} (m : list (list Z * V)) k v : NoDup (map fst m) -> NoDup (map fst (im_insert m k v)).
Proof.
  induction m as [|[k0 v0] m IH]; cbn [im_insert map fst]; intros H; [repeat constructor; auto|]. inversion H as [|? ? H1 H2]; subst.
  destruct (same k k0) eqn:E; cbn [map fst]; [constructor; assumption|]. constructor; [|auto]. rewrite keys_insert. intros [->|X]; [rewrite same_refl in E; discriminate|auto].
Qed.
Lemma forall_insert {V} (P : list Z * V -> Prop) m k v : Forall P m -> (forall k', k' = k -> P (k', v)) -> Forall P (im_insert m k v).
Proof.
  induction m as [|[k0 v0] m IH]; cbn [im_insert]; intros H Hp; [auto|]. apply Forall_cons_iff in H as (H1 & H2).
  destruct (same k k0) eqn:E; [apply same_eq in E; constructor; auto|constructor; auto].
Qed.
Lemma get_in {V} (m : list (list Z * V)) k v : im_get m k = Some v -> In (k, v) m.
Proof.
  induction m as [|[k0 v0] m IH]; cbn [im_get]; [discriminate|]. destruct (same k k0) eqn:E; [|right; auto]. apply same_eq in E. subst k0. intros [= <-]. left. reflexivity.
Qed.
Lemma get_absent {V} (m : list (list Z * V)) k : ~ In k (map fst m) -> im_get m k = None.
Proof.
  induction m as [|[k0 v0] m IH]; cbn [im_get map fst In]; [reflexivity|]. intros H. rewrite same_neq by (intros ->; auto). auto.
Qed.
Lemma insert_new {V} (m : list (list Z * V)) k v : ~ In k (map fst m) -> im_insert m k v = m ++ [(k, v)].
Proof.
  induction m as [|[k0 v0] m IH]; cbn [im_insert map fst In]; [reflexivity|]. intros H. rewrite same_neq by (intros ->; auto). rewrite IH by auto. reflexivity.
Qed.
Lemma insert_all_from {V} (l : list (list Z * V)) : forall m, NoDup (map fst (m ++ l)) -> fold_left (fun m x => im_insert m (fst x) (snd x)) l m = m ++ l.
Proof.
  induction l as [|[k v] l IH]; intros m H; cbn [fold_left fst snd]; [now rewrite app_nil_r|]. rewrite insert_new.
  - rewrite IH; [now rewrite <- app_assoc|]. rewrite <- app_assoc. exact H.
  - rewrite map_app in H. cbn [map fst] in H. apply NoDup_remove_2 in H. intros X. apply H. apply in_or_app. auto.
Qed.
Lemma insert_all_id {V} (l : list (list Z * V)) : NoDup (map fst l) -> insert_all l = l.
Proof. intros H. unfold insert_all. now rewrite insert_all_from. Qed.
Lemma insert_all_ok {V} (P : list Z * V -> Prop) l : Forall P l -> NoDup (map fst (insert_all l)) /\ Forall P (insert_all l).
Proof.
  unfold insert_all. intros H. assert (G : forall m, NoDup (map fst m) -> Forall P m -> 
    NoDup (map fst (fold_left (fun m x => im_insert m (fst x) (snd x)) l m)) /\ Forall P (fold_left (fun m x => im_insert m (fst x) (snd x)) l m)).
  { induction H as [|[k v] l Hx _ IH]; intros m H1 H2; cbn [fold_left fst snd]; [auto|]. apply IH; [apply nodup_insert, H1|]. apply forall_insert; [exact H2|]. intros k' ->. exact Hx. }
  apply G; constructor.
Qed.

(** * Merging *)
Lemma add_version p f n v f' n' : version_of (p_add p f n v) f' n' = if same f' f && same n' n then Some v else version_of p f' n'.
Proof.
  unfold p_add, version_of. destruct (im_get p f) as [m|] eqn:E; rewrite get_insert; destruct (same f' f) eqn:Ef; cbn [andb].
  - apply same_eq in Ef. subst f'. rewrite E, get_insert. destruct (same n' n); reflexivity.
  - reflexivity.
  - apply same_eq in Ef. subst f'. rewrite E. cbn [im_get]. destruct (same n' n); reflexivity.
  - reflexivity.
Qed.
Lemma add_versions f m : NoDup (map fst m) -> forall p f' n', version_of (fold_left (fun p x => p_add p f (fst x) (snd x)) m p) f' n' =
  if same f' f then match im_get m n' with Some v => Some v | None => version_of p f' n' end else version_of p f' n'.
Proof.
  induction m as [|[n v] m IH]; intros H p f' n'; cbn [fold_left fst snd im_get]; [destruct (same f' f); reflexivity|].
  inversion H as [|? ? H1 H2]; subst. rewrite IH by exact H2. rewrite add_version. destruct (same f' f) eqn:Ef; cbn [andb]; [|reflexivity].
  destruct (same n' n) eqn:En; [|reflexivity]. apply same_eq in En. subst n'. rewrite (get_absent _ _ H1). reflexivity.
Qed.
Lemma merge_version add : NoDup (map fst add) -> Forall (fun f => NoDup (map fst (snd f))) add -> forall p, merged p add (p_merge p add).
Proof.
  unfold merged, p_merge. induction add as [|[f m] add IH]; intros H1 H2 p f' n'; cbn [fold_left fst snd]; [reflexivity|].
  inversion H1 as [|? ? Ha Hb]; subst. apply Forall_cons_iff in H2 as (H2 & H3). cbn [snd] in H2. rewrite IH by assumption. rewrite (add_versions f m H2).
  unfold version_of at 1 4. cbn [im_get]. destruct (same f' f) eqn:Ef; [|reflexivity]. apply same_eq in Ef. subst f'. pose proof (get_absent add f Ha) as G. unfold versions in *. rewrite G. reflexivity.
Qed.

(** * What can be written *)
Definition pvalue_ok (x : list Z * list Z) : Prop := text_ok (fst x) /\ text_ok (snd x).
Definition field_ok (f : list Z * versions) : Prop :=
  In (fst f) (map lit ["language"; "sdk"; "processed-by"]%string) /\ NoDup (map fst (snd f)) /\ Forall pvalue_ok (snd f).
Definition pre_ok (p : producers) : Prop := NoDup (map fst p) /\ Forall field_ok p.
Lemma producers_pre p : producers_ok p -> pre_ok p.
Proof. intros (H1 & H2). split; [exact H1|]. eapply Forall_impl; [|exact H2]. intros f (A & B & C & _). repeat split; auto. Qed.
Lemma pre_add p f n v : pre_ok p -> In f (map lit ["language"; "sdk"; "processed-by"]%string) -> pvalue_ok (n, v) -> pre_ok (p_add p f n v).
Proof.
  intros (H1 & H2) Hf Hv. unfold p_add. destruct (im_get p f) as [m|] eqn:E; (split; [apply nodup_insert, H1|]); apply forall_insert; auto; intros k ->.
  - apply get_in in E. rewrite Forall_forall in H2. destruct (H2 _ E) as (A & B & C). cbn [fst snd] in *. repeat split; cbn [fst snd]; auto; [apply nodup_insert, B|].
    apply forall_insert; [exact C|]. intros k' ->. exact Hv.
  - repeat split; cbn [fst snd]; auto. repeat constructor; auto.
Qed.
Lemma pre_merge add p : pre_ok p -> Forall field_ok add -> pre_ok (p_merge p add).
Proof.
  unfold p_merge. intros Hp H. revert p Hp. induction H as [|[f m] add (Ha & _ & Hc) _ IH]; intros p Hp; cbn [fold_left]; [exact Hp|]. apply IH. cbn [fst snd] in *.
  clear IH. revert p Hp. induction Hc as [|[n v] m Hx _ IH]; intros p Hp; cbn [fold_left fst snd]; [exact Hp|]. apply IH, pre_add; auto.
Qed.

(** * Reading what was written *)
Local Notation ft := all_features.
Local Notation F := (eq all_features).
Lemma text_unlimited s : text_ok s -> decodes F (o_str s) read_unlimited_string s.
Proof.
  intros (Hs & Hu & Hn). rewrite o_str_eq. unfold read_unlimited_string. eapply dec_bind; [apply dec_usize, zlen_u32'; lia|].
  unfold internal_read_string. rewrite <- (oapp_nil_r (Some s)). eapply dec_bind; [apply dec_read_bytes, Hs|]. rewrite Hu. apply dec_ret.
Qed.
Lemma text_skip s : text_ok s -> decodes F (o_str s) skip_string tt.
Proof.
  intros (Hs & Hu & Hn). rewrite o_str_eq. unfold skip_string. eapply dec_bind; [apply dec_usize, zlen_u32'; lia|]. unfold MAX_WASM_STRING_SIZE.
  destruct (Z.ltb_spec 100000 (zlen s)); [lia|]. exact (dec_bind_ret F _ _ (fun _ => tt) s (dec_read_bytes F s Hs)).
Qed.
Lemma dec_pvalue x : pvalue_ok x -> decodes F (enc_pvalue x) read_pvalue x.
Proof.
  destruct x as [n v]. intros (H1 & H2). unfold enc_pvalue, read_pvalue. cbn [fst snd] in *. eapply dec_bind; [apply text_unlimited, H1|].
  exact (dec_bind_ret F _ _ (pair n) v (text_unlimited _ H2)).
Qed.
Lemma dec_skip_pvalue x : pvalue_ok x -> decodes F (enc_pvalue x) (let* _ := skip_string in skip_string) tt.
Proof. destruct x as [n v]. intros (H1 & H2). unfold enc_pvalue. cbn [fst snd] in *. eapply dec_bind; [apply text_skip, H1|]. apply text_skip, H2. Qed.
Lemma known_in f : known_field f = true <-> In f (map lit ["language"; "sdk"; "processed-by"]%string).
Proof.
  unfold known_field. rewrite !orb_true_iff, !same_eq. cbn [map In]. split; [intros [[->| ->]| ->]; auto|intros [<-|[<-|[<-|[]]]]; auto].
Qed.
Lemma known_text f : In f (map lit ["language"; "sdk"; "processed-by"]%string) -> text_ok f.
Proof.
  intros H. cut (Forall text_ok (map lit ["language"; "sdk"; "processed-by"]%string)); [rewrite Forall_forall; auto|].
  clear. repeat constructor; vm_compute; congruence.
Qed.
Lemma values_written l : Forall pvalue_ok l -> zlen l < 2 ^ 32 ->
  exists b, encode_u32 (zlen l) +++ o_all enc_pvalue l = Some b /\ bytes_ok b /\ forall off, section_items read_pvalue ft off b = Ok l.
Proof.
  intros H Hn. rewrite <- u32_usize by (apply zlen_u32', Hn). apply section_of_counted; [apply zlen_u32', Hn|]. unfold zlen. rewrite Nat2Z.id.
  rewrite <- (map_id l) at 3. apply (dec_read_n F enc_pvalue read_pvalue (fun x => x)). eapply Forall_impl; [|exact H]. exact dec_pvalue.
Qed.
Lemma sends_pfield : sends ft enc_pfield read_pfield field_values (fun x => x) (fun f => field_ok f /\ zlen (snd f) < 2 ^ 32).
Proof.
  intros [f m] bs ((Hf & Hd & Hm) & Hn) E. cbn [fst snd] in *. unfold enc_pfield in E. cbn [fst snd] in E.
  destruct (values_written m Hm Hn) as (b & Em & Hb & S). exists (f, b). split; [|unfold field_values; cbn [fst snd]; rewrite S, (insert_all_id m Hd); reflexivity].
  rewrite <- E, Em. unfold read_pfield. eapply dec_bind; [apply text_unlimited, known_text, Hf|]. rewrite (proj2 (known_in f) Hf). apply (dec_bind_ret F _ _ (pair f) b).
  eapply dec_skip. rewrite <- Em. eapply dec_bind; [apply dec_u32, zlen_u32', Hn|]. cbv beta.
  assert (D : decodes F (o_all enc_pvalue m) (read_n (List.length m) (let* _ := skip_string in skip_string)) (map (fun _ => tt) m)).
  { apply dec_read_n. eapply Forall_impl; [|exact Hm]. exact dec_skip_pvalue. }
  replace (Z.to_nat (zlen m)) with (List.length m) by (unfold zlen; lia). exact (dec_bind_ret F _ _ (fun _ => tt) _ D).
Qed.
Lemma uN_pos n b v : uN n b v -> 1 <= zlen b.
Proof. inversion 1; subst; rewrite zlen_cons; [change (zlen (@nil Z)) with 0|pose proof (zlen_nonneg bs)]; lia. Qed.
Lemma o_str_pos s b : o_str s = Some b -> 1 <= zlen b.
Proof. intros E. apply encode_bytes_inv in E as (l & -> & Hu & _). apply uN_pos in Hu. rewrite zlen_app. pose proof (zlen_nonneg s). lia. Qed.
Lemma o_all_pos {A} (e : A -> out) l : (forall a b, e a = Some b -> 1 <= zlen b) -> forall bs, o_all e l = Some bs -> zlen l <= zlen bs.
Proof.
  intros H. induction l as [|a l IH]; intros bs E; [injection E as <-; change (@zlen A []) with 0; change (@zlen Z []) with 0; lia|]. destruct (o_all_cons _ _ _ _ E) as (b1 & b2 & E1 & E2 & ->).
  rewrite zlen_cons, zlen_app. specialize (H _ _ E1). specialize (IH _ E2). lia.
Qed.
Lemma oapp_some a b c : a +++ b = Some c -> exists x y, a = Some x /\ b = Some y /\ c = x ++ y.
Proof. destruct a as [x|], b as [y|]; try discriminate. intros [= <-]. eauto. Qed.
Lemma enc_pvalue_pos x b : enc_pvalue x = Some b -> 1 <= zlen b.
Proof. intros E. apply oapp_some in E as (y & z & E1 & _ & ->). apply o_str_pos in E1. rewrite zlen_app. pose proof (zlen_nonneg z). lia. Qed.
Lemma enc_pfield_len f b : enc_pfield f = Some b -> 1 <= zlen b /\ zlen (snd f) <= zlen b.
Proof.
  intros E. apply oapp_some in E as (y & z & E1 & E2 & ->). apply oapp_some in E2 as (u & w & E2 & E3 & ->). apply o_str_pos in E1.
  apply (o_all_pos _ _ enc_pvalue_pos) in E3. rewrite !zlen_app. pose proof (zlen_nonneg u). pose proof (zlen_nonneg w). lia.
Qed.
Lemma fields_short p : forall bs, o_all enc_pfield p = Some bs -> Forall (fun f : list Z * versions => zlen (snd f) <= zlen bs) p.
Proof.
  induction p as [|f p IH]; intros bs E; [constructor|]. destruct (o_all_cons _ _ _ _ E) as (b1 & b2 & E1 & E2 & ->). rewrite zlen_app.
  pose proof (zlen_nonneg b1). pose proof (zlen_nonneg b2). constructor; [apply enc_pfield_len in E1; lia|]. eapply Forall_impl; [|exact (IH _ E2)]. cbn. intros. lia.
Qed.
Lemma all_seen_some {A B} (f : A -> option B) l : all_some f l = all_seen f l.
Proof. induction l as [|a l IH]; cbn [all_some all_seen]; [reflexivity|]. rewrite IH. reflexivity. Qed.
Theorem producers_written p d : pre_ok p -> producers_data p = Some d -> zlen d < 2 ^ 32 -> bytes_ok d /\ producers_from_bytes d = Some p /\ has_count d = true.
Proof.
  intros (H1 & H2) E Hl. unfold producers_data in E. pose proof E as E0. apply oapp_some in E0 as (x & bs & Ex & Eb & Ed). subst d. rewrite zlen_app in Hl. pose proof (zlen_nonneg x).
  pose proof (fields_short _ _ Eb) as Hs. assert (Hp : zlen p <= zlen bs) by (apply (o_all_pos _ _ (fun a b E => proj1 (enc_pfield_len a b E)) _ Eb)).
  assert (Hok : Forall (fun f => field_ok f /\ zlen (snd f) < 2 ^ 32) p).
  { rewrite Forall_forall in *. intros f Hf. split; [auto|]. specialize (Hs _ Hf). lia. }
  destruct (sends_list ft _ _ _ _ _ p sends_pfield Hok bs Eb) as (ps & D & S).
  assert (Hn : zlen p < 2 ^ 32) by lia.
  destruct (section_of_counted ft read_pfield (Some bs) (zlen p) ps (zlen_u32' p Hn)) as (b' & E' & Hb & SI).
  { unfold zlen. rewrite Nat2Z.id. exact D. }
  rewrite (u32_usize _ (zlen_u32' p Hn)), Ex in E'. injection E' as <-. split; [exact Hb|]. split.
  - unfold producers_from_bytes. rewrite SI, all_seen_some, S, map_id. cbn [option_map]. now rewrite insert_all_id.
  - specialize (SI 0). unfold has_count. unfold section_items, read_items, bind, new_reader in *. destruct (read_var_u32 _); [reflexivity|discriminate].
Qed.

(** * What was read *)
Definition raw_string : R (list Z) :=
  let* n := read_var_u32 in if MAX_WASM_STRING_SIZE <? n then fail_at "string size out of bounds" 1 else read_bytes n.
Definition raw_pvalue : R (list Z * list Z) := let* a := raw_string in let* b := raw_string in ret (a, b).
Lemma skip_raw_string r u r' : skip_string r = Ok (u, r') -> exists s, raw_string r = Ok (s, r').
Proof.
  unfold skip_string, raw_string, bind. destruct (read_var_u32 r) as [[n r2]|e]; [|discriminate]. destruct (_ <? n); [discriminate|].
  destruct (read_bytes n r2) as [[s r3]|e]; [|discriminate]. unfold ret. intros [= _ <-]. eauto.
Qed.
Lemma skip_raw_pvalue r u r' : (let* _ := skip_string in skip_string) r = Ok (u, r') -> exists s, raw_pvalue r = Ok (s, r').
Proof.
  unfold raw_pvalue. unfold bind at 1 2. destruct (skip_string r) as [[u1 r1]|e] eqn:E1; [|discriminate]. destruct (skip_raw_string _ _ _ E1) as (a & ->).
  intros E2. destruct (skip_raw_string _ _ _ E2) as (b & Eb). unfold bind. rewrite Eb. unfold ret. eauto.
Qed.
Lemma sim_raw_string : sim raw_string raw_string.
Proof. apply sim_bind; [apply sim_u32|]. intros n. apply sim_if; [apply sim_fail_at|]. apply sim_read_bytes. Qed.
Lemma sim_raw_pvalue : sim raw_pvalue raw_pvalue.
Proof. apply sim_bind; [apply sim_raw_string|]. intros a. apply sim_bind; [apply sim_raw_string|]. intros b. apply sim_ret. Qed.
Lemma raw_string_again r a r' b r2 : bytes_ok (r_rem r) -> raw_string r = Ok (a, r') -> read_unlimited_string r = Ok (b, r2) -> r' = r2 /\ text_ok b /\ bytes_ok (r_rem r2).
Proof.
  intros Hr. unfold raw_string, read_unlimited_string, internal_read_string, bind.
  destruct (read_var_u32 r) as [[n r3]|e] eqn:E2; [|discriminate]. destruct (y_u32 (fun _ => True) r n r3 I Hr E2) as (Hn & Hr3 & _).
  destruct (Z.ltb_spec MAX_WASM_STRING_SIZE n) as [|Hm]; [discriminate|]. destruct (read_bytes n r3) as [[s r4]|e] eqn:E3; [|discriminate].
  destruct (y_read_bytes (fun _ => True) n (proj1 Hn) r3 s r4 I Hr3 E3) as ((Hs & El) & Hr4 & _).
  intros [= <- <-]. destruct (utf8_valid s) eqn:Hu; [|discriminate]. intros [= <- <-]. unfold MAX_WASM_STRING_SIZE in Hm. split; [reflexivity|]. split; [|exact Hr4].
  split; [exact Hs|]. split; [exact Hu|]. lia.
Qed.
Lemma raw_pvalue_again r a r' b r2 : bytes_ok (r_rem r) -> raw_pvalue r = Ok (a, r') -> read_pvalue r = Ok (b, r2) -> r' = r2 /\ pvalue_ok b /\ bytes_ok (r_rem r2).
Proof.
  intros Hr. unfold raw_pvalue, read_pvalue, bind.
  destruct (raw_string r) as [[x r1]|e] eqn:Ea; [|discriminate]. destruct (read_unlimited_string r) as [[y r3]|e] eqn:Eb; [|intros; discriminate].
  destruct (raw_string_again _ _ _ _ _ Hr Ea Eb) as (<- & T1 & Hr1).
  destruct (raw_string r1) as [[x' r4]|e] eqn:Ea'; [|discriminate]. destruct (read_unlimited_string r1) as [[y' r5]|e] eqn:Eb'; [|intros; discriminate].
  destruct (raw_string_again _ _ _ _ _ Hr1 Ea' Eb') as (<- & T2 & Hr2). unfold ret. intros [= <- <-] [= <- <-]. split; [reflexivity|]. split; [split; assumption|exact Hr2].
Qed.
Lemma raw_pvalues_again n : forall r l r' l2 r2, bytes_ok (r_rem r) -> read_n n raw_pvalue r = Ok (l, r') -> read_n n read_pvalue r = Ok (l2, r2) -> Forall pvalue_ok l2.
Proof.
  induction n as [|n IH]; intros r l r' l2 r2 Hr E E2; cbn [read_n] in *; [injection E2 as <- <-; constructor|]. unfold bind in *.
  destruct (raw_pvalue r) as [[a r1]|e] eqn:Ea; [|discriminate]. destruct (read_pvalue r) as [[b r3]|e] eqn:Eb; [|discriminate].
  destruct (raw_pvalue_again _ _ _ _ _ Hr Ea Eb) as (<- & Hl & Hr1). destruct (read_n n raw_pvalue r1) as [[t r4]|e] eqn:Et; [|discriminate].
  destruct (read_n n read_pvalue r1) as [[t2 r5]|e] eqn:Et2; [|discriminate]. unfold ret in E2. injection E2 as <- <-. constructor; [exact Hl|eauto].
Qed.
Lemma values_read off b l l2 : bytes_ok b -> section_items raw_pvalue ft off b = Ok l -> section_items read_pvalue ft off b = Ok l2 -> Forall pvalue_ok l2.
Proof.
  intros Hb E E2. unfold section_items, read_items, bind, new_reader in E, E2. destruct (read_var_u32 (mkReader b 0 off ft)) as [[n r1]|e] eqn:E1; [|discriminate].
  destruct (y_u32 F (mkReader b 0 off ft) n r1 eq_refl Hb E1) as (_ & Hr1 & _).
  destruct (read_n (Z.to_nat n) raw_pvalue r1) as [[t r2]|e] eqn:Er; [|discriminate]. destruct (read_n (Z.to_nat n) read_pvalue r1) as [[t2 r3]|e] eqn:En; [|discriminate].
  destruct (eof r3); [|discriminate]. injection E2 as <-. exact (raw_pvalues_again _ _ _ _ _ _ Hr1 Er En).
Qed.
Lemma y_unlimited : yields F read_unlimited_string (fun s => bytes_ok s /\ utf8_valid s = true /\ zlen s < 2 ^ 32).
Proof.
  unfold read_unlimited_string, internal_read_string. eapply y_bind; [apply y_u32|]. intros n [Hn Hm]. eapply y_bind; [apply y_read_bytes, Hn|]. intros s [Hs El].
  apply y_if; [|intros; apply y_fail_at]. intros Hu. apply y_ret. repeat split; auto. lia.
Qed.
Lemma y_pfield : yields F read_pfield (fun x => forall v, field_values x = Some v -> field_ok v).
Proof.
  unfold read_pfield. eapply y_bind; [apply y_unlimited|]. intros f _. apply y_if; [|intros; apply y_fail_at]. intros Hk.
  eapply y_bind with (P := fun b => bytes_ok b /\ exists l, section_items raw_pvalue ft 0 b = Ok l).
  { intros r b r' Hf Hr E. destruct (skipped_section ft (let* _ := skip_string in skip_string) raw_pvalue r b r') as (Hb & Hr' & C & l & S); auto.
    - intros r0 a r0' _ _ E0. exact (skip_raw_pvalue _ _ _ E0).
    - apply again_sim, sim_raw_pvalue.
    - split; [split; [exact Hb|exists l; apply S]|]. split; [exact Hr'|]. apply C. }
  intros b (Hb & l & S). apply y_ret. intros v. unfold field_values. cbn [fst snd]. destruct (section_items read_pvalue ft 0 b) as [l2|e] eqn:E; [|discriminate]. intros [= <-].
  destruct (insert_all_ok _ _ (values_read _ _ _ _ Hb S E)) as (A & B). split; [apply known_in, Hk|]. split; [exact A|exact B].
Qed.
Theorem producers_read d p : bytes_ok d -> producers_from_bytes d = Some p -> pre_ok p.
Proof.
  intros Hb. unfold producers_from_bytes. destruct (section_items read_pfield ft 0 d) as [l|e] eqn:E; [|discriminate]. destruct (y_section_eq ft _ _ _ _ _ y_pfield Hb E) as (Hl & _).
  destruct (all_some field_values l) as [fs|] eqn:Es; [|discriminate]. cbn [option_map]. intros [= <-]. destruct (all_some_ok _ _ _ _ Hl Es) as (H & _). exact (insert_all_ok _ _ H).
Qed.
Theorem producers_merged d p add d' : bytes_ok d -> producers_from_bytes d = Some p -> producers_ok add -> producers_data (p_merge p add) = Some d' -> zlen d' < 2 ^ 32 ->
  exists p', producers_from_bytes d' = Some p' /\ merged p add p'.
Proof.
  intros Hb Ep Ha Ed Hl. pose proof (producers_pre _ Ha) as (A1 & A2). exists (p_merge p add). split.
  - apply (producers_written _ _ (pre_merge add p (producers_read _ _ Hb Ep) A2) Ed Hl).
  - apply merge_version; [exact A1|]. eapply Forall_impl; [|exact A2]. intros f (_ & X & _). exact X.
Qed.
Theorem producers_new add d' : producers_ok add -> producers_data (p_merge [] add) = Some d' -> zlen d' < 2 ^ 32 ->
  exists p', producers_from_bytes d' = Some p' /\ merged [] add p'.
Proof.
  intros Ha Ed Hl. pose proof (producers_pre _ Ha) as (A1 & A2). exists (p_merge [] add). split.
  - apply (producers_written (p_merge [] add)); auto. apply pre_merge; [split; constructor|exact A2].
  - apply merge_version; [exact A1|]. eapply Forall_impl; [|exact A2]. intros f (_ & X & _). exact X.
Qed.
