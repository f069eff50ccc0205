(** The name section: what is written shows what was meant, and translating keeps what is seen. *)
From Verif.Base Require Import Prelude Utf8.
From Verif.Reader Require Import Model Spec.
From Verif.Leb Require Import Model Top.
From Verif.Encoder Require Import Model.
From Verif.Codec Require Import Kit Local.
From Verif.Types Require Import RefModel CodecModel EntityModel EntitySpec EntityProofs LocalTypes.
From Verif.Sections Require Import SeeModel Item NameModel.
From Coq Require Import Lia.

Definition v_map_method (m : map_method) : map_kind :=
  match m with
  | MFunctions => PFunction | MTypes => PType | MTables => PTable | MMemories => PMemory | MGlobals => PGlobal
  | MElements => PElement | MData => PData | MTags => PTag
  end.
Definition v_ind_method (m : ind_method) : ind_kind := match m with MLocals => PLocal | MLabels => PLabel | MFields => PField end.
Definition v_name (n : e_name) : s_name :=
  match n with
  | ENModule s => SNModule s
  | ENMap m l => SNMap (v_map_method m) l
  | ENInd m l => SNInd (v_ind_method m) l
  | ENRaw id d => SNUnknown id d
  end.

Section names.
Context (ft : features).
Local Notation F := (eq ft).

Lemma o_str_eq s : o_str s = encode_usize (zlen s) +++ Some s.
Proof. unfold o_str, encode_bytes, oapp. destruct (encode_usize (zlen s)); reflexivity. Qed.
Lemma u32_usize n : in_u 32 n -> encode_usize n = encode_u32 n.
Proof. intros H. unfold encode_usize. replace (n <=? 2 ^ 32 - 1) with true; [reflexivity|]. symmetry. apply Z.leb_le. unfold in_u in H. lia. Qed.
Lemma zlen_u32' {A} (l : list A) : zlen l < 2 ^ 32 -> in_u 32 (zlen l).
Proof. unfold in_u, zlen. lia. Qed.

(** * Names *)
Lemma dec_naming x : naming_ok x -> decodes F (enc_naming x) read_naming x.
Proof.
  destruct x as [i s]. intros (Hi & Hs & Hu & Hn). cbn [fst snd] in *. unfold enc_naming, read_naming. cbn [fst snd]. eapply dec_bind; [apply dec_u32, Hi|].
  rewrite o_str_eq. cbv beta. apply (dec_bind_ret F _ _ (fun s => (i, s)) s). unfold read_unlimited_string. eapply dec_bind; [apply dec_usize, zlen_u32', Hn|].
  unfold internal_read_string. rewrite <- (oapp_nil_r (Some s)). eapply dec_bind; [apply dec_read_bytes, Hs|]. rewrite Hu. apply dec_ret.
Qed.
Lemma y_naming : yields F read_naming naming_ok.
Proof.
  unfold read_naming, read_unlimited_string, internal_read_string. eapply y_bind; [apply y_u32|]. intros i Hi.
  eapply y_bind with (P := fun s => bytes_ok s /\ utf8_valid s = true /\ zlen s < 2 ^ 32).
  - eapply y_bind; [apply y_u32|]. intros n [Hn Hm]. eapply y_bind; [apply y_read_bytes, Hn|]. intros s [Hs El].
    destruct (utf8_valid s) eqn:Eu; [|apply y_fail_at]. apply y_ret. rewrite El. auto.
  - intros s Hs. apply y_ret. split; [exact Hi|exact Hs].
Qed.
Lemma short_naming x : short_ok x -> naming_ok x.
Proof. intros (A & B & C & D). repeat split; auto; try apply A. lia. Qed.

(** * Maps *)
Lemma dec_namings l : Forall naming_ok l -> decodes F (o_all enc_naming l) (read_n (List.length l) read_naming) l.
Proof.
  intros H. rewrite <- (map_id l) at 3. apply (dec_read_n F enc_naming read_naming (fun x => x)). eapply Forall_impl; [|exact H]. exact dec_naming.
Qed.
Lemma map_written l : Forall naming_ok l -> zlen l < 2 ^ 32 ->
  exists b, map_encode (map_of l) = Some b /\ bytes_ok b /\ forall off, section_items read_naming ft off b = Ok l.
Proof.
  intros H Hn. unfold map_encode, map_of. cbn [nm_count nm_bytes]. rewrite <- u32_usize by (apply zlen_u32', Hn).
  apply section_of_counted; [apply zlen_u32', Hn|]. unfold zlen. rewrite Nat2Z.id. apply dec_namings, H.
Qed.

(** * Indirect maps *)
Definition skip_naming : R unit := let* _ := read_var_u32 in skip_string.
(** A name as [skip_string] goes over it. *)
Definition raw_naming : R (Z * list Z) :=
  let* i := read_var_u32 in
  let* n := read_var_u32 in
  if MAX_WASM_STRING_SIZE <? n then fail_at "string size out of bounds" 1 else let* s := read_bytes n in ret (i, s).
Lemma skip_raw_naming r u r' : skip_naming r = Ok (u, r') -> exists b, raw_naming r = Ok (b, r').
Proof.
  unfold skip_naming, skip_string, raw_naming, bind. destruct (read_var_u32 r) as [[i r1]|e]; [|discriminate].
  destruct (read_var_u32 r1) as [[n r2]|e]; [|discriminate]. destruct (_ <? n); [discriminate|]. destruct (read_bytes n r2) as [[s r3]|e]; [|discriminate].
  unfold ret. intros [= _ <-]. eauto.
Qed.
Lemma sim_raw_naming : sim raw_naming raw_naming.
Proof.
  apply sim_bind; [apply sim_u32|]. intros i. apply sim_bind; [apply sim_u32|]. intros n. apply sim_if; [apply sim_fail_at|].
  apply sim_bind; [apply sim_read_bytes|]. intros s. apply sim_ret.
Qed.
Lemma raw_again r a r' b r2 : bytes_ok (r_rem r) -> raw_naming r = Ok (a, r') -> read_naming r = Ok (b, r2) -> a = b /\ r' = r2 /\ zlen (snd b) <= 100000 /\ bytes_ok (r_rem r2).
Proof.
  intros Hr. unfold raw_naming, read_naming, read_unlimited_string, internal_read_string, bind.
  destruct (read_var_u32 r) as [[i r1]|e] eqn:E1; [|discriminate]. destruct (y_u32 (fun _ => True) r i r1 I Hr E1) as (_ & Hr1 & _).
  destruct (read_var_u32 r1) as [[n r3]|e] eqn:E2; [|discriminate]. destruct (y_u32 (fun _ => True) r1 n r3 I Hr1 E2) as (Hn & Hr3 & _).
  destruct (Z.ltb_spec MAX_WASM_STRING_SIZE n) as [|Hm]; [discriminate|]. destruct (read_bytes n r3) as [[s r4]|e] eqn:E3; [|discriminate].
  destruct (y_read_bytes (fun _ => True) n (proj1 Hn) r3 s r4 I Hr3 E3) as ((_ & El) & Hr4 & _).
  unfold ret. intros [= <- <-]. destruct (utf8_valid s); [|discriminate]. intros [= <- <-]. cbn [snd]. unfold MAX_WASM_STRING_SIZE in Hm. repeat split; auto. lia.
Qed.
Lemma raw_n_again n : forall r l r' l2 r2, bytes_ok (r_rem r) -> read_n n raw_naming r = Ok (l, r') -> read_n n read_naming r = Ok (l2, r2) ->
  Forall (fun x => zlen (snd x) <= 100000) l2.
Proof.
  induction n as [|n IH]; intros r l r' l2 r2 Hr E E2; cbn [read_n] in *; [injection E2 as <- <-; constructor|]. unfold bind in *.
  destruct (raw_naming r) as [[a r1]|e] eqn:Ea; [|discriminate]. destruct (read_naming r) as [[b r3]|e] eqn:Eb; [|discriminate].
  destruct (raw_again _ _ _ _ _ Hr Ea Eb) as (<- & <- & Hl & Hr1). destruct (read_n n raw_naming r1) as [[t r4]|e] eqn:Et; [|discriminate].
  destruct (read_n n read_naming r1) as [[t2 r5]|e] eqn:Et2; [|discriminate]. unfold ret in E2. injection E2 as <- <-. constructor; [exact Hl|eauto].
Qed.
Lemma raw_section_again off b l l2 : bytes_ok b -> section_items raw_naming ft off b = Ok l -> section_items read_naming ft off b = Ok l2 ->
  Forall short_ok l2 /\ zlen l2 < 2 ^ 32.
Proof.
  intros Hb E E2. destruct (y_section_eq ft read_naming naming_ok off b l2 y_naming Hb E2) as [H Hn]. split; [|exact Hn].
  unfold section_items, read_items, bind, new_reader in E, E2. destruct (read_var_u32 (mkReader b 0 off ft)) as [[n r1]|e] eqn:E1; [|discriminate].
  destruct (y_u32 F (mkReader b 0 off ft) n r1 eq_refl Hb E1) as (_ & Hr1 & _).
  destruct (read_n (Z.to_nat n) raw_naming r1) as [[t r2]|e] eqn:Er; [|discriminate]. destruct (read_n (Z.to_nat n) read_naming r1) as [[t2 r3]|e] eqn:En; [|discriminate].
  destruct (eof r3); [|discriminate]. injection E2 as <-. pose proof (raw_n_again _ _ _ _ _ _ Hr1 Er En) as Hs.
  clear - H Hs. induction H as [|x t2 (A & B & C & D) _ IH]; [constructor|]. inversion Hs; subst. constructor; [repeat split; auto; apply A|auto].
Qed.
Lemma takes_indirect : takes ft read_indirect (c_indirect ft) (see_indirect ft) (fun x => x) indirect_ok.
Proof.
  unfold read_indirect. eapply y_bind; [apply y_u32|]. intros i Hi.
  eapply y_bind with (P := fun b => bytes_ok b /\ exists l, section_items raw_naming ft 0 b = Ok l).
  { intros r b r' Hf Hr E. destruct (skipped_section ft skip_naming raw_naming r b r') as (Hb & Hr' & C & l & S); auto.
    - intros r0 a r0' _ _ E0. exact (skip_raw_naming _ _ _ E0).
    - apply again_sim, sim_raw_naming.
    - split; [split; [exact Hb|exists l; apply S]|]. split; [exact Hr'|]. apply C. }
  intros b (Hb & l & S). apply y_ret. intros [j l2]. unfold see_indirect, c_indirect, see_map, c_map. cbn [fst snd].
  destruct (section_items read_naming ft 0 b) as [l3|e] eqn:E3; [|discriminate]. cbn [seen_ok option_map]. intros [= <- <-].
  destruct (raw_section_again 0 b l l3 Hb S E3) as [H1 H2]. exists (i, l3). split; [reflexivity|]. split; [|reflexivity]. split; [exact Hi|]. split; [exact H1|exact H2].
Qed.
Lemma dec_skip_naming x : short_ok x -> decodes F (enc_naming x) skip_naming tt.
Proof.
  destruct x as [i s]. intros (Hi & Hs & Hu & Hn). cbn [fst snd] in *. unfold enc_naming, skip_naming. cbn [fst snd]. eapply dec_bind; [apply dec_u32, Hi|].
  rewrite o_str_eq. unfold skip_string. eapply dec_bind; [apply dec_usize, zlen_u32'; lia|]. unfold MAX_WASM_STRING_SIZE.
  destruct (Z.ltb_spec 100000 (zlen s)); [lia|]. exact (dec_bind_ret F _ _ (fun _ => tt) s (dec_read_bytes F s Hs)).
Qed.
Lemma sends_indirect : sends ft enc_indirect read_indirect (see_indirect ft) (fun x => x) indirect_ok.
Proof.
  intros [i l] bs (Hi & Hl & Hn) E. cbn [fst snd] in *. unfold enc_indirect in E. cbn [fst snd] in E.
  destruct (map_written l (Forall_impl _ short_naming Hl) Hn) as (b & Em & Hb & S). exists (i, b).
  split; [|unfold see_indirect, see_map; cbn [fst snd]; rewrite S; reflexivity].
  rewrite <- E, Em. unfold read_indirect. eapply dec_bind; [apply dec_u32, Hi|]. cbv beta. apply (dec_bind_ret F _ _ (pair i) b).
  eapply dec_skip. rewrite <- Em. unfold map_encode, map_of. cbn [nm_count nm_bytes]. eapply dec_bind; [apply dec_u32, zlen_u32', Hn|]. cbv beta.
  assert (D : decodes F (o_all enc_naming l) (read_n (List.length l) skip_naming) (map (fun _ => tt) l)).
  { apply dec_read_n. eapply Forall_impl; [|exact Hl]. exact dec_skip_naming. }
  replace (Z.to_nat (zlen l)) with (List.length l) by (unfold zlen; lia). exact (dec_bind_ret F _ _ (fun _ => tt) _ D).
Qed.
Lemma map_id' {A} (l : list A) : map (fun x => x) l = l.
Proof. apply map_id. Qed.
Lemma ind_written l b : Forall indirect_ok l -> zlen l < 2 ^ 32 -> map_encode (ind_of l) = Some b -> bytes_ok b /\ see_ind ft b = Some l.
Proof.
  intros H Hn E. unfold map_encode, ind_of in E. cbn [nm_count nm_bytes] in E. destruct (o_all enc_indirect l) as [bs|] eqn:Eb; [|destruct (encode_u32 (zlen l)); discriminate].
  destruct (sends_list ft _ _ _ _ _ l sends_indirect H bs Eb) as (ps & D & S). rewrite <- u32_usize in E by (apply zlen_u32', Hn).
  destruct (section_of_counted ft read_indirect (Some bs) (zlen l) ps (zlen_u32' l Hn)) as (b' & E' & Hb & SI).
  { unfold zlen. rewrite Nat2Z.id. exact D. }
  rewrite E in E'. injection E' as <-. split; [exact Hb|]. unfold see_ind. rewrite SI. cbn [seen_ok ops_bind]. rewrite S, map_id'. reflexivity.
Qed.

(** * Subsections *)
Lemma dec_name id b n : 0 <= id < 128 -> bytes_ok b -> zlen b < 2 ^ 32 -> (forall pos off, name_from_reader id (mkReader b pos off ft) = Ok n) ->
  decodes F (o_byte id +++ o_str b) read_name n.
Proof.
  intros Hid Hb Hn H. rewrite o_str_eq. unfold read_name. eapply dec_bind with (a := id).
  { unfold read_u7. rewrite <- (oapp_nil_r (o_byte id)). apply dec_byte_bind; [unfold is_byte; lia|].
    replace (Z.land id 0x80 =? 0) with true; [apply dec_ret|]. symmetry. apply Z.eqb_eq.
    replace id with (id mod 2 ^ 7) by (apply Z.mod_small; lia). rewrite <- Z.land_ones by lia. rewrite <- Z.land_assoc. apply Z.land_0_r. }
  destruct (dec_usize F (zlen b) (zlen_u32' b Hn)) as (lb & El & Hlb & Dl). exists (lb ++ b). rewrite El. split; [reflexivity|]. split; [apply bytes_ok_app; auto|].
  intros rest pos off ft' Hf Hr. unfold bind, read_reader. unfold bind. rewrite <- app_assoc, Dl by (auto; apply bytes_ok_app; auto).
  unfold skip_bytes, bind. destruct (dec_read_bytes F b Hb) as (b' & Eb & _ & Db). injection Eb as <-. rewrite Db by auto. unfold ret. cbv zeta.
  cbn [r_rem r_off r_pos r_feat]. subst ft'. 
  match goal with |- match name_from_reader id ?d with _ => _ end = _ => replace (name_from_reader id d) with (Ok (A:=p_name) n) end.
  - f_equal. f_equal. f_equal. rewrite zlen_app. lia.
  - symmetry. apply H.
Qed.
Lemma framed_module s : zlen s < 2 ^ 32 -> enc_name (ENModule s) = o_byte 0 +++ o_str match o_str s with Some b => b | None => [] end.
Proof.
  intros H. cbn [enc_name]. rewrite (o_str_eq s), (u32_usize _ (zlen_u32' _ H)). unfold sub_header, encoding_size.
  destruct (dec_u32 F (zlen s) (zlen_u32' _ H)) as (lb & El & _). rewrite El. cbn [option_map sub_id]. change (Some lb +++ Some s) with (Some (lb ++ s)). cbv iota. rewrite (o_str_eq (lb ++ s)), zlen_app.
  rewrite oapp_assoc. reflexivity.
Qed.
Lemma framed_map s m b : map_encode m = Some b -> sub_header s (map_size m) +++ map_encode m = o_byte (sub_id s) +++ o_str b.
Proof.
  intros E. rewrite E. unfold map_encode in E. destruct (encode_u32 (nm_count m)) as [c|] eqn:Ec; [|discriminate]. destruct (nm_bytes m) as [x|] eqn:Ex; [|discriminate].
  injection E as <-. unfold sub_header, map_size, encoding_size. rewrite Ec, Ex. rewrite (o_str_eq (c ++ x)), zlen_app, oapp_assoc. reflexivity.
Qed.
Lemma limited_any {A} (f : list Z -> A) b l (d : R (Z * list Z)) : (forall off, section_items d ft off b = Ok l) -> bytes_ok b ->
  forall pos off, new_limited f (mkReader b pos off ft) = Ok (f b).
Proof.
  intros H Hb pos off. unfold new_limited. specialize (H 0). unfold section_items, read_items, bind, new_reader in H.
  destruct (read_var_u32 (mkReader b 0 0 ft)) as [[n r1]|e] eqn:E; [|discriminate]. destruct (sim_u32 _ _ _ E) as (bs & C & D).
  destruct C as (C & _). cbn [r_rem r_feat] in *. rewrite C, D. rewrite <- C. reflexivity.
Qed.
Lemma o_str_len b o : o_str b = Some o -> zlen b < 2 ^ 32.
Proof. rewrite o_str_eq. unfold encode_usize. destruct (Z.leb_spec (zlen b) (2 ^ 32 - 1)); [lia|discriminate]. Qed.
Lemma o_byte_some x o bs : o_byte x +++ o = Some bs -> exists b, o = Some b.
Proof. destruct o; [eauto|discriminate]. Qed.
Lemma map_id_sub m : 0 <= sub_id (map_sub m) < 128.
Proof. destruct m; cbn; lia. Qed.
Lemma ind_id_sub m : 0 <= sub_id (ind_sub m) < 128.
Proof. destruct m; cbn; lia. Qed.
Lemma sends_name : sends ft enc_name read_name (see_name ft) v_name e_name_ok.
Proof.
  intros [s|m l|m l|id d] bs Hok E.
  - destruct Hok as (Hs & Hu & Hn). assert (Hn' : zlen s < 2 ^ 32) by lia. exists (PNModule s). split; [|reflexivity]. rewrite <- E, (framed_module s Hn').
    rewrite (framed_module s Hn') in E. destruct (dec_string F s Hs Hu Hn) as (b & Eb & Hb & Db). rewrite Eb in *.
    destruct (o_byte_some _ _ _ E) as (o & Eo). apply (dec_name 0 b); [lia|exact Hb|exact (o_str_len _ _ Eo)|].
    intros pos off. cbn [name_from_reader]. specialize (Db [] pos off ft eq_refl (Forall_nil _)). rewrite app_nil_r in Db. rewrite Db. reflexivity.
  - destruct Hok as [Hl Hn]. destruct (map_written l Hl Hn) as (b & Em & Hb & S). cbn [enc_name] in E. rewrite (framed_map _ _ _ Em) in E.
    destruct (o_byte_some _ _ _ E) as (o & Eo). exists (PNMap (v_map_method m) b). split; [|cbn [see_name v_name]; unfold see_map; rewrite S; reflexivity].
    rewrite <- E. apply dec_name; [apply map_id_sub|exact Hb|exact (o_str_len _ _ Eo)|]. intros pos off.
    destruct m; cbn [map_sub sub_id name_from_reader v_map_method]; exact (limited_any _ b l _ S Hb pos off).
  - destruct Hok as [Hl Hn]. cbn [enc_name] in E. destruct (map_encode (ind_of l)) as [b|] eqn:Em; [|rewrite <- Em in E; destruct (sub_header _ _); [rewrite Em in E|]; discriminate].
    rewrite <- Em in E. rewrite (framed_map _ _ _ Em) in E. destruct (ind_written l b Hl Hn Em) as [Hb S].
    destruct (o_byte_some _ _ _ E) as (o & Eo). exists (PNInd (v_ind_method m) b). split; [|cbn [see_name v_name]; rewrite S; reflexivity].
    rewrite <- E. apply dec_name; [apply ind_id_sub|exact Hb|exact (o_str_len _ _ Eo)|]. intros pos off.
    assert (H : new_limited (PNInd (v_ind_method m)) (mkReader b pos off ft) = Ok (PNInd (v_ind_method m) b)).
    { unfold new_limited. unfold map_encode, ind_of in Em. cbn [nm_count nm_bytes] in Em. destruct (dec_u32 F (zlen l) (zlen_u32' _ Hn)) as (c & Ec & _ & Dc).
      rewrite Ec in Em. destruct (o_all enc_indirect l) as [x|]; [|discriminate]. injection Em as <-. apply bytes_ok_app in Hb. rewrite Dc by (auto; apply Hb). reflexivity. }
    destruct m; exact H.
  - destruct Hok as [Hid Hd]. exists (PNUnknown id d). split; [|reflexivity]. cbn [enc_name] in E. destruct (o_byte_some _ _ _ E) as (o & Eo). rewrite <- E.
    apply dec_name; [lia|exact Hd|exact (o_str_len _ _ Eo)|]. intros pos off. unfold name_from_reader.
    destruct id as [|p|p]; try lia. do 7 (try destruct p as [p|p|]; try lia; try reflexivity).
Qed.

Lemma y_u7 : yields F read_u7 (fun v => 0 <= v < 128).
Proof.
  intros r b r' Hf Hr E. unfold read_u7, bind in E. destruct (read_u8 r) as [[x r1]|e] eqn:E1; [|discriminate]. destruct (y_u8 F r x r1 Hf Hr E1) as (Hx & Hr1 & Hf1).
  destruct (Z.land x 0x80 =? 0) eqn:El; [|discriminate]. injection E as <- <-. split; [|auto]. apply Z.eqb_eq in El. unfold is_byte in Hx.
  destruct (Z_lt_ge_dec x 128) as [|Hge]; [lia|]. exfalso.
  assert (Ht : Z.testbit (Z.land x 128) 7 = false) by (rewrite El; apply Z.bits_0). rewrite Z.land_spec in Ht. change (Z.testbit 128 7) with true in Ht.
  rewrite andb_true_r in Ht. assert (Hd : Z.testbit x 7 = true); [|congruence]. rewrite Z.testbit_true by lia. change (2 ^ 7) with 128.
  replace (x / 128) with 1; [reflexivity|]. apply Z.div_unique with (x - 128); lia.
Qed.
(** What a subsection holds. *)
Definition p_name_ok (n : p_name) : Prop :=
  match n with
  | PNModule s => bytes_ok s /\ utf8_valid s = true /\ zlen s <= 100000
  | PNMap _ b | PNInd _ b => bytes_ok b
  | PNUnknown ty d => 11 < ty < 128 /\ bytes_ok d
  end.
Lemma from_reader_ok id d n : 0 <= id < 128 -> bytes_ok (r_rem d) -> r_feat d = ft -> name_from_reader id d = Ok n -> p_name_ok n.
Proof.
  intros Hid Hd Hf E. assert (Hl : forall f : list Z -> p_name, (forall b, bytes_ok b -> p_name_ok (f b)) -> new_limited f d = Ok n -> p_name_ok n).
  { intros f H E'. unfold new_limited in E'. destruct (read_var_u32 d); [|discriminate]. injection E' as <-. auto. }
  assert (Hu : 11 < id -> Ok (PNUnknown id (r_rem d)) = Ok n -> p_name_ok n) by (intros H [= <-]; split; [lia|exact Hd]).
  unfold name_from_reader in E. destruct id as [|p|p]; try lia.
  - destruct (read_string d) as [[s d']|e] eqn:Es; [|discriminate]. destruct (eof d'); [|discriminate]. injection E as <-.
    destruct (y_string F d s d' (eq_sym Hf) Hd Es) as ((A & B & C) & _). exact (conj A (conj B C)).
  - do 7 (try destruct p as [p|p|]); try lia; first [revert E; apply Hl; intros b Hb; exact Hb | revert E; apply Hu; lia].
Qed.
Lemma v_c_map k : v_map_method (c_map_kind k) = k.
Proof. destruct k; reflexivity. Qed.
Lemma v_c_ind k : v_ind_method (c_ind_kind k) = k.
Proof. destruct k; reflexivity. Qed.
Lemma name_kept n : p_name_ok n -> forall x, see_name ft n = Some x -> exists v, c_name ft n = Some v /\ e_name_ok v /\ x = v_name v.
Proof.
  destruct n as [s|k b|k b|ty d]; cbn [p_name_ok see_name c_name]; intros H x E.
  - injection E as <-. exists (ENModule s). auto.
  - unfold see_map in E. unfold c_map. destruct (section_items read_naming ft 0 b) as [l|e] eqn:Es; [|discriminate]. injection E as <-.
    destruct (y_section_eq ft _ _ 0 b l y_naming H Es) as [H1 H2]. exists (ENMap (c_map_kind k) l). cbn [v_name]. rewrite v_c_map. cbn. auto.
  - unfold see_ind in E. unfold c_ind. destruct (section_items read_indirect ft 0 b) as [l|e] eqn:Es; [|discriminate]. cbn [seen_ok ops_bind] in E.
    destruct (y_section_eq ft _ _ 0 b l takes_indirect H Es) as [H1 H2]. destruct (all_seen (see_indirect ft) l) as [xs|] eqn:Ea; [|discriminate]. injection E as <-.
    destruct (takes_list _ _ _ _ _ H1 xs Ea) as (es & C & Hes & Hn & ->). rewrite C. exists (ENInd (c_ind_kind k) es). cbn [v_name option_map]. rewrite v_c_ind, map_id'.
    split; [reflexivity|]. split; [|reflexivity]. split; [exact Hes|]. unfold zlen in *. rewrite Hn. exact H2.
  - injection E as <-. exists (ENRaw ty d). auto.
Qed.
Lemma takes_name : takes ft read_name (c_name ft) (see_name ft) v_name e_name_ok.
Proof.
  eapply y_weaken; [exact name_kept|]. unfold read_name. eapply y_bind; [apply y_u7|]. intros id Hid r n r' Hf Hr E. unfold bind in E.
  destruct (read_reader r) as [[d r1]|e] eqn:Ed; [|discriminate]. destruct (name_from_reader id d) as [n'|e] eqn:En; [|discriminate]. injection E as <- <-.
  unfold read_reader, skip_bytes, bind in Ed. destruct (read_var_u32 r) as [[k r2]|e] eqn:Ek; [|discriminate]. destruct (y_u32 F r k r2 Hf Hr Ek) as (Hk & Hr2 & Hf2).
  destruct (read_bytes k r2) as [[s r3]|e] eqn:Es; [|discriminate].
  assert (Hf2' : F (r_feat r2)) by congruence. destruct (y_read_bytes F k (proj1 Hk) r2 s r3 Hf2' Hr2 Es) as ((Hs & _) & Hr3 & Hf3). unfold ret in Ed. injection Ed as <- <-.
  split; [|split; [exact Hr3|congruence]]. refine (from_reader_ok id _ n' Hid _ _ En); [exact Hs|cbn; congruence].
Qed.

(** * The section *)
Lemma y_until {A} (d : R A) P : yields F d P -> forall fuel, yields F (until_eof fuel d) (Forall P).
Proof.
  intros H fuel. induction fuel as [|fuel IH]; intros r l r' Hf Hr E; cbn [until_eof] in E.
  - destruct (eof r); [|discriminate]. injection E as <- <-. auto.
  - destruct (eof r); [injection E as <- <-; auto|]. revert E. apply y_bind with (F := F) (P := P); auto. intros a Ha. eapply y_bind; [exact IH|]. intros t Ht. apply y_ret. auto.
Qed.
Lemma enc_name_pos n bs : enc_name n = Some bs -> (0 < List.length bs)%nat.
Proof.
  assert (Hx : forall x (o1 o2 : out) b, (o_byte x +++ o1) +++ o2 = Some b -> (0 < List.length b)%nat).
  { intros x [a|] [c|] b E; try discriminate. injection E as <-. cbn. lia. }
  destruct n as [s|m l|m l|id d]; cbn [enc_name]; unfold sub_header.
  - destruct (option_map _ _); [apply Hx|discriminate].
  - destruct (map_size _); [apply Hx|discriminate].
  - destruct (map_size _); [apply Hx|discriminate].
  - intros E. destruct (o_str d); [|discriminate]. injection E as <-. cbn. lia.
Qed.
Lemma until_written l : Forall e_name_ok l -> forall bs, o_all enc_name l = Some bs -> bytes_ok bs /\
  exists ps, all_seen (see_name ft) ps = Some (map v_name l) /\ forall fuel pos off, (List.length bs <= fuel)%nat ->
    until_eof fuel read_name (mkReader bs pos off ft) = Ok (ps, mkReader [] (pos + zlen bs) off ft).
Proof.
  induction 1 as [|n l Hn _ IH]; intros bs E.
  - injection E as <-. split; [constructor|]. exists []. split; [reflexivity|]. intros [|fuel] pos off _; cbn; change (zlen (@nil Z)) with 0; rewrite Z.add_0_r; reflexivity.
  - destruct (o_all_cons _ _ _ _ E) as (b1 & b2 & E1 & E2 & ->). destruct (sends_name n b1 Hn E1) as (p & (b1' & Eb & Hb1 & D) & S). injection Eb as <-.
    destruct (IH b2 E2) as (Hb2 & ps & Ss & Ds). split; [apply bytes_ok_app; auto|]. exists (p :: ps). cbn [all_seen map]. rewrite S, Ss. split; [reflexivity|].
    intros fuel pos off Hl. pose proof (enc_name_pos _ _ E1) as Hp. rewrite app_length in Hl. destruct fuel as [|fuel]; [lia|]. cbn [until_eof].
    unfold eof. cbn [r_rem]. destruct b1 as [|x b1]; [cbn in Hp; lia|]. cbn [app]. unfold bind. change (x :: b1 ++ b2) with ((x :: b1) ++ b2). rewrite D by auto.
    rewrite Ds by (cbn [List.length] in Hl; lia). unfold ret. rewrite zlen_app. do 3 f_equal. lia.
Qed.
Lemma names_written l bs : Forall e_name_ok l -> enc_names l = Some bs -> bytes_ok bs /\ see_names ft bs = Some (map v_name l).
Proof.
  intros H E. destruct (until_written l H bs E) as (Hb & ps & S & D). split; [exact Hb|]. unfold see_names, read_names, new_reader. rewrite D by lia. exact S.
Qed.
Lemma names_kept data x : bytes_ok data -> see_names ft data = Some x -> exists l, c_names ft data = Some l /\ Forall e_name_ok l /\ x = map v_name l.
Proof.
  intros Hb E. unfold see_names in E. unfold c_names. unfold read_names in *. destruct (until_eof _ _ _) as [[ps r']|e] eqn:Eu; [|discriminate]. cbn [seen_ok ops_bind] in E.
  destruct (y_until read_name _ takes_name _ _ _ _ (eq_refl : ft = r_feat (new_reader ft data 0)) Hb Eu) as (Hp & _).
  destruct (takes_list _ _ _ _ _ Hp x E) as (l & C & Hl & _ & ->). exists l. auto.
Qed.
End names.
