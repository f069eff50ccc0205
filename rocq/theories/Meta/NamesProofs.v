(** The names sections: what an edit of the name leaves of the others. *)
From Verif.Base Require Import Prelude Utf8.
From Verif.Reader Require Import Model Spec.
From Verif.Leb Require Import Spec Model Proofs Top.
From Verif.Encoder Require Import Model.
From Verif.Codec Require Import Kit Local.
From Verif.Types Require Import RefModel CodecModel EntityModel EntitySpec EntityProofs LocalTypes.
From Verif.Sections Require Import SeeModel Item NameModel NameProofs.
From Verif.Meta Require Import Model Spec DocCanon RewriteProofs ProducersProofs.
From Coq Require Import Lia.
Local Notation ft := all_features.
Local Notation F := (eq all_features).

(** * Modules *)
Lemma y_read_name : yields F read_name p_name_ok.
Proof.
  unfold read_name. eapply y_bind; [apply y_u7|]. intros id Hid r n r' Hf Hr E. unfold bind in E.
  destruct (read_reader r) as [[d r1]|e] eqn:Ed; [|discriminate]. destruct (name_from_reader id d) as [n'|e] eqn:En; [|discriminate]. injection E as <- <-.
  unfold read_reader, skip_bytes, bind in Ed. destruct (read_var_u32 r) as [[k r2]|e] eqn:Ek; [|discriminate]. destruct (y_u32 F r k r2 Hf Hr Ek) as (Hk & Hr2 & Hf2).
  destruct (read_bytes k r2) as [[s r3]|e] eqn:Es; [|discriminate].
  assert (Hf2' : F (r_feat r2)) by congruence. destruct (y_read_bytes F k (proj1 Hk) r2 s r3 Hf2' Hr2 Es) as ((Hs & _) & Hr3 & Hf3). unfold ret in Ed. injection Ed as <- <-.
  split; [|split; [exact Hr3|congruence]]. refine (from_reader_ok ft id _ n' Hid _ _ En); [exact Hs|cbn; congruence].
Qed.
Lemma c_indirect_see l : forall es, all_some (c_indirect ft) l = Some es -> exists xs, all_seen (see_indirect ft) l = Some xs.
Proof.
  induction l as [|x l IH]; intros es E; cbn [all_some all_seen] in *; [eauto|]. destruct (c_indirect ft x) as [y|] eqn:Ex; [|discriminate].
  destruct (all_some (c_indirect ft) l) as [t|]; [|discriminate]. destruct (IH _ eq_refl) as (xs & ->).
  unfold c_indirect, c_map in Ex. unfold see_indirect, see_map. destruct (section_items read_naming ft 0 (snd x)); [|discriminate]. cbn. eauto.
Qed.
Lemma c_name_see n v : p_name_ok n -> c_name ft n = Some v -> see_name ft n = Some (v_name v) /\ e_name_ok v.
Proof.
  intros Hn E. assert (exists x, see_name ft n = Some x) as (x & Ex).
  { destruct n as [s|k b|k b|ty d]; cbn [see_name c_name] in *; eauto.
    - unfold c_map in E. unfold see_map. destruct (section_items read_naming ft 0 b); [|discriminate]. cbn. eauto.
    - unfold c_ind in E. unfold see_ind. destruct (section_items read_indirect ft 0 b) as [l|]; [|discriminate]. cbn [seen_ok ops_bind].
      destruct (all_some (c_indirect ft) l) as [es|] eqn:Ea; [|discriminate]. destruct (c_indirect_see _ _ Ea) as (xs & ->). cbn. eauto. }
  destruct (name_kept ft n Hn x Ex) as (v' & E' & Hok & ->). rewrite E in E'. injection E' as <-. auto.
Qed.
(** The names other than that of the module, as they are written. *)
Fixpoint go_names (l : list p_name) : option (list e_name) :=
  match l with
  | [] => Some []
  | PNUnknown _ _ :: l => go_names l
  | PNModule _ :: _ => None
  | n :: l => match c_name ft n, go_names l with Some e, Some t => Some (e :: t) | _, _ => None end
  end.
Lemma mn_section_go s : mn_section s = option_map (app (match mn_name s with Some n => [ENModule n] | None => [] end)) (go_names (mn_names s)).
Proof. reflexivity. Qed.
Definition not_module (n : p_name) : bool := match n with PNModule _ => false | _ => true end.
Lemma mn_of_parts l : mn_of l = mkMN (fold_left (fun o n => match n with PNModule s => Some s | _ => o end) l None) (filter not_module l).
Proof.
  assert (G : forall l acc o, fold_left (fun s n => match n with PNModule name => mkMN (Some name) (mn_names s) | n => mkMN (mn_name s) (mn_names s ++ [n]) end) l (mkMN o acc) =
    mkMN (fold_left (fun o n => match n with PNModule s => Some s | _ => o end) l o) (acc ++ filter not_module l)).
  { clear l. induction l as [|n l IH]; intros acc o; cbn [fold_left filter]; [now rewrite app_nil_r|].
    destruct n; cbn [not_module]; cbn [mn_name mn_names]; rewrite IH; try reflexivity; rewrite <- app_assoc; reflexivity. }
  exact (G l [] None).
Qed.
Lemma go_names_see l : forall es, Forall p_name_ok l -> go_names (filter not_module l) = Some es ->
  exists L, all_seen (see_name ft) l = Some L /\ Forall e_name_ok es /\ map v_name es = other_names L /\
    forall o, fold_left (fun o n => match n with PNModule s => Some s | _ => o end) l o = fold_left (fun o n => match n with SNModule s => Some s | _ => o end) L o.
Proof.
  induction l as [|n l IH]; intros es H E; cbn [filter] in E; [injection E as <-; exists []; repeat split; constructor|].
  apply Forall_cons_iff in H as (Hn & H). cbn [all_seen].
  destruct n as [s|k b|k b|ty d]; cbn [not_module] in E; cbn [go_names] in E.
  - destruct (IH _ H E) as (L & -> & H1 & H2 & H3). exists (SNModule s :: L). cbn [see_name]. split; [reflexivity|]. split; [exact H1|]. split; [exact H2|]. intros o. cbn [fold_left]. apply H3.
  - destruct (c_name ft (PNMap k b)) as [v|] eqn:Ev; [|discriminate]. destruct (go_names (filter not_module l)) as [t|]; [|discriminate]. injection E as <-.
    destruct (IH _ H eq_refl) as (L & -> & H1 & H2 & H3). destruct (c_name_see _ _ Hn Ev) as (E1 & E2). rewrite E1. exists (v_name v :: L).
    cbn [c_name] in Ev. destruct (c_map ft b); [|discriminate]. injection Ev as <-. cbn [v_name other_names filter map]. cbn [v_name] in E1.
    split; [reflexivity|]. split; [constructor; auto|]. split; [f_equal; exact H2|]. intros o. cbn [fold_left]. apply H3.
  - destruct (c_name ft (PNInd k b)) as [v|] eqn:Ev; [|discriminate]. destruct (go_names (filter not_module l)) as [t|]; [|discriminate]. injection E as <-.
    destruct (IH _ H eq_refl) as (L & -> & H1 & H2 & H3). destruct (c_name_see _ _ Hn Ev) as (E1 & E2). rewrite E1. exists (v_name v :: L).
    cbn [c_name] in Ev. destruct (c_ind ft b); [|discriminate]. injection Ev as <-. cbn [v_name other_names filter map]. cbn [v_name] in E1.
    split; [reflexivity|]. split; [constructor; auto|]. split; [f_equal; exact H2|]. intros o. cbn [fold_left]. apply H3.
  - destruct (IH _ H E) as (L & -> & H1 & H2 & H3). exists (SNUnknown ty d :: L). cbn [see_name]. split; [reflexivity|]. split; [exact H1|]. split; [exact H2|]. intros o. cbn [fold_left]. apply H3.
Qed.
Lemma called_ok l : Forall p_name_ok l -> forall o, (forall s, o = Some s -> text_ok s) ->
  forall s, fold_left (fun o n => match n with PNModule s => Some s | _ => o end) l o = Some s -> text_ok s.
Proof.
  induction 1 as [|n l Hn _ IH]; intros o Ho s; cbn [fold_left]; [apply Ho|]. apply IH. destruct n; auto. intros s' [= <-]. exact Hn.
Qed.
Lemma module_names_read d n : bytes_ok d -> module_names_from_bytes d = Some n ->
  exists l, read_names ft d = Ok l /\ Forall p_name_ok l /\ n = mn_of l.
Proof.
  intros Hb. unfold module_names_from_bytes. destruct (read_names ft d) as [l|] eqn:E; [|discriminate]. intros [= <-]. exists l. split; [reflexivity|]. split; [|reflexivity].
  unfold read_names in E. destruct (until_eof _ read_name _) as [[l' r]|] eqn:E'; [|discriminate]. injection E as <-.
  apply (y_until ft read_name p_name_ok y_read_name _ (new_reader ft d 0) l' r eq_refl Hb E').
Qed.
Lemma module_names_kept d n v d' (set : bool) : bytes_ok d -> module_names_from_bytes d = Some n ->
  module_names_data (if set then mn_set n v else n) = Some d' ->
  exists l, see_names ft d = Some l /\ (set = true -> text_ok v -> see_names ft d' = Some (named (Some v) (other_names l))) /\
    (set = false -> see_names ft d' = Some (named (called l) (other_names l))).
Proof.
  intros Hb En Ed. destruct (module_names_read _ _ Hb En) as (l & El & Hl & ->). unfold module_names_data in Ed. rewrite mn_section_go in Ed.
  rewrite mn_of_parts in Ed. set (c := fold_left _ l None) in Ed.
  assert (Eg : exists es, go_names (filter not_module l) = Some es /\ enc_names ((match (if set then Some v else c) with Some n => [ENModule n] | None => [] end) ++ es) = Some d').
  { destruct set; unfold mn_set in Ed; cbn [mn_name mn_names] in Ed; (destruct (go_names (filter not_module l)) as [es|]; [|discriminate]); exists es; auto. }
  destruct Eg as (es & Eg & Ee). destruct (go_names_see _ _ Hl Eg) as (L & ES & H1 & H2 & H3). exists L. split; [unfold see_names; rewrite El; exact ES|].
  assert (Hw : forall o, (forall s, o = Some s -> text_ok s) -> enc_names ((match o with Some n => [ENModule n] | None => [] end) ++ es) = Some d' ->
    see_names ft d' = Some (named o (other_names L))).
  { intros o Ho E. apply (names_written ft) in E as (_ & E); [|destruct o as [s|]; [constructor; auto; exact (Ho s eq_refl)|exact H1]].
    rewrite E, map_app, H2. destruct o; reflexivity. }
  split.
  - intros -> Hv. apply (Hw (Some v)); [intros s [= <-]; exact Hv|exact Ee].
  - intros ->. assert (Ec : called L = c) by (symmetry; exact (H3 None)). rewrite Ec. apply (Hw c); [|exact Ee]. apply (called_ok l Hl None). discriminate.
Qed.
Lemma module_name_new v d : text_ok v -> module_names_data (mkMN (Some v) []) = Some d -> see_names ft d = Some (named (Some v) []).
Proof.
  intros Hv E. apply (names_written ft [ENModule v]) in E as (_ & E); [exact E|]. constructor; [exact Hv|constructor].
Qed.

(** * Components *)
Definition c_name_ok (n : c_name_) : Prop :=
  match n with
  | CNComponent s => bytes_ok s /\ utf8_valid s = true /\ zlen s < 2 ^ 32
  | CNMap (KCore b) d => known_core b = true /\ bytes_ok d
  | CNMap (KComp b) d => known_comp b = true /\ bytes_ok d
  | CNUnknown ty d => True
  end.
Lemma c_from_reader_ok id d n : bytes_ok (r_rem d) -> r_feat d = ft -> cname_from_reader id d = Ok n -> c_name_ok n.
Proof.
  intros Hd Hf. unfold cname_from_reader. destruct (id =? 0).
  { destruct (read_unlimited_string d) as [[s d']|e] eqn:E; [|discriminate]. destruct (eof d'); [|discriminate]. intros [= <-].
    destruct (y_unlimited d s d' (eq_sym Hf) Hd E) as (X & _). exact X. }
  destruct (id =? 1); [|intros [= <-]; exact I]. destruct (read_u8 d) as [[k d1]|e] eqn:E1; [|discriminate].
  destruct (y_u8 F d k d1 (eq_sym Hf) Hd E1) as (_ & Hd1 & Hf1). destruct (k =? 0).
  - destruct (read_u8 d1) as [[k2 d2]|e] eqn:E2; [|discriminate]. destruct (y_u8 F d1 k2 d2 ltac:(congruence) Hd1 E2) as (_ & Hd2 & _).
    destruct (known_core k2) eqn:Ek; [|intros [= <-]; exact I]. unfold new_limited. destruct (read_var_u32 d2); [|discriminate]. intros [= <-]. split; auto.
  - destruct (known_comp k) eqn:Ek; [|intros [= <-]; exact I]. unfold new_limited. destruct (read_var_u32 d1); [|discriminate]. intros [= <-]. split; auto.
Qed.
Lemma y_read_cname : yields F read_cname c_name_ok.
Proof.
  unfold read_cname. eapply y_bind; [apply y_u7|]. intros id Hid r n r' Hf Hr E. unfold bind in E.
  destruct (read_reader r) as [[d r1]|e] eqn:Ed; [|discriminate]. destruct (cname_from_reader id d) as [n'|e] eqn:En; [|discriminate]. injection E as <- <-.
  unfold read_reader, skip_bytes, bind in Ed. destruct (read_var_u32 r) as [[k r2]|e] eqn:Ek; [|discriminate]. destruct (y_u32 F r k r2 Hf Hr Ek) as (Hk & Hr2 & Hf2).
  destruct (read_bytes k r2) as [[s r3]|e] eqn:Es; [|discriminate].
  assert (Hf2' : F (r_feat r2)) by congruence. destruct (y_read_bytes F k (proj1 Hk) r2 s r3 Hf2' Hr2 Es) as ((Hs & _) & Hr3 & Hf3). unfold ret in Ed. injection Ed as <- <-.
  split; [|split; [exact Hr3|congruence]]. refine (c_from_reader_ok id _ n' _ _ En); [exact Hs|cbn; congruence].
Qed.
Lemma dec_cname id b n : 0 <= id < 128 -> bytes_ok b -> zlen b < 2 ^ 32 -> (forall pos off, cname_from_reader id (mkReader b pos off ft) = Ok n) ->
  decodes F (o_byte id +++ o_str b) read_cname n.
Proof.
  intros Hid Hb Hn H. rewrite o_str_eq. unfold read_cname. eapply dec_bind with (a := id).
  { unfold read_u7. rewrite <- (oapp_nil_r (o_byte id)). apply dec_byte_bind; [unfold is_byte; lia|].
    replace (Z.land id 0x80 =? 0) with true; [apply dec_ret|]. symmetry. apply Z.eqb_eq.
    replace id with (id mod 2 ^ 7) by (apply Z.mod_small; lia). rewrite <- Z.land_ones by lia. rewrite <- Z.land_assoc. apply Z.land_0_r. }
  destruct (dec_usize F (zlen b) (zlen_u32' b Hn)) as (lb & El & Hlb & Dl). exists (lb ++ b). rewrite El. split; [reflexivity|]. split; [apply bytes_ok_app; auto|].
  intros rest pos off ft' Hf Hr. unfold bind, read_reader. unfold bind. rewrite <- app_assoc, Dl by (auto; apply bytes_ok_app; auto).
  unfold skip_bytes, bind. destruct (dec_read_bytes F b Hb) as (b' & Eb & _ & Db). injection Eb as <-. rewrite Db by auto. unfold ret. cbv zeta.
  cbn [r_rem r_off r_pos r_feat]. subst ft'.
  match goal with |- match cname_from_reader id ?d with _ => _ end = _ => replace (cname_from_reader id d) with (Ok (A:=c_name_) n) end.
  - f_equal. f_equal. f_equal. rewrite zlen_app. lia.
  - symmetry. apply H.
Qed.
(** What is written of a component's names. *)
Inductive ec_name := ECComponent (s : list Z) | ECMap (k : c_kind) (l : list (Z * list Z)).
Definition enc_ec (n : ec_name) : out := match n with ECComponent s => enc_cname s | ECMap k l => enc_decls k (map_of l) end.
Definition v_ec (n : ec_name) : s_cname := match n with ECComponent s => SCComponent s | ECMap k l => SCMap k l end.
Definition ec_ok (n : ec_name) : Prop :=
  match n with
  | ECComponent s => bytes_ok s /\ utf8_valid s = true /\ zlen s < 2 ^ 32
  | ECMap k l => match k with KCore b => known_core b = true | KComp b => known_comp b = true end /\ Forall naming_ok l /\ zlen l < 2 ^ 32
  end.
Lemma map_size_encode m b : map_encode m = Some b -> map_size m = Some (zlen b).
Proof.
  unfold map_encode, map_size, encoding_size. intros E. apply oapp_some in E as (x & y & -> & -> & ->). now rewrite zlen_app.
Qed.
Lemma framed_decls k l b : map_encode (map_of l) = Some b ->
  enc_decls k (map_of l) = o_byte 1 +++ o_str (match k with KCore x => 0 :: x :: b | KComp x => x :: b end).
Proof.
  intros E. unfold enc_decls. rewrite (map_size_encode _ _ E), E, o_str_eq. destruct k as [x|x]; rewrite !zlen_cons.
  - replace (1 + (1 + zlen b)) with (2 + zlen b) by lia. destruct (encode_usize (2 + zlen b)); reflexivity.
  - destruct (encode_usize (1 + zlen b)); reflexivity.
Qed.
Lemma framed_cname s b : o_str s = Some b -> enc_cname s = o_byte 0 +++ o_str b.
Proof.
  intros E. unfold enc_cname. pose proof (o_str_len _ _ E) as Hl. pose proof E as E0. rewrite o_str_eq, (u32_usize _ (zlen_u32' _ Hl)) in E0. unfold encoding_size.
  apply oapp_some in E0 as (x & y & -> & Ey & ->). injection Ey as <-. cbn [option_map]. rewrite E, (o_str_eq (x ++ s)), zlen_app. reflexivity.
Qed.
Lemma sends_cname : sends ft enc_ec read_cname see_cname v_ec ec_ok.
Proof.
  intros [s|k l] bs Hok E.
  - destruct Hok as (Hs & Hu & Hn). assert (exists b, o_str s = Some b) as (b & Eb).
    { rewrite o_str_eq. destruct (dec_usize F (zlen s) (zlen_u32' s Hn)) as (lb & -> & _). cbn. eauto. }
    cbn [enc_ec] in E. rewrite (framed_cname _ _ Eb) in E. exists (CNComponent s). split; [|reflexivity]. rewrite <- E.
    assert (D : decodes F (o_str s) read_unlimited_string s).
    { rewrite o_str_eq. unfold read_unlimited_string. eapply dec_bind; [apply dec_usize, zlen_u32'; lia|].
      unfold internal_read_string. rewrite <- (oapp_nil_r (Some s)). eapply dec_bind; [apply dec_read_bytes, Hs|]. rewrite Hu. apply dec_ret. }
    destruct D as (b' & Eb' & Hb & D). rewrite Eb in Eb'. injection Eb' as <-. destruct (o_byte_some _ _ _ E) as (o & Eo).
    apply dec_cname; [lia|exact Hb|exact (o_str_len _ _ Eo)|]. intros pos off. unfold cname_from_reader. cbn [Z.eqb].
    specialize (D [] pos off ft eq_refl (Forall_nil _)). rewrite app_nil_r in D. rewrite D. reflexivity.
  - destruct Hok as (Hk & Hl & Hn). destruct (map_written ft l Hl Hn) as (b & Em & Hb & S). cbn [enc_ec] in E. rewrite (framed_decls _ _ _ Em) in E.
    destruct (o_byte_some _ _ _ E) as (o & Eo). exists (CNMap k b). split; [|cbn [see_cname v_ec]; unfold see_map; rewrite S; reflexivity]. rewrite <- E.
    assert (Hx : match k with KCore x | KComp x => is_byte x end).
    { unfold is_byte. destruct k as [x|x]; [unfold known_core in Hk|unfold known_comp in Hk]; lia. }
    apply dec_cname; [lia| |exact (o_str_len _ _ Eo)|].
    + destruct k; repeat (constructor; [assumption || (unfold is_byte; lia)|]); exact Hb.
    + intros pos off. unfold cname_from_reader. change (1 =? 0) with false. change (1 =? 1) with true. cbv iota. destruct k as [x|x]; unfold read_u8, advance; cbn [r_rem r_pos r_off r_feat].
      * change (0 =? 0) with true. cbv iota. rewrite Hk. exact (limited_any ft _ b l _ S Hb _ _).
      * replace (x =? 0) with false by (symmetry; unfold known_comp in Hk; lia). rewrite Hk. exact (limited_any ft _ b l _ S Hb _ _).
Qed.
Lemma enc_ec_pos n bs : enc_ec n = Some bs -> (0 < List.length bs)%nat.
Proof.
  destruct n as [s|[k|k] l]; cbn [enc_ec]; unfold enc_cname, enc_decls.
  - destruct (option_map _ _); [|discriminate]. intros E. apply oapp_some in E as (x & y & [= <-] & _ & ->). cbn. lia.
  - destruct (map_size _); [|discriminate]. intros E. apply oapp_some in E as (x & y & [= <-] & _ & ->). cbn. lia.
  - destruct (map_size _); [|discriminate]. intros E. apply oapp_some in E as (x & y & [= <-] & _ & ->). cbn. lia.
Qed.
Lemma c_until_written l : Forall ec_ok l -> forall bs, o_all enc_ec l = Some bs -> bytes_ok bs /\
  exists ps, all_seen see_cname ps = Some (map v_ec l) /\ forall fuel pos off, (List.length bs <= fuel)%nat ->
    until_eof fuel read_cname (mkReader bs pos off ft) = Ok (ps, mkReader [] (pos + zlen bs) off ft).
Proof.
  induction 1 as [|n l Hn _ IH]; intros bs E.
  - injection E as <-. split; [constructor|]. exists []. split; [reflexivity|]. intros [|fuel] pos off _; cbn; change (zlen (@nil Z)) with 0; rewrite Z.add_0_r; reflexivity.
  - destruct (o_all_cons _ _ _ _ E) as (b1 & b2 & E1 & E2 & ->). destruct (sends_cname n b1 Hn E1) as (p & (b1' & Eb & Hb1 & D) & S). injection Eb as <-.
    destruct (IH b2 E2) as (Hb2 & ps & Ss & Ds). split; [apply bytes_ok_app; auto|]. exists (p :: ps). cbn [all_seen map]. rewrite S, Ss. split; [reflexivity|].
    intros fuel pos off Hl. pose proof (enc_ec_pos _ _ E1) as Hp. rewrite app_length in Hl. destruct fuel as [|fuel]; [lia|]. cbn [until_eof].
    unfold eof. cbn [r_rem]. destruct b1 as [|x b1]; [cbn in Hp; lia|]. cbn [app]. unfold bind. change (x :: b1 ++ b2) with ((x :: b1) ++ b2). rewrite D by auto.
    rewrite Ds by (cbn [List.length] in Hl; lia). unfold ret. rewrite zlen_app. do 3 f_equal. lia.
Qed.
Lemma cnames_written l bs : Forall ec_ok l -> o_all enc_ec l = Some bs -> see_cnames bs = Some (map v_ec l).
Proof.
  intros H E. destruct (c_until_written l H bs E) as (Hb & ps & S & D). unfold see_cnames, read_cnames, new_reader. rewrite D by lia. exact S.
Qed.
Definition not_component (n : c_name_) : bool := match n with CNComponent _ => false | _ => true end.
Lemma cn_of_parts l : cn_of l = mkCN (fold_left (fun o n => match n with CNComponent s => Some s | _ => o end) l None) (filter not_component l).
Proof.
  assert (G : forall l acc o, fold_left (fun s n => match n with CNComponent name => mkCN (Some name) (cn_names s) | n => mkCN (cn_name s) (cn_names s ++ [n]) end) l (mkCN o acc) =
    mkCN (fold_left (fun o n => match n with CNComponent s => Some s | _ => o end) l o) (acc ++ filter not_component l)).
  { clear l. induction l as [|n l IH]; intros acc o; cbn [fold_left filter]; [now rewrite app_nil_r|].
    destruct n; cbn [not_component]; cbn [cn_name cn_names]; rewrite IH; try reflexivity; rewrite <- app_assoc; reflexivity. }
  exact (G l [] None).
Qed.
Fixpoint go_cnames (l : list c_name_) : out :=
  match l with
  | [] => o_nil
  | CNUnknown _ _ :: l => go_cnames l
  | CNComponent _ :: _ => None
  | CNMap k b :: l => match c_map ft b with Some m => enc_decls k (map_of m) +++ go_cnames l | None => None end
  end.
Lemma cn_data_go s : component_names_data s = (match cn_name s with Some n => enc_cname n | None => o_nil end) +++ go_cnames (cn_names s).
Proof. reflexivity. Qed.
Lemma go_cnames_see l : forall bs, Forall c_name_ok l -> go_cnames (filter not_component l) = Some bs ->
  exists L es, all_seen see_cname l = Some L /\ o_all enc_ec es = Some bs /\ Forall ec_ok es /\ map v_ec es = c_other_names L /\
    forall o, fold_left (fun o n => match n with CNComponent s => Some s | _ => o end) l o = fold_left (fun o n => match n with SCComponent s => Some s | _ => o end) L o.
Proof.
  induction l as [|n l IH]; intros bs H E; cbn [filter] in E; [injection E as <-; exists [], []; repeat split; constructor|].
  apply Forall_cons_iff in H as (Hn & H). cbn [all_seen]. destruct n as [s|k b|ty d]; cbn [not_component] in E; cbn [go_cnames] in E.
  - destruct (IH _ H E) as (L & es & -> & H0 & H1 & H2 & H3). exists (SCComponent s :: L), es. cbn [see_cname]. split; [reflexivity|]. split; [exact H0|]. split; [exact H1|]. split; [exact H2|]. intros o. cbn [fold_left]. apply H3.
  - unfold c_map in E. cbn [see_cname]. unfold see_map. destruct (section_items read_naming ft 0 b) as [m|] eqn:Em; [|discriminate]. apply oapp_some in E as (x & y & Ex & Ey & ->).
    destruct (IH _ H Ey) as (L & es & -> & H0 & H1 & H2 & H3). exists (SCMap k m :: L), (ECMap k m :: es). cbn [seen_ok option_map].
    split; [reflexivity|]. split; [cbn [o_all enc_ec]; rewrite Ex, H0; reflexivity|].
    assert (Hok : bytes_ok b /\ match k with KCore x => known_core x = true | KComp x => known_comp x = true end) by (destruct k; cbn in Hn; tauto).
    destruct (y_section_eq ft _ _ 0 b m (y_naming ft) (proj1 Hok) Em) as (X1 & X2).
    split; [constructor; auto; split; [apply Hok|auto]|]. split; [cbn; f_equal; exact H2|]. intros o. cbn [fold_left]. apply H3.
  - destruct (IH _ H E) as (L & es & -> & H0 & H1 & H2 & H3). exists (SCUnknown ty d :: L), es. cbn [see_cname]. split; [reflexivity|]. split; [exact H0|]. split; [exact H1|]. split; [exact H2|]. intros o. cbn [fold_left]. apply H3.
Qed.
Lemma c_called_ok l : Forall c_name_ok l -> forall o, (forall s, o = Some s -> ec_ok (ECComponent s)) ->
  forall s, fold_left (fun o n => match n with CNComponent s => Some s | _ => o end) l o = Some s -> ec_ok (ECComponent s).
Proof.
  induction 1 as [|n l Hn _ IH]; intros o Ho s; cbn [fold_left]; [apply Ho|]. apply IH. destruct n; auto. intros s' [= <-]. exact Hn.
Qed.
Lemma component_names_read d n : bytes_ok d -> component_names_from_bytes d = Some n ->
  exists l, read_cnames d = Ok l /\ Forall c_name_ok l /\ n = cn_of l.
Proof.
  intros Hb. unfold component_names_from_bytes. destruct (read_cnames d) as [l|] eqn:E; [|discriminate]. intros [= <-]. exists l. split; [reflexivity|]. split; [|reflexivity].
  unfold read_cnames in E. destruct (until_eof _ read_cname _) as [[l' r]|] eqn:E'; [|discriminate]. injection E as <-.
  apply (y_until ft read_cname c_name_ok y_read_cname _ (new_reader ft d 0) l' r eq_refl Hb E').
Qed.
Lemma text_ec v : text_ok v -> ec_ok (ECComponent v).
Proof. intros (A & B & C). split; [exact A|]. split; [exact B|]. lia. Qed.
Lemma component_names_kept d n v d' (set : bool) : bytes_ok d -> component_names_from_bytes d = Some n ->
  component_names_data (if set then cn_set n v else n) = Some d' ->
  exists l, see_cnames d = Some l /\ (set = true -> text_ok v -> see_cnames d' = Some (c_named (Some v) (c_other_names l))) /\
    (set = false -> see_cnames d' = Some (c_named (c_called l) (c_other_names l))).
Proof.
  intros Hb En Ed. destruct (component_names_read _ _ Hb En) as (l & El & Hl & ->). rewrite cn_data_go, cn_of_parts in Ed. set (c := fold_left _ l None) in Ed.
  assert (Eg : exists x bs, go_cnames (filter not_component l) = Some bs /\ (match (if set then Some v else c) with Some n => enc_cname n | None => o_nil end) = Some x /\ d' = x ++ bs).
  { destruct set; unfold cn_set in Ed; cbn [cn_name cn_names] in Ed; apply oapp_some in Ed as (x & bs & E1 & E2 & ->); eauto. }
  destruct Eg as (x & bs & Eg & Ee & ->). destruct (go_cnames_see _ _ Hl Eg) as (L & es & ES & H0 & H1 & H2 & H3). exists L. split; [unfold see_cnames; rewrite El; exact ES|].
  assert (Hw : forall o, (forall s, o = Some s -> ec_ok (ECComponent s)) -> (match o with Some n => enc_cname n | None => o_nil end) = Some x ->
    see_cnames (x ++ bs) = Some (c_named o (c_other_names L))).
  { intros o Ho E. destruct o as [s|].
    - rewrite (cnames_written (ECComponent s :: es)); [cbn; now rewrite H2|constructor; auto|]. cbn [o_all enc_ec]. rewrite E, H0. reflexivity.
    - injection E as <-. cbn [app c_named]. rewrite (cnames_written es _ H1 H0). now rewrite H2. }
  split.
  - intros -> Hv. apply (Hw (Some v)); [intros s [= <-]; apply text_ec, Hv|exact Ee].
  - intros ->. assert (Ec : c_called L = c) by (symmetry; exact (H3 None)). rewrite Ec. apply (Hw c); [|exact Ee]. apply (c_called_ok l Hl None). discriminate.
Qed.
Lemma component_name_new v d : text_ok v -> component_names_data (mkCN (Some v) []) = Some d -> see_cnames d = Some (c_named (Some v) []).
Proof.
  intros Hv E. rewrite cn_data_go in E. cbn [cn_name cn_names go_cnames] in E. apply (cnames_written [ECComponent v]); [constructor; [apply text_ec, Hv|constructor]|].
  cbn [o_all enc_ec]. exact E.
Qed.
