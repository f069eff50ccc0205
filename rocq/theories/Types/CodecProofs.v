(** What is written is what is read; what is read can be converted back. *)
From Verif.Base Require Import Prelude BitFacts.
From Verif.Reader Require Import Model Spec Mono.
From Verif.Leb Require Import Model Top ReaderProofs.
From Verif.Codec Require Import Kit.
From Verif.Types Require Import RefModel RefSpec RefProofs CodecModel CodecSpec.
From Coq Require Import Lia.

(** * The parsed value of a written type *)
Definition packed (i : Z) : Z := match from_module_index i with Some p => p | None => 0 end.
Definition d_heap (h : e_heap) : heap_type :=
  match h with EAbs s t => HAbstract s t | EConcrete i => HConcrete (UModule i) | EExact i => HExact (UModule i) end.
Definition d_ref (r : e_ref) : Z := match ref_new (er_null r) (d_heap (er_heap r)) with Some p => p | None => 0 end.
Definition d_val (v : e_val) : p_val :=
  match v with EI32 => PI32 | EI64 => PI64 | EF32 => PF32 | EF64 => PF64 | EV128 => PV128 | ERef r => PRef (d_ref r) end.
Definition d_storage (s : e_storage) : p_storage := match s with EI8 => PI8 | EI16 => PI16 | EVal v => PVal (d_val v) end.
Definition d_field (f : e_field) : p_field := mkPField (d_storage (ef_elem f)) (ef_mut f).
Definition d_inner (i : e_inner) : p_inner :=
  match i with
  | EFunc ps rs => PFunc (map d_val ps ++ map d_val rs) (List.length ps)
  | EArray f => PArray (d_field f)
  | EStruct fs => PStruct (map d_field fs)
  | ECont i => PCont (packed i)
  end.
Definition d_comp (c : e_comp) : p_comp :=
  mkPComp (d_inner (ec_inner c)) (ec_shared c) (option_map packed (ec_descriptor c)) (option_map packed (ec_describes c)).
Definition d_sub (s : e_sub) : p_sub := mkPSub (es_final s) (option_map packed (es_super s)) (d_comp (es_comp s)).
Definition d_rec (r : e_rec) : p_rec := match r with ERec l => PExplicit (map d_sub l) | ESingle s => PImplicit (d_sub s) end.

(** * Conversion recovers the written type *)
Lemma all_some_map {A B C} (f : B -> option C) (g : A -> B) (h : A -> C) l :
  Forall (fun a => f (g a) = Some (h a)) l -> all_some f (map g l) = Some (map h l).
Proof. induction 1 as [|a l Ha _ IH]; [reflexivity|]. cbn. rewrite Ha, IH. reflexivity. Qed.
Lemma packed_ok i : 0 <= i < 2 ^ 20 -> from_module_index i = Some (packed i) /\ unpack (packed i) = Some (UModule i).
Proof.
  intros Hi. unfold packed. pose proof (pack_spec (UModule i) ltac:(cbn; lia)) as H. cbn [pack uidx_num kind_of] in H.
  destruct (Z.ltb_spec i (2 ^ 20)); [|lia]. rewrite H. split; [reflexivity|].
  destruct (unpack_pack (UModule i) _ ltac:(cbn; lia) H) as [E _]. exact E.
Qed.
Lemma c_index_packed i : 0 <= i < 2 ^ 20 -> c_index (packed i) = Some i.
Proof. intros Hi. unfold c_index. rewrite (proj2 (packed_ok i Hi)). reflexivity. Qed.
Lemma c_opt_packed o : opt_idx_ok o -> c_opt_index (option_map packed o) = Some o.
Proof. destruct o as [i|]; [|reflexivity]. cbn [opt_idx_ok option_map c_opt_index]. intros H. rewrite c_index_packed by exact H. reflexivity. Qed.
Lemma ref_ok_u32 r : ref_ok r -> u32_heap (d_heap (er_heap r)) /\ fits (d_heap (er_heap r)).
Proof.
  destruct r as [n [s t|i|i]]; unfold ref_ok; cbn [er_heap d_heap u32_heap fits]; unfold u32_uidx, in_u; cbn [uidx_num]; auto; intros; lia.
Qed.
Lemma d_ref_new r : ref_ok r -> ref_new (er_null r) (d_heap (er_heap r)) = Some (d_ref r).
Proof.
  intros H. destruct (ref_ok_u32 r H) as [H1 H2]. unfold d_ref. apply (ref_new_total (er_null r)) in H2; [|exact H1].
  destruct H2 as [p E]. rewrite E. reflexivity.
Qed.
Lemma c_d_ref r : ref_ok r -> c_ref (d_ref r) = Some r.
Proof.
  intros H. destruct (ref_ok_u32 r H) as [H1 H2]. pose proof (d_ref_new r H) as E.
  destruct (ref_new_faithful _ _ _ H1 E) as (A & B & _). unfold c_ref. rewrite A, B. destruct r as [n [s t|i|i]]; reflexivity.
Qed.
Lemma c_d_val v : val_ok v -> c_val (d_val v) = Some v.
Proof. destruct v; cbn; auto. intros H. rewrite c_d_ref by exact H. reflexivity. Qed.
Lemma c_d_storage s : storage_ok s -> c_storage (d_storage s) = Some s.
Proof. destruct s; cbn; auto. intros H. rewrite c_d_val by exact H. reflexivity. Qed.
Lemma c_d_field f : field_ok f -> c_field (d_field f) = Some f.
Proof. destruct f as [s m]. unfold field_ok, c_field. cbn. intros H. rewrite c_d_storage by exact H. reflexivity. Qed.
Lemma c_d_list {A B} (ok : A -> Prop) (c : B -> option A) (d : A -> B) l :
  (forall a, ok a -> c (d a) = Some a) -> Forall ok l -> all_some c (map d l) = Some l.
Proof.
  intros H Hl. rewrite (all_some_map c d (fun a => a)); [rewrite map_id; reflexivity|].
  eapply Forall_impl; [|exact Hl]. exact H.
Qed.
Lemma c_d_inner i : inner_ok i -> c_inner (d_inner i) = Some i.
Proof.
  destruct i as [ps rs|f|fs|i]; cbn [inner_ok d_inner c_inner].
  - intros (H1 & H2 & _). unfold pf_params, pf_results.
    rewrite <- (map_length d_val ps), firstn_app, Nat.sub_diag, firstn_all, firstn_O, app_nil_r.
    rewrite skipn_app, skipn_all, Nat.sub_diag. cbn [app skipn].
    rewrite (c_d_list val_ok), (c_d_list val_ok); auto using c_d_val.
  - intros H. rewrite c_d_field by exact H. reflexivity.
  - intros [H _]. rewrite (c_d_list field_ok); auto using c_d_field.
  - intros H. rewrite c_index_packed by exact H. reflexivity.
Qed.
Lemma c_d_sub s : sub_ok s -> c_sub (d_sub s) = Some s.
Proof.
  destruct s as [fin sup [i sh dr ds]]. unfold sub_ok, comp_ok, c_sub, c_comp. cbn [es_super es_comp ec_inner ec_descriptor ec_describes d_sub d_comp
    ps_super ps_comp ps_final pc_inner pc_descriptor pc_describes pc_shared es_final ec_shared].
  intros (H1 & H2 & H3 & H4). rewrite !c_opt_packed, c_d_inner by auto. reflexivity.
Qed.
Lemma c_d_rec r : rec_ok r -> c_rec (d_rec r) = Some r.
Proof.
  destruct r as [l|s]; cbn [rec_ok d_rec c_rec].
  - intros [H _]. rewrite (c_d_list sub_ok); auto using c_d_sub.
  - intros H. rewrite c_d_sub by exact H. reflexivity.
Qed.

(** * Reading what was written *)
Section dec.
Context (F : features -> Prop).
Ltac eqbs := repeat match goal with |- context [Z.eqb ?a ?b] =>
  let c := eval vm_compute in (Z.eqb a b) in match c with true => idtac | false => idtac end; change (Z.eqb a b) with c end; cbv iota.
Ltac byte := first [split; vm_compute; congruence | assumption].
Lemma aht_byte_ok t : is_byte (aht_byte t).
Proof. destruct t; split; vm_compute; congruence. Qed.
Lemma dec_aht t : decodes F (enc_aht t) read_aht t.
Proof. unfold enc_aht, read_aht. rewrite <- (oapp_nil_r (o_byte _)). apply dec_byte_bind; [apply aht_byte_ok|]. destruct t; apply dec_ret. Qed.
(** Only the second branch of a [lookahead] is taken when the value read does not qualify. *)
Lemma dec_look_no {A B} (m : R A) c (f : A -> R B) g o b :
  decodes F o g b ->
  (forall bs rest pos off ft, o = Some bs -> bytes_ok rest -> exists a r', m (mkReader (bs ++ rest) pos off ft) = Ok (a, r') /\ c a = false) ->
  decodes F o (lookahead m c f g) b.
Proof.
  intros (bs & E & Hb & Hd) H. exists bs. repeat split; auto. intros rest pos off ft Hf Hr. unfold lookahead.
  destruct (H bs rest pos off ft E Hr) as (a & r' & Em & Ec). rewrite Em, Ec. apply Hd; auto.
Qed.
Lemma dec_look_yes {A B} (m : R A) (c : A -> bool) (f : A -> R B) g o a b :
  decodes F o (bind m f) b -> decodes F o m a -> c a = true -> decodes F o (lookahead m c f g) b.
Proof.
  intros (bs & E & Hb & Hd) (bs' & E' & _ & Hm) Hc. rewrite E in E'. injection E' as <-. exists bs. repeat split; auto.
  intros rest pos off ft Hf Hr. specialize (Hd rest pos off ft Hf Hr). specialize (Hm rest pos off ft Hf Hr).
  unfold lookahead, bind in *. rewrite Hm in *. rewrite Hc. exact Hd.
Qed.
(** A byte with bit 6 set and bit 7 clear is a negative s33. *)
Lemma s33_neg x rest pos off ft : 64 <= x < 128 ->
  exists a r', read_var_s33 (mkReader (x :: rest) pos off ft) = Ok (a, r') /\ is_u32 a = false.
Proof.
  intros Hx. unfold read_var_s33, bind, read_u8. cbn [r_rem]. rewrite land_80 by lia. destruct (Z.ltb_spec x 128); [|lia].
  unfold ret. eexists _, _. split; [reflexivity|].
  assert (Hs : (fun x => implb ((64 <=? x) && (x <? 128)) (negb (is_u32 (Z.shiftr (wraps 8 (Z.shiftl (wraps 8 x) 1)) 1)))) x = true).
  { apply (byte_sweep (fun x => implb ((64 <=? x) && (x <? 128)) (negb (is_u32 (Z.shiftr (wraps 8 (Z.shiftl (wraps 8 x) 1)) 1))))); [vm_compute; reflexivity|lia]. }
  cbv beta in Hs. destruct (Z.leb_spec 64 x); [|lia]. destruct (Z.ltb_spec x 128); [|lia]. cbn [andb implb] in Hs.
  destruct (is_u32 _); [discriminate|reflexivity].
Qed.
Lemma dec_heap h : heap_ok h -> decodes F (enc_heap h) read_heap (d_heap h).
Proof.
  destruct h as [s t|i|i]; cbn [heap_ok enc_heap d_heap]; intros H; unfold read_heap.
  - apply dec_look_no.
    + destruct s; [|rewrite oapp_nil_l].
      * apply dec_peek. cbv beta. change (0x65 =? 0x65) with true. cbv iota. apply dec_byte_bind; [byte|]. rewrite <- (oapp_nil_r (enc_aht t)).
        eapply dec_bind; [apply dec_aht|apply dec_ret].
      * unfold enc_aht. apply dec_peek1. destruct (aht_byte t =? 0x65) eqn:E1; [destruct t; discriminate|].
        destruct (aht_byte t =? 0x62) eqn:E2; [destruct t; discriminate|].
        rewrite <- (oapp_nil_r (o_byte _)). eapply dec_bind; [apply dec_map_err, dec_aht|apply dec_ret].
    + intros bs rest pos off ft E Hr. destruct s; cbn in E; injection E as <-; cbn [app]; apply s33_neg; [lia|destruct t; vm_compute; split; congruence].
  - eapply dec_look_yes; [|apply dec_s33; unfold in_u; lia|].
    + rewrite <- (oapp_nil_r (encode_s64 i)). eapply dec_bind; [apply dec_s33; unfold in_u; lia|]. cbv beta.
      unfold packed_or_limit. destruct (packed_ok i H) as [E1 E2]. rewrite E1, <- (oapp_nil_r o_nil).
      eapply dec_bind; [apply dec_ret|]. unfold unpack_or_panic. rewrite E2, <- (oapp_nil_r o_nil). eapply dec_bind; [apply dec_ret|apply dec_ret].
    + unfold is_u32. apply andb_true_intro. split; [apply Z.leb_le|apply Z.ltb_lt]; lia.
  - apply dec_look_no.
    + apply dec_peek. change (0x62 =? 0x65) with false. change (0x62 =? 0x62) with true. cbv iota. apply dec_byte_bind; [byte|].
      rewrite <- (oapp_nil_r (encode_u32 i)). eapply dec_bind; [apply dec_u32, H|apply dec_ret].
    + intros bs rest pos off ft E Hr. destruct (encode_u32 i) as [l|]; [|discriminate]. cbn in E. injection E as <-. cbn [app]. apply s33_neg. lia.
Qed.
(** Every written heap type starts with a byte. *)
Lemma ref_ok_heap r : ref_ok r -> heap_ok (er_heap r).
Proof. unfold ref_ok, heap_ok. destruct (er_heap r); auto. unfold in_u. lia. Qed.
Lemma dec_ref_long (x : Z) n h : x = (if n : bool then 0x63 else 0x64) -> ref_ok (mkERef n h) ->
  decodes F (o_byte x +++ enc_heap h) read_ref (d_ref (mkERef n h)).
Proof.
  intros Hx H. unfold read_ref. apply dec_get_pos. intros pos. apply dec_peek. replace ((x =? 0x63) || (x =? 0x64)) with true by (subst x; destruct n; reflexivity).
  apply dec_byte_bind; [subst x; destruct n; byte|]. rewrite <- (oapp_nil_r (enc_heap h)). eapply dec_bind; [apply dec_heap, (ref_ok_heap _ H)|]. cbv beta.
  replace (x =? 0x63) with n by (subst x; destruct n; reflexivity). pose proof (d_ref_new _ H) as E. cbn [er_null er_heap] in E. rewrite E. apply dec_ret.
Qed.
Lemma dec_ref r : ref_ok r -> decodes F (enc_ref r) read_ref (d_ref r).
Proof.
  intros H. destruct r as [[|] h]; cbn [enc_ref].
  - destruct h as [s t|i|i]; [|apply (dec_ref_long 0x63 true); auto|apply (dec_ref_long 0x63 true); auto].
    cbn [enc_heap]. unfold read_ref. apply dec_get_pos. intros pos. pose proof (d_ref_new _ H) as E. cbn [er_null er_heap d_heap] in E.
    destruct s; [|rewrite oapp_nil_l].
    + apply dec_peek. change (_ || _) with false. change (0x65 =? 0x62) with false. cbv iota. apply dec_peek.
      change (0x65 =? 0x65) with true. cbv iota. apply dec_byte_bind; [byte|].
      rewrite <- (oapp_nil_r (enc_aht t)). eapply dec_bind; [apply dec_map_err, dec_aht|]. rewrite E. apply dec_ret.
    + unfold enc_aht. apply dec_peek1. replace (_ || _) with false by (destruct t; reflexivity). replace (_ =? 0x62) with false by (destruct t; reflexivity).
      apply dec_peek1. replace (_ =? 0x65) with false by (destruct t; reflexivity). rewrite <- (oapp_nil_l (o_byte _)). eapply dec_bind; [apply dec_ret|].
      rewrite <- (oapp_nil_r (o_byte _)). eapply dec_bind; [apply dec_map_err, dec_aht|]. rewrite E. apply dec_ret.
  - apply (dec_ref_long 0x64 false); auto.
Qed.
(** The first byte of a written reference type. *)
Definition ref_lead (r : e_ref) : Z :=
  match r with mkERef true (EAbs s t) => if s then 0x65 else aht_byte t | mkERef true _ => 0x63 | mkERef false _ => 0x64 end.
Lemma enc_ref_lead r : ref_ok r -> exists t, bytes_ok t /\ enc_ref r = o_byte (ref_lead r) +++ Some t.
Proof.
  intros H. destruct (dec_ref r H) as (bs & E & Hb & _).
  assert (Hh : forall b t, bs = b :: t -> bytes_ok t) by (intros b t ->; inversion Hb; auto).
  destruct r as [[|] [s t|i|i]]; cbn [enc_ref ref_lead enc_heap] in *.
  - destruct s; [exists [aht_byte t]|exists []]; (split; [|reflexivity]); repeat constructor; apply aht_byte_ok.
  - destruct (encode_s64 i) as [l|]; [|discriminate]. exists l. cbn in E. injection E as <-. split; [eapply Hh; reflexivity|reflexivity].
  - destruct (encode_u32 i) as [l|]; [|discriminate]. exists (0x62 :: l). cbn in E. injection E as <-. split; [eapply Hh; reflexivity|reflexivity].
  - destruct s; [exists [0x65; aht_byte t]|exists [aht_byte t]]; (split; [|reflexivity]); repeat constructor; try apply aht_byte_ok; vm_compute; congruence.
  - destruct (encode_s64 i) as [l|]; [|discriminate]. exists l. cbn in E. injection E as <-. split; [eapply Hh; reflexivity|reflexivity].
  - destruct (encode_u32 i) as [l|]; [|discriminate]. exists (0x62 :: l). cbn in E. injection E as <-. split; [eapply Hh; reflexivity|reflexivity].
Qed.
Lemma ref_lead_range r : 0x63 <= ref_lead r <= 0x75.
Proof. destruct r as [[|] [s t|i|i]]; cbn; try lia. destruct s; [lia|destruct t; cbn; lia]. Qed.

Lemma dec_val v : val_ok v -> decodes F (enc_val v) read_val (d_val v).
Proof.
  destruct v as [| | | | |r]; cbn [val_ok enc_val d_val]; intros H; unfold read_val;
    try (apply dec_peek1; eqbs; rewrite <- (oapp_nil_r (o_byte _)); apply dec_byte_bind; [byte|apply dec_ret]).
  destruct (enc_ref_lead r H) as (t & _ & E). pose proof (ref_lead_range r) as Hl. rewrite E. apply dec_peek.
  destruct (Z.eqb_spec (ref_lead r) 0x7F); [lia|]. destruct (Z.eqb_spec (ref_lead r) 0x7E); [lia|]. destruct (Z.eqb_spec (ref_lead r) 0x7D); [lia|].
  destruct (Z.eqb_spec (ref_lead r) 0x7C); [lia|]. destruct (Z.eqb_spec (ref_lead r) 0x7B); [lia|]. rewrite <- E, <- (oapp_nil_r (enc_ref r)).
  eapply dec_bind; [apply dec_map_err, dec_ref, H|apply dec_ret].
Qed.
Definition val_lead (v : e_val) : Z :=
  match v with EI32 => 0x7F | EI64 => 0x7E | EF32 => 0x7D | EF64 => 0x7C | EV128 => 0x7B | ERef r => ref_lead r end.
Lemma enc_val_lead v : val_ok v -> exists t, bytes_ok t /\ enc_val v = o_byte (val_lead v) +++ Some t.
Proof. destruct v as [| | | | |r]; cbn [val_ok enc_val val_lead]; intros H; try (exists []; split; [constructor|reflexivity]). apply enc_ref_lead, H. Qed.
Lemma val_lead_range v : 0x63 <= val_lead v <= 0x75 \/ 0x7B <= val_lead v <= 0x7F.
Proof. destruct v as [| | | | |r]; cbn; try lia. left. apply ref_lead_range. Qed.
Lemma dec_storage s : storage_ok s -> decodes F (enc_storage s) read_storage (d_storage s).
Proof.
  destruct s as [| |v]; cbn [storage_ok enc_storage d_storage]; intros H; unfold read_storage;
    try (apply dec_peek1; eqbs; rewrite <- (oapp_nil_r (o_byte _)); apply dec_byte_bind; [byte|apply dec_ret]).
  destruct (enc_val_lead v H) as (t & _ & E). pose proof (val_lead_range v) as Hl. rewrite E. apply dec_peek.
  destruct (Z.eqb_spec (val_lead v) 0x78); [lia|]. destruct (Z.eqb_spec (val_lead v) 0x77); [lia|]. rewrite <- E, <- (oapp_nil_r (enc_val v)).
  eapply dec_bind; [apply dec_val, H|apply dec_ret].
Qed.
Lemma dec_field f : field_ok f -> decodes F (enc_field f) read_field (d_field f).
Proof.
  destruct f as [s m]. unfold field_ok, enc_field, read_field, d_field. cbn [ef_elem ef_mut]. intros H.
  eapply dec_bind; [apply dec_storage, H|]. rewrite <- (oapp_nil_r (o_byte _)). apply dec_byte_bind; [destruct m; byte|]. destruct m; apply dec_ret.
Qed.
Lemma dec_vals l limit desc : Forall val_ok l -> zlen l <= limit -> limit < 2 ^ 32 -> decodes F (o_vec enc_val l) (read_list limit desc read_val) (map d_val l).
Proof. intros H Hl Hm. apply dec_list; auto. eapply Forall_impl; [|exact H]. intros v. apply dec_val. Qed.

Definition inner_lead (i : e_inner) : Z := match i with EFunc _ _ => 0x60 | EArray _ => 0x5e | EStruct _ => 0x5f | ECont _ => 0x5d end.
Definition inner_rest (i : e_inner) : out :=
  match i with
  | EFunc ps rs => o_vec enc_val ps +++ o_vec enc_val rs
  | EArray f => enc_field f
  | EStruct fs => o_vec enc_field fs
  | ECont i => encode_s64 i
  end.
Lemma enc_inner_eq i : enc_inner i = o_byte (inner_lead i) +++ inner_rest i.
Proof. destruct i; reflexivity. Qed.
Lemma dec_inner i : inner_ok i -> decodes F (inner_rest i) (read_inner (inner_lead i)) (d_inner i).
Proof.
  destruct i as [ps rs|f|fs|i]; cbn [inner_ok inner_rest inner_lead d_inner]; unfold read_inner; eqbs.
  - intros (H1 & H2 & H3 & H4). eapply dec_bind; [apply dec_vals; auto; unfold MAX_WASM_FUNCTION_PARAMS; lia|]. cbv beta.
    rewrite <- (oapp_nil_r (o_vec enc_val rs)). eapply dec_bind; [apply dec_vals; auto; unfold MAX_WASM_FUNCTION_RETURNS; lia|]. cbv beta.
    rewrite map_length. apply dec_ret.
  - intros H. rewrite <- (oapp_nil_r (enc_field f)). eapply dec_bind; [apply dec_field, H|apply dec_ret].
  - intros [H Hl]. rewrite <- (oapp_nil_r (o_vec enc_field fs)). eapply dec_bind; [|apply (dec_ret F (PStruct (map d_field fs)))].
    apply dec_list; [exact Hl|unfold MAX_WASM_STRUCT_FIELDS; lia|]. eapply Forall_impl; [|exact H]. intros v. apply dec_field.
  - intros H. rewrite <- (oapp_nil_r (encode_s64 i)). eapply dec_bind; [apply dec_s33; unfold in_u; lia|]. cbv beta.
    replace (is_u32 i) with true by (symmetry; unfold is_u32; apply andb_true_intro; split; [apply Z.leb_le|apply Z.ltb_lt]; lia).
    unfold packed_or_limit. rewrite (proj1 (packed_ok i H)), <- (oapp_nil_r o_nil). eapply dec_bind; apply dec_ret.
Qed.
Lemma inner_lead_byte i : is_byte (inner_lead i).
Proof. destruct i; byte. Qed.

(** The part of a composite type that starts at the descriptor mark. *)
Definition mark_lead (mark : Z) (o : option Z) (next : Z) : Z := match o with Some _ => mark | None => next end.
Definition mark_rest (o : option Z) (next : Z) (rest : out) : out := match o with Some i => encode_u32 i +++ o_byte next +++ rest | None => rest end.
Lemma mark_eq mark o next rest :
  match o with Some i => o_byte mark +++ encode_u32 i | None => o_nil end +++ o_byte next +++ rest = o_byte (mark_lead mark o next) +++ mark_rest o next rest.
Proof. destruct o; cbn [mark_lead mark_rest]; [rewrite !oapp_assoc; reflexivity|apply oapp_nil_l]. Qed.
Lemma dec_marked {B} mark o next rest (k : option Z * Z -> R B) b : opt_idx_ok o -> is_byte next -> next <> mark ->
  decodes F rest (k (option_map packed o, next)) b ->
  decodes F (mark_rest o next rest) (bind (read_marked mark (mark_lead mark o next)) k) b.
Proof.
  intros H Hn Hne Hk. destruct o as [i|]; cbn [mark_lead mark_rest opt_idx_ok option_map] in *; unfold read_marked.
  - rewrite Z.eqb_refl. rewrite <- oapp_assoc. eapply dec_bind; [|exact Hk].
    eapply dec_bind; [apply dec_u32; unfold in_u; lia|]. cbv beta. unfold packed_or_limit. rewrite (proj1 (packed_ok i H)).
    rewrite <- (oapp_nil_l (o_byte next)). eapply dec_bind; [apply dec_ret|]. rewrite <- (oapp_nil_r (o_byte next)). apply dec_byte_bind; [exact Hn|apply dec_ret].
  - destruct (Z.eqb_spec next mark); [contradiction|]. rewrite <- (oapp_nil_l rest). eapply dec_bind; [apply dec_ret|exact Hk].
Qed.
Definition l2 (c : e_comp) : Z := mark_lead 0x4d (ec_descriptor c) (inner_lead (ec_inner c)).
Definition r2 (c : e_comp) : out := mark_rest (ec_descriptor c) (inner_lead (ec_inner c)) (inner_rest (ec_inner c)).
Definition l1 (c : e_comp) : Z := mark_lead 0x4c (ec_describes c) (l2 c).
Definition r1 (c : e_comp) : out := mark_rest (ec_describes c) (l2 c) (r2 c).
Definition l0 (c : e_comp) : Z := if ec_shared c then 0x65 else l1 c.
Definition r0 (c : e_comp) : out := if ec_shared c then o_byte (l1 c) +++ r1 c else r1 c.
Lemma comp_eq c : (if ec_shared c then o_byte 0x65 else o_nil) +++
  match ec_describes c with Some i => o_byte 0x4c +++ encode_u32 i | None => o_nil end +++
  match ec_descriptor c with Some i => o_byte 0x4d +++ encode_u32 i | None => o_nil end +++
  enc_inner (ec_inner c) = o_byte (l0 c) +++ r0 c.
Proof.
  rewrite enc_inner_eq, mark_eq. fold (l2 c) (r2 c). rewrite mark_eq. fold (l1 c) (r1 c). unfold l0, r0. destruct (ec_shared c); [reflexivity|apply oapp_nil_l].
Qed.
Lemma inner_lead_range i : 0x5d <= inner_lead i <= 0x60.
Proof. destruct i; cbn; lia. Qed.
Lemma l2_range c : l2 c = 0x4d \/ 0x5d <= l2 c <= 0x60.
Proof. unfold l2, mark_lead. destruct (ec_descriptor c); [auto|right; apply inner_lead_range]. Qed.
Lemma l1_range c : l1 c = 0x4c \/ l1 c = 0x4d \/ 0x5d <= l1 c <= 0x60.
Proof. unfold l1, mark_lead. destruct (ec_describes c); [auto|right; apply l2_range]. Qed.
Lemma l0_range c : l0 c = 0x65 \/ l0 c = 0x4c \/ l0 c = 0x4d \/ 0x5d <= l0 c <= 0x60.
Proof. unfold l0. destruct (ec_shared c); [auto|right; apply l1_range]. Qed.
Lemma dec_comp c : comp_ok c -> decodes F (r0 c) (read_comp (l0 c)) (d_comp c).
Proof.
  intros (H1 & H2 & H3). unfold read_comp.
  assert (Hin : decodes F (r1 c) (let* ds := read_marked 0x4c (l1 c) in let* dr := read_marked 0x4d (snd ds) in
            let* inner := read_inner (snd dr) in ret (mkPComp inner (ec_shared c) (fst dr) (fst ds))) (d_comp c)).
  { unfold r1, l1. apply dec_marked; [exact H3|unfold is_byte; pose proof (l2_range c); lia|pose proof (l2_range c); lia|]. cbn [fst snd].
    unfold r2, l2. apply dec_marked; [exact H2|apply inner_lead_byte|pose proof (inner_lead_range (ec_inner c)); lia|]. cbn [fst snd].
    rewrite <- (oapp_nil_r (inner_rest _)). eapply dec_bind; [apply dec_inner, H1|]. apply dec_ret. }
  pose proof (l1_range c) as Hl. unfold r0, l0. destruct (ec_shared c) eqn:Es.
  - change (0x65 =? 0x65) with true. cbv iota. apply dec_bind with (a := (true, l1 c)); [|exact Hin]. rewrite <- (oapp_nil_r (o_byte _)). apply dec_byte_bind; [unfold is_byte; lia|]. apply dec_ret.
  - destruct (Z.eqb_spec (l1 c) 0x65); [lia|]. rewrite <- (oapp_nil_l (r1 c)). apply dec_bind with (a := (false, l1 c)); [apply dec_ret|exact Hin].
Qed.
Lemma dec_sub s : sub_ok s -> decodes F (enc_sub s) read_sub (d_sub s).
Proof.
  intros [H1 H2]. destruct s as [fin sup c]. cbn [es_super es_comp] in *. unfold enc_sub, d_sub. cbn [es_super es_comp es_final]. rewrite comp_eq.
  pose proof (l0_range c) as Hl. unfold read_sub. apply dec_get_pos. intros pos.
  destruct (match sup with Some _ => true | None => false end || negb fin) eqn:E.
  - rewrite oapp_assoc. replace (if fin then o_byte 0x4f else o_byte 0x50) with (o_byte (if fin then 0x4f else 0x50)) by (destruct fin; reflexivity).
    apply dec_byte_bind; [destruct fin; byte|]. replace (_ || _) with true by (destruct fin; reflexivity).
    eapply dec_bind; [apply dec_opt_list; [unfold MAX_WASM_SUPERTYPES; lia|]|]. { intros v ->. cbn in H1. unfold in_u. lia. }
    cbv beta. replace (1 <? _) with false by (destruct sup; reflexivity). rewrite <- (oapp_nil_l (o_byte (l0 c) +++ r0 c)).
    eapply dec_bind with (a := option_map packed sup).
    + destruct sup as [i|]; [|apply dec_ret]. unfold packed_or_limit. rewrite (proj1 (packed_ok i H1)), <- (oapp_nil_r o_nil). eapply dec_bind; apply dec_ret.
    + apply dec_byte_bind; [unfold is_byte; lia|]. rewrite <- (oapp_nil_r (r0 c)). eapply dec_bind; [apply dec_comp, H2|]. destruct fin; apply dec_ret.
  - rewrite oapp_nil_l. destruct sup; [discriminate|]. destruct fin; [|discriminate].
    apply dec_byte_bind; [unfold is_byte; lia|]. destruct (Z.eqb_spec (l0 c) 0x4f); [lia|]. destruct (Z.eqb_spec (l0 c) 0x50); [lia|]. cbn [orb].
    rewrite <- (oapp_nil_r (r0 c)). eapply dec_bind; [apply dec_comp, H2|]. apply dec_ret.
Qed.
Lemma enc_sub_lead s : sub_ok s -> exists x t, enc_sub s = o_byte x +++ t /\ x <> 0x4e.
Proof.
  destruct s as [fin sup c]. intros _. unfold enc_sub. cbn [es_super es_comp es_final]. rewrite comp_eq. pose proof (l0_range c) as Hl.
  destruct (_ || _).
  - rewrite oapp_assoc. destruct fin; eexists _, _; split; try reflexivity; lia.
  - rewrite oapp_nil_l. eexists _, _. split; [reflexivity|lia].
Qed.
Lemma dec_rec r : rec_ok r -> decodes F (enc_rec r) read_rec (d_rec r).
Proof.
  destruct r as [l|s]; cbn [rec_ok enc_rec d_rec]; unfold read_rec.
  - intros [H Hl]. apply dec_peek. change (0x4e =? 0x4e) with true. cbv iota. apply dec_byte_bind; [byte|].
    rewrite <- (oapp_nil_r (o_vec enc_sub l)). eapply dec_bind; [|apply dec_ret].
    apply dec_list; [exact Hl|unfold MAX_WASM_TYPES; lia|]. eapply Forall_impl; [|exact H]. intros v. apply dec_sub.
  - intros H. destruct (enc_sub_lead s H) as (x & t & E & Hx). rewrite E. apply dec_peek. destruct (Z.eqb_spec x 0x4e); [contradiction|].
    rewrite <- E, <- (oapp_nil_r (enc_sub s)). eapply dec_bind; [apply dec_sub, H|apply dec_ret].
Qed.
End dec.
