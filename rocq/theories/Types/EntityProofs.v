(** Entity types, imports and exports: what is written is what is read. *)
From Verif.Base Require Import Prelude BitFacts Utf8.
From Verif.Reader Require Import Model Spec Mono.
From Verif.Leb Require Import Model Top ReaderProofs.
From Verif.Codec Require Import Kit.
From Verif.Types Require Import RefModel RefSpec RefProofs CodecModel CodecSpec CodecProofs CodecTop EntityModel EntitySpec.
From Coq Require Import Lia.

Ltac byte := first [split; vm_compute; congruence | assumption].

(** * Denotations *)
Definition d_table (t : table_ty e_ref) : table_ty Z := mkTable (d_ref (t_elem t)) (t_64 t) (t_min t) (t_max t) (t_shared t).
Definition d_global (g : global_ty e_val) : global_ty p_val := mkGlobal (d_val (g_val g)) (g_mut g) (g_shared g).
Definition d_entity (n : e_entity) : p_entity :=
  match n with
  | NFunc i => NFunc i | NFuncExact i => NFuncExact i | NTag i => NTag i | NMemory m => NMemory m
  | NTable t => NTable (d_table t) | NGlobal g => NGlobal (d_global g)
  end.
Definition d_kind (k : export_kind) : external_kind :=
  match k with XFunc => KFunc | XTable => KTable | XMemory => KMemory | XGlobal => KGlobal | XTag => KTag end.
Definition d_export (x : export) : p_export := mkPExport (x_name x) (d_kind (x_kind x)) (x_index x).
Definition d_item (x : item) : list Z * p_entity := (i_name x, d_entity (i_ty x)).
Definition enc_item (x : item) : out := o_str (i_name x) +++ enc_entity (i_ty x).
Definition bytes_of (o : out) : list Z := match o with Some b => b | None => [] end.
Definition d_imports (i : e_imports) : p_imports :=
  match i with
  | ISingle m n ty => QSingle m n (d_entity ty)
  | ICompact1 m items => QCompact1 m (bytes_of (o_vec enc_item items))
  | ICompact2 m ty names => QCompact2 m (d_entity ty) (bytes_of (o_vec o_str names))
  end.

Section m64.
Context (m64 : bool).
Notation F := (with_m64 m64).

Lemma c_d_table t : table_ok m64 t -> c_table (d_table t) = Some t.
Proof. destruct t. intros (H & _). unfold c_table, d_table. cbn in *. rewrite c_d_ref by exact H. reflexivity. Qed.
Lemma c_d_global g : global_ok g -> c_global (d_global g) = Some g.
Proof. destruct g. intros H. unfold c_global, d_global. cbn in *. rewrite c_d_val by exact H. reflexivity. Qed.
Lemma c_d_entity n : entity_ok m64 n -> c_entity (d_entity n) = Some n.
Proof. destruct n; cbn; auto; intros H; [rewrite c_d_table by exact H|rewrite c_d_global by exact H]; reflexivity. Qed.
Lemma c_d_export x : export_ok x -> c_export (d_export x) = Some x.
Proof. destruct x as [n [] i]; reflexivity. Qed.

(** * Reading what was written *)
Lemma enc_u_fuel k k' v bs : enc_u k v = Some bs -> (k <= k')%nat -> enc_u k' v = Some bs.
Proof.
  revert k' v bs. induction k as [|k IH]; intros [|k'] v bs E Hk; try discriminate; [lia|]. cbn [enc_u] in *.
  destruct (Z.shiftr v 7 =? 0); [exact E|]. destruct (enc_u k (Z.shiftr v 7)) as [t|] eqn:Et; [|discriminate].
  rewrite (IH k' _ _ Et) by lia. exact E.
Qed.
Lemma dec_limit v : bound_ok m64 v -> decodes F (encode_u64 v) read_limit v.
Proof.
  unfold bound_ok. intros H. destruct m64 eqn:E.
  - destruct (dec_u64 (with_m64 true) v H) as (bs & Eb & Hb & Hd). exists bs. repeat split; auto.
    intros rest pos off ft Hf Hr. unfold read_limit. cbn [r_feat]. unfold with_m64 in Hf. rewrite Hf. apply Hd; auto.
  - destruct (dec_u32 (with_m64 false) v H) as (bs & Eb & Hb & Hd). exists bs. split; [exact (enc_u_fuel 5 10 v bs Eb ltac:(lia))|]. split; [exact Hb|].
    intros rest pos off ft Hf Hr. unfold read_limit. cbn [r_feat]. unfold with_m64 in Hf. rewrite Hf. apply Hd; auto.
Qed.
Lemma dec_opt (e : Z -> out) (m : R Z) (P : Z -> Prop) o : (forall v, P v -> decodes F (e v) m v) -> opt_ok P o ->
  decodes F (o_opt e o) (read_opt (is_some o) m) o.
Proof.
  intros H Ho. destruct o as [v|]; cbn [o_opt is_some read_opt opt_ok] in *; [|apply dec_ret].
  exact (dec_bind_ret F (e v) m (fun x => Some x) v (H v Ho)).
Qed.
Lemma dec_bind_last {A B} o (d : R A) (k : A -> R B) a b : decodes F o d a -> decodes F o_nil (k a) b -> decodes F o (bind d k) b.
Proof. intros H1 H2. rewrite <- (oapp_nil_r o). eapply dec_bind; eauto. Qed.
Lemma table_flags m s l : let f := flag_bits [m; s; l] in
  is_byte f /\ (Z.land f (Z.lnot 7) =? 0) = true /\ negb (Z.land f 1 =? 0) = m /\ negb (Z.land f 2 =? 0) = s /\ negb (Z.land f 4 =? 0) = l.
Proof. destruct m, s, l; vm_compute; repeat split; congruence. Qed.
Lemma memory_flags m s l p : let f := flag_bits [m; s; l; p] in
  is_byte f /\ (Z.land f (Z.lnot 15) =? 0) = true /\ negb (Z.land f 1 =? 0) = m /\ negb (Z.land f 2 =? 0) = s /\ negb (Z.land f 4 =? 0) = l /\
  negb (Z.land f 8 =? 0) = p.
Proof. destruct m, s, l, p; vm_compute; repeat split; congruence. Qed.
Lemma global_flags m s : let f := flag_bits [m; s] in is_byte f /\ (3 <? f) = false /\ (0 <? Z.land f 1) = m /\ (0 <? Z.land f 2) = s.
Proof. destruct m, s; vm_compute; repeat split; congruence. Qed.
Lemma dec_table t : table_ok m64 t -> decodes F (enc_table t) read_table (d_table t).
Proof.
  destruct t as [e l mn mx s]. unfold table_ok, enc_table, read_table, d_table. cbn [t_elem t_64 t_min t_max t_shared]. intros (He & Hm & Hx).
  eapply dec_bind; [apply dec_ref, He|]. apply dec_get_pos. intros pos. destruct (table_flags (is_some mx) s l) as (Hb & E0 & E1 & E2 & E3).
  apply dec_byte_bind; [exact Hb|]. rewrite E0, E1, E2, E3. cbn [negb]. eapply dec_bind; [apply dec_limit, Hm|].
  eapply dec_bind_last; [apply dec_opt with (P := bound_ok m64); [apply dec_limit|exact Hx]|]. apply dec_ret.
Qed.
Lemma dec_memory m : memory_ok m64 m -> decodes F (enc_memory m) read_memory m.
Proof.
  destruct m as [l s mn mx pg]. unfold memory_ok, enc_memory, read_memory. cbn [m_64 m_min m_max m_shared m_page]. intros (Hm & Hx & Hp).
  apply dec_get_pos. intros pos. destruct (memory_flags (is_some mx) s l (is_some pg)) as (Hb & E0 & E1 & E2 & E3 & E4).
  apply dec_byte_bind; [exact Hb|]. rewrite E0, E1, E2, E3, E4. cbn [negb]. eapply dec_bind; [apply dec_limit, Hm|].
  eapply dec_bind; [apply dec_opt with (P := bound_ok m64); [apply dec_limit|exact Hx]|].
  eapply dec_bind_last; [apply dec_opt with (P := fun p => 0 <= p < 64); [|exact Hp]|apply dec_ret].
  intros v Hv. eapply dec_bind_last; [apply dec_u32; unfold in_u; lia|]. cbv beta. destruct (Z.leb_spec 64 v); [lia|apply dec_ret].
Qed.
Lemma dec_global g : global_ok g -> decodes F (enc_global g) read_global (d_global g).
Proof.
  destruct g as [v m s]. unfold global_ok, enc_global, read_global, d_global. cbn [g_val g_mut g_shared]. intros H.
  eapply dec_bind; [apply dec_val, H|]. destruct (global_flags m s) as (Hb & E0 & E1 & E2). eapply dec_bind_last; [apply dec_byte, Hb|].
  rewrite E0, E1, E2. apply dec_ret.
Qed.
Lemma dec_tag i : in_u 32 i -> decodes F (enc_tag i) read_tag i.
Proof. intros H. unfold enc_tag, read_tag. apply dec_byte_bind; [byte|]. change (negb (0 =? 0)) with false. apply dec_u32, H. Qed.
Lemma dec_kind b k : read_kind (mkReader [b] 0 0 all_features) = Ok (k, mkReader [] 1 0 all_features) -> is_byte b -> decodes F (o_byte b) read_kind k.
Proof.
  intros H Hb. exists [b]. split; [reflexivity|]. split; [constructor; [exact Hb|constructor]|]. intros rest pos off ft _ _.
  unfold read_kind, bind, get_pos, read_u8 in *. cbn [app r_rem] in *. destruct (b =? 0); [injection H as <-; reflexivity|].
  destruct (b =? 1); [injection H as <-; reflexivity|]. destruct (b =? 2); [injection H as <-; reflexivity|]. destruct (b =? 3); [injection H as <-; reflexivity|].
  destruct (b =? 4); [injection H as <-; reflexivity|]. destruct (b =? 32); [injection H as <-; reflexivity|]. discriminate.
Qed.
Lemma dec_entity n : entity_ok m64 n -> decodes F (enc_entity n) read_entity (d_entity n).
Proof.
  destruct n as [i|t|m|g|i|i]; cbn [entity_ok enc_entity d_entity]; intros H; unfold read_entity;
    (eapply dec_bind; [apply dec_kind; [vm_compute; reflexivity|byte]|]; cbv beta iota);
    (eapply dec_bind_last; [|apply dec_ret]).
  - apply dec_u32, H. - apply dec_table, H. - apply dec_memory, H. - apply dec_global, H. - apply dec_tag, H. - apply dec_u32, H.
Qed.
Lemma dec_name s : name_ok s -> decodes F (o_str s) read_string s.
Proof. intros (H1 & H2 & H3). apply dec_string; auto. Qed.
Lemma dec_export x : export_ok x -> decodes F (enc_export x) read_export (d_export x).
Proof.
  destruct x as [n k i]. intros [Hn Hi]. unfold enc_export, read_export, d_export. cbn [x_name x_kind x_index] in *.
  eapply dec_bind; [apply dec_name, Hn|]. cbv beta.
  destruct k; (eapply dec_bind; [apply dec_kind; [vm_compute; reflexivity|byte]|]; cbv beta iota; eapply dec_bind_last; [apply dec_u32, Hi|apply dec_ret]).
Qed.
Lemma dec_skip_raw {A} o (d : R A) a : decodes F o d a -> decodes F o (skip_raw d) (bytes_of o).
Proof.
  intros (bs & -> & Hb & Hd). exists bs. split; [reflexivity|]. split; [exact Hb|]. intros rest pos off ft Hf Hr. unfold skip_raw.
  rewrite Hd by auto. cbn [r_pos r_rem bytes_of]. replace (pos + zlen bs - pos) with (zlen bs) by lia. unfold zlen. rewrite Nat2Z.id.
  rewrite firstn_app, Nat.sub_diag, firstn_all, firstn_O, app_nil_r. reflexivity.
Qed.
Lemma dec_skip_string s : name_ok s -> decodes F (o_str s) skip_string tt.
Proof.
  intros (H & _ & Hl). replace (o_str s) with (encode_usize (zlen s) +++ Some s)
    by (unfold o_str, Encoder.Model.encode_bytes, oapp; destruct (encode_usize (zlen s)); reflexivity).
  unfold skip_string. eapply dec_bind; [apply dec_usize; eapply zlen_in_u; [exact Hl|lia]|]. cbv beta.
  unfold MAX_WASM_STRING_SIZE. destruct (Z.ltb_spec 100000 (zlen s)); [lia|]. eapply dec_bind_last; [apply dec_read_bytes, H|apply dec_ret].
Qed.
Lemma dec_counted {A B} (e : A -> out) (d : R B) (g : A -> B) l : zlen l < 2 ^ 32 ->
  Forall (fun a => decodes F (e a) d (g a)) l -> decodes F (o_vec e l) (let* c := read_var_u32 in read_n (Z.to_nat c) d) (map g l).
Proof.
  intros Hl H. unfold o_vec. eapply dec_bind; [apply dec_usize; unfold in_u, zlen in *; lia|]. cbv beta. unfold zlen. rewrite Nat2Z.id. apply dec_read_n, H.
Qed.
Lemma dec_item x : item_ok m64 x -> decodes F (enc_item x) read_item (d_item x).
Proof.
  destruct x as [n t]. intros [Hn Ht]. unfold enc_item, read_item, d_item. cbn [i_name i_ty] in *. eapply dec_bind; [apply dec_name, Hn|]. cbv beta.
  eapply dec_bind_last; [apply dec_entity, Ht|apply dec_ret].
Qed.
Lemma dec_skip_item x : item_ok m64 x -> decodes F (enc_item x) (let* _ := skip_string in let* _ := read_entity in ret tt) tt.
Proof.
  destruct x as [n t]. intros [Hn Ht]. unfold enc_item. cbn [i_name i_ty] in *. eapply dec_bind; [apply dec_skip_string, Hn|]. cbv beta.
  eapply dec_bind_last; [apply dec_entity, Ht|apply dec_ret].
Qed.
Lemma dec_peek_bytes {B} x o (k : list Z -> R B) b : decodes F (o_byte x +++ o) (k [x]) b -> decodes F (o_byte x +++ o) (bind (peek_bytes 1) k) b.
Proof.
  intros (bs & E & Hb & Hd). exists bs. split; [exact E|]. split; [exact Hb|]. intros rest pos off ft Hf Hr. unfold bind, peek_bytes, bytes_remaining.
  destruct o as [o|]; [|discriminate]. injection E as <-. cbn [app r_rem]. replace (1 <=? zlen (x :: o ++ rest)) with true
    by (symmetry; apply Z.leb_le; unfold zlen; cbn [List.length]; lia). exact (Hd rest pos off ft Hf Hr).
Qed.
Definition entity_lead (n : e_entity) : Z :=
  match n with NFunc _ => 0 | NFuncExact _ => 0x20 | NTable _ => 1 | NMemory _ => 2 | NGlobal _ => 3 | NTag _ => 4 end.
Lemma enc_entity_lead n : exists t, enc_entity n = o_byte (entity_lead n) +++ t.
Proof. destruct n; eexists; reflexivity. Qed.
Lemma dec_empty {B} o (k : list Z -> R B) b : decodes F o (k []) b -> decodes F (o_byte 0 +++ o) (bind read_string k) b.
Proof. intros H. eapply dec_bind; [|exact H]. change (o_byte 0) with (o_str []). apply dec_string; [constructor|reflexivity|unfold zlen, MAX_WASM_STRING_SIZE; cbn; lia]. Qed.
Lemma dec_imports i : imports_ok m64 i -> decodes F (enc_imports i) read_imports (d_imports i).
Proof.
  destruct i as [m n ty|m items|m ty names]; cbn [imports_ok enc_imports d_imports]; unfold read_imports.
  - intros (Hm & Hn & Ht). eapply dec_bind; [apply dec_name, Hm|]. cbv beta. eapply dec_bind; [apply dec_name, Hn|]. cbv beta.
    destruct (enc_entity_lead ty) as [t Et]. rewrite Et. apply dec_peek_bytes. cbn [nth].
    replace (entity_lead ty =? 0x7F) with false by (destruct ty; reflexivity). replace (entity_lead ty =? 0x7E) with false by (destruct ty; reflexivity).
    rewrite !andb_false_r. rewrite <- Et. eapply dec_bind_last; [apply dec_entity, Ht|apply dec_ret].
  - intros (Hm & Hi & Hl). eapply dec_bind; [apply dec_name, Hm|]. cbv beta. apply dec_empty. apply dec_peek_bytes. cbn [nth is_empty]. change (0x7F =? 0x7F) with true. cbn [andb].
    eapply dec_bind; [exact (dec_read_bytes F [0x7F] ltac:(constructor; [byte|constructor]))|]. cbv beta.
    change (fun x => o_str (i_name x) +++ enc_entity (i_ty x)) with enc_item.
    eapply dec_bind_last; [eapply dec_skip_raw; apply dec_counted with (g := fun _ => tt); [exact Hl|]|apply dec_ret].
    eapply Forall_impl; [|exact Hi]. intros x. apply dec_skip_item.
  - intros (Hm & Ht & Hi & Hl). eapply dec_bind; [apply dec_name, Hm|]. cbv beta. apply dec_empty. apply dec_peek_bytes. cbn [nth is_empty].
    change (0x7E =? 0x7F) with false. change (0x7E =? 0x7E) with true. cbn [andb].
    eapply dec_bind; [exact (dec_read_bytes F [0x7E] ltac:(constructor; [byte|constructor]))|]. cbv beta. eapply dec_bind; [apply dec_entity, Ht|]. cbv beta.
    eapply dec_bind_last; [eapply dec_skip_raw; apply dec_counted with (g := fun _ => tt); [exact Hl|]|apply dec_ret].
    eapply Forall_impl; [|exact Hi]. intros x. apply dec_skip_string.
Qed.
(** * Whole sections *)
Lemma section_ok {A B} (e : A -> out) (d : R B) (g : A -> B) l ft off : F ft -> zlen l < 2 ^ 32 -> Forall (fun a => decodes F (e a) d (g a)) l ->
  exists bs, o_vec e l = Some bs /\ bytes_ok bs /\ section_items d ft off bs = Ok (map g l).
Proof.
  intros Hf Hl H. destruct (dec_counted e d g l Hl H) as (bs & E & Hb & Hd). exists bs. split; [exact E|]. split; [exact Hb|].
  unfold section_items, read_items, new_reader. specialize (Hd [] 0 off ft Hf ltac:(constructor)). rewrite app_nil_r in Hd.
  unfold bind in *. destruct (read_var_u32 _) as [[c r1]|]; [|discriminate]. rewrite Hd. reflexivity.
Qed.
Lemma c_d_imports i : imports_ok m64 i -> forall ft off, F ft ->
  c_imports ft off (d_imports i) = Some i /\
  exists l, flatten_imports ft off (d_imports i) = Ok l /\ map (fun x => (fst x, c_entity (snd x))) l = map (fun x => (fst x, Some (snd x))) (members i).
Proof.
  destruct i as [m n ty|m items|m ty names]; cbn [imports_ok d_imports c_imports flatten_imports members]; intros H ft off Hf.
  - destruct H as (_ & _ & Ht). rewrite (c_d_entity ty Ht). split; [reflexivity|]. eexists. split; [reflexivity|]. cbn [map fst snd]. rewrite c_d_entity by exact Ht. reflexivity.
  - destruct H as (_ & Hi & Hl). destruct (section_ok enc_item read_item d_item items ft off Hf Hl) as (bs & E & _ & Es).
    { eapply Forall_impl; [|exact Hi]. intros x. apply dec_item. }
    rewrite E. cbn [bytes_of]. rewrite Es. split.
    + rewrite (all_some_map c_item d_item (fun x => x)); [rewrite map_id; reflexivity|]. eapply Forall_impl; [|exact Hi]. intros [n t] [_ Ht]. unfold c_item, d_item. cbn [fst snd i_name i_ty]. rewrite c_d_entity by exact Ht. reflexivity.
    + eexists. split; [reflexivity|]. clear E Es Hl. induction Hi as [|[n t] l [_ Ht] _ IH]; [reflexivity|]. cbn [map d_item fst snd i_name i_ty] in *. rewrite IH, c_d_entity by exact Ht. reflexivity.
  - destruct H as (_ & Ht & Hi & Hl). destruct (section_ok o_str read_string (fun x => x) names ft off Hf Hl) as (bs & E & _ & Es).
    { eapply Forall_impl; [|exact Hi]. intros x. apply dec_name. }
    rewrite E. cbn [bytes_of]. rewrite Es, map_id. rewrite (c_d_entity ty Ht). split; [reflexivity|]. eexists. split; [reflexivity|].
    clear - Ht. induction names as [|n l IH]; [reflexivity|]. cbn [map fst snd] in *. rewrite IH, c_d_entity by exact Ht. reflexivity.
Qed.
(** * What the readers return *)
Lemma y_limit : yields F read_limit (bound_ok m64).
Proof.
  intros r b r' Hf Hr E. unfold read_limit in E. unfold with_m64 in Hf. rewrite Hf in E. unfold bound_ok. destruct m64.
  - exact (y_u64 (fun _ => True) r b r' I Hr E).
  - exact (y_u32 (fun _ => True) r b r' I Hr E).
Qed.
Lemma y_opt (c : bool) (m : R Z) (P : Z -> Prop) : yields F m P -> yields F (read_opt c m) (opt_ok P).
Proof. intros H. unfold read_opt. destruct c; [|apply y_ret; exact I]. eapply y_bind; [exact H|]. intros v Hv. apply y_ret. exact Hv. Qed.
Lemma y_table : yields F read_table (from (table_ok m64) d_table).
Proof.
  unfold read_table. eapply y_bind; [apply y_ref|]. intros e (er & He & ->). eapply y_bind; [apply y_get_pos|]. intros pos _.
  eapply y_bind; [apply y_u8|]. intros f _. destruct (negb _); [apply y_fail_pos|]. eapply y_bind; [apply y_limit|]. intros mn Hm.
  eapply y_bind; [apply y_opt, y_limit|]. intros mx Hx. apply y_ret.
  exists (mkTable er (negb (Z.land f 4 =? 0)) mn mx (negb (Z.land f 2 =? 0))). split; [|reflexivity]. split; [exact He|split; [exact Hm|exact Hx]].
Qed.
Lemma y_memory : yields F read_memory (memory_ok m64).
Proof.
  unfold read_memory. eapply y_bind; [apply y_get_pos|]. intros pos _.
  eapply y_bind; [apply y_u8|]. intros f _. destruct (negb _); [apply y_fail_pos|]. eapply y_bind; [apply y_limit|]. intros mn Hm.
  eapply y_bind; [apply y_opt, y_limit|]. intros mx Hx.
  eapply y_bind; [apply y_opt with (P := fun p => 0 <= p < 64)|].
  - eapply y_bind; [apply y_u32|]. intros v Hv. destruct (Z.leb_spec 64 v); [apply y_fail_pos|]. apply y_ret. unfold in_u in Hv. lia.
  - intros pg Hp. apply y_ret. split; [exact Hm|split; [exact Hx|exact Hp]].
Qed.
Lemma y_global : yields F read_global (from global_ok d_global).
Proof.
  unfold read_global. eapply y_bind; [apply y_val|]. intros v (ev & Hv & ->). eapply y_bind; [apply y_u8|]. intros f _.
  destruct (3 <? f); [apply y_fail_at|]. apply y_ret. exists (mkGlobal ev (0 <? Z.land f 1) (0 <? Z.land f 2)). split; [exact Hv|reflexivity].
Qed.
Lemma y_tag : yields F read_tag (in_u 32).
Proof. unfold read_tag. eapply y_bind; [apply y_u8|]. intros a _. destruct (negb _); [apply y_fail_at|apply y_u32]. Qed.
Lemma y_kind : yields F read_kind (fun _ => True).
Proof.
  unfold read_kind. eapply y_bind; [apply y_get_pos|]. intros pos _. eapply y_bind; [apply y_u8|]. intros b _.
  repeat (apply y_if; intros _; [apply y_ret; exact I|]). apply y_fail_pos.
Qed.
Lemma y_entity : yields F read_entity (from (entity_ok m64) d_entity).
Proof.
  unfold read_entity. eapply y_bind; [apply y_kind|]. intros k _. destruct k.
  - eapply y_bind; [apply y_u32|]. intros i Hi. apply y_ret. exists (NFunc i). auto.
  - eapply y_bind; [apply y_table|]. intros t (v & Hv & ->). apply y_ret. exists (NTable v). auto.
  - eapply y_bind; [apply y_memory|]. intros i Hi. apply y_ret. exists (NMemory i). auto.
  - eapply y_bind; [apply y_global|]. intros t (v & Hv & ->). apply y_ret. exists (NGlobal v). auto.
  - eapply y_bind; [apply y_tag|]. intros i Hi. apply y_ret. exists (NTag i). auto.
  - eapply y_bind; [apply y_u32|]. intros i Hi. apply y_ret. exists (NFuncExact i). auto.
Qed.
Lemma y_name : yields F read_string name_ok.
Proof. exact (y_string F). Qed.
Lemma y_export : yields F read_export (from export_ok d_export).
Proof.
  unfold read_export. eapply y_bind; [apply y_name|]. intros n Hn. eapply y_bind; [apply y_kind|]. intros k _.
  destruct k; try apply y_fail_at; (eapply y_bind; [apply y_u32|]; intros i Hi; apply y_ret).
  - exists (mkExport n XFunc i). split; [split; auto|reflexivity].
  - exists (mkExport n XTable i). split; [split; auto|reflexivity].
  - exists (mkExport n XMemory i). split; [split; auto|reflexivity].
  - exists (mkExport n XGlobal i). split; [split; auto|reflexivity].
  - exists (mkExport n XTag i). split; [split; auto|reflexivity].
Qed.
Lemma y_item : yields F read_item (from (item_ok m64) d_item).
Proof.
  unfold read_item. eapply y_bind; [apply y_name|]. intros n Hn. eapply y_bind; [apply y_entity|]. intros t (v & Hv & ->). apply y_ret.
  exists (mkItem n v). split; [split; auto|reflexivity].
Qed.
Lemma y_section {A} (d : R A) P ft off bs l : yields F d P -> F ft -> bytes_ok bs -> section_items d ft off bs = Ok l -> Forall P l /\ zlen l < 2 ^ 32.
Proof.
  intros Hy Hf Hb E. unfold section_items, read_items, new_reader, bind in E.
  destruct (read_var_u32 _) as [[c r1]|e] eqn:E1; [|discriminate]. destruct (y_u32 F (mkReader bs 0 off ft) c r1 Hf Hb E1) as (Hc & Hr1 & Ef1). cbn [r_feat] in Ef1.
  destruct (read_n (Z.to_nat c) d r1) as [[l' r2]|e] eqn:E2; [|discriminate]. rewrite <- Ef1 in Hf. destruct (y_read_n F (Z.to_nat c) d P Hy _ _ _ Hf Hr1 E2) as ((Hl & Hn) & _).
  destruct (eof r2); [|discriminate]. injection E as <-. split; [exact Hl|]. unfold zlen, in_u in *. rewrite Hn. lia.
Qed.
Lemma y_skip_raw {A} (d : R A) P : yields F d P -> yields F (skip_raw d) bytes_ok.
Proof.
  intros Hy r b r' Hf Hr E. unfold skip_raw in E. destruct (d r) as [[a r1]|e] eqn:E1; [|discriminate]. injection E as <- <-.
  destruct (Hy _ _ _ Hf Hr E1) as (_ & H1 & H2). split; [|auto]. rewrite <- (firstn_skipn (Z.to_nat (r_pos r1 - r_pos r)) (r_rem r)) in Hr.
  apply bytes_ok_app in Hr. apply Hr.
Qed.
Lemma y_skip_string : yields F skip_string (fun _ => True).
Proof.
  unfold skip_string. eapply y_bind; [apply y_u32|]. intros n [Hn _]. destruct (_ <? n); [apply y_fail_at|].
  eapply y_bind; [apply y_read_bytes, Hn|]. intros s _. apply y_ret. exact I.
Qed.
Lemma y_peek_bytes n : yields F (peek_bytes n) (fun _ => True).
Proof. intros r b r' Hf Hr E. unfold peek_bytes in E. destruct (_ <=? _); [|discriminate]. injection E as <- <-. auto. Qed.
(** What is known of a group before its items are read. *)
Definition raw_ok (p : p_imports) : Prop :=
  match p with
  | QSingle m n ty => name_ok m /\ name_ok n /\ from (entity_ok m64) d_entity ty
  | QCompact1 m items => name_ok m /\ bytes_ok items
  | QCompact2 m ty names => name_ok m /\ from (entity_ok m64) d_entity ty /\ bytes_ok names
  end.
Lemma y_imports : yields F read_imports raw_ok.
Proof.
  unfold read_imports. eapply y_bind; [apply y_name|]. intros m Hm. eapply y_bind; [apply y_name|]. intros n Hn.
  eapply y_bind; [apply y_peek_bytes|]. intros d _. apply y_if; intros _.
  - eapply y_bind; [apply y_read_bytes; lia|]. intros _ _. eapply y_bind; [eapply y_skip_raw with (P := fun _ => True)|].
    + eapply y_bind; [apply y_u32|]. intros c _. eapply y_weaken; [|apply y_read_n with (P := fun _ => True)]; [auto|]. eapply y_bind; [apply y_skip_string|]. intros _ _. eapply y_bind; [apply y_entity|]. intros _ _. apply y_ret. exact I.
    + intros items Hi. apply y_ret. split; auto.
  - apply y_if; intros _.
    + eapply y_bind; [apply y_read_bytes; lia|]. intros _ _. eapply y_bind; [apply y_entity|]. intros ty Ht. eapply y_bind; [eapply y_skip_raw with (P := fun _ => True)|].
      * eapply y_bind; [apply y_u32|]. intros c _. eapply y_weaken; [|apply y_read_n, y_skip_string]. auto.
      * intros items Hi. apply y_ret. repeat split; auto; apply Hm.
    + eapply y_bind; [apply y_entity|]. intros ty Ht. apply y_ret. split; [exact Hm|]. split; [exact Hn|exact Ht].
Qed.
Lemma raw_imports p ft off i : raw_ok p -> F ft -> c_imports ft off p = Some i -> imports_ok m64 i.
Proof.
  destruct p as [m n ty|m items|m ty names]; cbn [raw_ok c_imports].
  - intros (Hm & Hn & v & Hv & ->) _ E. rewrite (c_d_entity v Hv) in E. injection E as <-. repeat split; auto; try apply Hm; apply Hn.
  - intros (Hm & Hb) Hf E. destruct (section_items _ _ _ _) as [l|] eqn:Es; [|discriminate].
    destruct (y_section _ _ _ _ _ _ y_item Hf Hb Es) as [Hl Hn]. destruct (from_list _ _ _ Hl) as (l' & Hl' & ->).
    rewrite (all_some_map c_item d_item (fun x => x)), map_id in E.
    + injection E as <-. rewrite zlen_map in Hn. split; [exact Hm|]. split; assumption.
    + eapply Forall_impl; [|exact Hl']. intros [n t] [_ Ht]. unfold c_item, d_item. cbn [fst snd i_name i_ty]. rewrite c_d_entity by exact Ht. reflexivity.
  - intros (Hm & (v & Hv & ->) & Hb) Hf E. destruct (section_items _ _ _ _) as [l|] eqn:Es; [|discriminate].
    destruct (y_section _ _ _ _ _ _ y_name Hf Hb Es) as [Hl Hn]. rewrite (c_d_entity v Hv) in E. injection E as <-. repeat split; auto; apply Hm.
Qed.

(** * Statements *)
Lemma entities_roundtrip :
  (forall t, table_ok m64 t -> reads_as F enc_table read_table c_table t) /\
  (forall m, memory_ok m64 m -> reads_as F enc_memory read_memory Some m) /\
  (forall g, global_ok g -> reads_as F enc_global read_global c_global g) /\
  (forall i, in_u 32 i -> reads_as F enc_tag read_tag Some i) /\
  (forall n, entity_ok m64 n -> reads_as F enc_entity read_entity c_entity n) /\
  (forall x, export_ok x -> reads_as F enc_export read_export c_export x).
Proof.
  split; [intros v H; exact (reads_as_intro F _ _ _ d_table v (dec_table v H) (c_d_table v H))|].
  split; [intros v H; exact (reads_as_intro F _ _ _ (fun x => x) v (dec_memory v H) eq_refl)|].
  split; [intros v H; exact (reads_as_intro F _ _ _ d_global v (dec_global v H) (c_d_global v H))|].
  split; [intros v H; exact (reads_as_intro F _ _ _ (fun x => x) v (dec_tag v H) eq_refl)|].
  split; [intros v H; exact (reads_as_intro F _ _ _ d_entity v (dec_entity v H) (c_d_entity v H))|].
  intros v H; exact (reads_as_intro F _ _ _ d_export v (dec_export v H) (c_d_export v H)).
Qed.
Lemma from_id {B} (d : R B) P : yields F d P -> yields F d (from P (fun x => x)).
Proof. apply y_weaken. intros b Hb. exists b. auto. Qed.
Lemma entities_rewrite :
  rewrites F enc_table read_table c_table /\ rewrites F enc_memory read_memory Some /\ rewrites F enc_global read_global c_global /\
  rewrites F enc_tag read_tag Some /\ rewrites F enc_entity read_entity c_entity /\ rewrites F enc_export read_export c_export.
Proof.
  split; [exact (rewrites_intro F _ _ _ _ _ y_table dec_table c_d_table)|].
  split; [exact (rewrites_intro F _ _ _ _ _ (from_id _ _ y_memory) dec_memory (fun v _ => eq_refl))|].
  split; [exact (rewrites_intro F _ _ _ _ _ y_global dec_global c_d_global)|].
  split; [exact (rewrites_intro F _ _ _ _ _ (from_id _ _ y_tag) dec_tag (fun v _ => eq_refl))|].
  split; [exact (rewrites_intro F _ _ _ _ _ y_entity dec_entity c_d_entity)|].
  exact (rewrites_intro F _ _ _ _ _ y_export dec_export c_d_export).
Qed.
Definition reads_as_imports (i : e_imports) : Prop :=
  exists bs p, enc_imports i = Some bs /\
  (forall rest pos off ft, F ft -> bytes_ok rest ->
     read_imports (mkReader (bs ++ rest) pos off ft) = Ok (p, mkReader rest (pos + zlen bs) off ft)) /\
  forall off ft, F ft ->
    c_imports ft off p = Some i /\
    exists l, flatten_imports ft off p = Ok l /\ map (fun x => (fst x, c_entity (snd x))) l = map (fun x => (fst x, Some (snd x))) (members i).
Lemma imports_roundtrip i : imports_ok m64 i -> reads_as_imports i.
Proof.
  intros H. destruct (dec_imports i H) as (bs & E & _ & Hd). exists bs, (d_imports i). split; [exact E|]. split; [exact Hd|].
  intros off ft Hf. exact (c_d_imports i H ft off Hf).
Qed.
Lemma imports_rewrite r p r' off i : F (r_feat r) -> bytes_ok (r_rem r) -> read_imports r = Ok (p, r') ->
  c_imports (r_feat r) off p = Some i -> reads_as_imports i.
Proof.
  intros Hf Hr E Ec. destruct (y_imports _ _ _ Hf Hr E) as (Hp & _). apply imports_roundtrip. exact (raw_imports _ _ _ _ Hp Hf Ec).
Qed.
(** Sections that list such items: the count comes first, every item is read back in order. *)
Definition section_reads {A B} (enc : A -> out) (d : R B) (conv : B -> option A) (l : list A) : Prop :=
  exists bs ps, o_vec enc l = Some bs /\ all_some conv ps = Some l /\ forall ft off, F ft -> section_items d ft off bs = Ok ps.
Lemma section_reads_intro {A B} (enc : A -> out) (d : R B) conv den (ok : A -> Prop) l :
  (forall v, ok v -> decodes F (enc v) d (den v)) -> (forall v, ok v -> conv (den v) = Some v) ->
  Forall ok l -> zlen l < 2 ^ 32 -> section_reads enc d conv l.
Proof.
  intros Hd Hc Hl Hn.
  assert (HF : Forall (fun a => decodes F (enc a) d (den a)) l) by (eapply Forall_impl; [|exact Hl]; exact Hd).
  destruct (dec_counted enc d den l Hn HF) as (bs & E & Hb & _).
  exists bs, (map den l). split; [exact E|]. split.
  - rewrite (all_some_map conv den (fun x => x)); [rewrite map_id; reflexivity|]. eapply Forall_impl; [|exact Hl]. exact Hc.
  - intros ft off Hft. destruct (section_ok enc d den l ft off Hft Hn HF) as (bs' & E' & _ & H). rewrite E in E'. injection E' as <-. exact H.
Qed.
Lemma sections_roundtrip :
  (forall l, Forall rec_ok l -> zlen l < 2 ^ 32 -> section_reads enc_rec read_rec c_rec l) /\
  (forall l, Forall (in_u 32) l -> zlen l < 2 ^ 32 -> section_reads encode_u32 read_var_u32 Some l) /\
  (forall l, Forall (table_ok m64) l -> zlen l < 2 ^ 32 -> section_reads enc_table read_table c_table l) /\
  (forall l, Forall (memory_ok m64) l -> zlen l < 2 ^ 32 -> section_reads enc_memory read_memory Some l) /\
  (forall l, Forall (in_u 32) l -> zlen l < 2 ^ 32 -> section_reads enc_tag read_tag Some l) /\
  (forall l, Forall export_ok l -> zlen l < 2 ^ 32 -> section_reads enc_export read_export c_export l).
Proof.
  split; [intros l; exact (section_reads_intro _ _ _ _ _ l (dec_rec F) c_d_rec)|].
  split; [intros l; exact (section_reads_intro _ _ _ (fun x => x) _ l (dec_u32 F) (fun v _ => eq_refl))|].
  split; [intros l; exact (section_reads_intro _ _ _ _ _ l dec_table c_d_table)|].
  split; [intros l; exact (section_reads_intro _ _ _ (fun x => x) _ l dec_memory (fun v _ => eq_refl))|].
  split; [intros l; exact (section_reads_intro _ _ _ (fun x => x) _ l dec_tag (fun v _ => eq_refl))|].
  intros l; exact (section_reads_intro _ _ _ _ _ l dec_export c_d_export).
Qed.
End m64.

(** * Honesty *)
Lemma honest_limit : honest read_limit.
Proof.
  intros r. unfold read_limit. pose proof (honest_read_var_u64 r) as H64. pose proof (honest_read_var_u32 r) as H32.
  change (forall ext, r_feat (extend r ext) = r_feat r) with (forall ext : list Z, r_feat r = r_feat r). destruct r as [rem pos off ft]. unfold extend in *. cbn [r_feat r_rem r_pos r_off] in *. destruct (f_memory64 ft); assumption.
Qed.
#[export] Hint Resolve honest_limit honest_ref honest_val honest_heap : honest.
Lemma honest_opt {A} c (m : R A) : honest m -> honest (read_opt c m).
Proof. intros H. unfold read_opt. honesty. Qed.
Lemma honest_table : honest read_table. Proof. unfold read_table, read_opt. honesty. Qed.
Lemma honest_memory : honest read_memory. Proof. unfold read_memory, read_opt. honesty. Qed.
Lemma honest_global : honest read_global. Proof. unfold read_global. honesty. Qed.
Lemma honest_tag : honest read_tag. Proof. unfold read_tag. honesty. Qed.
Lemma honest_kind : honest read_kind. Proof. unfold read_kind. honesty. Qed.
#[export] Hint Resolve honest_table honest_memory honest_global honest_tag honest_kind : honest.
Lemma honest_entity : honest read_entity. Proof. unfold read_entity. honesty. Qed.
Lemma honest_export : honest read_export. Proof. unfold read_export. honesty. Qed.
#[export] Hint Resolve honest_entity honest_export : honest.
Lemma consumes_pos r bs r' : consumes r bs r' -> r_pos r' = r_pos r + zlen bs.
Proof. intros (_ & H & _). exact H. Qed.
Lemma honest_skip_raw {A} (m : R A) : honest m -> honest (skip_raw m).
Proof.
  intros H r. specialize (H r). unfold skip_raw. destruct (m r) as [[a r']|e].
  - destruct H as [(bs & Hc) He]. split; [exists bs; exact Hc|]. intros ext. rewrite He. f_equal. f_equal.
    pose proof (consumes_pos _ _ _ Hc) as Hp. destruct Hc as (E & _). destruct r, r'. cbn in *. rewrite Hp, E.
    replace (r_pos + zlen bs - r_pos) with (zlen bs) by lia. unfold zlen. rewrite Nat2Z.id. rewrite <- app_assoc, !firstn_app, Nat.sub_diag, !firstn_O. reflexivity.
  - destruct (e_hint e); [|intros ext; rewrite H; reflexivity]. destruct H as [H1 H2]. split; [exact H1|]. intros ext Hx. destruct (H2 ext Hx) as (e' & E & He').
    exists e'. rewrite E. auto.
Qed.
Lemma honest_imports : honest read_imports.
Proof.
  unfold read_imports. honesty; apply honest_skip_raw; honesty.
Qed.
Lemma entities_honest :
  honest read_table /\ honest read_memory /\ honest read_global /\ honest read_tag /\ honest read_entity /\ honest read_export /\ honest read_imports.
Proof. repeat split; auto using honest_table, honest_memory, honest_global, honest_tag, honest_entity, honest_export, honest_imports. Qed.
