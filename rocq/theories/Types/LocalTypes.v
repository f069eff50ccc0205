(** Reading types depends only on the bytes consumed. *)
From Verif.Base Require Import Prelude Utf8.
From Verif.Reader Require Import Model Spec Mono.
From Verif.Leb Require Import Model.
From Verif.Codec Require Import Kit Local.
From Verif.Types Require Import RefModel CodecModel CodecTop EntityModel.
From Coq Require Import Lia.

Lemma sim_opt {A B} (o : option A) (f : A -> B) msg msg' d d' :
  sim (match o with Some r => ret (f r) | None => fail_pos msg d end) (match o with Some r => ret (f r) | None => fail_pos msg' d' end).
Proof. destruct o; [apply sim_ret|apply sim_fail_pos]. Qed.
Lemma sim_skip_raw {A} (m m' : R A) : sim m m' -> sim (skip_raw m) (skip_raw m').
Proof.
  intros H r a r' E. unfold skip_raw in E. destruct (m r) as [[b r1]|e] eqn:E1; [|discriminate]. injection E as <- <-.
  destruct (H _ _ _ E1) as (bs & C & D). exists bs. split; [exact C|]. intros rest pos off. unfold skip_raw. rewrite D. cbn [r_pos r_rem].
  destruct C as (C1 & C2 & _). rewrite C1, C2. replace (pos + zlen bs - pos) with (zlen bs) by lia. replace (r_pos r + zlen bs - r_pos r) with (zlen bs) by lia.
  replace (Z.to_nat (zlen bs)) with (List.length bs) by (unfold zlen; lia). rewrite !firstn_app, !Nat.sub_diag, !firstn_O, !app_nil_r. reflexivity.
Qed.
Lemma eats_aht : eats read_aht.
Proof. apply eats_bind_l; [apply eats_u8|]. intros b. repeat (apply moves_if; [apply moves_ret|]). intros r a r' E. discriminate. Qed.
Lemma sim_aht : sim read_aht read_aht.
Proof. apply sim_bind; [apply sim_u8|]. intros b. repeat (apply sim_if; [apply sim_ret|]). apply sim_fail_at. Qed.
Lemma sim_packed {B} i (k k' : Z -> R B) : (forall p, sim (k p) (k' p)) -> sim (bind (packed_or_limit i) k) (bind (packed_or_limit i) k').
Proof. intros H. apply sim_bind; [|exact H]. unfold packed_or_limit. destruct (from_module_index i); [apply sim_ret|apply sim_fail_at]. Qed.
Definition heap_tail : R heap_type :=
  let* b := peek in
  if b =? 0x65 then let* _ := read_u8 in let* ty := read_aht in ret (HAbstract true ty)
  else if b =? 0x62 then let* _ := read_u8 in let* i := read_var_u32 in ret (HExact (UModule i))
  else let* ty := map_err (reclassify "invalid heap type") read_aht in ret (HAbstract false ty).
Lemma eats_heap_tail_arm b :
  eats (if b =? 0x65 then let* _ := read_u8 in let* ty := read_aht in ret (HAbstract true ty)
  else if b =? 0x62 then let* _ := read_u8 in let* i := read_var_u32 in ret (HExact (UModule i))
  else let* ty := map_err (reclassify "invalid heap type") read_aht in ret (HAbstract false ty)).
Proof.
  repeat apply eats_if.
  - apply eats_bind_l; [apply eats_u8|]. intros _. apply moves_bind; [apply eats_moves, eats_aht|intros; apply moves_ret].
  - apply eats_bind_l; [apply eats_u8|]. intros _. apply moves_bind; [apply eats_moves, eats_u32|intros; apply moves_ret].
  - apply eats_bind_l; [apply eats_map_err, eats_aht|intros; apply moves_ret].
Qed.
Lemma sim_heap_tail : sim heap_tail heap_tail.
Proof.
  apply sim_peek; [|apply eats_heap_tail_arm]. intros b. repeat apply sim_if.
  - apply sim_bind; [apply sim_u8|]. intros _. apply sim_bind; [apply sim_aht|]. intros; apply sim_ret.
  - apply sim_bind; [apply sim_u8|]. intros _. apply sim_bind; [apply sim_u32|]. intros; apply sim_ret.
  - apply sim_bind; [apply sim_map_err, sim_aht|]. intros; apply sim_ret.
Qed.
(** When the tail accepts, the number peeked at was a single byte. *)
Lemma heap_tail_byte r h r' : heap_tail r = Ok (h, r') -> exists b t, r_rem r = b :: t /\ Z.land b 0x80 = 0.
Proof.
  unfold heap_tail, bind, peek. destruct (r_rem r) as [|b t] eqn:Er; [discriminate|]. intros E. exists b, t. split; [reflexivity|].
  destruct (Z.eqb_spec b 0x65) as [->|]; [reflexivity|]. destruct (Z.eqb_spec b 0x62) as [->|]; [reflexivity|].
  unfold map_err, read_aht, bind, read_u8 in E. rewrite Er in E.
  repeat (match type of E with context [b =? ?c] => destruct (Z.eqb_spec b c) as [->|]; [reflexivity|] end).
  discriminate.
Qed.
Lemma sim_heap : sim read_heap read_heap.
Proof.
  intros r a r' E. unfold read_heap, lookahead in E. fold heap_tail in E. destruct (read_var_s33 r) as [[v r1]|e] eqn:E1; [|discriminate].
  destruct (is_u32 v) eqn:Ev.
  - assert (Hs : sim (let* p := packed_or_limit v in let* u := unpack_or_panic p in ret (HConcrete u)) (let* p := packed_or_limit v in let* u := unpack_or_panic p in ret (HConcrete u))).
    { apply sim_packed. intros p. apply sim_bind; [unfold unpack_or_panic; destruct (unpack p); [apply sim_ret|apply sim_fail_at]|intros; apply sim_ret]. }
    destruct (sim_bind _ _ _ _ sim_s33 (fun _ => Hs) r a r') as (bs & C & D); [unfold bind at 1; rewrite E1; exact E|].
    destruct (sim_s33 _ _ _ E1) as (b1 & C1 & D1). destruct (Hs _ _ _ E) as (b2 & C2 & D2).
    exists (b1 ++ b2). split; [eapply consumes_app; eauto|]. intros rest pos off. unfold read_heap, lookahead. rewrite <- app_assoc, D1, Ev.
    destruct C1 as (_ & _ & _ & <-). rewrite D2, zlen_app, Z.add_assoc. reflexivity.
  - destruct (sim_heap_tail _ _ _ E) as (bs & C & D). exists bs. split; [exact C|]. intros rest pos off.
    destruct (heap_tail_byte _ _ _ E) as (b & t & Er & Eb).
    assert (Hb : exists bs', bs = b :: bs').
    { destruct C as (C1 & C2 & _). rewrite Er in C1. destruct bs as [|y bs]; [|injection C1 as <- _; eauto].
      assert (Hp : r_pos r < r_pos r'). { eapply (eats_bind_r peek); [apply moves_peek|apply eats_heap_tail_arm|exact E]. } change (zlen (@nil Z)) with 0 in C2. lia. }
    destruct Hb as (bs' & ->). unfold read_heap, lookahead. fold heap_tail.
    unfold read_var_s33, bind, read_u8 in E1. rewrite Er, Eb in E1. cbn [Z.eqb] in E1. injection E1 as E1 _.
    assert (E2 : exists r2, read_var_s33 (mkReader ((b :: bs') ++ rest) pos off (r_feat r)) = Ok (v, r2)).
    { unfold read_var_s33, bind, read_u8. cbn [r_rem app]. rewrite Eb. cbn [Z.eqb]. eexists. unfold ret. rewrite E1. reflexivity. }
    destruct E2 as [r2 E2]. rewrite E2, Ev. apply D.
Qed.
Lemma eats_heap : eats read_heap.
Proof.
  intros r a r' E. unfold read_heap, lookahead in E. fold heap_tail in E. destruct (read_var_s33 r) as [[v r1]|e] eqn:E1; [|discriminate].
  destruct (is_u32 v).
  - apply eats_s33 in E1. unfold packed_or_limit, unpack_or_panic, bind in E. destruct (from_module_index v) as [p|]; [|discriminate]. cbn in E. destruct (unpack p); [|discriminate]. cbn in E. injection E as _ <-. exact E1.
  - eapply (eats_bind_r peek); [apply moves_peek|apply eats_heap_tail_arm|exact E].
Qed.
Lemma moves_opt (o : option Z) msg p : moves (match o with Some r => ret r | None => fail_pos msg p end).
Proof. destruct o; [apply moves_ret|intros r a r' E; discriminate]. Qed.
Ltac moving := repeat first [apply moves_ret | apply moves_opt | apply moves_get_pos | apply moves_peek | (apply eats_moves, eats_heap) | (apply eats_moves, eats_aht) | (apply eats_moves, eats_map_err, eats_aht) | (apply eats_moves, eats_u8) | apply moves_if | apply moves_bind | intros ?].
Definition ref_arm (pos b : Z) : R Z :=
  if (b =? 0x63) || (b =? 0x64) then
    let* b := read_u8 in
    let* h := read_heap in
    match ref_new (b =? 0x63) h with Some r => ret r | None => fail_pos "type index too large" pos end
  else if b =? 0x62 then fail_pos "unexpected exact type" pos
  else
    let* b := peek in
    let* _ := if b =? 0x65 then read_u8 else ret 0 in
    let* ty := map_err (reclassify "malformed reference type") read_aht in
    match ref_new true (HAbstract (b =? 0x65) ty) with Some r => ret r | None => fail_pos "panic" pos end.
Lemma eats_ref_arm pos b : eats (ref_arm pos b).
Proof.
  unfold ref_arm. repeat apply eats_if; [|apply eats_fail_pos|].
  - apply eats_bind_l; [apply eats_u8|]. intros. moving.
  - apply eats_bind_r; [apply moves_peek|]. intros x. apply eats_bind_r; [moving|]. intros _. apply eats_bind_l; [apply eats_map_err, eats_aht|]. intros. moving.
Qed.
Lemma sim_ref : sim read_ref read_ref.
Proof.
  apply sim_get_pos. intros p p'. apply sim_peek; [|apply eats_ref_arm]. intros b. apply sim_if; [|apply sim_if; [apply sim_fail_pos|]].
  - apply sim_bind; [apply sim_u8|]. intros x. apply sim_bind; [apply sim_heap|]. intros h. apply (sim_opt _ (fun r => r)).
  - apply sim_peek.
    + intros x. apply sim_bind; [apply sim_if; [apply sim_u8|apply sim_ret]|]. intros _. apply sim_bind; [apply sim_map_err, sim_aht|]. intros ty. apply (sim_opt _ (fun r => r)).
    + intros x. apply eats_bind_r; [moving|]. intros _. apply eats_bind_l; [apply eats_map_err, eats_aht|]. intros. moving.
Qed.
Lemma eats_ref : eats read_ref.
Proof. apply eats_bind_r; [apply moves_get_pos|]. intros p. apply eats_bind_r; [apply moves_peek|]. intros b. apply eats_ref_arm. Qed.
Definition val_arm (b : Z) : R p_val :=
  if b =? 0x7F then let* _ := read_u8 in ret PI32
  else if b =? 0x7E then let* _ := read_u8 in ret PI64
  else if b =? 0x7D then let* _ := read_u8 in ret PF32
  else if b =? 0x7C then let* _ := read_u8 in ret PF64
  else if b =? 0x7B then let* _ := read_u8 in ret PV128
  else let* r := map_err (reclassify "invalid value type") read_ref in ret (PRef r).
Lemma eats_val_arm b : eats (val_arm b).
Proof. unfold val_arm. repeat apply eats_if; (apply eats_bind_l; [|intros; apply moves_ret]); try apply eats_u8. apply eats_map_err, eats_ref. Qed.
Lemma sim_val : sim read_val read_val.
Proof.
  apply sim_peek; [|apply eats_val_arm]. intros b. repeat apply sim_if; (apply sim_bind; [|intros; apply sim_ret]); try apply sim_u8. apply sim_map_err, sim_ref.
Qed.
Lemma eats_val : eats read_val.
Proof. apply eats_bind_r; [apply moves_peek|]. apply eats_val_arm. Qed.
(** A choice made on the enabled features. *)
Lemma sim_switch {A} (c : features -> bool) (m n m' n' : R A) : sim m m' -> sim n n' ->
  sim (fun r => if c (r_feat r) then m r else n r) (fun r => if c (r_feat r) then m' r else n' r).
Proof.
  intros H1 H2 r a r' E. destruct (c (r_feat r)) eqn:Ec; [destruct (H1 _ _ _ E) as (bs & C & D)|destruct (H2 _ _ _ E) as (bs & C & D)];
    exists bs; (split; [exact C|]); intros; cbn [r_feat]; rewrite Ec; apply D.
Qed.
Lemma sim_limit : sim read_limit read_limit.
Proof. apply sim_switch; [apply sim_u64|apply sim_u32]. Qed.


(** * The other types *)
Lemma sim_storage : sim read_storage read_storage.
Proof.
  apply sim_peek.
  - intros b. repeat apply sim_if; (apply sim_bind; [first [apply sim_u8 | apply sim_val]|intros; apply sim_ret]).
  - intros b. repeat apply eats_if; (apply eats_bind_l; [first [apply eats_u8 | apply eats_val]|intros; apply moves_ret]).
Qed.
Lemma sim_field : sim read_field read_field.
Proof. apply sim_bind; [apply sim_storage|]. intros s. apply sim_bind; [apply sim_u8|]. intros m. repeat (apply sim_if; [apply sim_ret|]). apply sim_fail_at. Qed.
Lemma sim_inner op : sim (read_inner op) (read_inner op).
Proof.
  unfold read_inner. apply sim_if; [|apply sim_if; [|apply sim_if; [|apply sim_if; [|apply sim_fail_at]]]].
  - apply sim_bind; [apply sim_list, sim_val|]. intros ps. apply sim_bind; [apply sim_list, sim_val|intros; apply sim_ret].
  - apply sim_bind; [apply sim_field|intros; apply sim_ret].
  - apply sim_bind; [apply sim_list, sim_field|intros; apply sim_ret].
  - apply sim_bind; [apply sim_s33|]. intros i. apply sim_if; [apply sim_packed; intros; apply sim_ret|apply sim_fail_at].
Qed.
Lemma sim_marked mark op : sim (read_marked mark op) (read_marked mark op).
Proof.
  apply sim_if; [|apply sim_ret]. apply sim_bind; [apply sim_u32|]. intros i. apply sim_packed. intros p. apply sim_bind; [apply sim_u8|intros; apply sim_ret].
Qed.
Lemma sim_comp op : sim (read_comp op) (read_comp op).
Proof.
  apply sim_bind; [apply sim_if; [apply sim_bind; [apply sim_u8|intros; apply sim_ret]|apply sim_ret]|]. intros so.
  apply sim_bind; [apply sim_marked|]. intros ds. apply sim_bind; [apply sim_marked|]. intros dr. apply sim_bind; [apply sim_inner|intros; apply sim_ret].
Qed.
Lemma sim_sub : sim read_sub read_sub.
Proof.
  apply sim_get_pos. intros p p'. apply sim_bind; [apply sim_u8|]. intros op. apply sim_if.
  - apply sim_bind; [apply sim_list, sim_u32|]. intros l. apply sim_if; [apply sim_fail_pos|]. apply sim_bind.
    + destruct l; [apply sim_ret|]. apply sim_packed. intros; apply sim_ret.
    + intros sup. apply sim_bind; [apply sim_u8|]. intros b. apply sim_bind; [apply sim_comp|intros; apply sim_ret].
  - apply sim_bind; [apply sim_comp|intros; apply sim_ret].
Qed.
Lemma eats_sub : eats read_sub.
Proof.
  apply eats_bind_r; [apply moves_get_pos|]. intros p. apply eats_bind_l; [apply eats_u8|]. intros op. apply moves_local. apply sim_if.
  - apply sim_bind; [apply sim_list, sim_u32|]. intros l. apply sim_if; [apply sim_fail_pos|]. apply sim_bind.
    + destruct l; [apply sim_ret|]. apply sim_packed. intros; apply sim_ret.
    + intros sup. apply sim_bind; [apply sim_u8|]. intros b. apply sim_bind; [apply sim_comp|intros; apply sim_ret].
  - apply sim_bind; [apply sim_comp|intros; apply sim_ret].
Qed.
Lemma sim_rec : sim read_rec read_rec.
Proof.
  apply sim_peek.
  - intros b. apply sim_if.
    + apply sim_bind; [apply sim_u8|]. intros _. apply sim_bind; [apply sim_list, sim_sub|intros; apply sim_ret].
    + apply sim_bind; [apply sim_sub|intros; apply sim_ret].
  - intros b. apply eats_if; (apply eats_bind_l; [first [apply eats_u8 | apply eats_sub]|intros]); [|apply moves_ret].
    apply moves_local. apply sim_bind; [apply sim_list, sim_sub|intros; apply sim_ret].
Qed.
Lemma sim_read_opt {A} c (m m' : R A) : sim m m' -> sim (read_opt c m) (read_opt c m').
Proof. intros H. apply sim_if; [apply sim_bind; [exact H|intros; apply sim_ret]|apply sim_ret]. Qed.
Ltac sim_auto :=
  lazymatch goal with
  | |- sim (ret _) _ => apply sim_ret
  | |- sim (fail_at _ _) _ => apply sim_fail_at
  | |- sim (fail_pos _ _) _ => apply sim_fail_pos
  | |- sim (bind get_pos _) _ => apply sim_get_pos; intros ? ?; sim_auto
  | |- sim (bind _ _) _ => apply sim_bind; [sim_auto|intros ?; sim_auto]
  | |- sim read_u8 _ => apply sim_u8
  | |- sim read_var_u32 _ => apply sim_u32
  | |- sim read_val _ => apply sim_val
  | |- sim read_ref _ => apply sim_ref
  | |- sim read_limit _ => apply sim_limit
  | |- sim read_string _ => apply sim_string
  | |- sim (read_opt _ _) _ => apply sim_read_opt; sim_auto
  | |- sim (if _ then _ else _) _ => apply sim_if; sim_auto
  end.
Lemma sim_table : sim read_table read_table.
Proof. unfold read_table. sim_auto. Qed.
Lemma sim_memory : sim read_memory read_memory.
Proof. unfold read_memory. sim_auto. Qed.
Lemma sim_global : sim read_global read_global.
Proof. unfold read_global. sim_auto. Qed.
Lemma sim_tag : sim read_tag read_tag.
Proof. unfold read_tag. sim_auto. Qed.
Lemma sim_kind : sim read_kind read_kind.
Proof. unfold read_kind. sim_auto. Qed.
Lemma sim_entity : sim read_entity read_entity.
Proof. unfold read_entity. apply sim_bind; [apply sim_kind|]. intros []; (apply sim_bind; [first [apply sim_u32 | apply sim_table | apply sim_memory | apply sim_global | apply sim_tag]|intros; apply sim_ret]). Qed.
Lemma eats_kind : eats read_kind.
Proof. apply eats_bind_r; [apply moves_get_pos|]. intros p. apply eats_bind_l; [apply eats_u8|]. intros b. apply moves_local. unfold local. sim_auto. Qed.
Lemma eats_entity : eats read_entity.
Proof.
  apply eats_bind_l; [apply eats_kind|]. intros k. apply moves_local.
  destruct k; (apply sim_bind; [first [apply sim_u32 | apply sim_table | apply sim_memory | apply sim_global | apply sim_tag]|intros; apply sim_ret]).
Qed.
Lemma sim_export : sim read_export read_export.
Proof. apply sim_bind; [apply sim_string|]. intros n. apply sim_bind; [apply sim_kind|]. intros []; sim_auto. Qed.
Lemma eats_one : eats (read_bytes 1).
Proof.
  intros r a r' E. unfold read_bytes, bytes_remaining in E. destruct (Z.leb_spec 1 (zlen (r_rem r))) as [H|]; [|discriminate]. injection E as _ <-. cbn.
  destruct (r_rem r) as [|x t]; [change (zlen (@nil Z)) with 0 in H; lia|]. change (Z.to_nat 1) with 1%nat. cbn [firstn]. change (zlen [x]) with 1. lia.
Qed.
Lemma sim_import_items c : sim (read_n c (let* _ := skip_string in let* _ := read_entity in ret tt)) (read_n c (let* _ := skip_string in let* _ := read_entity in ret tt)).
Proof. apply sim_read_n. apply sim_bind; [apply sim_skip_string|]. intros _. apply sim_bind; [apply sim_entity|intros; apply sim_ret]. Qed.
Definition imports_arm (m n d : list Z) : R p_imports :=
  if is_empty n && (nth 0 d 0 =? 0x7F) then
    let* _ := read_bytes 1 in
    let* items := skip_raw (let* c := read_var_u32 in
                            read_n (Z.to_nat c) (let* _ := skip_string in let* _ := read_entity in ret tt)) in
    ret (QCompact1 m items)
  else if is_empty n && (nth 0 d 0 =? 0x7E) then
    let* _ := read_bytes 1 in
    let* ty := read_entity in
    let* names := skip_raw (let* c := read_var_u32 in read_n (Z.to_nat c) skip_string) in
    ret (QCompact2 m ty names)
  else let* ty := read_entity in ret (QSingle m n ty).
Lemma sim_imports_tail1 m : sim (let* items := skip_raw (let* c := read_var_u32 in read_n (Z.to_nat c) (let* _ := skip_string in let* _ := read_entity in ret tt)) in ret (QCompact1 m items))
  (let* items := skip_raw (let* c := read_var_u32 in read_n (Z.to_nat c) (let* _ := skip_string in let* _ := read_entity in ret tt)) in ret (QCompact1 m items)).
Proof. apply sim_bind; [|intros; apply sim_ret]. apply sim_skip_raw. apply sim_bind; [apply sim_u32|]. intros c. apply sim_import_items. Qed.
Lemma sim_imports_tail2 m : sim (let* ty := read_entity in let* names := skip_raw (let* c := read_var_u32 in read_n (Z.to_nat c) skip_string) in ret (QCompact2 m ty names))
  (let* ty := read_entity in let* names := skip_raw (let* c := read_var_u32 in read_n (Z.to_nat c) skip_string) in ret (QCompact2 m ty names)).
Proof.
  apply sim_bind; [apply sim_entity|]. intros ty. apply sim_bind; [|intros; apply sim_ret]. apply sim_skip_raw. apply sim_bind; [apply sim_u32|]. intros c. apply sim_read_n, sim_skip_string.
Qed.
Lemma sim_imports : sim read_imports read_imports.
Proof.
  apply sim_bind; [apply sim_string|]. intros m. apply sim_bind; [apply sim_string|]. intros n. fold (imports_arm m n). apply sim_peek_bytes; intros d; unfold imports_arm.
  - apply sim_if; [|apply sim_if]; (apply sim_bind; [first [apply sim_read_bytes | apply sim_entity]|intros _ || intros ?]);
      [apply sim_imports_tail1|apply sim_imports_tail2|apply sim_ret].
  - apply eats_if; [|apply eats_if]; (apply eats_bind_l; [first [apply eats_one | apply eats_entity]|intros ?]);
      [apply moves_local, sim_imports_tail1|apply moves_local, sim_imports_tail2|apply moves_ret].
Qed.
