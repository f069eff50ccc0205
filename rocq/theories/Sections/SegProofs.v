(** Tables, globals, element and data segments: what is written is what is read, and what is read can be
    written. *)
From Verif.Base Require Import Prelude BitFacts.
From Verif.Reader Require Import Model Spec.
From Verif.Leb Require Import Model Top.
From Verif.Codec Require Import Kit Local.
From Verif.Types Require Import RefModel RefSpec CodecModel CodecSpec CodecProofs CodecTop EntityModel EntitySpec EntityProofs LocalTypes.
From Verif.Instr Require Import ImmModel Ops Sink Visit Convert BodyModel BodySpec BodyProofs.
From Verif.Sections Require Import SegModel SegSpec SeeModel Item SeeProofs.
From Coq Require Import Lia.

Section ft.
Context (ft : features).
Notation F := (eq ft).
Notation m64 := (f_memory64 ft).

(** * Constant expressions *)
Lemma w_const : writes ft enc_const read_const (c_const ft) (const_ok ft).
Proof. intros v H. destruct (const_written ft v H) as (bs & E & _ & D & C). exists bs. rewrite E. auto. Qed.
Definition k_const := k_const ft.
Lemma again_const : again ft read_const read_const.
Proof. intros r p r' Hf Hr E. destruct (const_read ft r p r' Hf Hr E) as (l & H & C & Hr' & Cs & D & _). exists p. auto. Qed.

(** * Tables *)
Lemma d_table_def_dec t : table_ok m64 t -> decodes F (enc_table t) read_table (d_table t).
Proof. intros H. apply (decodes_eq ft (with_m64 m64)); [reflexivity|]. apply dec_table, H. Qed.
Lemma ref_lead r : exists x o, enc_ref r = o_byte x +++ o /\ (x =? 0x40) = false.
Proof.
  destruct r as [[] [[] t|i|i]]; cbn [enc_ref enc_heap]; try (do 2 eexists; split; [reflexivity|reflexivity]).
  destruct t; (eexists; exists o_nil; split; [rewrite oapp_nil_r; reflexivity|reflexivity]).
Qed.
Lemma w_table_def : writes ft enc_table_def read_table_def (c_table_def ft) (table_def_ok ft).
Proof.
  intros [ty [e|]] [H1 H2]; cbn [etd_ty etd_init] in *; unfold enc_table_def, c_table_def; cbn [etd_ty etd_init].
  - destruct (w_const e H2) as (p & D & C). exists (mkPTableDef (d_table ty) (Some p)). split.
    + unfold read_table_def. apply dec_peek. change (0x40 =? 0x40) with true. cbv iota.
      eapply dec_bind; [exact (dec_bind_ret F _ _ (fun _ => true) 0x40 (dec_byte F 0x40 ltac:(byte)))|]. cbv beta iota.
      eapply dec_bind; [eapply dec_last; [apply dec_byte; byte|]; change (negb (0 =? 0)) with false; apply dec_ret|]. cbv beta.
      eapply dec_bind; [apply d_table_def_dec, H1|]. cbv beta. eapply dec_last; [|apply dec_ret].
      exact (dec_bind_ret F _ _ (fun v => Some v) _ D).
    + cbn [ptd_ty ptd_init]. rewrite (c_d_table m64) by exact H1. rewrite C. reflexivity.
  - exists (mkPTableDef (d_table ty) None). split.
    + unfold read_table_def. unfold enc_table. destruct (ref_lead (t_elem ty)) as (x & o & Ex & Hx). rewrite Ex, oapp_assoc. apply dec_peek. rewrite Hx.
      rewrite <- oapp_assoc, <- Ex. fold (enc_table ty). rewrite <- (oapp_nil_l (enc_table ty)). eapply dec_bind; [apply dec_ret|]. cbv beta iota.
      rewrite <- (oapp_nil_l (enc_table ty)). eapply dec_bind; [apply dec_ret|]. cbv beta.
      eapply dec_last; [apply d_table_def_dec, H1|]. cbv beta. eapply dec_last; [apply dec_ret|]. apply dec_ret.
    + cbn [ptd_ty ptd_init]. rewrite (c_d_table m64) by exact H1. reflexivity.
Qed.
Lemma k_table_def : keeps ft read_table_def (c_table_def ft) (see_table_def ft) v_table_def (table_def_ok ft).
Proof.
  unfold read_table_def. eapply y_bind; [apply y_peek|]. intros b _. eapply y_bind with (P := fun _ => True).
  { apply y_if; intros _; [|apply y_ret; exact I]. eapply y_bind; [apply y_u8|]. intros x _. apply y_ret. exact I. }
  intros i _. eapply y_bind with (P := fun _ => True).
  { apply y_if; intros _; [|apply y_ret; exact I]. eapply y_bind; [apply y_u8|]. intros x _. apply y_if; intros _; [apply y_fail_at|apply y_ret; exact I]. }
  intros _ _. eapply y_bind; [apply (yields_eq ft (with_m64 m64)); [reflexivity|apply y_table]|]. intros ty (t & Ht & ->).
  unfold read_opt. destruct i.
  - eapply y_bind with (P := fun o => exists p e, o = Some p /\ c_const ft p = Some e /\ const_ok ft e /\ see_const ft p = Some (v_const e)).
    { eapply y_bind; [exact k_const|]. intros p (e & C & He & S). apply y_ret. exists p, e. auto. }
    intros o (p & e & -> & C & He & S). apply y_ret. exists (mkTableDef t (Some e)). unfold c_table_def, see_table_def. cbn [ptd_ty ptd_init see_opt option_map].
    rewrite (c_d_table m64) by exact Ht. rewrite C, S. split; [reflexivity|split; [split; assumption|reflexivity]].
  - eapply y_bind with (P := fun o => o = None); [apply y_ret; reflexivity|]. intros o ->. apply y_ret. exists (mkTableDef t None). unfold c_table_def, see_table_def. cbn [ptd_ty ptd_init see_opt option_map].
    rewrite (c_d_table m64) by exact Ht. split; [reflexivity|split; [split; [exact Ht|exact I]|reflexivity]].
Qed.

(** * Globals *)
Lemma w_global_def : writes ft enc_global_def read_global_def (c_global_def ft) (global_def_ok ft).
Proof.
  intros [ty e] [H1 H2]; cbn [egd_ty egd_init] in *. unfold enc_global_def, c_global_def. cbn [egd_ty egd_init].
  destruct (w_const e H2) as (p & D & C). exists (mkPGlobalDef (d_global ty) p). split.
  - unfold read_global_def. eapply dec_bind; [apply (decodes_eq ft (with_m64 m64)); [reflexivity|apply dec_global, H1]|]. cbv beta.
    exact (dec_bind_ret F _ _ (fun v => mkPGlobalDef (d_global ty) v) _ D).
  - cbn [pgd_ty pgd_init]. rewrite c_d_global, C by exact H1. reflexivity.
Qed.
Lemma k_global_def : keeps ft read_global_def (c_global_def ft) (see_global_def ft) v_global_def (global_def_ok ft).
Proof.
  unfold read_global_def. eapply y_bind; [apply (yields_eq ft (with_m64 m64)); [reflexivity|apply y_global]|]. intros ty (t & Ht & ->).
  eapply y_bind; [exact k_const|]. intros p (e & C & He & S). apply y_ret. exists (mkGlobalDef t e). unfold c_global_def, see_global_def. cbn [pgd_ty pgd_init].
  rewrite c_d_global, C, S by exact Ht. split; [reflexivity|split; [split; assumption|reflexivity]].
Qed.

(** * Element segments *)
Lemma dec_unit {A} o (d : R A) a : decodes F o d a -> decodes F o (let* _ := d in ret tt) tt.
Proof. intros H. exact (dec_bind_ret F o d (fun _ => tt) a H). Qed.
(** What [skip] goes over, and reads again as a section. *)
Lemma w_const_skip l : Forall (const_ok ft) l ->
  exists u, decodes F (o_all enc_const l) (read_n (List.length l) (fun r => skip_const_expr (List.length (r_rem r)) cs_new r)) u.
Proof.
  induction 1 as [|e l He _ (u & D)]; [exists []; apply dec_ret|]. destruct (w_const e He) as (p & (bs & E & Hb & Dp) & _).
  exists (tt :: u). cbn [o_all List.length read_n]. eapply dec_bind; [|exact (dec_bind_ret F _ _ (fun l => tt :: l) _ D)].
  exists bs. split; [exact E|]. split; [exact Hb|]. intros rest pos off ft' Hf Hr. specialize (Dp rest pos off ft' Hf Hr). unfold read_const, skip_raw in Dp.
  destruct (skip_const_expr _ cs_new _) as [[[] r1]|e1]; [|discriminate]. injection Dp as _ ->. reflexivity.
Qed.
Lemma skip_const_again r u r' : r_feat r = ft -> bytes_ok (r_rem r) -> skip_const_expr (List.length (r_rem r)) cs_new r = Ok (u, r') -> exists b, read_const r = Ok (b, r').
Proof. intros _ _ E. unfold read_const, skip_raw. rewrite E. eexists. reflexivity. Qed.
Definition skip_items (exprs : bool) : R (list Z) :=
  skip_raw (let* n := read_var_u32 in
            if exprs then let* _ := read_n (Z.to_nat n) (fun r => skip_const_expr (List.length (r_rem r)) cs_new r) in ret tt
            else let* _ := read_n (Z.to_nat n) read_var_u32 in ret tt).
Lemma w_items {A} enc (d : R A) (exprs : bool) n o u : in_u 32 n ->
  (if exprs then exists l, decodes F o (read_n (Z.to_nat n) (fun r => skip_const_expr (List.length (r_rem r)) cs_new r)) l
   else exists l, decodes F o (read_n (Z.to_nat n) read_var_u32) l) ->
  enc = encode_usize n +++ o -> decodes F o (read_n (Z.to_nat n) d) u ->
  exists b, decodes F enc (skip_items exprs) b /\ forall off, section_items d ft off b = Ok u.
Proof.
  intros Hn Hs -> D. destruct (section_of_counted ft d o n u Hn D) as (b & E & Hb & S). exists b. split; [|exact S]. rewrite E.
  apply (dec_skip F b _ tt). rewrite <- E. eapply dec_bind; [apply dec_usize, Hn|]. cbv beta. destruct exprs; destruct Hs as (l & Dl); exact (dec_unit _ _ _ Dl).
Qed.
Lemma zlen_u32 {A} (l : list A) : zlen l < 2 ^ 32 -> in_u 32 (zlen l).
Proof. unfold in_u, zlen. lia. Qed.
Lemma all_some_id {A} (l : list A) ps : all_some Some ps = Some l -> ps = l.
Proof.
  revert l. induction ps as [|p ps IH]; intros l C; cbn [all_some] in C; [congruence|].
  destruct (all_some Some ps) as [l'|] eqn:El; [|discriminate]. injection C as <-. f_equal. apply IH. reflexivity.
Qed.
Lemma w_funcs l : Forall (in_u 32) l -> zlen l < 2 ^ 32 -> exists b, decodes F (o_vec encode_u32 l) (skip_items false) b /\ forall off, section_items read_var_u32 ft off b = Ok l.
Proof.
  intros H Hn. assert (W : writes ft encode_u32 read_var_u32 Some (in_u 32)) by (intros v Hv; exists v; split; [apply dec_u32, Hv|reflexivity]).
  destruct (writes_list ft encode_u32 read_var_u32 Some (in_u 32) l W H) as (ps & D & C). apply all_some_id in C. subst ps.
  assert (D' : decodes F (o_all encode_u32 l) (read_n (Z.to_nat (zlen l)) read_var_u32) l) by (unfold zlen; rewrite Nat2Z.id; exact D).
  exact (w_items _ read_var_u32 false (zlen l) (o_all encode_u32 l) l (zlen_u32 l Hn) (ex_intro _ l D') eq_refl D').
Qed.
Lemma w_exprs l : Forall (const_ok ft) l -> zlen l < 2 ^ 32 -> exists b ps, decodes F (encode_usize (zlen l) +++ o_all enc_const l) (skip_items true) b /\ (forall off, section_items read_const ft off b = Ok ps) /\ all_some (c_const ft) ps = Some l.
Proof.
  intros H Hn. destruct (writes_list ft _ _ _ _ l w_const H) as (ps & D & C). destruct (w_const_skip l H) as (u & Du).
  assert (D' : decodes F (o_all enc_const l) (read_n (Z.to_nat (zlen l)) read_const) ps) by (unfold zlen; rewrite Nat2Z.id; exact D).
  destruct (w_items (encode_usize (zlen l) +++ o_all enc_const l) read_const true (zlen l) (o_all enc_const l) ps (zlen_u32 l Hn)) as (b & D1 & S); [|reflexivity|exact D'|].
  - exists u. unfold zlen. rewrite Nat2Z.id. exact Du.
  - exists b, ps. auto.
Qed.
Lemma is_funcref_eq ty : is_funcref ty = true -> ty = mkERef true (EAbs false RefModel.Func).
Proof. destruct ty as [[] [[] []|i|i]]; cbn; congruence. Qed.
(** The type and the items, given the flags. *)
Definition read_elem_rest (flags : Z) (kind : p_elem_kind) : R p_elem :=
  let exprs := bit_set flags 4 in
  let* ty := (if bit_set flags 3 then
                (if exprs then let* t := read_ref in ret (Some t)
                 else let* k := read_kind in
                      match k with KFunc => ret None | _ => fail_at "only the function external type is supported in elem segment" 1 end)
              else ret None) in
  let* items := skip_items exprs in
  ret (mkPElem kind (if exprs then PIExprs (match ty with Some t => t | None => FUNCREF end) items else PIFuncs items)).
Definition enc_elem_rest (encode_type : bool) (i : e_elems) : out :=
  match i with
  | EFuncs fs => (if encode_type then o_byte 0x00 else o_nil) +++ o_vec encode_u32 fs
  | EExprs ty es => (if encode_type then enc_ref ty else o_nil) +++ encode_usize (zlen es) +++ o_all enc_const es
  end.
Lemma w_elem_rest flags kind i : elems_ok ft i -> bit_set flags 4 = (match i with EExprs _ _ => true | _ => false end) ->
  (bit_set flags 3 = false -> match i with EExprs ty _ => ty = mkERef true (EAbs false RefModel.Func) | EFuncs _ => True end) ->
  exists p, decodes F (enc_elem_rest (bit_set flags 3) i) (read_elem_rest flags kind) p /\ pe_kind p = kind /\ c_elem_items ft (pe_items p) = Some i.
Proof.
  intros H E4 E3. unfold read_elem_rest. rewrite E4. destruct i as [fs|ty es]; cbn [elems_ok enc_elem_rest] in *.
  - destruct H as [H Hn]. destruct (w_funcs fs H Hn) as (b & D & S). exists (mkPElem kind (PIFuncs b)).
    split; [|split; [reflexivity|cbn [pe_items c_elem_items]; rewrite S; reflexivity]].
    assert (D' : decodes F (o_vec encode_u32 fs) (let* items := skip_items false in ret (mkPElem kind (PIFuncs items))) (mkPElem kind (PIFuncs b))) by exact (dec_bind_ret F _ _ (fun b => mkPElem kind (PIFuncs b)) _ D).
    eapply dec_bind; [|exact D']. destruct (bit_set flags 3); [|apply dec_ret].
    eapply dec_last; [apply (decodes_eq ft (with_m64 m64)); [reflexivity|]; apply dec_kind; [vm_compute; reflexivity|byte]|]. apply dec_ret.
  - destruct H as (Ht & H & Hn). destruct (w_exprs es H Hn) as (b & ps & D & S & C). exists (mkPElem kind (PIExprs (d_ref ty) b)).
    split; [|split; [reflexivity|cbn [pe_items c_elem_items]; rewrite S, C, c_d_ref by exact Ht; reflexivity]].
    destruct (bit_set flags 3) eqn:E.
    + eapply dec_bind; [eapply dec_last; [apply dec_ref, Ht|apply dec_ret]|]. cbv beta iota. exact (dec_bind_ret F _ _ (fun b => mkPElem kind (PIExprs (d_ref ty) b)) _ D).
    + eapply dec_bind; [apply dec_ret|]. cbv beta iota. rewrite (E3 eq_refl). change (d_ref {| er_null := true; er_heap := EAbs false Func |}) with FUNCREF.
      exact (dec_bind_ret F _ _ (fun b => mkPElem kind (PIExprs FUNCREF b)) _ D).
Qed.
Definition expr_bit (i : e_elems) : Z := match i with EExprs _ _ => 4 | EFuncs _ => 0 end.
Lemma enc_elem_parts e : enc_elem e =
  match ee_mode e with
  | EPassive => encode_u32 (Z.lor 1 (expr_bit (ee_items e))) +++ enc_elem_rest true (ee_items e)
  | EDeclared => encode_u32 (Z.lor 3 (expr_bit (ee_items e))) +++ enc_elem_rest true (ee_items e)
  | EActive t o =>
      if match t with Some _ => false | None => match ee_items e with EFuncs _ => true | EExprs ty _ => is_funcref ty end end
      then encode_u32 (expr_bit (ee_items e)) +++ enc_const o +++ enc_elem_rest false (ee_items e)
      else encode_u32 (Z.lor 2 (expr_bit (ee_items e))) +++ encode_u32 (match t with Some t => t | None => 0 end) +++ enc_const o +++ enc_elem_rest true (ee_items e)
  end.
Proof.
  destruct e as [[| |[t|] o] [fs|ty es]]; unfold enc_elem; cbn [ee_mode ee_items expr_bit is_some negb]; rewrite ?andb_false_r, ?andb_true_r; try destruct (is_funcref ty); cbn [enc_elem_rest]; rewrite ?oapp_assoc; reflexivity.
Qed.
Lemma read_elem_parts r : read_elem r = (let* flags := read_var_u32 in
  if negb (Z.land flags (Z.lnot 7) =? 0) then fail_at "invalid flags byte in element segment" 1
  else let* kind := (if bit_set flags 1 then (if bit_set flags 2 then ret PKDeclared else ret PKPassive)
                     else let* t := read_opt (bit_set flags 2) read_var_u32 in let* offset := read_const in ret (PKActive t offset)) in
       read_elem_rest flags kind) r.
Proof. reflexivity. Qed.
Lemma w_elem : writes ft enc_elem read_elem (c_elem ft) (elem_ok ft).
Proof.
  intros [m i] [Hi Hm]. cbn [ee_mode ee_items] in *. rewrite enc_elem_parts. cbn [ee_mode ee_items].
  destruct m as [| |t o].
  - destruct (w_elem_rest (Z.lor 1 (expr_bit i)) PKPassive i Hi) as (p & D & Ek & Ei); [destruct i; reflexivity|destruct i; discriminate|].
    exists p. split; [|unfold c_elem; rewrite Ei, Ek; reflexivity]. eapply dec_ext; [intros; symmetry; apply read_elem_parts|].
    eapply dec_bind; [apply dec_u32; destruct i; byte|]. cbv beta. replace (bit_set (Z.lor 1 (expr_bit i)) 3) with true in D by (destruct i; reflexivity).
    destruct i as [fs|ty es]; (eapply dec_first; [apply dec_ret|exact D]).
  - destruct (w_elem_rest (Z.lor 3 (expr_bit i)) PKDeclared i Hi) as (p & D & Ek & Ei); [destruct i; reflexivity|destruct i; discriminate|].
    exists p. split; [|unfold c_elem; rewrite Ei, Ek; reflexivity]. eapply dec_ext; [intros; symmetry; apply read_elem_parts|].
    eapply dec_bind; [apply dec_u32; destruct i; byte|]. cbv beta. replace (bit_set (Z.lor 3 (expr_bit i)) 3) with true in D by (destruct i; reflexivity).
    destruct i as [fs|ty es]; (eapply dec_first; [apply dec_ret|exact D]).
  - destruct Hm as (Ht & Ho & Hn). destruct (w_const o Ho) as (q & Dq & Cq).
    destruct (match t with Some _ => false | None => match i with EFuncs _ => true | EExprs ty _ => is_funcref ty end end) eqn:E.
    + assert (t = None) as -> by (destruct t; [discriminate E|reflexivity]). 
      destruct (w_elem_rest (expr_bit i) (PKActive None q) i Hi) as (p & D & Ek & Ei); [destruct i; reflexivity|intros _; apply Hn; reflexivity|].
      exists p. split; [|unfold c_elem; rewrite Ei, Ek, Cq; reflexivity]. eapply dec_ext; [intros; symmetry; apply read_elem_parts|].
      eapply dec_bind; [apply dec_u32; destruct i; byte|]. cbv beta. replace (bit_set (expr_bit i) 3) with false in D by (destruct i; reflexivity).
      destruct i as [fs|ty es]; (eapply dec_bind; [|exact D]; eapply dec_first; [apply dec_ret|]; exact (dec_bind_ret F _ _ (fun o => PKActive None o) _ Dq)).
    + destruct t as [t|]; [|exfalso; destruct i as [fs|ty es]; [discriminate E|]; rewrite (Hn eq_refl) in E; discriminate E].
      destruct (w_elem_rest (Z.lor 2 (expr_bit i)) (PKActive (Some t) q) i Hi) as (p & D & Ek & Ei); [destruct i; reflexivity|destruct i; discriminate|].
      exists p. split; [|unfold c_elem; rewrite Ei, Ek, Cq; reflexivity]. eapply dec_ext; [intros; symmetry; apply read_elem_parts|].
      eapply dec_bind; [apply dec_u32; destruct i; byte|]. cbv beta. replace (bit_set (Z.lor 2 (expr_bit i)) 3) with true in D by (destruct i; reflexivity).
      destruct i as [fs|ty es]; (rewrite <- (oapp_assoc (encode_u32 t)); eapply dec_bind; [|exact D]; eapply dec_bind; [exact (dec_bind_ret F _ _ (fun x => Some x) _ (dec_u32 F t Ht))|]; exact (dec_bind_ret F _ _ (fun o => PKActive (Some t) o) _ Dq)).
Qed.
(** An expression of another type makes the table explicit. *)
Lemma elem_table_0 o ty es : ty <> mkERef true (EAbs false RefModel.Func) ->
  enc_elem (mkElem (EActive None o) (EExprs ty es)) = enc_elem (mkElem (EActive (Some 0) o) (EExprs ty es)).
Proof.
  intros H. rewrite !enc_elem_parts. cbn [ee_mode ee_items]. destruct (is_funcref ty) eqn:E; [apply is_funcref_eq in E; contradiction|reflexivity].
Qed.
Lemma y_items exprs : yields F (skip_items exprs) (fun b => bytes_ok b /\ if exprs then exists l, section_items read_const ft 0 b = Ok l else exists l, section_items read_var_u32 ft 0 b = Ok l).
Proof.
  intros r b r' Hf Hr E. unfold skip_items in E. destruct exprs.
  - destruct (skipped_section ft _ read_const r b r' skip_const_again again_const (eq_sym Hf) Hr E) as (Hb & Hr' & C & l & S).
    split; [split; [exact Hb|]; exists l; apply S|]. split; [exact Hr'|]. apply C.
  - destruct (skipped_section ft read_var_u32 read_var_u32 r b r' (fun r a r' _ _ E => ex_intro _ a E) (again_sim ft _ sim_u32) (eq_sym Hf) Hr E) as (Hb & Hr' & C & l & S).
    split; [split; [exact Hb|]; exists l; apply S|]. split; [exact Hr'|]. apply C.
Qed.
Lemma y_elem_rest flags kind : yields F (read_elem_rest flags kind) (fun p => pe_kind p = kind /\ exists i, c_elem_items ft (pe_items p) = Some i /\ elems_ok ft i /\ see_elem_items ft (pe_items p) = Some (v_elems i) /\ (bit_set flags 3 = false -> match i with EExprs ty _ => ty = mkERef true (EAbs false RefModel.Func) | EFuncs _ => True end)).
Proof.
  unfold read_elem_rest. eapply y_bind with (P := fun o => match o with Some t => from ref_ok d_ref t /\ bit_set flags 3 = true | None => True end).
  { apply y_if; intros Eb; [|apply y_ret; exact I]. apply y_if; intros _.
    - eapply y_bind; [apply y_ref|]. intros t Ht. apply y_ret. auto.
    - eapply y_bind; [apply (yields_eq ft (with_m64 m64)); [reflexivity|apply y_kind]|]. intros k _. destruct k; try apply y_fail_at. apply y_ret. exact I. }
  intros ty Hty. eapply y_bind; [apply y_items|]. intros b (Hb & S). apply y_ret. split; [reflexivity|]. destruct (bit_set flags 4) eqn:Ee; cbn [pe_items c_elem_items see_elem_items].
  - destruct S as (l & S). rewrite S. destruct (keeps_section ft _ _ _ _ _ _ _ _ k_const Hb S) as (es & C & Hes & Hn & V). cbn [seen_ok ops_bind]. rewrite C, V.
    destruct ty as [t|].
    + destruct Hty as ((rt & Ht & ->) & E3). rewrite c_d_ref by exact Ht. exists (EExprs rt es). split; [reflexivity|]. split; [split; [exact Ht|auto]|]. split; [reflexivity|]. rewrite E3. discriminate.
    + exists (EExprs (mkERef true (EAbs false RefModel.Func)) es). split; [reflexivity|]. split; [split; [exact I|auto]|]. split; reflexivity.
  - destruct S as (l & S). rewrite S. exists (EFuncs l). split; [reflexivity|]. split; [|split; [reflexivity|auto]].
    destruct (y_section_eq ft read_var_u32 (in_u 32) 0 b l (y_u32 F) Hb S) as [H Hn]. split; [exact H|exact Hn].
Qed.
Lemma k_elem : keeps ft read_elem (c_elem ft) (see_elem ft) v_elem (elem_ok ft).
Proof.
  eapply yields_ext; [intros; symmetry; apply read_elem_parts|]. eapply y_bind; [apply y_u32|]. intros flags _. destruct (negb _) eqn:En; [apply y_fail_at|].
  eapply y_bind with (P := fun k => match k with PKActive t q => (exists o, c_const ft q = Some o /\ const_ok ft o /\ see_const ft q = Some (v_const o)) /\ opt_ok (in_u 32) t /\ (t = None -> bit_set flags 3 = false) | _ => True end).
  { apply y_if; intros E1; [apply y_if; intros _; apply y_ret; exact I|].
    assert (E3 : bit_set flags 2 = false -> bit_set flags 3 = false).
    { unfold bit_set in *. apply negb_false_iff, Z.eqb_eq in E1. intros E2. apply negb_false_iff, Z.eqb_eq in E2. apply negb_false_iff, Z.eqb_eq.
      change 3 with (Z.lor 1 2). rewrite Z.land_lor_distr_r, E1, E2. reflexivity. }
    eapply y_bind with (P := fun t => opt_ok (in_u 32) t /\ (t = None -> bit_set flags 3 = false)).
    - unfold read_opt. apply y_if; intros E2.
      + eapply y_bind; [apply y_u32|]. intros v Hv. apply y_ret. split; [exact Hv|discriminate].
      + apply y_ret. split; [exact I|]. auto.
    - intros t [Ht Hn]. eapply y_bind; [exact k_const|]. intros q Hq. apply y_ret. auto. }
  intros k Hk. eapply y_weaken; [|apply y_elem_rest]. intros p (Ek & i & Ei & Hi & Si & H3). unfold c_elem, see_elem. rewrite Ei, Ek, Si. destruct k as [|t q|].
  - exists (mkElem EPassive i). split; [reflexivity|split; [split; [exact Hi|exact I]|reflexivity]].
  - destruct Hk as ((o & C & Ho & So) & Ht & Hn). cbn [see_elem_kind]. rewrite C, So. exists (mkElem (EActive t o) i). split; [destruct t; reflexivity|]. split; [|reflexivity]. split; [exact Hi|]. cbn [ee_mode ee_items]. split; [exact Ht|]. split; [exact Ho|]. intros E. apply H3, Hn, E.
  - exists (mkElem EDeclared i). split; [reflexivity|split; [split; [exact Hi|exact I]|reflexivity]].
Qed.

(** * Data segments *)
Lemma w_data : writes ft enc_data read_data (c_data ft) (data_ok ft).
Proof.
  intros [m s] (Hs & Hn & Hm). cbn [ed_data ed_mode] in *. unfold enc_data. cbn [ed_data ed_mode]. unfold read_data.
  destruct m as [|m o].
  - exists (mkPData PDPassive s). split; [|reflexivity]. apply dec_get_pos. intros pos. change (o_byte 1) with (encode_u32 1).
    eapply dec_bind; [apply dec_u32; byte|]. cbv beta. change (1 =? 1) with true. cbv iota. eapply dec_first; [apply dec_ret|].
    exact (dec_reader F (mkPData PDPassive) s Hs Hn).
  - destruct Hm as [Hm Ho]. destruct (w_const o Ho) as (q & Dq & Cq). exists (mkPData (PDActive m q) s). split; [|unfold c_data; cbn [pd_kind pd_data]; rewrite Cq; reflexivity].
    apply dec_get_pos. intros pos. destruct (Z.eqb_spec m 0) as [->|Hm0].
    + change (o_byte 0) with (encode_u32 0). rewrite oapp_assoc. eapply dec_bind; [apply dec_u32; byte|]. cbv beta. change (0 =? 1) with false. change (0 =? 0) with true. cbv iota. cbn [orb].
      eapply dec_bind; [eapply dec_first; [apply dec_ret|]; exact (dec_bind_ret F _ _ (fun o => PDActive 0 o) _ Dq)|]. exact (dec_reader F (mkPData (PDActive 0 q)) s Hs Hn).
    + change (o_byte 2) with (encode_u32 2). rewrite oapp_assoc. eapply dec_bind; [apply dec_u32; byte|]. cbv beta. change (2 =? 1) with false. change (2 =? 0) with false. change (2 =? 2) with true. cbv iota. cbn [orb].
      eapply dec_bind; [eapply dec_bind; [apply dec_u32, Hm|]; exact (dec_bind_ret F _ _ (fun o => PDActive m o) _ Dq)|]. exact (dec_reader F (mkPData (PDActive m q)) s Hs Hn).
Qed.
Lemma k_data : keeps ft read_data (c_data ft) (see_data ft) v_data (data_ok ft).
Proof.
  unfold read_data. eapply y_bind; [apply y_get_pos|]. intros pos _. eapply y_bind; [apply y_u32|]. intros flags _.
  eapply y_bind with (P := fun k => match k with PDActive m q => in_u 32 m /\ exists o, c_const ft q = Some o /\ const_ok ft o /\ see_const ft q = Some (v_const o) | PDPassive => True end).
  { apply y_if; intros _; [apply y_ret; exact I|]. apply y_if; intros _; [|apply y_fail_pos].
    eapply y_bind with (P := in_u 32); [apply y_if; intros _; [apply y_ret; byte|apply y_u32]|]. intros m Hm.
    eapply y_bind; [exact k_const|]. intros q Hq. apply y_ret. auto. }
  intros k Hk. apply y_reader. intros s Hs Hn. unfold c_data, see_data. cbn [pd_kind pd_data]. destruct k as [|m q].
  - exists (mkData EDPassive s). split; [reflexivity|]. split; [|reflexivity]. split; [exact Hs|split; [exact Hn|exact I]].
  - destruct Hk as (Hm & o & C & Ho & So). rewrite C, So. exists (mkData (EDActive m o) s). split; [reflexivity|]. split; [|reflexivity]. split; [exact Hs|split; [exact Hn|split; assumption]].
Qed.
End ft.
