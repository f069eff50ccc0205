(** A module that is translated and written again shows the same contents. *)
From Verif.Base Require Import Prelude Utf8.
From Verif.Reader Require Import Model Spec.
From Verif.Leb Require Import Spec Model Proofs Top ReaderProofs.
From Verif.Encoder Require Import Model.
From Verif.Parser Require Import Model Spec Forward Top Encoded.
From Verif.Codec Require Import Kit Local.
From Verif.Types Require Import RefModel CodecModel CodecSpec CodecProofs CodecTop EntityModel EntitySpec EntityProofs LocalTypes.
From Verif.Instr Require Import ImmModel ImmSpec Ops Sink Visit Convert Imms Den InstrProofs BodyModel BodySpec BodyProofs BodyTop.
From Verif.Sections Require Import SegModel SegSpec SeeModel Item SeeProofs SegProofs NameModel NameProofs ModuleModel.
From Coq Require Import Lia.

Definition v_imports (i : e_imports) : s_imports :=
  match i with
  | ISingle m n ty => SSingle m n (d_entity ty)
  | ICompact1 m l => SCompact1 m (map d_item l)
  | ICompact2 m ty l => SCompact2 m (d_entity ty) l
  end.

Section module.
Context (ft : features).
Local Notation F := (eq ft).
Local Notation m64 := (f_memory64 ft).

(** * Simple items *)
Lemma from_takes {A B} (d : R B) (conv : B -> option A) den ok : yields F d (from ok den) -> (forall v, ok v -> conv (den v) = Some v) ->
  takes ft d conv Some den ok.
Proof. intros Hy Hc. eapply y_weaken; [|exact Hy]. intros p (v & Hv & ->) x [= <-]. exists v. auto. Qed.
Lemma from_sends {A B} (enc : A -> out) (d : R B) den (ok : A -> Prop) : (forall v, ok v -> decodes F (enc v) d (den v)) -> sends ft enc d Some den ok.
Proof. intros H v bs Hv E. exists (den v). rewrite <- E. auto. Qed.
Lemma yf {B} (d : R B) P : yields (with_m64 m64) d P -> yields F d P.
Proof. apply yields_eq. reflexivity. Qed.
Lemma df {B} o (d : R B) b : decodes (with_m64 m64) o d b -> decodes F o d b.
Proof. apply decodes_eq. reflexivity. Qed.

(** What was written is read and translated to itself. *)
Definition returns {A B} (enc : A -> out) (d : R B) (conv : B -> option A) (ok : A -> Prop) : Prop :=
  forall v bs, ok v -> enc v = Some bs -> exists p, decodes F (Some bs) d p /\ conv p = Some v.
Lemma from_returns {A B} (enc : A -> out) (d : R B) conv den (ok : A -> Prop) : (forall v, ok v -> decodes F (enc v) d (den v)) ->
  (forall v, ok v -> conv (den v) = Some v) -> returns enc d conv ok.
Proof. intros H Hc v bs Hv E. exists (den v). rewrite <- E. auto. Qed.
Lemma writes_returns {A B} (enc : A -> out) (d : R B) conv (ok : A -> Prop) : writes ft enc d conv ok -> returns enc d conv ok.
Proof. intros W v bs Hv E. rewrite <- E. apply W, Hv. Qed.
Lemma returns_list {A B} (enc : A -> out) (d : R B) (conv : B -> option A) ok l : returns enc d conv ok -> Forall ok l -> forall bs, o_all enc l = Some bs ->
  exists ps, decodes F (Some bs) (read_n (List.length l) d) ps /\ all_some conv ps = Some l.
Proof.
  intros R. induction 1 as [|v l Hv _ IH]; intros bs E.
  - injection E as <-. exists []. split; [apply dec_ret|reflexivity].
  - apply o_all_cons in E as (b1 & b2 & E1 & E2 & ->). destruct (R v b1 Hv E1) as (p & D & C). destruct (IH b2 E2) as (ps & Ds & Cs).
    exists (p :: ps). split; [|cbn [all_some]; rewrite C, Cs; reflexivity].
    cbn [List.length read_n]. change (Some (b1 ++ b2)) with (Some b1 +++ Some b2). eapply dec_bind; [exact D|].
    apply dec_last with (a := ps); [exact Ds|apply dec_ret].
Qed.
Lemma limited_returns {A B} (enc : A -> out) (d : R B) (conv : B -> option A) ok l bs : returns enc d conv ok -> Forall ok l -> o_all enc l = Some bs ->
  exists ps, limited d ft (zlen l) bs = Ok ps /\ all_some conv ps = Some l.
Proof.
  intros S H E. destruct (returns_list enc d conv ok l S H bs E) as (ps & (b & Eb & Hb & D) & C). injection Eb as <-. exists ps. split; [|exact C].
  unfold limited, new_reader. specialize (D [] 0 0 ft eq_refl (Forall_nil _)). rewrite app_nil_r in D. unfold zlen at 1. rewrite Nat2Z.id, D. reflexivity.
Qed.

Lemma t_rec : takes ft read_rec c_rec Some d_rec rec_ok.
Proof. apply from_takes; [apply y_rec|exact c_d_rec]. Qed.
Lemma s_rec : sends ft enc_rec read_rec Some d_rec rec_ok.
Proof. apply from_sends, dec_rec. Qed.
Lemma r_rec : returns enc_rec read_rec c_rec rec_ok.
Proof. eapply from_returns; [apply dec_rec|exact c_d_rec]. Qed.
Lemma t_u32 : takes ft read_var_u32 Some Some (fun x => x) (in_u 32).
Proof. apply from_takes; [|reflexivity]. eapply y_weaken; [|apply y_u32]. intros b Hb. exists b. auto. Qed.
Lemma s_u32 : sends ft encode_u32 read_var_u32 Some (fun x => x) (in_u 32).
Proof. apply from_sends, dec_u32. Qed.
Lemma r_u32 : returns encode_u32 read_var_u32 Some (in_u 32).
Proof. apply from_returns with (den := fun x => x); [apply dec_u32|reflexivity]. Qed.
Lemma t_memory : takes ft read_memory Some Some (fun x => x) (memory_ok m64).
Proof. apply from_takes; [|reflexivity]. apply yf. eapply y_weaken; [|apply y_memory]. intros b Hb. exists b. auto. Qed.
Lemma s_memory : sends ft enc_memory read_memory Some (fun x => x) (memory_ok m64).
Proof. apply from_sends. intros v Hv. apply df, dec_memory, Hv. Qed.
Lemma r_memory : returns enc_memory read_memory Some (memory_ok m64).
Proof. apply from_returns with (den := fun x => x); [intros v Hv; apply df, dec_memory, Hv|reflexivity]. Qed.
Lemma t_tag : takes ft read_tag Some Some (fun x => x) (in_u 32).
Proof. apply from_takes; [|reflexivity]. apply yf. eapply y_weaken; [|apply y_tag]. intros b Hb. exists b. auto. Qed.
Lemma s_tag : sends ft enc_tag read_tag Some (fun x => x) (in_u 32).
Proof. apply from_sends. intros v Hv. apply df, dec_tag, Hv. Qed.
Lemma r_tag : returns enc_tag read_tag Some (in_u 32).
Proof. apply from_returns with (den := fun x => x); [intros v Hv; apply df, dec_tag, Hv|reflexivity]. Qed.
Lemma t_export : takes ft read_export c_export Some d_export export_ok.
Proof. apply from_takes; [|exact c_d_export]. apply yf, y_export. Qed.
Lemma s_export : sends ft enc_export read_export Some d_export export_ok.
Proof. apply from_sends. intros v Hv. apply df, dec_export, Hv. Qed.
Lemma r_export : returns enc_export read_export c_export export_ok.
Proof. eapply from_returns; [intros v Hv; apply df, dec_export, Hv|exact c_d_export]. Qed.

(** * Imports *)
Lemma t_imports : takes ft read_imports (c_imports ft 0) (see_imports ft) v_imports (imports_ok m64).
Proof.
  eapply y_weaken; [|apply yf, y_imports]. intros p Hp x Ex.
  assert (H : exists i, c_imports ft 0 p = Some i /\ x = v_imports i).
  { destruct p as [m n ty|m b|m ty b]; cbn [raw_ok see_imports c_imports] in *.
    - destruct Hp as (_ & _ & v & Hv & ->). injection Ex as <-. rewrite (c_d_entity _ v Hv). exists (ISingle m n v). auto.
    - destruct Hp as (_ & Hb). destruct (section_items read_item ft 0 b) as [l|e] eqn:Es; [|discriminate]. injection Ex as <-.
      destruct (y_section_eq ft _ _ 0 b l (yf _ _ (y_item m64)) Hb Es) as [Hl _]. destruct (from_list _ _ _ Hl) as (l' & Hl' & ->).
      rewrite (all_some_map c_item d_item (fun x => x)), map_id.
      + exists (ICompact1 m l'). auto.
      + eapply Forall_impl; [|exact Hl']. intros [n t] [_ Ht]. unfold c_item, d_item. cbn [fst snd i_name i_ty]. rewrite (c_d_entity m64) by exact Ht. reflexivity.
    - destruct Hp as (_ & (v & Hv & ->) & Hb). destruct (section_items read_string ft 0 b) as [l|e] eqn:Es; [|discriminate]. injection Ex as <-.
      rewrite (c_d_entity _ v Hv). exists (ICompact2 m v l). auto. }
  destruct H as (i & E & ->). exists i. split; [exact E|]. split; [|reflexivity]. exact (raw_imports m64 p ft 0 i Hp eq_refl E).
Qed.
Lemma s_imports : sends ft enc_imports read_imports (see_imports ft) v_imports (imports_ok m64).
Proof.
  intros i bs Hi E. pose proof (df _ _ _ (dec_imports m64 i Hi)) as D. exists (d_imports i). rewrite <- E. split; [exact D|].
  destruct (c_d_imports m64 i Hi ft 0 eq_refl) as [C _].
  assert (Hv : exists x, see_imports ft (d_imports i) = Some x).
  { destruct i as [m n ty|m l|m ty l]; cbn [d_imports see_imports c_imports] in *; [eauto| |].
    - destruct (section_items read_item _ _ _); [eexists; reflexivity|discriminate].
    - destruct (section_items read_string _ _ _); [eexists; reflexivity|discriminate]. }
  destruct Hv as (x & Ex). destruct D as (b & Eb & Hb & D). specialize (D [] 0 0 ft eq_refl (Forall_nil _)). rewrite app_nil_r in D.
  destruct (t_imports _ _ _ (eq_refl : ft = r_feat (mkReader b 0 0 ft)) Hb D) as (T & _). destruct (T x Ex) as (v & C' & _ & ->). congruence.
Qed.
Lemma r_imports : returns enc_imports read_imports (c_imports ft 0) (imports_ok m64).
Proof. intros i bs Hi E. exists (d_imports i). rewrite <- E. split; [apply df, dec_imports, Hi|]. apply (c_d_imports m64 i Hi ft 0 eq_refl). Qed.

(** * Function bodies *)
Lemma same_refl l : Forall2 same_op l l.
Proof. induction l; constructor; [left; reflexivity|assumption]. Qed.
Lemma body_kept b x : bytes_ok b -> see_body ft b = Some x -> exists f, c_func ft b = Some f /\ func_ok ft f /\ x = v_func f.
Proof.
  intros Hb E. unfold see_body in E. destruct (body_locals ft 0 b) as [ls|e] eqn:El; [|discriminate]. cbn [seen_ok ops_bind] in E.
  destruct (body_ops ft 0 b) as [ops|e] eqn:Eo; [|discriminate]. cbn [seen_ok ops_bind] in E.
  destruct (func_read ft 0 b ls ops Hb El Eo) as (f & C & Hf & -> & Hs). exists f. split; [exact C|]. split; [exact Hf|].
  rewrite (see_all ft ops (ef_body f)) in E; [|destruct Hf as (_ & bb & -> & _ & Hi); apply Forall_app; split; [exact Hi|repeat constructor]|exact Hs].
  injection E as <-. reflexivity.
Qed.
Lemma body_written f b : func_ok ft f -> func_bytes f = Some b -> bytes_ok b /\ c_func ft b = Some f /\ see_body ft b = Some (v_func f).
Proof.
  intros Hf E. destruct (func_written ft f Hf) as (b' & E' & Hb & C & D). rewrite E in E'. injection E' as <-. split; [exact Hb|]. split; [exact C|].
  unfold see_body. destruct (D 0) as [-> ->]. cbn [seen_ok ops_bind]. rewrite (see_all ft _ (ef_body f)); [reflexivity| |apply same_refl].
  destruct Hf as (_ & bb & -> & _ & Hi). apply Forall_app. split; [exact Hi|repeat constructor].
Qed.
Lemma bodies_kept bs : Forall bytes_ok bs -> forall xs, all_seen (see_body ft) bs = Some xs ->
  exists l, all_some (c_func ft) bs = Some l /\ Forall (func_ok ft) l /\ List.length l = List.length bs /\ xs = map v_func l.
Proof. intros H. apply takes_list. eapply Forall_impl; [|exact H]. intros b Hb x. apply body_kept, Hb. Qed.
Lemma bodies_written l : Forall (func_ok ft) l -> forall bs, t_bodies l = Some bs ->
  Forall bytes_ok bs /\ List.length bs = List.length l /\ all_some (c_func ft) bs = Some l /\ all_seen (see_body ft) bs = Some (map v_func l).
Proof.
  induction 1 as [|f l Hf _ IH]; intros bs E; cbn [t_bodies] in E; [injection E as <-; repeat split; constructor|].
  destruct (func_bytes f) as [b|] eqn:Eb; [|discriminate]. destruct (t_bodies l) as [t|]; [|discriminate]. injection E as <-.
  destruct (body_written f b Hf Eb) as (Hb & Cb & Sb). destruct (IH t eq_refl) as (Ht & Hn & Ct & St). cbn [all_seen all_some map List.length]. rewrite Sb, St, Cb, Ct. auto.
Qed.

(** * Sections *)
Lemma limited_takes {A B V} (d : R B) (conv : B -> option A) (view : B -> option V) vden ok n items ps xs : takes ft d conv view vden ok ->
  in_u 32 n -> bytes_ok items -> limited d ft n items = Ok ps -> all_seen view ps = Some xs ->
  exists l, all_some conv ps = Some l /\ Forall ok l /\ zlen l = n /\ xs = map vden l.
Proof.
  intros T Hn Hb E S. unfold limited in E. destruct (read_n (Z.to_nat n) d (new_reader ft items 0)) as [[l r]|e] eqn:Er; [|discriminate].
  destruct (eof r); [|discriminate]. injection E as <-.
  destruct (y_read_n F (Z.to_nat n) d _ T _ _ _ (eq_refl : F (r_feat (new_reader ft items 0))) Hb Er) as ((Hl & Hln) & _).
  destruct (takes_list _ _ _ _ _ Hl xs S) as (es & C & He & Hle & ->). exists es. repeat split; auto. unfold zlen. rewrite Hle, Hln. unfold in_u in Hn. lia.
Qed.
Lemma limited_sends {A B V} (enc : A -> out) (d : R B) (view : B -> option V) vden ok l bs : sends ft enc d view vden ok -> Forall ok l -> o_all enc l = Some bs ->
  bytes_ok bs /\ exists ps, limited d ft (zlen l) bs = Ok ps /\ all_seen view ps = Some (map vden l).
Proof.
  intros S H E. destruct (sends_list ft enc d view vden ok l S H bs E) as (ps & (b & Eb & Hb & D) & Sv). injection Eb as <-. split; [exact Hb|]. exists ps. split; [|exact Sv].
  unfold limited, new_reader. specialize (D [] 0 0 ft eq_refl (Forall_nil _)). rewrite app_nil_r in D. unfold zlen at 1. rewrite Nat2Z.id, D. reflexivity.
Qed.

(** What has to be shown of one section: [pls] is what the parser reports of it, [e] what it is translated
    to, [V] what a user sees. *)
Definition carried (data : list Z) (id : Z) (pls : list payload) (V : list s_payload) : Prop :=
  exists e, reencode ft data pls = Some [e] /\ forall t, t_section e = Some t ->
    tsection_ok t /\ tsection_id t = id /\ declared 3 [t] = items_of 3 pls /\ declared 11 [t] = items_of 11 pls /\ defined [t] = bodies_of pls /\
    (forall n, In (TDataCount n) [t] -> exists rg, In (PDataCount n rg) pls) /\
    (forall g, tells t g -> see_module ft g = Some V) /\
    forall s dat g out, shows s id dat g -> tells t g -> bytes_ok dat -> get_original out (s, s + zlen dat) = Some dat -> reencode ft out g = Some [e].

Lemma carried_limited {A B V} data id rg c n items (d : R B) (conv : B -> option A) (view : B -> option V) vden ok enc (f : list A -> e_section) (g : list V -> s_payload) Vs :
  takes ft d conv view vden ok -> sends ft enc d view vden ok -> returns enc d conv ok -> In id [1; 2; 3; 4; 5; 6; 7; 9; 11; 13] -> in_u 32 n -> bytes_ok items ->
  (forall l, t_section (f l) = t_limited id enc l) ->
  (forall dt rg c n items, c_payload ft dt (PLimited EModule id rg c n items) = c_limited d conv f ft n items) ->
  (forall rg c n items, see_payload ft (PLimited EModule id rg c n items) = see_items d view g ft n items) ->
  see_module ft [PLimited EModule id rg c n items] = Some Vs -> carried data id [PLimited EModule id rg c n items] Vs.
Proof.
  intros T S Rt Hid Hn Hb Et Ec Es Ev. unfold see_module in Ev. cbn [all_seen] in Ev. rewrite Es in Ev. unfold see_items in Ev.
  destruct (limited d ft n items) as [ps|e] eqn:El; [|discriminate]. cbn [seen_ok ops_bind] in Ev. destruct (all_seen view ps) as [xs|] eqn:Ea; [|discriminate]. injection Ev as <-.
  destruct (limited_takes d conv view vden ok n items ps xs T Hn Hb El Ea) as (l & C & Hl & Hln & ->).
  exists (f l). split.
  - cbn [reencode]. rewrite Ec. unfold c_limited. rewrite El, C. reflexivity.
  - intros t E. rewrite Et in E. unfold t_limited in E. destruct (o_all enc l) as [bs|] eqn:Eo; [|discriminate]. injection E as <-.
    destruct (limited_sends enc d view vden ok l bs S Hl Eo) as (Hbs & ps' & El' & Sv). destruct (limited_returns enc d conv ok l bs Rt Hl Eo) as (ps2 & El2 & Cv). rewrite Hln in *.
    split; [split; [exact Hid|split; [exact Hn|exact Hbs]]|]. split; [reflexivity|]. cbn [declared defined items_of bodies_of].
    split; [reflexivity|]. split; [reflexivity|]. split; [reflexivity|]. split; [intros k [H|[]]; discriminate H|].
    split; [intros gr (rg' & c' & ->); unfold see_module; cbn [all_seen]; rewrite Es; unfold see_items; rewrite El'; cbn [seen_ok ops_bind]; rewrite Sv; reflexivity|].
    intros s0 dat0 gr out0 _ (rg' & c' & ->) _ _. cbn [reencode]. rewrite Ec. unfold c_limited. rewrite El2, Cv. reflexivity.
Qed.

(** The code section as [CodeSectionReader] reads it. *)
Lemma read_body_at lenb body rest pos off : bytes_ok lenb -> bytes_ok (body ++ rest) -> uN 32 lenb (zlen body) ->
  read_body (mkReader (lenb ++ body ++ rest) pos off ft) = Ok (body, mkReader rest (pos + zlen lenb + zlen body) off ft).
Proof.
  intros Hl Hb Hu. unfold read_body, bind.
  assert (E : read_var_u32 (mkReader (lenb ++ body ++ rest) pos off ft) = Ok (zlen body, mkReader (body ++ rest) (pos + zlen lenb) off ft)).
  { apply u32_exact; [apply bytes_ok_app; auto|]. exists lenb. split; [exact Hu|]. repeat split. }
  rewrite E. destruct (dec_read_bytes F body) as (b & Eb & _ & D); [apply bytes_ok_app in Hb; apply Hb|]. injection Eb as <-.
  apply D; [reflexivity|]. apply bytes_ok_app in Hb. apply Hb.
Qed.
Lemma read_bodies_at pos bs pls : code_entries_at pos bs pls -> forall p off, bytes_ok bs ->
  exists bodies, read_n (List.length pls) read_body (mkReader bs p off ft) = Ok (bodies, mkReader [] (p + zlen bs) off ft) /\
    Forall bytes_ok bodies /\ List.length bodies = List.length pls /\ Forall2 (fun b e => exists rg, e = PCodeEntry rg b) bodies pls /\ 
    (forall V, see_module ft pls = Some V -> exists xs, all_seen (see_body ft) bodies = Some xs /\ V = map SBody xs) /\
    (forall data, reencode ft data pls = Some []).
Proof.
  induction 1 as [pos|pos lenb body bs pls Hu _ IH]; intros p off Hb.
  - exists []. cbn [List.length read_n]. unfold ret, zlen. cbn [List.length]. rewrite Z.add_0_r. repeat split; [constructor|constructor|]. intros V [= <-]. exists []. auto.
  - apply bytes_ok_app in Hb as [Hlb Hb]. pose proof Hb as Hb'. apply bytes_ok_app in Hb' as [Hbd Hbs].
    destruct (IH (p + zlen lenb + zlen body) off Hbs) as (bodies & E & H1 & H2 & H5 & H3 & H4). exists (body :: bodies). cbn [List.length read_n]. unfold bind.
    rewrite read_body_at by auto. rewrite E. split; [unfold ret; rewrite !zlen_app, !Z.add_assoc; reflexivity|]. split; [constructor; auto|]. split; [congruence|]. split; [constructor; eauto|]. split.
    + intros V. unfold see_module. cbn [all_seen see_payload]. destruct (see_body ft body) as [x|]; [|discriminate]. cbn [option_map].
      destruct (all_seen (see_payload ft) pls) as [W|] eqn:EW; [|discriminate]. intros [= <-]. destruct (H3 W EW) as (xs & -> & ->). exists (x :: xs). auto.
    + intros data. cbn [reencode c_payload]. rewrite H4. reflexivity.
Qed.
Lemma section_of_code cb bs pls s off : bytes_ok (cb ++ bs) -> uN 32 cb (zlen pls) -> code_entries_at s bs pls ->
  exists bodies, section_items read_body ft off (cb ++ bs) = Ok bodies /\ Forall bytes_ok bodies /\ List.length bodies = List.length pls /\ Forall2 (fun b e => exists rg, e = PCodeEntry rg b) bodies pls /\ 
    (forall V, see_module ft pls = Some V -> exists xs, all_seen (see_body ft) bodies = Some xs /\ V = map SBody xs) /\
    (forall data, reencode ft data pls = Some []).
Proof.
  intros Hb Hu He. pose proof Hb as Hb'. apply bytes_ok_app in Hb' as [_ Hbs].
  destruct (read_bodies_at _ _ _ He (0 + zlen cb) off Hbs) as (bodies & E & H). exists bodies. split; [|exact H].
  unfold section_items, read_items, bind, new_reader.
  assert (Ec : read_var_u32 (mkReader (cb ++ bs) 0 off ft) = Ok (zlen pls, mkReader bs (0 + zlen cb) off ft)).
  { apply u32_exact; [exact Hb|]. exists cb. split; [exact Hu|]. repeat split. }
  rewrite Ec. unfold zlen at 1. rewrite Nat2Z.id, E. reflexivity.
Qed.
Lemma see_entries (bodies : list (list Z)) ents : Forall2 (fun b e => exists rg, e = PCodeEntry rg b) bodies ents -> forall xs, all_seen (see_body ft) bodies = Some xs ->
  see_module ft ents = Some (map SBody xs).
Proof.
  unfold see_module. induction 1 as [|b e bodies ents (rg & ->) _ IH]; intros xs E; cbn [all_seen] in *; [injection E as <-; reflexivity|].
  destruct (see_body ft b) as [x|] eqn:Ex; [|discriminate]. destruct (all_seen (see_body ft) bodies) as [t|]; [|discriminate]. injection E as <-.
  cbn [see_payload]. rewrite Ex, (IH t eq_refl). reflexivity.
Qed.

Lemma bytes_eqb_spec a b : bytes_eqb a b = true <-> a = b.
Proof. unfold bytes_eqb. destruct (list_eq_dec Z.eq_dec a b); split; congruence. Qed.
Lemma name_ok : bytes_ok NAME /\ zlen NAME <= 100000 /\ utf8_valid NAME = true.
Proof. split; [repeat constructor; unfold is_byte; lia|]. split; [change (zlen NAME) with 4; lia|reflexivity]. Qed.
Lemma uN_in n bs v : uN n bs v -> 0 < n -> in_u n v.
Proof. intros H Hn. exact (uN_range _ _ _ H). Qed.

Lemma same_bodies (a b : list (list Z)) ents : Forall2 (fun b e => exists rg, e = PCodeEntry rg b) a ents -> Forall2 (fun b e => exists rg, e = PCodeEntry rg b) b ents -> a = b.
Proof.
  intros H. revert b. induction H as [|x e a ents (rg & ->) _ IH]; intros b Hb; inversion Hb as [|y ? b' ? (rg' & E) Hb']; subst; [reflexivity|].
  injection E as _ ->. f_equal. apply IH, Hb'.
Qed.
Lemma v_name_inj a b : v_name a = v_name b -> a = b.
Proof. destruct a as [|m ?|m ?|], b as [|m' ?|m' ?|]; intros E; try discriminate E; injection E; intros; subst; try reflexivity; destruct m, m'; try discriminate; reflexivity. Qed.
Lemma names_return l b : Forall e_name_ok l -> enc_names l = Some b -> c_names ft b = Some l.
Proof.
  intros Hl E. destruct (names_written ft l b Hl E) as [Hb S]. destruct (names_kept ft b _ Hb S) as (l' & -> & _ & Em). f_equal.
  revert l' Em. clear. induction l as [|x l IH]; intros [|y l'] Em; try discriminate Em; [reflexivity|]. cbn [map] in Em. injection Em as H1 H2.
  apply v_name_inj in H1 as ->. f_equal. apply IH, H2.
Qed.

Lemma carry data s id dat pls V : shows s id dat pls -> bytes_ok dat -> get_original data (s, s + zlen dat) = Some dat -> see_module ft pls = Some V ->
  carried data id pls V.
Proof.
  intros H Hb Hg Ev. destruct H as [nb name dt Hu Hn Hv|id cb n items Hid Hu|fb f Hu|cb n Hu|cb bs pls Hu He|id dt Hid].
  - unfold see_module in Ev. cbn [all_seen see_payload] in Ev. unfold carried. cbn [reencode c_payload].
    apply bytes_ok_app in Hb as [_ Hb]. apply bytes_ok_app in Hb as [Hnm Hd].
    destruct (bytes_eqb name NAME) eqn:En.
    + apply bytes_eqb_spec in En as ->. destruct (see_names ft dt) as [x|] eqn:Ex; [|discriminate]. injection Ev as <-.
      destruct (names_kept ft dt x Hd Ex) as (l & -> & Hl & ->). exists (ESNames l). split; [reflexivity|]. cbn [t_section]. intros t E.
      destruct (enc_names l) as [b|] eqn:Eb; [|discriminate]. injection E as <-. destruct (names_written ft l b Hl Eb) as [Hbb Sb].
      split; [destruct name_ok as (? & ? & ?); repeat split; auto|]. repeat split; try reflexivity.
      * intros k [H|[]]. discriminate H.
      * intros g (rg & c & ->). unfold see_module. cbn [all_seen see_payload]. replace (bytes_eqb NAME NAME) with true by reflexivity. rewrite Sb. reflexivity.
      * intros s0 dat0 g out0 _ (rg & c & ->) _ _. cbn [reencode c_payload]. replace (bytes_eqb NAME NAME) with true by reflexivity. rewrite (names_return l b Hl Eb). reflexivity.
    + injection Ev as <-. exists (ESCustom name dt). split; [reflexivity|]. intros t [= <-]. split; [repeat split; auto|]. repeat split; try reflexivity.
      * intros k [H|[]]. discriminate H.
      * intros g (rg & c & ->). unfold see_module. cbn [all_seen see_payload]. rewrite En. reflexivity.
      * intros s0 dat0 g out0 _ (rg & c & ->) _ _. cbn [reencode c_payload]. rewrite En. reflexivity.
  - apply bytes_ok_app in Hb as [_ Hb]. pose proof (uN_in _ _ _ Hu ltac:(lia)) as Hn.
    cbn [In] in Hid. repeat (destruct Hid as [<-|Hid]); [..|destruct Hid].
    + eapply (carried_limited data 1) with (f := ESTypes) (g := STypes); [exact t_rec|exact s_rec|exact r_rec|cbn [In]; tauto|exact Hn|exact Hb|reflexivity|reflexivity|reflexivity|exact Ev].
    + eapply (carried_limited data 2) with (f := ESImports) (g := SImports); [exact t_imports|exact s_imports|exact r_imports|cbn [In]; tauto|exact Hn|exact Hb|reflexivity|reflexivity|reflexivity|exact Ev].
    + eapply (carried_limited data 3) with (f := ESFunctions) (g := SFunctions); [exact t_u32|exact s_u32|exact r_u32|cbn [In]; tauto|exact Hn|exact Hb|reflexivity|reflexivity|reflexivity|exact Ev].
    + eapply (carried_limited data 4) with (f := ESTables) (g := STables); [apply keeps_takes, k_table_def|eapply keeps_sends; [apply w_table_def|apply k_table_def]|apply writes_returns, w_table_def|cbn [In]; tauto|exact Hn|exact Hb|reflexivity|reflexivity|reflexivity|exact Ev].
    + eapply (carried_limited data 5) with (f := ESMemories) (g := SMemories); [exact t_memory|exact s_memory|exact r_memory|cbn [In]; tauto|exact Hn|exact Hb|reflexivity|reflexivity|reflexivity|exact Ev].
    + eapply (carried_limited data 6) with (f := ESGlobals) (g := SGlobals); [apply keeps_takes, k_global_def|eapply keeps_sends; [apply w_global_def|apply k_global_def]|apply writes_returns, w_global_def|cbn [In]; tauto|exact Hn|exact Hb|reflexivity|reflexivity|reflexivity|exact Ev].
    + eapply (carried_limited data 7) with (f := ESExports) (g := SExports); [exact t_export|exact s_export|exact r_export|cbn [In]; tauto|exact Hn|exact Hb|reflexivity|reflexivity|reflexivity|exact Ev].
    + eapply (carried_limited data 9) with (f := ESElements) (g := SElements); [apply keeps_takes, k_elem|eapply keeps_sends; [apply w_elem|apply k_elem]|apply writes_returns, w_elem|cbn [In]; tauto|exact Hn|exact Hb|reflexivity|reflexivity|reflexivity|exact Ev].
    + eapply (carried_limited data 11) with (f := ESData) (g := SData); [apply keeps_takes, k_data|eapply keeps_sends; [apply w_data|apply k_data]|apply writes_returns, w_data|cbn [In]; tauto|exact Hn|exact Hb|reflexivity|reflexivity|reflexivity|exact Ev].
    + eapply (carried_limited data 13) with (f := ESTags) (g := STags); [exact t_tag|exact s_tag|exact r_tag|cbn [In]; tauto|exact Hn|exact Hb|reflexivity|reflexivity|reflexivity|exact Ev].
  - injection Ev as <-. exists (ESStart f). split; [reflexivity|]. intros t [= <-]. split; [exact (uN_in _ _ _ Hu ltac:(lia))|]. repeat split; try reflexivity.
    + intros k [H|[]]. discriminate H.
    + intros g (rg & ->). reflexivity.
    + intros s0 dat0 g out0 _ (rg & ->) _ _. reflexivity.
  - injection Ev as <-. exists (ESDataCount n). split; [reflexivity|]. intros t [= <-]. split; [exact (uN_in _ _ _ Hu ltac:(lia))|]. repeat split; try reflexivity.
    + intros k [[= <-]|[]]. eexists. left. reflexivity.
    + intros g (rg & ->). reflexivity.
    + intros s0 dat0 g out0 _ (rg & ->) _ _. reflexivity.
  - destruct (section_of_code cb bs pls _ s Hb Hu He) as (bodies & E & Hbs & Hln & _ & Hsee & Hre).
    unfold see_module in Ev. cbn [all_seen see_payload] in Ev. destruct (all_seen (see_payload ft) pls) as [W|] eqn:EW; [|discriminate]. injection Ev as <-.
    destruct (Hsee W EW) as (xs & Ex & ->). destruct (bodies_kept bodies Hbs xs Ex) as (l & C & Hl & Hll & ->).
    exists (ESCode l). split.
    + cbn [reencode c_payload fst]. rewrite Hg, E, C, Hre. reflexivity.
    + cbn [t_section]. intros t Et. destruct (t_bodies l) as [b|] eqn:Eb; [|discriminate]. injection Et as <-.
      destruct (bodies_written l Hl b Eb) as (Hbb & Hlb & Cb & Sb).
      assert (Hz : zlen b = zlen pls) by (unfold zlen; congruence).
      pose proof (entries_none _ _ _ He) as (N1 & N2 & N3 & N4 & _). pose proof (uN_in _ _ _ Hu ltac:(lia)) as Hn. unfold in_u in Hn.
      split; [split; [exact Hbb|lia]|]. split; [reflexivity|]. cbn [declared defined items_of bodies_of]. rewrite !N1, N3.
      repeat split; try lia.
      * intros k [H|[]]. discriminate H.
      * intros g (rg & size & ents & -> & Hf). unfold see_module. cbn [all_seen see_payload]. pose proof (see_entries b ents Hf _ Sb) as Se. unfold see_module in Se. rewrite Se, Hz. reflexivity.
      * intros s0 dat0 g out0 Hs (rg & size & ents & -> & Hf) Hb0 Hg0. inversion Hs as [| | | |cb0 bs0 pls0 Hu0 He0 E1 E2|]; subst.
        destruct (section_of_code cb0 bs0 ents _ s0 Hb0 Hu0 He0) as (bodies0 & E0 & _ & _ & Hf0 & _ & Hre0). rewrite (same_bodies _ _ _ Hf0 Hf) in E0.
        cbn [reencode c_payload fst]. rewrite Hg0, E0, Cb, Hre0. reflexivity.
  - injection Ev as <-. exists (ESRaw id dt). split; [cbn [reencode c_payload]; rewrite Hg; reflexivity|]. intros t [= <-]. split; [split; auto|]. repeat split; try reflexivity.
    + intros k [H|[]]. discriminate H.
    + intros g (rg & ->). reflexivity.
    + intros s0 dat0 g out0 Hs (rg & ->) _ Hg0. inversion Hs; subst. cbn [reencode c_payload]. rewrite Hg0. reflexivity.
Qed.

(** * The whole module *)
Lemma all_seen_app {A B} (f : A -> option B) a b W : all_seen f (a ++ b) = Some W <-> exists x y, all_seen f a = Some x /\ all_seen f b = Some y /\ W = x ++ y.
Proof.
  revert W. induction a as [|p a IH]; intros W; cbn [all_seen app].
  - split; [intros H; exists [], W; auto|intros (x & y & [= <-] & H & ->); exact H].
  - destruct (f p) as [v|]; [|split; [discriminate|intros (x & y & H & _); discriminate H]]. split.
    + destruct (all_seen f (a ++ b)) as [t|]; [|discriminate]. intros [= <-]. destruct (proj1 (IH t) eq_refl) as (x & y & -> & -> & ->). exists (v :: x), y. auto.
    + intros (x & y & H1 & H2 & ->). destruct (all_seen f a) as [x'|]; [|discriminate]. injection H1 as <-.
      rewrite (proj2 (IH (x' ++ y))); [reflexivity|]. exists x', y. auto.
Qed.
Lemma reencode_app data a b : reencode ft data (a ++ b) =
  match reencode ft data a, reencode ft data b with Some x, Some y => Some (x ++ y) | _, _ => None end.
Proof.
  induction a as [|p a IH]; cbn [reencode app]; [destruct (reencode ft data b); reflexivity|]. rewrite IH.
  destruct (c_payload ft data p); [|reflexivity]. destruct (reencode ft data a); [|reflexivity]. destruct (reencode ft data b); [|reflexivity]. rewrite app_assoc. reflexivity.
Qed.
Lemma original_at pre mid post : get_original (pre ++ mid ++ post) (zlen pre, zlen pre + zlen mid) = Some mid.
Proof.
  unfold get_original. cbn [fst snd]. rewrite !zlen_app. pose proof (zlen_nonneg mid). pose proof (zlen_nonneg post).
  destruct (Z.leb_spec (zlen pre) (zlen pre + zlen mid)); [|lia]. destruct (Z.leb_spec (zlen pre + zlen mid) (zlen pre + (zlen mid + zlen post))); [|lia]. cbn [andb].
  replace (zlen pre + zlen mid - zlen pre) with (zlen mid) by lia. unfold zlen. rewrite !Nat2Z.id.
  rewrite skipn_app, skipn_all, Nat.sub_diag. cbn [app skipn]. rewrite firstn_app, firstn_all, Nat.sub_diag, firstn_O, app_nil_r. reflexivity.
Qed.

Lemma carry_all pos secs bytes pls : shows_all pos secs bytes pls -> forall pre, pos = zlen pre -> bytes_ok bytes -> forall V, see_module ft pls = Some V ->
  exists es, reencode ft (pre ++ bytes) pls = Some es /\ forall ts, t_sections es = Some ts ->
    Forall tsection_ok ts /\ map tsection_id ts = map fst secs /\ declared 3 ts = items_of 3 pls /\ declared 11 ts = items_of 11 pls /\ defined ts = bodies_of pls /\
    (forall n, In (TDataCount n) ts -> exists rg, In (PDataCount n rg) pls) /\
    forall obytes opre, append_all ts = Some obytes -> bytes_ok obytes -> exists osecs opls, shows_all (zlen opre) osecs obytes opls /\
      map fst osecs = map tsection_id ts /\ items_of 3 opls = declared 3 ts /\ items_of 11 opls = declared 11 ts /\ bodies_of opls = defined ts /\
      (forall n rg, In (PDataCount n rg) opls -> In (TDataCount n) ts) /\
      see_module ft opls = Some V /\ reencode ft (opre ++ obytes) opls = Some es.
Proof.
  induction 1 as [pos|pos id dat lenb pls secs bytes tr Hu Hs _ IH]; intros pre Hp Hb V Ev.
  - exists []. split; [reflexivity|]. intros ts [= <-]. injection Ev as <-. repeat split; try constructor; [intros n []|].
    intros obytes opre [= <-] _. exists [], []. repeat split; try constructor. intros n rg [].
  - change (id :: lenb ++ dat ++ bytes) with ([id] ++ lenb ++ dat ++ bytes) in *.
    apply bytes_ok_app in Hb as [_ Hb]. apply bytes_ok_app in Hb as [_ Hb]. apply bytes_ok_app in Hb as [Hd Hb].
    unfold see_module in Ev. apply all_seen_app in Ev as (V1 & V2 & E1 & E2 & ->).
    assert (Hw : pre ++ [id] ++ lenb ++ dat ++ bytes = (pre ++ [id] ++ lenb) ++ dat ++ bytes) by (rewrite <- !app_assoc; reflexivity).
    assert (Hz : zlen (pre ++ [id] ++ lenb) = pos + 1 + zlen lenb) by (rewrite !zlen_app; change (zlen [id]) with 1; lia).
    destruct (carry (pre ++ [id] ++ lenb ++ dat ++ bytes) _ _ _ _ V1 Hs Hd) as (e & Re & He).
    { rewrite Hw, <- Hz. apply original_at. } { exact E1. }
    destruct (IH ((pre ++ [id] ++ lenb) ++ dat)) with (V := V2) as (es & Res & Hes).
    { rewrite zlen_app, Hz. reflexivity. } { exact Hb. } { exact E2. }
    exists (e :: es). split.
    + rewrite reencode_app, Re. rewrite Hw, app_assoc, Res. reflexivity.
    + intros ts. cbn [t_sections]. destruct (t_section e) as [t|] eqn:Et; [|discriminate]. destruct (t_sections es) as [ts'|]; [|discriminate]. intros [= <-].
      destruct (He t eq_refl) as (K1 & K2 & K3 & K4 & K5 & K6 & K7 & K8). destruct (Hes ts' eq_refl) as (J1 & J2 & J3 & J4 & J5 & J6 & J7).
      rewrite declared_cons, (declared_cons 11), defined_cons, !items_app, bodies_app. cbn [map fst].
      split; [constructor; auto|]. split; [congruence|]. split; [congruence|]. split; [congruence|]. split; [congruence|]. split.
      * intros n [Hin|Hin]; [destruct (K6 n) as [rg ?]; [left; exact Hin|]|destruct (J6 n Hin) as [rg ?]]; exists rg; apply in_or_app; auto.
      * intros obytes opre Eo Hbo. cbn [append_all] in Eo. destruct (encode_tsection t) as [a|] eqn:Ea; [|discriminate]. destruct (append_all ts') as [b|]; [|discriminate]. injection Eo as <-.
        destruct (tsection_shape _ _ K1 Ea (zlen opre)) as (ol & od & opl & -> & Hul & Hsl & Htl & I3 & I11 & Ib & Idc). rewrite <- app_assoc in *.
        change (tsection_id t :: ol ++ od ++ b) with ([tsection_id t] ++ ol ++ od ++ b) in *.
        apply bytes_ok_app in Hbo as [_ Hbo]. apply bytes_ok_app in Hbo as [_ Hbo]. apply bytes_ok_app in Hbo as [Hbd Hbo].
        assert (Hw' : opre ++ [tsection_id t] ++ ol ++ od ++ b = (opre ++ [tsection_id t] ++ ol) ++ od ++ b) by (rewrite <- !app_assoc; reflexivity).
        assert (Hz' : zlen (opre ++ [tsection_id t] ++ ol) = zlen opre + 1 + zlen ol) by (rewrite !zlen_app; change (zlen [tsection_id t]) with 1; lia).
        destruct (J7 b ((opre ++ [tsection_id t] ++ ol) ++ od) eq_refl Hbo) as (osecs & opls & L1 & L2 & L3 & L4 & L5 & L6 & L7 & L8).
        exists ((tsection_id t, od) :: osecs), (opl ++ opls). rewrite !items_app, bodies_app. cbn [map fst].
        split; [cbn [app]; constructor; [exact Hul|exact Hsl|rewrite zlen_app, Hz' in L1; exact L1]|].
        split; [congruence|]. split; [congruence|]. split; [congruence|]. split; [congruence|]. split; [|split].
        -- intros n rg Hin. apply in_app_or in Hin as [Hin|Hin]; [|right; eauto]. destruct (Idc _ _ Hin) as [<-|[]]. left. reflexivity.
        -- unfold see_module. apply all_seen_app. exists V1, V2. split; [apply K7, Htl|]. split; [exact L7|reflexivity].
        -- rewrite reencode_app. rewrite Hw', app_assoc, L8, <- app_assoc. rewrite K2 in Hsl. rewrite (K8 _ _ _ _ Hsl Htl Hbd); [reflexivity|]. rewrite <- Hz'. apply original_at.
Qed.

Lemma code_bytes_ok bodies : Forall bytes_ok bodies -> forall bs, code_bytes bodies = Some bs -> bytes_ok bs.
Proof.
  induction 1 as [|b l Hb _ IH]; intros bs E; cbn [code_bytes] in E; [injection E as <-; constructor|].
  destruct (encode_bytes b) as [x|] eqn:Ex; [|discriminate]. destruct (code_bytes l) as [y|]; [|discriminate]. injection E as <-.
  apply encode_bytes_shape in Ex as (lenb & -> & Hu). apply bytes_ok_app. split; [|auto]. apply bytes_ok_app. split; [exact (uN_bytes _ _ _ Hu)|exact Hb].
Qed.
Lemma usize_bytes v b : 0 <= v -> encode_usize v = Some b -> bytes_ok b.
Proof. intros H E. exact (uN_bytes _ _ _ (enc_usize_uN v b H E)). Qed.
Lemma u32_bytes v b : in_u 32 v -> encode_u32 v = Some b -> bytes_ok b.
Proof. intros H E. exact (uN_bytes _ _ _ (enc_u32_uN v b H E)). Qed.
Lemma t_section_bytes t a : tsection_ok t -> encode_tsection t = Some a -> is_byte (tsection_id t) /\ bytes_ok a.
Proof.
  intros Hok E. destruct (tsection_shape t a Hok E 0) as (lenb & dat & pls & -> & Hu & Hs & Ht & _).
  pose proof (uN_bytes _ _ _ Hu) as Hl.
  destruct t as [name d|id n items|f|n|bodies|id d]; cbn [tsection_id tsection_ok tells] in *.
  - split; [unfold is_byte; lia|]. apply bytes_ok_app. split; [exact Hl|]. inversion Hs as [nb nm dt Hnb Hn Hv E1 E2|? cb n items Hid| | | |? ? Hid]; subst; [|cbn [In] in Hid; lia|lia].
    destruct Ht as (rg & c & Ht). injection Ht as _ _ -> ->. destruct Hok as (H1 & H2 & _). apply bytes_ok_app. split; [exact (uN_bytes _ _ _ Hnb)|]. apply bytes_ok_app. auto.
  - destruct Hok as (Hid & Hn & Hi). split; [unfold is_byte; cbn [In] in Hid; lia|]. apply bytes_ok_app. split; [exact Hl|].
    inversion Hs as [nb nm dt Hnb Hnn Hv E1 E2|? cb m its Hid' Hcb| | | |? ? Hid']; subst; destruct Ht as (rg & c & Ht); try discriminate Ht.
    injection Ht as _ _ -> ->. apply bytes_ok_app. split; [exact (uN_bytes _ _ _ Hcb)|exact Hi].
  - split; [unfold is_byte; lia|]. apply bytes_ok_app. split; [exact Hl|]. destruct Ht as (rg & ->). inversion Hs; subst. eapply uN_bytes; eassumption.
  - split; [unfold is_byte; lia|]. apply bytes_ok_app. split; [exact Hl|]. destruct Ht as (rg & ->). inversion Hs; subst. eapply uN_bytes; eassumption.
  - split; [unfold is_byte; lia|]. apply bytes_ok_app. split; [exact Hl|]. destruct Ht as (rg & size & ents & -> & Hf). inversion Hs as [| | | |cb bs pls Hcb He E1 E2|]; subst.
    apply bytes_ok_app. split; [exact (uN_bytes _ _ _ Hcb)|]. destruct Hok as [Hb _]. clear -He Hf Hb. revert bodies Hb Hf.
    induction He as [|pos lb body bs pls Hu He IH]; intros bodies Hb Hf; [constructor|].
    inversion Hf as [|b e bodies' ? (rg & He') Hf']; subst. inversion Hb; subst. injection He' as _ ->.
    apply bytes_ok_app. split; [exact (uN_bytes _ _ _ Hu)|]. apply bytes_ok_app. split; [assumption|]. eapply IH; eassumption.
  - destruct Hok as [Hid Hd]. split; [unfold is_byte; lia|]. apply bytes_ok_app. split; [exact Hl|]. destruct Ht as (rg & ->). inversion Hs; subst. exact Hd.
Qed.
Lemma append_bytes ts : Forall tsection_ok ts -> forall a, append_all ts = Some a -> bytes_ok a.
Proof.
  induction 1 as [|t ts Ht _ IH]; intros a E; cbn [append_all] in E; [injection E as <-; constructor|].
  destruct (encode_tsection t) as [x|] eqn:Ex; [|discriminate]. destruct (append_all ts) as [y|]; [|discriminate]. injection E as <-.
  destruct (t_section_bytes t x Ht Ex) as [Hi Hx]. constructor; [exact Hi|]. apply bytes_ok_app. auto.
Qed.

(** The main result. *)
Lemma module_kept data tr V : bytes_ok data -> zlen data <= U64MAX -> ~ is_component data ->
  Spec.yields (parse_all_of (new_parser 0) data) tr None -> see_module ft tr = Some V ->
  exists es, reencode ft data tr = Some es /\ forall out, build es = Some out -> zlen out <= U64MAX ->
    bytes_ok out /\ exists tr', Spec.yields (parse_all_of (new_parser 0) out) tr' None /\ see_module ft tr' = Some V /\ reencode ft out tr' = Some es.
Proof.
  intros Hb Hz Hc Hy Ev. apply accept_iff in Hy; auto; try lia.
  destruct Hy as (secs & bytes & pls & -> & Hs & Ho & Hf & Hd & ->).
  unfold see_module in Ev. cbn [all_seen see_payload] in Ev.
  destruct (all_seen (see_payload ft) (pls ++ _)) as [W|] eqn:EW; [|discriminate]. injection Ev as <-.
  apply all_seen_app in EW as (V1 & V2 & E1 & [= <-] & ->).
  apply bytes_ok_app in Hb as [_ Hb].
  destruct (carry_all _ _ _ _ Hs [0; 97; 115; 109; 1; 0; 0; 0] eq_refl Hb V1 E1) as (es & Re & He). exists es. split.
  - cbn [reencode c_payload]. rewrite reencode_app, Re. cbn [reencode c_payload app]. rewrite !app_nil_r. reflexivity.
  - intros out E Hzo. unfold build in E. destruct (t_sections es) as [ts|] eqn:Ets; [|discriminate].
    destruct (He ts eq_refl) as (K1 & K2 & K3 & K4 & K5 & K6 & K7).
    unfold module_build in E. destruct (append_all ts) as [a|] eqn:Ea; [|discriminate]. injection E as <-. pose proof (append_bytes ts K1 a Ea) as Hba.
    assert (Hbo : bytes_ok (module_header ++ a)) by (do 8 (constructor; [unfold is_byte; lia|]); exact Hba).
    split; [exact Hbo|].
    destruct (K7 a [0; 97; 115; 109; 1; 0; 0; 0] eq_refl Hba) as (osecs & opls & L1 & L2 & L3 & L4 & L5 & L6 & L7 & L8).
    exists (PVersion 1 EModule (0, 8) :: opls ++ [PEnd (zlen (module_header ++ a))]). split; [|split].
    + apply accept_iff; auto; try lia; [intros [t Et]; discriminate Et|].
      exists osecs, a, opls. split; [reflexivity|]. split; [exact L1|]. split; [rewrite L2, K2; exact Ho|]. split; [congruence|]. split; [|reflexivity].
      intros n rg Hin. destruct (K6 n (L6 n rg Hin)) as [rg' Hin']. rewrite L4, K4. exact (Hd n rg' Hin').
    + unfold see_module. cbn [all_seen see_payload]. replace (all_seen (see_payload ft) (opls ++ [PEnd (zlen (module_header ++ a))])) with (Some (V1 ++ [SEnd])); [reflexivity|].
      symmetry. apply all_seen_app. exists V1, [SEnd]. auto.
    + change ([0; 97; 115; 109; 1; 0; 0; 0] ++ a) with (0 :: 97 :: 115 :: 109 :: 1 :: 0 :: 0 :: 0 :: a) in L8. cbn [reencode c_payload]. rewrite reencode_app, L8. cbn [reencode c_payload app]. rewrite !app_nil_r. reflexivity.
Qed.
End module.
