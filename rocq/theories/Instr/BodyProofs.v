(** Expressions, constant expressions and function bodies: what is written is what is read, and back. *)
From Verif.Base Require Import Prelude BitFacts.
From Verif.Reader Require Import Model Spec Mono.
From Verif.Leb Require Import Model Top.
From Verif.Codec Require Import Kit Local.
From Verif.Types Require Import RefModel CodecModel CodecSpec CodecProofs CodecTop EntityModel LocalTypes.
From Verif.Instr Require Import ImmModel ImmSpec ImmProofs Ops Sink Visit Convert Imms Den InstrProofs LocalInstr BodyModel BodySpec Nest.
From Coq Require Import Lia.

(** * The operator [end] is the byte 0x0b and nothing else *)
Definition avoids {A} (P : A -> Prop) (m : R A) : Prop := forall r a r', m r = Ok (a, r') -> P a.
Lemma av_bind {A B} P (m : R A) (k : A -> R B) : (forall a, avoids P (k a)) -> avoids P (bind m k).
Proof. intros H r b r' E. unfold bind in E. destruct (m r) as [[a r1]|e]; [|discriminate]. exact (H a _ _ _ E). Qed.
Lemma av_ret {A} (P : A -> Prop) a : P a -> avoids P (ret a).
Proof. intros H r b r' E. injection E as <- <-. exact H. Qed.
Lemma av_if {A} P (b : bool) (m n : R A) : avoids P m -> avoids P n -> avoids P (if b then m else n).
Proof. destruct b; auto. Qed.
Lemma av_fail_at {A} (P : A -> Prop) msg d : avoids P (fail_at msg d).
Proof. intros r a r' E. discriminate. Qed.
Lemma av_fail_pos {A} (P : A -> Prop) msg d : avoids P (fail_pos msg d).
Proof. intros r a r' E. discriminate. Qed.
Ltac avoid :=
  lazymatch goal with
  | |- avoids _ (ret _) => apply av_ret; discriminate
  | |- avoids _ (fail_at _ _) => apply av_fail_at
  | |- avoids _ (fail_pos _ _) => apply av_fail_pos
  | |- avoids _ (if _ then _ else _) => apply av_if; avoid
  | |- avoids _ (bind _ _) => apply av_bind; intros ?; avoid
  | |- avoids _ (let _ := _ in _) => cbv zeta; avoid
  end.
Ltac split_code_av := repeat lazymatch goal with |- avoids _ (match ?x with _ => _ end) => is_var x; destruct x; try apply av_fail_at; try apply av_fail_pos end.
Notation not_end := (fun o : operator => o <> Op_End).
Lemma av_fb pos code : avoids not_end (arm_fb pos code).
Proof. unfold arm_fb. split_code_av. all: avoid. Qed.
Lemma av_fc pos code : avoids not_end (arm_fc pos code).
Proof. unfold arm_fc. split_code_av. all: avoid. Qed.
Lemma av_fd pos code : avoids not_end (arm_fd pos code).
Proof. unfold arm_fd. split_code_av. all: avoid. Qed.
Lemma av_fe pos code : avoids not_end (arm_fe pos code).
Proof. unfold arm_fe. split_code_av. all: avoid. Qed.
Lemma av_main cur pos code : avoids (fun o => o = Op_End -> code = 0x0b) (arm_main cur pos code).
Proof.
  destruct (Z.eq_dec code 0x0b) as [->|N]; [intros r o r' _ _; reflexivity|].
  assert (H : avoids not_end (arm_main cur pos code)); [|intros r o r' E Eo; destruct (H _ _ _ E Eo)].
  unfold arm_main. split_code_av. all: try (destruct N; reflexivity). all: clear N.
  all: lazymatch goal with
  | |- avoids _ (visit_fb _) => apply av_bind; intros; apply av_fb
  | |- avoids _ (visit_fc _) => apply av_bind; intros; apply av_fc
  | |- avoids _ (visit_fd _) => apply av_bind; intros; apply av_fd
  | |- avoids _ (visit_fe _) => apply av_bind; intros; apply av_fe
  | _ => avoid
  end.
Qed.
Lemma end_byte cur r r' : visit_operator cur r = Ok (Op_End, r') -> consumes r [0x0b] r'.
Proof.
  unfold visit_operator. destruct cur as [cur|]; [|discriminate]. unfold bind, get_pos, read_u8.
  destruct r as [[|b t] pos off ft]; cbn; [discriminate|]. intros E. pose proof (av_main _ _ _ _ _ _ E eq_refl) as ->.
  cbn in E. injection E as <-. repeat split.
Qed.
Lemma end_visit cur rest pos off ft : visit_operator (Some cur) (mkReader (0x0b :: rest) pos off ft) = Ok (Op_End, mkReader rest (pos + 1) off ft).
Proof. reflexivity. Qed.

Lemma same_visit a b s : same_op a b -> cs_visit a s = cs_visit b s.
Proof. intros [->|(x & y & -> & -> & _)]; reflexivity. Qed.
Lemma same_end a b : same_op a b -> is_end a = is_end b.
Proof. intros [->|(x & y & -> & -> & _)]; reflexivity. Qed.
Lemma is_end_den ft i : instr_ok ft i -> is_end (den i) = true <-> i = In_End.
Proof.
  intros H. split; [|intros ->; reflexivity]. intros E. pose proof (c_den ft i H) as C. destruct (den i); try discriminate E.
  injection C as <-. reflexivity.
Qed.
Lemma is_end_true o : is_end o = true -> o = Op_End.
Proof. destruct o; intros H; try discriminate H; reflexivity. Qed.
Lemma end_then_eof bs pos off ft : is_end_then_eof (mkReader bs pos off ft) = true <-> bs = [0x0b].
Proof.
  unfold is_end_then_eof. cbn [r_rem]. destruct bs as [|b [|c t]]; try (split; discriminate). rewrite Z.eqb_eq.
  split; [intros ->; reflexivity|intros [= ->]; reflexivity].
Qed.

Section body.
Context (ft : features).
Notation F := (eq ft).

Lemma cs_last_list k s : cs_last (of_list (k :: s)) = Some k.
Proof. reflexivity. Qed.
Lemma dec_step k s i : frame_ok k i -> instr_ok ft i -> decodes F (enc_instr i) (ops_read (of_list (k :: s))) (den i, of_list (eff i (k :: s))).
Proof.
  intros Hf Hi. unfold ops_read. rewrite cs_last_list. eapply dec_last; [apply dec_instr; eassumption|]. rewrite eff_ok. apply dec_ret.
Qed.
Lemma enc_pos k i b : frame_ok k i -> instr_ok ft i -> enc_instr i = Some b -> (0 < List.length b)%nat.
Proof.
  intros Hf Hi E. destruct (dec_instr ft i k Hi Hf) as (b' & E' & _ & Hd). rewrite E in E'. injection E' as <-.
  specialize (Hd [] 0 0 ft eq_refl ltac:(constructor)). pose proof (eats_operator _ _ _ _ Hd) as H. cbn [r_pos] in H. unfold zlen in H. lia.
Qed.
Lemma o_all_ok {A} (f : A -> out) l bs : o_all f l = Some bs -> match l with [] => bs = [] | a :: t => exists b1 b2, f a = Some b1 /\ o_all f t = Some b2 /\ bs = b1 ++ b2 end.
Proof.
  destruct l as [|a t]; cbn [o_all]; [intros [= <-]; reflexivity|]. destruct (f a) as [b1|]; [|discriminate]. destruct (o_all f t) as [b2|]; [|discriminate].
  intros [= <-]. eauto.
Qed.
Lemma o_all_app {A} (f : A -> out) l l' : o_all f (l ++ l') = o_all f l +++ o_all f l'.
Proof. induction l as [|a l IH]; cbn [o_all app]; [rewrite oapp_nil_l; reflexivity|]. rewrite IH, oapp_assoc. reflexivity. Qed.
(** ** Whole expressions *)
Lemma collect_ops l : forall s s', steps s l s' -> Forall (instr_ok ft) l ->
  exists bs, o_all enc_instr l = Some bs /\ bytes_ok bs /\ (List.length l <= List.length bs)%nat /\
  forall fuel pos off, (List.length bs <= fuel)%nat ->
  ops_collect fuel (of_list s) (mkReader bs pos off ft) = Ok ((map den l, of_list s'), mkReader [] (pos + zlen bs) off ft).
Proof.
  induction l as [|i l IH]; intros s s' H Hl; inversion H as [|k s0 i0 l0 s2 Hfr Hst]; subst.
  - exists []. repeat split; [constructor|constructor|]. intros. destruct fuel; cbn; rewrite Z.add_0_r; reflexivity.
  - inversion Hl as [|? ? Hi1 Hi2]; subst. destruct (IH _ _ Hst Hi2) as (b2 & E2 & Hb2 & L2 & D2). destruct (dec_step k s0 i Hfr Hi1) as (b1 & E1 & Hb1 & D1).
    exists (b1 ++ b2). cbn [o_all]. rewrite E1, E2. split; [reflexivity|]. split; [apply bytes_ok_app; auto|].
    pose proof (enc_pos k i b1 Hfr Hi1 E1) as Hp. rewrite app_length. split; [cbn [List.length]; lia|]. intros fuel pos off Hf. destruct fuel as [|fuel]; [lia|].
    cbn [ops_collect]. assert (Ee : eof (mkReader (b1 ++ b2) pos off ft) = false) by (destruct b1; [cbn in Hp; lia|reflexivity]).
    rewrite Ee. unfold bind at 1. rewrite D1 by auto. cbn [fst snd]. unfold bind at 1. rewrite D2 by lia. unfold ret. cbn [fst snd map].
    rewrite zlen_app. do 3 f_equal. lia.
Qed.
Lemma y_step_op s o st r r' : r_feat r = ft -> bytes_ok (r_rem r) -> ops_read (of_list s) r = Ok ((o, st), r') ->
  exists k t i bs, s = k :: t /\ frame_ok k i /\ instr_ok ft i /\ c_op o = Some i /\ same_op o (den i) /\ st = of_list (eff i s) /\
  consumes r bs r' /\ bytes_ok (r_rem r') /\ (0 < List.length bs)%nat /\
  forall rest pos off, ops_read (of_list s) (mkReader (bs ++ rest) pos off ft) = Ok ((o, st), mkReader rest (pos + zlen bs) off ft).
Proof.
  intros Hft Hr E. assert (E0 := E). unfold ops_read, bind in E.
  destruct s as [|k t]; [discriminate|]. rewrite cs_last_list in E.
  destruct (visit_operator (Some k) r) as [[o' r1]|e] eqn:E1; [|discriminate]. injection E as <- <- <-.
  destruct (y_instr ft k r o' r1 (eq_sym Hft) Hr E1) as ((i & C & Hi & Hk & Hs) & Hr1 & _).
  destruct (sim_operator _ _ _ _ E1) as (bs & Cs & Hsim). pose proof (eats_operator _ _ _ _ E1) as He. rewrite Hft in Hsim.
  exists k, t, i, bs. repeat (split; [first [reflexivity|assumption]|]). split; [rewrite (same_visit _ _ _ Hs); apply (eff_ok i (k :: t))|].
  split; [exact Cs|]. split; [exact Hr1|]. split. { destruct Cs as (_ & Cp & _). unfold zlen in Cp. lia. }
  intros. unfold ops_read, bind. rewrite cs_last_list, Hsim. reflexivity.
Qed.
Lemma y_collect fuel : forall s ops st r r', r_feat r = ft -> bytes_ok (r_rem r) -> ops_collect fuel (of_list s) r = Ok ((ops, st), r') ->
  exists l s', st = of_list s' /\ steps s l s' /\ Forall (instr_ok ft) l /\ all_some c_op ops = Some l /\ Forall2 same_op ops (map den l) /\ r_rem r' = [] /\
  forall fuel' pos off, (fuel <= fuel')%nat -> ops_collect fuel' (of_list s) (mkReader (r_rem r) pos off ft) = Ok ((ops, st), mkReader [] (pos + zlen (r_rem r)) off ft).
Proof.
  assert (Hnil : forall s fuel r, eof r = true -> forall pos off, ops_collect fuel (of_list s) (mkReader (r_rem r) pos off ft) = Ok (([], of_list s), mkReader [] (pos + zlen (r_rem r)) off ft)).
  { intros s fuel0 r E pos off. unfold eof in E. destruct (r_rem r); [|discriminate]. destruct fuel0; cbn; rewrite Z.add_0_r; reflexivity. }
  assert (Hend : forall s r r' ops st, eof r = true -> Ok (([], of_list s), r) = Ok ((ops, st), r') ->
    exists l s', st = of_list s' /\ steps s l s' /\ Forall (instr_ok ft) l /\ all_some c_op ops = Some l /\ Forall2 same_op ops (map den l) /\ r_rem r' = [] /\ ops = [] /\ st = of_list s).
  { intros s r r' ops st E [= <- <- <-]. exists [], s. repeat split; try constructor. unfold eof in E. destruct (r_rem r); [reflexivity|discriminate]. }
  induction fuel as [|fuel IH]; intros s ops st r r' Hft Hr E; cbn [ops_collect] in E; destruct (eof r) eqn:Ee.
  1,3: destruct (Hend s r r' ops st Ee E) as (l & s' & A1 & A2 & A3 & A4 & A5 & A6 & -> & ->); exists l, s'; repeat (split; [assumption|]); intros; apply Hnil, Ee.
  - discriminate.
  - unfold bind in E. destruct (ops_read (of_list s) r) as [[[o st1] r1]|e] eqn:E1; [|discriminate]. cbn [fst snd] in E.
    destruct (y_step_op s o st1 r r1 Hft Hr E1) as (k & t & i & bs & -> & Hk & Hi & Ci & Hs & -> & Cs & Hr1 & Hp & D1).
    destruct (ops_collect fuel _ r1) as [[[ops1 st2] r2]|e] eqn:E2; [|discriminate]. injection E as <- <- <-. cbn [fst snd] in *.
    assert (Hft1 : r_feat r1 = ft) by (destruct Cs as (_ & _ & _ & ->); exact Hft).
    destruct (IH _ _ _ _ _ Hft1 Hr1 E2) as (l & s' & -> & H2 & Hl & Cl & H3 & E3 & D2).
    exists (i :: l), s'. split; [reflexivity|]. split; [constructor; assumption|]. split; [constructor; assumption|].
    split; [cbn [all_some]; rewrite Ci, Cl; reflexivity|]. split; [constructor; assumption|]. split; [exact E3|]. intros fuel' pos off Hf.
    destruct fuel' as [|fuel']; [lia|]. cbn [ops_collect]. destruct Cs as (Er & _). rewrite Er.
    assert (Ez : eof (mkReader (bs ++ r_rem r1) pos off ft) = false) by (destruct bs; [cbn in Hp; lia|reflexivity]). rewrite Ez.
    unfold bind at 1. rewrite D1. cbn [fst snd]. unfold bind at 1. rewrite D2 by lia. unfold ret. cbn [fst snd]. rewrite zlen_app. do 3 f_equal. lia.
Qed.
Lemma cs_new_list : cs_new = of_list [FBlock].
Proof. reflexivity. Qed.
Lemma expr_written l : expr_ok ft l -> exists bs, o_all enc_instr l = Some bs /\ bytes_ok bs /\
  forall pos off, read_expr (mkReader bs pos off ft) = Ok (map den l, mkReader [] (pos + zlen bs) off ft) /\
    ops_collect (List.length bs) cs_new (mkReader bs pos off ft) = Ok ((map den l, of_list []), mkReader [] (pos + zlen bs) off ft).
Proof.
  intros (b & -> & Hb & Hi). assert (H : steps [FBlock] (b ++ [In_End]) []) by (apply steps_nested; eauto).
  destruct (collect_ops _ _ _ H) as (bs & E & Hbs & _ & D). { apply Forall_app. split; [exact Hi|]. constructor; [exact I|constructor]. }
  exists bs. split; [exact E|]. split; [exact Hbs|]. intros pos off. split; [|apply D; lia]. unfold read_expr, bind. cbn [r_rem]. rewrite cs_new_list, D by lia. reflexivity.
Qed.
Lemma expr_read r ops r' : r_feat r = ft -> bytes_ok (r_rem r) -> read_expr r = Ok (ops, r') ->
  exists l, expr_ok ft l /\ all_some c_op ops = Some l /\ Forall2 same_op ops (map den l) /\ r_rem r' = [] /\
  forall pos off, ops_collect (List.length (r_rem r)) cs_new (mkReader (r_rem r) pos off ft) = Ok ((ops, of_list []), mkReader [] (pos + zlen (r_rem r)) off ft).
Proof.
  intros Hft Hr E. unfold read_expr, bind in E. destruct (ops_collect _ cs_new r) as [[[ops1 st] r1]|e] eqn:E1; [|discriminate]. cbn [fst snd] in E.
  rewrite cs_new_list in E1. destruct (y_collect _ _ _ _ _ _ Hft Hr E1) as (l & s' & -> & H & Hl & C & Hs & Er & D).
  unfold ops_finish in E. destruct s' as [|k s']; [|discriminate]. cbn [of_list cs_last cs_top] in E. destruct (eof r1); [|discriminate]. injection E as <- <-.
  exists l. apply steps_nested in H. destruct H as (b & -> & Hb). split.
  { exists b. split; [reflexivity|]. split; [exact Hb|]. apply Forall_app in Hl. apply Hl. }
  repeat (split; [assumption|]). intros. rewrite cs_new_list. apply D. lia.
Qed.

(** ** Constant expressions *)
Lemma dec_skip_const l : forall s k, steps s l [k] -> Forall (instr_ok ft) l -> ~ In In_End l ->
  exists bs, o_all enc_instr l +++ sink_end = Some bs /\ bytes_ok bs /\ (List.length l < List.length bs)%nat /\
  (forall fuel rest pos off, (List.length l < fuel)%nat -> bytes_ok rest -> skip_const_expr fuel (of_list s) (mkReader (bs ++ rest) pos off ft) = Ok (tt, mkReader rest (pos + zlen bs) off ft)) /\
  (forall fuel pos off, (List.length l <= fuel)%nat -> c_const_loop fuel (of_list s) (mkReader bs pos off ft) = Some l).
Proof.
  induction l as [|i l IH]; intros s k H Hl Hn; inversion H as [|k0 s0 i0 l0 s2 Hfr Hst]; subst.
  - exists [0x0b]. repeat split; [repeat constructor; unfold is_byte; lia|cbn; lia| |].
    + intros [|fuel] rest pos off Hf Hr; [lia|]. cbn [skip_const_expr app]. unfold bind at 1, ops_read. rewrite cs_last_list. unfold bind. rewrite end_visit. reflexivity.
    + intros [|fuel] pos off Hf; reflexivity.
  - inversion Hl as [|? ? Hi1 Hi2]; subst. destruct (IH _ _ Hst Hi2) as (b2 & E2 & Hb2 & L2 & D2 & C2). { intros Hin. apply Hn. right. exact Hin. }
    destruct (dec_step k0 s0 i Hfr Hi1) as (b1 & E1 & Hb1 & D1). pose proof (enc_pos k0 i b1 Hfr Hi1 E1) as Hp.
    assert (Hne : is_end (den i) = false). { destruct (is_end (den i)) eqn:Ei; [|reflexivity]. apply (is_end_den ft) in Ei; [|exact Hi1]. destruct Hn. left. exact Ei. }
    exists (b1 ++ b2). cbn [o_all]. rewrite oapp_assoc, E1, E2. split; [reflexivity|]. split; [apply bytes_ok_app; auto|].
    rewrite app_length. cbn [List.length]. split; [lia|]. split.
    + intros [|fuel] rest pos off Hf Hr; [lia|]. cbn [skip_const_expr]. unfold bind at 1. rewrite <- app_assoc, D1; [|reflexivity|apply bytes_ok_app; auto].
      cbn [fst snd]. rewrite Hne, D2 by (auto; lia). rewrite zlen_app. do 3 f_equal. lia.
    + intros [|fuel] pos off Hf; [lia|]. cbn [c_const_loop].
      destruct (is_end_then_eof (mkReader (b1 ++ b2) pos off ft)) eqn:Ee.
      { apply end_then_eof in Ee. exfalso. apply (f_equal (@List.length _)) in Ee. rewrite app_length in Ee. cbn in Ee. lia. }
      rewrite D1 by auto. rewrite (c_den ft i Hi1), C2 by lia. reflexivity.
Qed.
Lemma nested_no_end_steps l : nested l -> steps [FBlock] l [FBlock].
Proof. intros H. apply (proj1 nested_steps), H. Qed.
Lemma const_written l : const_ok ft l -> exists bs, enc_const l = Some bs /\ bytes_ok bs /\ decodes F (Some bs) read_const bs /\ c_const ft bs = Some l.
Proof.
  intros (Hn & He & Hi). destruct (dec_skip_const l [FBlock] FBlock (nested_no_end_steps l Hn) Hi He) as (bs & E & Hb & Hlen & D & C).
  exists bs. split; [exact E|]. split; [exact Hb|]. split.
  - exists bs. split; [reflexivity|]. split; [exact Hb|]. intros rest pos off ft' <- Hr. unfold read_const, skip_raw. cbn [r_rem]. rewrite cs_new_list, D; [|rewrite app_length; lia|exact Hr].
    cbn [r_pos]. replace (pos + zlen bs - pos) with (zlen bs) by lia. unfold zlen. rewrite Nat2Z.id, firstn_app, Nat.sub_diag, firstn_all, firstn_O, app_nil_r. reflexivity.
  - unfold c_const. rewrite cs_new_list. apply C. lia.
Qed.
Lemma y_skip_const fuel : forall s r r', r_feat r = ft -> bytes_ok (r_rem r) -> skip_const_expr fuel (of_list s) r = Ok (tt, r') ->
  exists l k bs, steps s l [k] /\ Forall (instr_ok ft) l /\ ~ In In_End l /\ consumes r bs r' /\ bytes_ok (r_rem r') /\ (0 < List.length bs)%nat /\
  (forall fuel' rest pos off, (List.length bs <= fuel')%nat -> skip_const_expr fuel' (of_list s) (mkReader (bs ++ rest) pos off ft) = Ok (tt, mkReader rest (pos + zlen bs) off ft)) /\
  (forall fuel' pos off, (List.length bs <= fuel')%nat -> c_const_loop fuel' (of_list s) (mkReader bs pos off ft) = Some l) /\
  exists ops, Forall2 same_op ops (map den (l ++ [In_End])) /\
    forall fuel' pos off, (List.length bs <= fuel')%nat -> ops_collect fuel' (of_list s) (mkReader bs pos off ft) = Ok ((ops, of_list []), mkReader [] (pos + zlen bs) off ft).
Proof.
  induction fuel as [|fuel IH]; intros s r r' Hft Hr E; [discriminate|]. cbn [skip_const_expr] in E. unfold bind in E.
  destruct (ops_read (of_list s) r) as [[[o st1] r1]|e] eqn:E1; [|discriminate]. cbn [fst snd] in E.
  destruct (y_step_op s o st1 r r1 Hft Hr E1) as (k & t & i & bs & -> & Hk & Hi & Ci & Hs & -> & Cs & Hr1 & Hp & D1).
  destruct (is_end o) eqn:Eo.
  - apply is_end_true in Eo. subst o. injection Ci as <-. cbn [eff tl] in *. destruct t as [|k2 t]; [|discriminate]. injection E as <-.
    assert (Cb : consumes r [0x0b] r1).
    { unfold ops_read, bind in E1. destruct (visit_operator _ r) as [[o' r'']|e] eqn:E2; [|discriminate]. injection E1 as Eo' _ Er'. rewrite Eo' in E2. rewrite <- Er'. eapply end_byte, E2. }
    exists [], k, [0x0b]. split; [constructor|]. split; [constructor|]. split; [intros []|]. split; [exact Cb|]. split; [exact Hr1|]. split; [cbn; lia|]. split.
    + intros [|fuel'] rest pos off Hf; [cbn in Hf; lia|]. reflexivity.
    + split; [intros [|fuel'] pos off Hf; reflexivity|]. exists [Op_End]. split; [constructor; [left; reflexivity|constructor]|].
      intros [|fuel'] pos off Hf; [cbn in Hf; lia|]. cbn [ops_collect eof r_rem]. unfold bind at 1, ops_read. rewrite cs_last_list. unfold bind at 1. rewrite end_visit. destruct fuel'; reflexivity.
  - assert (Hft1 : r_feat r1 = ft) by (destruct Cs as (_ & _ & _ & ->); exact Hft).
    destruct (IH _ _ _ Hft1 Hr1 E) as (l & k2 & bs2 & H2 & Hl & Hn & C2 & Hr2 & Hp2 & D2 & L2 & ops2 & S2 & O2).
    exists (i :: l), k2, (bs ++ bs2). split; [constructor; assumption|]. split; [constructor; assumption|].
    split. { intros [Hin|Hin]; [|exact (Hn Hin)]. subst i. rewrite (same_end _ _ Hs) in Eo. discriminate. }
    split; [eapply consumes_app; eassumption|]. split; [exact Hr2|]. rewrite app_length. split; [lia|]. split.
    + intros [|fuel'] rest pos off Hf; [lia|]. cbn [skip_const_expr]. unfold bind. rewrite <- app_assoc, D1. cbn [fst snd]. rewrite Eo, D2 by lia. rewrite zlen_app. do 3 f_equal. lia.
    + split.
      * intros [|fuel'] pos off Hf; [lia|]. cbn [c_const_loop].
        destruct (is_end_then_eof (mkReader (bs ++ bs2) pos off ft)) eqn:Ee.
        { apply end_then_eof in Ee. exfalso. apply (f_equal (@List.length _)) in Ee. rewrite app_length in Ee. cbn in Ee. lia. }
        rewrite D1, Ci, L2 by lia. reflexivity.
      * exists (o :: ops2). split; [constructor; assumption|]. intros [|fuel'] pos off Hf; [lia|]. cbn [ops_collect].
        assert (Ez : eof (mkReader (bs ++ bs2) pos off ft) = false) by (destruct bs; [cbn in Hp; lia|reflexivity]). rewrite Ez.
        unfold bind at 1. rewrite D1. cbn [fst snd]. unfold bind at 1. rewrite O2 by lia. unfold ret. cbn [fst snd]. rewrite zlen_app. do 3 f_equal. lia.
Qed.
Lemma const_read r bytes r' : r_feat r = ft -> bytes_ok (r_rem r) -> read_const r = Ok (bytes, r') ->
  exists l, const_ok ft l /\ c_const ft bytes = Some l /\ bytes_ok (r_rem r') /\ consumes r bytes r' /\
  (forall rest pos off, read_const (mkReader (bytes ++ rest) pos off ft) = Ok (bytes, mkReader rest (pos + zlen bytes) off ft)) /\
  exists ops, Forall2 same_op ops (map den (l ++ [In_End])) /\ forall pos off, read_expr (mkReader bytes pos off ft) = Ok (ops, mkReader [] (pos + zlen bytes) off ft).
Proof.
  intros Hft Hr E. unfold read_const, skip_raw in E. destruct (skip_const_expr _ cs_new r) as [[[] r1]|e] eqn:E1; [|discriminate]. injection E as <- <-.
  rewrite cs_new_list in E1. destruct (y_skip_const _ _ _ _ Hft Hr E1) as (l & k & bs & H & Hl & Hn & C & Hr1 & _ & D & L & ops & S & O).
  assert (Eb : firstn (Z.to_nat (r_pos r1 - r_pos r)) (r_rem r) = bs).
  { destruct C as (C1 & C2 & _). rewrite C1, C2. replace (r_pos r + zlen bs - r_pos r) with (zlen bs) by lia. unfold zlen. rewrite Nat2Z.id, firstn_app, Nat.sub_diag, firstn_all, firstn_O, app_nil_r. reflexivity. }
  rewrite Eb. exists l. split; [|split; [|split; [exact Hr1|split; [exact C|split]]]].
  - split; [|split; assumption]. assert (Hx : steps [FBlock] (l ++ [In_End]) []) by (eapply steps_app; [exact H|apply steps_end; constructor]).
    apply steps_nested in Hx. destruct Hx as (b & Ex & Hb). apply app_inj_tail in Ex. destruct Ex as [-> _]. exact Hb.
  - unfold c_const. rewrite cs_new_list. apply L. lia.
  - intros. unfold read_const, skip_raw. cbn [r_rem]. rewrite cs_new_list, D by (rewrite app_length; lia). cbn [r_pos].
    replace (pos + zlen bs - pos) with (zlen bs) by lia. unfold zlen. rewrite Nat2Z.id, firstn_app, Nat.sub_diag, firstn_all, firstn_O, app_nil_r. reflexivity.
  - exists ops. split; [exact S|]. intros pos off. unfold read_expr. cbn [r_rem]. rewrite cs_new_list. unfold bind at 1. rewrite O by lia. reflexivity.
Qed.

(** ** Locals *)
Definition d_local (x : Z * e_val) : Z * p_val := (fst x, d_val (snd x)).
Lemma c_d_local x : val_ok (snd x) -> c_local (d_local x) = Some x.
Proof. intros H. destruct x as [n v]. unfold c_local, d_local. cbn [fst snd] in *. rewrite c_d_val by exact H. reflexivity. Qed.
Lemma c_d_locals l : Forall (fun x => 0 <= fst x /\ val_ok (snd x)) l -> all_some c_local (map d_local l) = Some l.
Proof. induction 1 as [|x l [_ Hx] _ IH]; [reflexivity|]. cbn [map all_some]. rewrite c_d_local, IH by exact Hx. reflexivity. Qed.
Lemma dec_skip_local x : in_u 32 (fst x) -> val_ok (snd x) -> decodes F (enc_local x) (let* _ := read_var_u32 in let* _ := read_val in ret tt) tt.
Proof. intros Hn Hv. unfold enc_local. eapply dec_bind; [apply dec_u32, Hn|]. eapply dec_last; [apply dec_val, Hv|]. apply dec_ret. Qed.
Lemma total_nonneg l : Forall (fun x : Z * e_val => 0 <= fst x /\ val_ok (snd x)) l -> 0 <= total l.
Proof. induction 1 as [|[n v] l [Hn _] _ IH]; cbn [total fst] in *; lia. Qed.
Lemma dec_locals_loop l : Forall (fun x => 0 <= fst x /\ val_ok (snd x)) l -> forall t, 0 <= t -> t + total l < 2 ^ 32 ->
  decodes F (o_all enc_local l) (read_locals_loop (List.length l) t) (map d_local l).
Proof.
  induction 1 as [|[n v] l [Hn Hv] Hl IH]; intros t Ht Hm; cbn [o_all List.length read_locals_loop map total fst snd] in *; [apply dec_ret|].
  pose proof (total_nonneg l Hl). eapply dec_bind.
  - unfold read_local, enc_local. cbn [fst snd]. eapply dec_bind; [apply dec_u32; unfold in_u; lia|].
    destruct (Z.leb_spec (2 ^ 32) (t + n)); [lia|]. apply dec_bind_ret. apply dec_val, Hv.
  - cbn [fst snd]. apply (dec_bind_ret F _ _ (fun l' => (n, d_val v) :: l')). apply IH; lia.
Qed.
Lemma dec_locals l : locals_ok l -> decodes F (o_vec enc_local l) read_locals (map d_local l).
Proof.
  intros (H & Ht & Hl). unfold o_vec, read_locals. eapply dec_bind; [apply dec_usize; unfold in_u, zlen in *; lia|].
  unfold zlen. rewrite Nat2Z.id. apply dec_locals_loop; [exact H|lia|lia].
Qed.
Lemma locals_each l : locals_ok l -> Forall (fun x => in_u 32 (fst x) /\ val_ok (snd x)) l.
Proof.
  intros (H & Ht & _). induction H as [|[n v] l [Hn Hv] Hl IH]; constructor; cbn [total fst snd] in *.
  - pose proof (total_nonneg l Hl). split; [unfold in_u; lia|exact Hv].
  - apply IH. lia.
Qed.
Lemma dec_skip_locals l : locals_ok l -> decodes F (o_vec enc_local l) skip_locals tt.
Proof.
  intros H. pose proof (locals_each l H) as He. destruct H as (_ & _ & Hl). unfold o_vec, skip_locals. eapply dec_bind; [apply dec_usize; unfold in_u, zlen in *; lia|].
  unfold zlen. rewrite Nat2Z.id. eapply (dec_last ft _ _ _ (map (fun _ => tt) l)).
  - apply (dec_read_n F enc_local _ (fun _ => tt)). eapply Forall_impl; [|exact He]. intros x [Hx Hv]. apply dec_skip_local; assumption.
  - apply dec_ret.
Qed.
Lemma y_locals_loop n : forall t, 0 <= t -> yields F (read_locals_loop n t)
  (fun ls => exists l, ls = map d_local l /\ List.length l = n /\ Forall (fun x => 0 <= fst x /\ val_ok (snd x)) l /\ (t < 2 ^ 32 -> t + total l < 2 ^ 32)).
Proof.
  induction n as [|n IH]; intros t Ht; cbn [read_locals_loop]; [apply y_ret; exists []; cbn [total]; repeat split; [constructor|lia]|].
  eapply y_bind.
  - unfold read_local. eapply y_bind; [apply y_u32|]. intros c [Hc Hc'].
    instantiate (1 := fun x => exists c v, 0 <= c /\ val_ok v /\ t + c < 2 ^ 32 /\ x = ((c, d_val v), t + c)).
    destruct (Z.leb_spec (2 ^ 32) (t + c)); [apply y_fail_at|]. eapply y_bind; [apply y_val|]. intros p (v & Hv & ->). apply y_ret. exists c, v. auto.
  - intros x (c & v & Hc & Hv & Hm & ->). cbn [fst snd]. eapply y_bind; [apply IH; lia|]. intros ls (l & -> & El & Hl & Htot). apply y_ret.
    exists ((c, v) :: l). cbn [map List.length total fst snd]. repeat split; [lia| |intros; specialize (Htot Hm); lia]. constructor; [auto|exact Hl].
Qed.
Lemma y_locals : yields F read_locals (fun ls => exists l, ls = map d_local l /\ locals_ok l).
Proof.
  unfold read_locals. eapply y_bind; [apply y_u32|]. intros n [Hn Hn']. eapply y_weaken; [|apply y_locals_loop; lia]. cbv beta.
  intros ls (l & -> & El & Hl & Ht). exists l. split; [reflexivity|]. split; [exact Hl|]. split; [specialize (Ht ltac:(lia)); lia|]. unfold zlen. rewrite El. lia.
Qed.
Lemma sim_skip_locals : sim skip_locals skip_locals.
Proof.
  apply sim_bind; [apply sim_u32|]. intros n. apply sim_bind; [|intros; apply sim_ret]. apply sim_read_n. apply sim_bind; [apply sim_u32|]. intros _.
  apply sim_bind; [apply sim_val|]. intros; apply sim_ret.
Qed.
Lemma sim_locals : sim read_locals read_locals.
Proof.
  apply sim_bind; [apply sim_u32|]. intros n. generalize (Z.to_nat n) 0. clear n. induction n as [|n IH]; intros t; cbn [read_locals_loop]; [apply sim_ret|].
  apply sim_bind; [|intros x; apply sim_bind; [apply IH|intros; apply sim_ret]].
  apply sim_bind; [apply sim_u32|]. intros c. apply sim_if; [apply sim_fail_at|]. apply sim_bind; [apply sim_val|]. intros; apply sim_ret.
Qed.
(** ** Function bodies *)
Lemma func_written f : func_ok ft f -> exists bs, func_bytes f = Some bs /\ bytes_ok bs /\ c_func ft bs = Some f /\
  forall off, body_locals ft off bs = Ok (map d_local (ef_locals f)) /\ body_ops ft off bs = Ok (map den (ef_body f)).
Proof.
  destruct f as [ls l]. intros [Hls Hl]. cbn [ef_locals ef_body] in *. unfold func_bytes. cbn [ef_locals ef_body].
  destruct (dec_locals ls Hls) as (b1 & E1 & Hb1 & D1). destruct (dec_skip_locals ls Hls) as (b1' & E1' & _ & D1').
  rewrite E1 in E1'. injection E1' as <-. destruct (expr_written l Hl) as (b2 & E2 & Hb2 & D2).
  exists (b1 ++ b2). rewrite E1, E2. split; [reflexivity|]. split; [apply bytes_ok_app; auto|].
  assert (B1 : forall off, body_locals ft off (b1 ++ b2) = Ok (map d_local ls)).
  { intros off. unfold body_locals, new_reader. rewrite D1 by auto. reflexivity. }
  split; [|intros off; split; [apply B1|]].
  - unfold c_func. rewrite B1, c_d_locals by apply Hls. unfold bind, new_reader. rewrite D1' by auto. cbn [r_rem]. destruct (D2 (0 + zlen b1) 0) as [_ ->].
    assert (Ec : all_some c_op (map den l) = Some l); [|rewrite Ec; reflexivity].
    destruct Hl as (b & -> & _ & Hi). assert (Hi2 : Forall (instr_ok ft) (b ++ [In_End])) by (apply Forall_app; split; [exact Hi|constructor; [exact I|constructor]]).
    clear -Hi2. induction Hi2 as [|i l Hi _ IH]; [reflexivity|]. cbn [map all_some]. rewrite (c_den ft i Hi), IH. reflexivity.
  - unfold body_ops, bind, new_reader. rewrite D1' by auto. destruct (D2 (0 + zlen b1) off) as [-> _]. reflexivity.
Qed.
Lemma func_read off bytes ls ops : bytes_ok bytes -> body_locals ft off bytes = Ok ls -> body_ops ft off bytes = Ok ops ->
  exists f, c_func ft bytes = Some f /\ func_ok ft f /\ ls = map d_local (ef_locals f) /\ Forall2 same_op ops (map den (ef_body f)).
Proof.
  intros Hb E1 E2. unfold body_locals in E1. destruct (read_locals _) as [[ls1 r1]|e] eqn:R1; [|discriminate]. injection E1 as <-.
  unfold body_ops, bind in E2. destruct (skip_locals _) as [[[] r2]|e] eqn:R2; [|discriminate]. destruct (read_expr r2) as [[ops1 r3]|e] eqn:R3; [|discriminate]. injection E2 as <-.
  destruct (y_locals _ _ _ (eq_refl : F (r_feat (new_reader ft bytes off))) Hb R1) as ((l & -> & Hl) & _ & _).
  destruct (sim_locals _ _ _ R1) as (b1 & C1 & S1). destruct (sim_skip_locals _ _ _ R2) as (b2 & C2 & S2).
  destruct C1 as (C1 & _). destruct C2 as (C2 & _ & _ & Cf). cbn [new_reader r_rem r_feat] in *.
  assert (Hr2 : bytes_ok (r_rem r2)) by (rewrite C2 in Hb; apply bytes_ok_app in Hb; apply Hb).
  destruct (expr_read r2 ops1 r3 Cf Hr2 R3) as (is & Hi & Ci & Hs & _ & D).
  exists (mkFunc l is). cbn [ef_locals ef_body]. split; [|split; [split; assumption|split; [reflexivity|exact Hs]]].
  unfold c_func, body_locals, new_reader. rewrite C1 at 1. rewrite S1, c_d_locals by apply Hl. unfold bind. rewrite C2, S2. cbn [r_rem]. rewrite D, Ci. reflexivity.
Qed.
End body.

(** * Grouping of locals *)
Lemma spread_app a b : spread (a ++ b) = spread a ++ spread b.
Proof. induction a as [|[n v] a IH]; cbn [spread app]; [reflexivity|]. rewrite IH, app_assoc. reflexivity. Qed.
(** Groups are not empty, and neighbours differ in type. *)
Fixpoint grouped (l : list (Z * e_val)) : Prop :=
  match l with [] => True | (n, v) :: t => 1 <= n /\ match t with [] => True | (_, w) :: _ => v <> w end /\ grouped t end.
Lemma grouped_snoc l n v : grouped l -> 1 <= n -> match rev l with (_, w) :: _ => w <> v | [] => True end -> grouped (l ++ [(n, v)]).
Proof.
  induction l as [|[m w] l IH]; intros Hg Hn Hr; cbn [app grouped]; [auto|]. destruct Hg as (H1 & H2 & H3). split; [exact H1|].
  destruct l as [|[m2 w2] l]; cbn [rev app] in *; [split; [exact Hr|]; cbn; auto|]. split; [exact H2|]. apply IH; auto.
  destruct (rev l) as [|[m3 w3] t]; cbn [app] in *; exact Hr.
Qed.
Lemma grouped_last l n v m : grouped (l ++ [(n, v)]) -> 1 <= m -> grouped (l ++ [(m, v)]).
Proof.
  induction l as [|[k w] l IH]; cbn [app grouped]; [intros (_ & H) Hm; auto|]. intros (H1 & H2 & H3) Hm. split; [exact H1|]. split; [|auto].
  destruct l as [|[k2 w2] l]; exact H2.
Qed.
Lemma repeat_snoc {A} (v : A) n : repeat v (S n) = repeat v n ++ [v].
Proof. induction n as [|n IH]; [reflexivity|]. cbn [repeat app]. f_equal. exact IH. Qed.
Lemma collect_locals_ok l : forall acc g, collect_locals l acc = Some g -> grouped (rev acc) -> spread g = spread (rev acc) ++ l /\ grouped g.
Proof.
  induction l as [|v l IH]; intros acc g E Hg; cbn [collect_locals] in E; [injection E as <-; rewrite app_nil_r; auto|].
  destruct acc as [|[n w] acc].
  - apply IH in E; [|cbn; auto; lia]. cbn [rev app spread] in E. change (Z.to_nat 1) with 1%nat in E. exact E.
  - destruct (e_val_eq v w) as [->|Hd].
    + destruct (Z.leb_spec (2 ^ 32) (n + 1)) as [|Hn]; [discriminate|]. cbn [rev] in *.
      assert (H1 : 1 <= n). { clear -Hg. induction (rev acc) as [|[k u] t IHt]; cbn [app grouped] in Hg; [lia|]. apply IHt, Hg. }
      apply IH in E; [|apply grouped_last with n; [exact Hg|lia]]. destruct E as [E Hgg]. split; [|exact Hgg]. rewrite E. cbn [rev]. rewrite !spread_app. cbn [spread].
      rewrite !app_nil_r, <- !app_assoc. f_equal. replace (Z.to_nat (n + 1)) with (S (Z.to_nat n)) by lia. rewrite repeat_snoc, <- app_assoc. reflexivity.
    + apply IH in E; [|cbn [rev]; apply grouped_snoc; [exact Hg|lia|]].
      * destruct E as [E Hgg]. split; [|exact Hgg]. rewrite E. cbn [rev]. rewrite !spread_app. cbn [spread]. change (Z.to_nat 1) with 1%nat. rewrite !app_nil_r, <- !app_assoc. reflexivity.
      * cbn [rev]. rewrite rev_app_distr, rev_involutive. cbn [rev app]. congruence.
Qed.
Lemma collect_locals_total l : forall acc, match acc with (n, _) :: _ => 0 <= n /\ n + zlen l < 2 ^ 32 | [] => zlen l < 2 ^ 32 end -> exists g, collect_locals l acc = Some g.
Proof.
  induction l as [|v l IH]; intros acc H; cbn [collect_locals]; [eauto|]. assert (Ez : zlen (v :: l) = 1 + zlen l) by (unfold zlen; cbn [List.length]; lia).
  pose proof (zlen_nonneg l). rewrite Ez in H. destruct acc as [|[n w] acc]; [apply IH; lia|]. destruct (e_val_eq v w).
  - destruct (Z.leb_spec (2 ^ 32) (n + 1)); [lia|]. apply IH. lia.
  - apply IH. lia.
Qed.
Lemma locals_grouped l : zlen l < 2 ^ 32 -> exists g, locals_of_types l = Some g /\ spread g = l /\ grouped g.
Proof.
  intros H. destruct (collect_locals_total l [] H) as (g & E). exists g. split; [exact E|]. apply (collect_locals_ok l [] g E). exact I.
Qed.
(** Grouped locals within the limits of a function. *)
Lemma spread_zlen g : Forall (fun x : Z * e_val => 0 <= fst x) g -> zlen (spread g) = total g.
Proof.
  induction 1 as [|[n v] g Hn _ IH]; [reflexivity|]. cbn [spread total fst] in *. rewrite zlen_app, IH. unfold zlen. rewrite repeat_length. lia.
Qed.
Lemma grouped_pos g : grouped g -> Forall (fun x : Z * e_val => 1 <= fst x) g.
Proof. induction g as [|[n v] g IH]; [constructor|]. intros (H1 & _ & H3). constructor; auto. Qed.
Lemma grouped_len g : Forall (fun x : Z * e_val => 1 <= fst x) g -> zlen g <= total g.
Proof. induction 1 as [|[n v] g Hn _ IH]; [cbn; unfold zlen; cbn; lia|]. cbn [total fst] in *. unfold zlen in *. cbn [List.length]. lia. Qed.
Lemma locals_types_ok l g : zlen l < 2 ^ 32 -> Forall val_ok l -> locals_of_types l = Some g -> locals_ok g.
Proof.
  intros Hl Hv E. destruct (locals_grouped l Hl) as (g' & E' & Es & Hg). rewrite E in E'. injection E' as <-.
  pose proof (grouped_pos g Hg) as Hp. assert (H0 : Forall (fun x : Z * e_val => 0 <= fst x) g) by (eapply Forall_impl; [|exact Hp]; cbv beta; lia).
  assert (Ht : total g = zlen l) by (rewrite <- Es; symmetry; apply spread_zlen, H0). split; [|split; [lia|pose proof (grouped_len g Hp); lia]].
  clear E Hl Ht Hg. subst l. induction g as [|[n v] g IH]; [constructor|]. inversion Hp; inversion H0; subst. cbn [spread] in Hv. apply Forall_app in Hv. destruct Hv as [Hv1 Hv2].
  constructor; [|apply IH; auto]. cbn [fst snd] in *. split; [lia|]. replace (Z.to_nat n) with (S (Z.to_nat n - 1)) in Hv1 by lia. cbn [repeat] in Hv1. inversion Hv1; auto.
Qed.
