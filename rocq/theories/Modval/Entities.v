(** The types of entities: what the validator accepts is what the specification asks. *)
From Verif.Base Require Import Prelude.
From Verif.Reader Require Import Model.
From Verif.Types Require Import RefModel CodecModel EntityModel CanonModel CanonSpec.
From Verif.Instr Require Import ImmModel Ops BodyModel.
From Verif.Sections Require Import SegModel.
From Verif.Validator Require Import State Checks Visit Api Body TypeSpec TypeLook Module.
From Verif.Modval Require Import Model Spec.

Lemma obind_done {A B} (x : outcome A) (k : A -> outcome B) b : obind x k = Done b <-> exists a, x = Done a /\ k a = Done b.
Proof. destruct x as [a| |]; cbn; split; try discriminate; [eauto|intros (a' & H & K); injection H as <-; exact K|intros (a' & H & _); discriminate|intros (a' & H & _); discriminate]. Qed.
Lemma check_done pos b msg u : check pos b msg = Done u <-> b = true.
Proof. destruct u, b; cbn; unfold fail; split; congruence. Qed.
Lemma answer_done {B} pos (x : CanonModel.outcome bool) msg (b : B) (k : outcome B) :
  obind (obind (canon pos x) (fun b => check pos b msg)) (fun _ => k) = Done b <-> answer false x = true /\ k = Done b.
Proof. destruct x as [[]| | |]; cbn; unfold fail; cbn; split; try tauto; try discriminate; intros [H _]; discriminate. Qed.

Section Entities.
Variable F : feature -> bool.
Variable G : m_feature -> bool.
Variable pos : Z.
Hypothesis HF : forall f, f <> f_custom_descriptors -> F f = true.
Hypothesis HG : forall g, G g = true.
Hypothesis Hpos : 0 < pos.
Notation exact := (F f_custom_descriptors).
Lemma need_done f msg : f <> f_custom_descriptors -> need F pos f msg = Done tt.
Proof. intros H. unfold need, check. rewrite HF by exact H. reflexivity. Qed.
Lemma needm_done g msg : needm G pos g msg = Done tt. Proof. unfold needm, check. rewrite HG. reflexivity. Qed.

Variable s : store.
Variable m : modul.
Notation ids := (md_types m).
Hypothesis HM : res_ok (module_resources s m).
Lemma func_type_at i : match func_type pos s m i with
  | Done (ps, rs) => func_at s ids i = Some (map (m_val UId) ps, map (m_val UId) rs)
  | _ => func_at s ids i = None
  end.
Proof.
  unfold func_type, id_at, func_at, T. cbn [module_resources r_sub_type_at md_types]. unfold opt_nthz, stored, fail.
  destruct (nthz ids i) as [id|]; cbn [obind]; [|reflexivity]. destruct (nthz (st_types s) id) as [t|]; [|reflexivity].
  destruct t as [fi su [inn sh d ds]]. cbn. destruct inn; reflexivity.
Qed.
Lemma func_type_done i : (exists y, func_type pos s m i = Done y) <-> func_at s ids i <> None.
Proof. pose proof (func_type_at i) as H. destruct (func_type pos s m i) as [[ps rs]| |]; split; try congruence; eauto; intros (y & K); discriminate. Qed.
Lemma func_type_size i y : func_type pos s m i = Done y -> func_size y = type_size s ids i.
Proof.
  intros E. pose proof (func_type_at i) as H. rewrite E in H. destruct y as [ps rs]. unfold type_size, func_size. rewrite H. cbn [fst snd]. unfold zlen. rewrite !map_length. reflexivity.
Qed.
Definition C0 : ctx := mkCtx (module_resources s m) exact false [] [] [].
Lemma here_ok : envok (here F pos s m) C0.
Proof. split; cbn; auto. lia. Qed.
Lemma value_types p : value C0 p = value (CT exact s ids) p.
Proof. reflexivity. Qed.
Lemma check_value_at v : match check_value F pos s m v with
  | Done v' => (match v with VRef r => guard (implb (rf_exact r) exact) (match reference C0 r with Some r => Some (VRef r) | None => None end) | _ => Some v end) = Some v'
  | _ => (match v with VRef r => guard (implb (rf_exact r) exact) (match reference C0 r with Some r => Some (VRef r) | None => None end) | _ => Some v end) = None
  end.
Proof.
  unfold check_value, ask. pose proof (look_value_type (here F pos s m) C0 HM here_ok v (new_const_expr VI32) eq_refl) as L.
  destruct (check_value_type (here F pos s m) v (new_const_expr VI32)) as [a s'| |]; [destruct L as [_ L]|..]; exact L.
Qed.
Lemma check_val p v : of_val p = Some v -> match check_value F pos s m v with Done v' => value (CT exact s ids) p = Some v' | _ => value (CT exact s ids) p = None end.
Proof. intros E. rewrite <- value_types. unfold value. rewrite E. exact (check_value_at v). Qed.
Lemma check_ref_value r : check_value F pos s m (VRef r) = match check_ref F pos s m r with Done r => Done (VRef r) | Rejected e => Rejected e | Panicked => Panicked end.
Proof.
  unfold check_value, check_ref, ask, check_value_type, vbind. cbn [feature_check_value_type].
  destruct (feature_check_ref_type _ r _) as [[] s1| |]; try reflexivity. destruct (check_ref_type _ r s1) as [r' s2| |]; reflexivity.
Qed.
Lemma check_ref_at p : match of_ref p with
  | Some r => match check_ref F pos s m r with Done r' => value (CT exact s ids) (PRef p) = Some (VRef r') | _ => value (CT exact s ids) (PRef p) = None end
  | None => value (CT exact s ids) (PRef p) = None
  end.
Proof.
  destruct (of_ref p) as [r|] eqn:E.
  - assert (E' : of_val (PRef p) = Some (VRef r)) by (unfold of_val; rewrite E; reflexivity).
    pose proof (check_val (PRef p) (VRef r) E') as H. rewrite check_ref_value in H. destruct (check_ref F pos s m r); exact H.
  - rewrite <- value_types. unfold value. assert (E' : of_val (PRef p) = None) by (unfold of_val; rewrite E; reflexivity). rewrite E'. reflexivity.
Qed.
Lemma value_is_ref p v : value (CT exact s ids) (PRef p) = Some v -> exists r, v = VRef r.
Proof.
  pose proof (check_ref_at p) as H. intros E. destruct (of_ref p) as [r|]; [|congruence]. destruct (check_ref F pos s m r) as [r'| |]; [|congruence..]. exists r'. congruence.
Qed.
Lemma unit_done {B} (x : outcome unit) (k : unit -> outcome B) b : obind x k = Done b <-> x = Done tt /\ k tt = Done b.
Proof. rewrite obind_done. split; [intros ([] & H); exact H|eauto]. Qed.
Lemma limits_done min max top msg : (check_limits pos min max = Done tt /\ at_most pos min max top msg = Done tt) <-> limits_ok min max top.
Proof.
  unfold check_limits, at_most, limits_ok. rewrite unit_done, check_done, Z.leb_le. destruct max as [mx|].
  - rewrite !check_done, !Z.leb_le. lia.
  - tauto.
Qed.
Lemma table_check t x : check_table F G pos s m t = Done x <-> table_ok exact s ids t x.
Proof.
  unfold check_table, table_ok. pose proof (check_ref_at (t_elem t)) as H. destruct (of_ref (t_elem t)) as [r|] eqn:Er.
  2: { split; [discriminate|]. intros (r & K & _). congruence. }
  assert (H' : match (if rty_dec uidx_dec r (abs true false Func) then Done r else check_ref F pos s m r) with
    | Done r' => value (CT exact s ids) (PRef (t_elem t)) = Some (VRef r') | _ => value (CT exact s ids) (PRef (t_elem t)) = None end).
  { destruct (rty_dec uidx_dec r (abs true false Func)) as [->|_]; [|exact H]. unfold value, of_val. rewrite Er. reflexivity. }
  clear H. destruct (if rty_dec uidx_dec r (abs true false Func) then Done r else check_ref F pos s m r) as [r'| |]; cbn [obind].
  2,3: split; [discriminate|]; intros (r'' & K & _); congruence.
  rewrite needm_done, need_done by discriminate.
  assert (N1 : (if t_64 t then Done tt else Done tt) = Done tt :> outcome unit) by (destruct (t_64 t); reflexivity).
  assert (N2 : (if t_shared t then Done tt else Done tt) = Done tt :> outcome unit) by (destruct (t_shared t); reflexivity).
  rewrite N1, N2. cbn [obind]. rewrite unit_done. cbn [obind]. rewrite unit_done.
  pose proof (limits_done (t_min t) (t_max t) (if t_64 t then 2 ^ 64 - 1 else 2 ^ 32 - 1) "table size") as L. split.
  - intros (L1 & L2 & K). exists r'. split; [exact H'|]. apply proj1 in L. specialize (L (conj L1 L2)). destruct (t_shared t) eqn:Es.
    + apply answer_done in K. destruct K as [K1 K2]. injection K2 as <-. split; [reflexivity|]. split; [exact L|]. intros _. exact K1.
    + cbn [obind] in K. injection K as <-. split; [reflexivity|]. split; [exact L|discriminate].
  - intros (r'' & K & -> & L' & Sh). assert (r'' = r') by congruence. subst r''. apply L in L'. destruct L' as [L1 L2]. split; [exact L1|]. split; [exact L2|]. destruct (t_shared t).
    + apply answer_done. split; [exact (Sh eq_refl)|reflexivity].
    + reflexivity.
Qed.
Lemma page_done (k : Z -> outcome bool) b p (q : outcome unit) : q = Done tt ->
  obind (match p with Some p => obind q (fun _ => obind (check pos ((p =? 0) || (p =? 16)) "invalid custom page size") (fun _ => Done (2 ^ p))) | None => Done 65536 end) k = Done b <->
  (p = None \/ p = Some 0 \/ p = Some 16) /\ k (match p with Some 0 => 1 | _ => 65536 end) = Done b.
Proof.
  intros ->. destruct p as [p|]; cbn [obind].
  - rewrite obind_done. setoid_rewrite unit_done. setoid_rewrite check_done. setoid_rewrite Bool.orb_true_iff. setoid_rewrite Z.eqb_eq. split.
    + intros (page & ([->| ->] & E) & H); injection E as <-; auto.
    + intros ([K|[K|K]] & H); [discriminate|injection K as ->; exists 1; auto|injection K as ->; exists 65536; auto].
  - tauto.
Qed.
Lemma memory_check t b : check_memory F G pos t = Done b <-> memory_ok t /\ b = m_64 t.
Proof.
  unfold check_memory, memory_ok. rewrite need_done by discriminate. rewrite !needm_done.
  assert (N1 : (if m_64 t then Done tt else Done tt) = Done tt :> outcome unit) by (destruct (m_64 t); reflexivity).
  assert (N2 : (if m_shared t then Done tt else Done tt) = Done tt :> outcome unit) by (destruct (m_shared t); reflexivity).
  rewrite N1, N2, unit_done. change (fun page : Z => _) with (fun page : Z => obind (at_most pos (m_min t) (m_max t) (if m_64 t then pages64 page else pages32 page) "memory size") (fun _ =>
    obind (if m_shared t then check pos (match m_max t with Some _ => true | None => false end) "shared memory must have maximum size" else Done tt) (fun _ => Done (m_64 t)))).
  cbn [obind]. rewrite (page_done _ _ (m_page t) (Done tt) eq_refl), !unit_done.
  pose proof (limits_done (m_min t) (m_max t) (if m_64 t then pages64 (match m_page t with Some 0 => 1 | _ => 65536 end) else pages32 (match m_page t with Some 0 => 1 | _ => 65536 end)) "memory size") as L.
  assert (Top : (m_page t = None \/ m_page t = Some 0 \/ m_page t = Some 16) ->
    (if m_64 t then pages64 (match m_page t with Some 0 => 1 | _ => 65536 end) else pages32 (match m_page t with Some 0 => 1 | _ => 65536 end)) =
    match m_page t, m_64 t with Some 0, true => 2 ^ 64 - 1 | Some 0, false => 2 ^ 32 - 1 | _, true => 2 ^ 48 | _, false => 2 ^ 16 end).
  { intros [->|[->| ->]]; destruct (m_64 t); reflexivity. }
  assert (Sh : (if m_shared t then check pos (match m_max t with Some _ => true | None => false end) "shared memory must have maximum size" else Done tt) = Done tt <->
    (m_shared t = true -> m_max t <> None)).
  { destruct (m_shared t); [rewrite check_done; destruct (m_max t); split; intros; try congruence; try (exfalso; apply H; auto; fail)|split; [discriminate|reflexivity]]. }
  rewrite Sh. clear Sh. split.
  - intros (L1 & P & L2 & S1 & E). injection E as <-. rewrite <- (Top P). tauto.
  - intros ((P & L1 & S1) & ->). rewrite <- (Top P) in L1. tauto.
Qed.
Lemma tag_check i : check_tag F pos s m i = Done tt <-> func_at s ids i <> None.
Proof.
  unfold check_tag. rewrite !need_done by discriminate. cbn [obind]. rewrite obind_done, <- func_type_done. split.
  - intros (y & H & _). eauto.
  - intros ([ps rs] & H). exists (ps, rs). split; [exact H|]. destruct rs; reflexivity.
Qed.
Lemma global_check t x : check_global F pos s m t = Done x <-> global_ok exact s ids t x.
Proof.
  unfold check_global, global_ok. destruct (of_val (EntityModel.g_val t)) as [v|] eqn:E.
  2: { split; [discriminate|]. intros (v & K & _). unfold value in K. rewrite E in K. discriminate. }
  pose proof (check_val _ _ E) as H. destruct (check_value F pos s m v) as [v'| |]; cbn [obind].
  2,3: split; [discriminate|]; intros (r'' & K & _); congruence.
  rewrite need_done by discriminate.
  assert (N2 : (if g_shared t then Done tt else Done tt) = Done tt :> outcome unit) by (destruct (g_shared t); reflexivity).
  rewrite N2. cbn [obind].
  assert (V : answer false (val_is_shared s v') = val_shared s ids v') by (destruct v'; reflexivity).
  split.
  - intros K. exists v'. split; [exact H|]. destruct (g_shared t) eqn:Es.
    + apply answer_done in K. destruct K as [K1 K2]. injection K2 as <-. split; [reflexivity|]. intros _. rewrite <- V. exact K1.
    + cbn [obind] in K. injection K as <-. split; [reflexivity|discriminate].
  - intros (v'' & K & -> & Sh). assert (v'' = v') by congruence. subst v''. destruct (g_shared t).
    + apply answer_done. rewrite V. split; [exact (Sh eq_refl)|reflexivity].
    + reflexivity.
Qed.
End Entities.
