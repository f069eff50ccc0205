(** [SizeAlign] computes the canonical ABI. *)
From Verif.Base Require Import Prelude.
From Verif.Wit Require Import LayoutModel Spec.
From Coq Require Import Lia ZArith.

(** ** Arithmetic *)
Lemma wrapu_small v : 0 <= v < 2 ^ 64 -> wrapu 64 v = v.
Proof. intros H. unfold wrapu. apply Z.mod_small. exact H. Qed.

Lemma round_up_pow k s : 0 <= k -> round_up s (2 ^ k) = Z.land (s + (2 ^ k - 1)) (Z.lnot (2 ^ k - 1)).
Proof.
  intros Hk. unfold round_up. replace (2 ^ k - 1) with (Z.ones k) by (rewrite Z.ones_equiv; lia).
  rewrite <- Z.ldiff_land, Z.ldiff_ones_r, Z.shiftl_mul_pow2, Z.shiftr_div_pow2; auto.
Qed.

Definition pow2 (a : Z) : Prop := a = 1 \/ a = 2 \/ a = 4 \/ a = 8 \/ a = 32.
Lemma align_to_ok v a : pow2 a -> 0 <= v < 2 ^ 63 -> align_to v a = round_up v a.
Proof.
  intros Ha Hv. unfold align_to, usub, uadd.
  rewrite (wrapu_small (v + a)) by (destruct Ha as [-> |[-> |[-> |[-> | ->]]]]; lia).
  rewrite wrapu_small by (destruct Ha as [-> |[-> |[-> |[-> | ->]]]]; lia).
  replace (v + a - 1) with (v + (a - 1)) by lia.
  destruct Ha as [-> |[-> |[-> |[-> | ->]]]];
  [change 1 with (2 ^ 0)|change 2 with (2 ^ 1)|change 4 with (2 ^ 2)|change 8 with (2 ^ 3)|change 32 with (2 ^ 5)];
  rewrite round_up_pow by lia; reflexivity.
Qed.

Lemma round_up_spec s a : 0 < a -> 0 <= s -> s <= round_up s a < s + a /\ round_up s a mod a = 0.
Proof.
  intros Ha Hs. unfold round_up. split; [|apply Z.mod_mul; lia].
  pose proof (Z.div_mod (s + (a - 1)) a ltac:(lia)). pose proof (Z.mod_pos_bound (s + (a - 1)) a Ha). lia.
Qed.
Lemma round_up_unique s a x : 0 < a -> 0 <= s -> s <= x < s + a -> x mod a = 0 -> x = round_up s a.
Proof.
  intros Ha Hs Hx Hm. destruct (round_up_spec s a Ha Hs) as [H1 H2].
  pose proof (Z.div_mod x a ltac:(lia)). pose proof (Z.div_mod (round_up s a) a ltac:(lia)).
  rewrite Hm in *. rewrite H2 in *. rewrite Z.add_0_r in *.
  assert (x / a = round_up s a / a) by nia. nia.
Qed.

Ltac zdiv := Z.to_euclidean_division_equations; lia.

Definition wsz (p : Z) (s : asize) : Z := s_bytes s + p * s_pointers s.
Definition aw (p : Z) (a : align_t) : Z := match a with APointer => p | ABytes n => n end.
Definition good (a : align_t) : Prop := a = APointer \/ a = ABytes 1 \/ a = ABytes 2 \/ a = ABytes 4 \/ a = ABytes 8.
Definition width (p : Z) : Prop := p = 4 \/ p = 8.
Definition small (s : asize) : Prop := 0 <= s_bytes s /\ 0 <= s_pointers s /\ wsz 8 s < 2 ^ 62.

Lemma size32_ok s : small s -> size_wasm32 s = wsz 4 s.
Proof.
  intros (H1 & H2 & H3). unfold size_wasm32, uadd, umul, wsz in *.
  rewrite (wrapu_small (_ * 4)) by lia. rewrite wrapu_small by lia. lia.
Qed.
Lemma size64_ok s : small s -> size_wasm64 s = wsz 8 s.
Proof.
  intros (H1 & H2 & H3). unfold size_wasm64, uadd, umul, wsz in *.
  rewrite (wrapu_small (_ * 8)) by lia. rewrite wrapu_small by lia. lia.
Qed.

Lemma aw_pos p a : width p -> good a -> 0 < aw p a.
Proof. intros [-> | ->] [-> |[-> |[-> |[-> | ->]]]]; reflexivity. Qed.

Lemma land1 x : Z.land x 1 = x mod 2.
Proof. change 1 with (Z.ones 1) at 1. rewrite Z.land_ones by lia. reflexivity. Qed.

Lemma align_arch_ok s a : small s -> good a ->
  (forall p, width p -> wsz p (align_to_arch s a) = round_up (wsz p s) (aw p a)) /\
  0 <= s_bytes (align_to_arch s a) /\ 0 <= s_pointers (align_to_arch s a) /\
  (0 < s_pointers (align_to_arch s a) -> 0 < s_pointers s \/ a = APointer).
Proof.
  intros (H1 & H2 & H3) Ha. destruct s as [b q]. unfold wsz in *. cbn [s_bytes s_pointers] in *.
  assert (Hr : forall n, 0 < n -> b <= round_up b n < b + n /\ round_up b n mod n = 0) by (intros; apply round_up_spec; lia).
  destruct Ha as [-> | Ha].
  - unfold align_to_arch. cbn [s_bytes s_pointers].
    rewrite (align_to_ok b 4) by (unfold pow2; lia).
    destruct (Hr 4 ltac:(lia)) as [E1 E2]. set (r := round_up b 4) in *. clearbody r.
    rewrite (align_to_ok r 8) by (unfold pow2; lia).
    destruct (round_up_spec r 8) as [E3 E4]; try lia. set (r8 := round_up r 8) in *. clearbody r8.
    destruct (r =? r8) eqn:E; cbn [negb s_bytes s_pointers].
    + apply Z.eqb_eq in E. subst r8. split; [|lia].
      intros p [-> | ->]; unfold aw; apply round_up_unique; try lia; zdiv.
    + unfold usub, uadd. rewrite !wrapu_small by (Z.to_euclidean_division_equations; lia).
      split; [|split; [zdiv|split; [lia|auto]]].
      intros p [-> | ->]; unfold aw; apply round_up_unique; try lia; zdiv.
  - unfold align_to_arch. cbn [s_bytes s_pointers]. rewrite land1.
    destruct Ha as [-> |[-> |[-> | ->]]]; cbn [Z.ltb Z.compare andb aw];
      change (4 <? 1) with false; change (4 <? 2) with false; change (4 <? 4) with false; cbn [andb];
      try (rewrite align_to_ok by (unfold pow2; lia); cbn [s_bytes s_pointers];
      match goal with |- context [round_up b ?n] => destruct (Hr n ltac:(lia)) as [E1 E2]; set (r := round_up b n) in *; clearbody r end;
      split; [intros p [-> | ->]; apply round_up_unique; try lia; zdiv|lia]).
    change (4 <? 8) with true. cbn [andb].
    rewrite align_to_ok by (unfold pow2; lia). destruct (Hr 8 ltac:(lia)) as [E1 E2]. set (r := round_up b 8) in *. clearbody r.
    destruct (q mod 2 =? 0) eqn:E; cbn [negb s_bytes s_pointers].
    + split; [|lia]. intros p [-> | ->]; apply round_up_unique; try lia; zdiv.
    + unfold usub, uadd. rewrite (wrapu_small (r - b)) by lia.
      destruct (4 <=? r - b) eqn:E8; cbn [s_bytes s_pointers];
      rewrite !wrapu_small by zdiv; (split; [|zdiv]); intros p [-> | ->]; apply round_up_unique; try lia; zdiv.
Qed.

Lemma align_max_ok a b : good a -> good b ->
  good (align_max a b) /\ forall p, width p -> aw p (align_max a b) = Z.max (aw p a) (aw p b).
Proof.
  intros Ha Hb. split.
  - unfold align_max. destruct (align_leb a b); assumption.
  - intros p [-> | ->]; destruct Ha as [-> |[-> |[-> |[-> | ->]]]]; destruct Hb as [-> |[-> |[-> |[-> | ->]]]]; reflexivity.
Qed.

Lemma asize_add_ok a b : small a -> small b -> wsz 8 a + wsz 8 b < 2 ^ 62 ->
  small (asize_add a b) /\ (forall p, wsz p (asize_add a b) = wsz p a + wsz p b) /\
  s_pointers (asize_add a b) = s_pointers a + s_pointers b.
Proof.
  intros (A1 & A2 & A3) (B1 & B2 & B3) H. unfold asize_add, small, wsz, uadd in *. cbn [s_bytes s_pointers].
  rewrite !wrapu_small by lia. repeat split; lia.
Qed.

(** The symbolic maximum is exact, or rounded up to whole pointers. *)
Lemma asize_max_ok a b : small a -> small b -> wsz 8 a < 2 ^ 61 -> wsz 8 b < 2 ^ 61 ->
  small (asize_max a b) /\
  ((forall p, width p -> wsz p (asize_max a b) = Z.max (wsz p a) (wsz p b)) /\
     (0 < s_pointers (asize_max a b) -> 0 < s_pointers a \/ 0 < s_pointers b) \/
   (forall p, width p -> wsz p (asize_max a b) = round_up (Z.max (wsz p a) (wsz p b)) p) /\
     (0 < s_pointers a \/ 0 < s_pointers b)).
Proof.
  intros Ha Hb La Lb. unfold asize_max. rewrite !size32_ok, !size64_ok by assumption.
  destruct (_ && _) eqn:E1; [|destruct ((wsz 4 a <=? wsz 4 b) && _) eqn:E2].
  - split; [exact Ha|]. left. split; [intros p [-> | ->]; lia|auto].
  - split; [exact Hb|]. left. split; [intros p [-> | ->]; lia|auto].
  - destruct a as [a q], b as [b r]. unfold small, wsz in *. cbn [s_bytes s_pointers] in *.
    assert (Hp : 0 < q \/ 0 < r).
    { destruct (Z.eq_dec q 0); [|lia]. destruct (Z.eq_dec r 0); [|lia]. exfalso. subst. lia. }
    rewrite !align_to_ok by (unfold pow2; lia).
    set (m4 := Z.max (a + 4 * q) (b + 4 * r)). set (m8 := Z.max (a + 8 * q) (b + 8 * r)).
    destruct (round_up_spec m4 4) as [X1 X2]; [lia|lia|]. destruct (round_up_spec m8 8) as [Y1 Y2]; [lia|lia|].
    set (x := round_up m4 4) in *. set (y := round_up m8 8) in *.
    assert (Hyx : x <= y <= 2 * x) by (clearbody x y; subst m4 m8; zdiv).
    unfold usub, uadd. rewrite (wrapu_small (x + x)), (wrapu_small (y - x)), wrapu_small by lia.
    assert (D : 4 * ((y - x) / 4) = y - x) by (clearbody x y; clear E1 E2; zdiv).
    split; [lia|]. right. split; [intros p [-> | ->]; fold m4; fold m8; fold x; fold y; lia|exact Hp].
Qed.

(** ** One definition *)
Definition ptr_al (a : align_t) : Prop := a = APointer \/ a = ABytes 8.

Record ok_info (e : info) (v : vt) : Prop := mkOk
  { oi_bytes : 0 <= s_bytes (i_size e);
    oi_ptrs : 0 <= s_pointers (i_size e);
    oi_size : forall p, width p -> wsz p (i_size e) = elem_size p v;
    oi_good : good (i_align e);
    oi_align : forall p, width p -> aw p (i_align e) = alignment p v;
    oi_ptr : 0 < s_pointers (i_size e) -> ptr_al (i_align e) }.

Lemma w4 : width 4. Proof. left. reflexivity. Qed.
Lemma w8 : width 8. Proof. right. reflexivity. Qed.
#[local] Hint Resolve w4 w8 : core.

Lemma ok_nonneg e v p : ok_info e v -> width p -> 0 <= elem_size p v.
Proof. intros H Hp. rewrite <- (oi_size _ _ H) by assumption. destruct H, Hp as [-> | ->]; unfold wsz; lia. Qed.
Lemma ok_align_pos e v p : ok_info e v -> width p -> 0 < alignment p v.
Proof. intros H Hp. rewrite <- (oi_align _ _ H) by assumption. apply aw_pos; auto. apply H. Qed.
Lemma ok_small e v : ok_info e v -> elem_size 8 v < LIMIT -> small (i_size e).
Proof. intros H Hl. repeat split; try apply H. rewrite (oi_size _ _ H) by auto. unfold LIMIT in Hl. lia. Qed.

Definition rstep (p s : Z) (f : vt) : Z := round_up s (alignment p f) + elem_size p f.

Lemma rfold_mono p is vs : width p -> Forall2 ok_info is vs -> forall s, 0 <= s -> s <= fold_left (rstep p) vs s.
Proof.
  intros Hp. induction 1 as [|e v is vs He _ IH]; intros s Hs; cbn [fold_left]; [lia|].
  pose proof (ok_align_pos _ _ _ He Hp) as Ha. destruct (round_up_spec s _ Ha Hs) as [H1 _].
  pose proof (ok_nonneg _ _ _ He Hp). unfold rstep at 2. etransitivity; [|apply IH; lia]. lia.
Qed.

Lemma ptr_al_max a b : ptr_al a \/ ptr_al b -> good a -> good b -> ptr_al (align_max a b).
Proof.
  intros [[-> | ->]|[-> | ->]] Ha Hb;
  [destruct Hb as [-> |[-> |[-> |[-> | ->]]]]|destruct Hb as [-> |[-> |[-> |[-> | ->]]]]
  |destruct Ha as [-> |[-> |[-> |[-> | ->]]]]|destruct Ha as [-> |[-> |[-> |[-> | ->]]]]];
  vm_compute; auto.
Qed.

Lemma max_of_cons {A} (f : A -> Z) v vs d : max_of (map f (v :: vs)) d = Z.max (f v) (max_of (map f vs) d).
Proof. reflexivity. Qed.

Lemma record_fold is vs : Forall2 ok_info is vs -> forall s a S,
  fold_left (rstep 8) vs (S 8) < LIMIT -> (forall p, width p -> 0 <= S p /\ wsz p s = S p) ->
  0 <= s_bytes s -> 0 <= s_pointers s -> good a -> (0 < s_pointers s -> ptr_al a) ->
  forall s' a', fold_left record_step is (s, a) = (s', a') ->
  (forall p, width p -> wsz p s' = fold_left (rstep p) vs (S p)) /\ 0 <= s_bytes s' /\ 0 <= s_pointers s' /\
  good a' /\ (0 < s_pointers s' -> ptr_al a') /\
  (forall p, width p -> aw p a' = Z.max (aw p a) (max_of (map (alignment p) vs) 1)).
Proof.
  induction 1 as [|e v is vs He Hvs IH]; intros s a S Hlim HS Hb Hq Hg Hpt s' a' E.
  - cbn in E. injection E as <- <-. split; [intros p Hp; apply HS; assumption|]. split; [auto|]. split; [auto|].
    split; [auto|]. split; [auto|]. intros p Hp. cbn. pose proof (aw_pos p a Hp Hg). lia.
  - cbn [fold_left] in *. 
    assert (H8 : S 8 <= fold_left (rstep 8) vs (rstep 8 (S 8) v) /\ rstep 8 (S 8) v <= fold_left (rstep 8) vs (rstep 8 (S 8) v)).
    { destruct (HS 8 w8) as [HS0 _]. pose proof (ok_align_pos _ _ _ He w8) as Ha. destruct (round_up_spec (S 8) _ Ha HS0) as [H1 _].
      pose proof (ok_nonneg _ _ _ He w8).
      assert (rstep 8 (S 8) v <= fold_left (rstep 8) vs (rstep 8 (S 8) v)) by (apply (rfold_mono 8 is); auto; unfold rstep; lia).
      unfold rstep at 1 in H0. split; [unfold rstep in *; lia|assumption]. }
    unfold LIMIT in *.
    assert (Hsm : small s).
    { split; [auto|]. split; [auto|]. destruct (HS 8 w8) as [_ ->]. lia. }
    destruct (align_arch_ok s (i_align e) Hsm (oi_good _ _ He)) as (A1 & A2 & A3 & A4).
    assert (Hr8 : wsz 8 (align_to_arch s (i_align e)) + wsz 8 (i_size e) = rstep 8 (S 8) v).
    { rewrite A1, (oi_size _ _ He), (oi_align _ _ He) by auto. destruct (HS 8 w8) as [_ ->]. reflexivity. }
    assert (N1 : 0 <= wsz 8 (align_to_arch s (i_align e))) by (unfold wsz; lia).
    assert (N2 : 0 <= wsz 8 (i_size e)) by (rewrite (oi_size _ _ He) by auto; eapply ok_nonneg; eauto).
    destruct (asize_add_ok (align_to_arch s (i_align e)) (i_size e)) as (B1 & B2 & B3).
    { repeat split; auto. lia. }
    { repeat split; try apply He. lia. }
    { lia. }
    destruct (align_max_ok a (i_align e) Hg (oi_good _ _ He)) as [C1 C2].
    unfold record_step at 2 in E. cbn [fst snd] in E.
    destruct (fun H1 H2 H3 H4 H5 => IH (asize_add (align_to_arch s (i_align e)) (i_size e)) (align_max a (i_align e))
      (fun p => rstep p (S p) v) ltac:(cbv beta; lia) H1 H2 H3 H4 H5 _ _ E) as (I1 & I2 & I3 & I4 & I5 & I6).
    + intros p Hp. rewrite B2, A1, (oi_size _ _ He), (oi_align _ _ He) by auto. destruct (HS p Hp) as [HS0 ->].
      split; [|reflexivity]. unfold rstep. pose proof (ok_align_pos _ _ _ He Hp) as Ha. destruct (round_up_spec (S p) _ Ha HS0) as [H1 _].
      pose proof (ok_nonneg _ _ _ He Hp). lia.
    + apply B1.
    + apply B1.
    + exact C1.
    + rewrite B3. intros Hpos. apply ptr_al_max; auto; [|apply He].
      destruct (Z.lt_ge_cases 0 (s_pointers (i_size e))) as [G|G]; [right; apply He; exact G|].
      assert (Hx : 0 < s_pointers (align_to_arch s (i_align e))) by lia. apply A4 in Hx as [Hx|Hx]; [auto|].
      right. rewrite Hx. left. reflexivity.
    + split; [exact I1|]. split; [exact I2|]. split; [exact I3|]. split; [exact I4|]. split; [exact I5|].
      intros p Hp. rewrite I6, C2, (oi_align _ _ He) by auto. rewrite max_of_cons. lia.
Qed.

Lemma default_good : good align_default. Proof. right. left. reflexivity. Qed.

Lemma max_of_ge l d : d <= max_of l d.
Proof. unfold max_of. induction l; cbn [fold_right]; lia. Qed.

Lemma record_ok is vs : Forall2 ok_info is vs -> elem_size 8 (VRecord vs) < LIMIT -> ok_info (record_info is) (VRecord vs).
Proof.
  intros H Hlim. unfold record_info. destruct (fold_left record_step is _) as [s a] eqn:E.
  assert (Hsz : forall p, elem_size p (VRecord vs) = round_up (fold_left (rstep p) vs 0) (max_of (map (alignment p) vs) 1)) by reflexivity.
  assert (Hpos : forall p, 0 < max_of (map (alignment p) vs) 1) by (intros; pose proof (max_of_ge (map (alignment p) vs) 1); lia).
  assert (Hf : forall p, width p -> 0 <= fold_left (rstep p) vs 0).
  { intros p Hp. eapply (rfold_mono p is vs); eauto. lia. }
  assert (H8 : fold_left (rstep 8) vs 0 < LIMIT).
  { rewrite Hsz in Hlim. destruct (round_up_spec (fold_left (rstep 8) vs 0) _ (Hpos 8)) as [X _]; [apply Hf; auto|]. lia. }
  destruct (fun H1 H2 H3 H4 H5 => record_fold _ _ H (mkSize 0 0) align_default (fun _ => 0) H8 H1 H2 H3 H4 H5 _ _ E) as (R1 & R2 & R3 & R4 & R5 & R6).
  - intros p Hp. split; [lia|]. unfold wsz. cbn. lia.
  - cbn. lia.
  - cbn. lia.
  - apply default_good.
  - cbn. lia.
  - assert (Hal : forall p, width p -> aw p a = max_of (map (alignment p) vs) 1).
    { intros p Hp. rewrite R6 by auto. cbn [align_default aw]. pose proof (max_of_ge (map (alignment p) vs) 1). lia. }
    assert (Hsm : small s). { repeat split; auto. rewrite R1 by auto. unfold LIMIT in H8. lia. }
    destruct (align_arch_ok s a Hsm R4) as (A1 & A2 & A3 & A4).
    constructor; cbn [i_size i_align]; auto.
    + intros p Hp. rewrite A1, R1, Hal by auto. symmetry. apply Hsz.
    + intros Hx. apply A4 in Hx as [Hx|Hx]; [auto|left; exact Hx].
Qed.

(** ** Variants *)
Lemma round_up_mono s t a : 0 < a -> s <= t -> round_up s a <= round_up t a.
Proof. intros Ha H. unfold round_up. apply Z.mul_le_mono_nonneg_r; [lia|]. apply Z.div_le_mono; lia. Qed.
Lemma round_up_idem s a : 0 < a -> 0 <= s -> round_up (round_up s a) a = round_up s a.
Proof.
  intros Ha H. destruct (round_up_spec s a Ha H) as [X Y]. symmetry. apply round_up_unique; auto; lia.
Qed.

Lemma variant_fold is vs : Forall2 ok_info is vs -> Forall (fun v => elem_size 8 v < LIMIT) vs -> forall c a C,
  (forall p, width p -> 0 <= C p /\ C p <= wsz p c <= round_up (C p) p) -> C 8 < LIMIT ->
  ((forall p, width p -> wsz p c = C p) \/ ptr_al a) ->
  0 <= s_bytes c -> 0 <= s_pointers c -> good a -> (0 < s_pointers c -> ptr_al a) ->
  forall c' a', fold_left variant_step is (c, a) = (c', a') ->
  exists C', (forall p, width p -> C' p = Z.max (C p) (max_of (map (elem_size p) vs) 0)) /\
  (forall p, width p -> 0 <= C' p /\ C' p <= wsz p c' <= round_up (C' p) p) /\ C' 8 < LIMIT /\
  ((forall p, width p -> wsz p c' = C' p) \/ ptr_al a') /\
  0 <= s_bytes c' /\ 0 <= s_pointers c' /\ good a' /\ (0 < s_pointers c' -> ptr_al a') /\
  (forall p, width p -> aw p a' = Z.max (aw p a) (max_of (map (alignment p) vs) 1)).
Proof.
  induction 1 as [|e v is vs He Hvs IH]; intros Hlims c a C HC Hlim Hex Hb Hq Hg Hpt c' a' E.
  - cbn in E. injection E as <- <-. exists C. split; [intros p Hp; cbn; destruct (HC p Hp); lia|].
    repeat (split; [assumption|]). intros p Hp. cbn. pose proof (aw_pos p a Hp Hg). lia.
  - inversion Hlims as [|? ? Hv Hlims']; subst. cbn [fold_left] in E. unfold variant_step at 2 in E. cbn [fst snd] in E.
    assert (Hsz := oi_size _ _ He). pose proof (fun p Hp => ok_nonneg _ _ p He Hp) as Hnn.
    destruct (HC 8 w8) as (HC0 & HC1). unfold LIMIT in *.
    assert (L8 : wsz 8 c < 2 ^ 60 + 8). { destruct (round_up_spec (C 8) 8); lia. }
    assert (Sc : small c) by (repeat split; auto; lia).
    assert (Se : small (i_size e)) by (eapply ok_small; eauto).
    destruct (asize_max_ok c (i_size e) Sc Se) as [Sm Hm]; [lia|rewrite Hsz by auto; lia|].
    destruct (align_max_ok a (i_align e) Hg (oi_good _ _ He)) as [C1 C2].
    set (C2' := fun p => Z.max (C p) (elem_size p v)).
    assert (Hp_pos : forall p, width p -> 0 < p) by (intros p [-> | ->]; lia).
    destruct (fun H1 H2 H3 H4 H5 H6 H7 => IH Hlims' (asize_max c (i_size e)) (align_max a (i_align e)) C2' H1 H2 H3 H4 H5 H6 H7 _ _ E) as (C' & I0 & I1 & I2 & I3 & I4 & I5 & I6 & I7 & I8).
    + intros p Hp. destruct (HC p Hp) as (P0 & P1). specialize (Hp_pos p Hp). unfold C2'. split; [lia|].
      pose proof (round_up_mono (C p) (Z.max (C p) (elem_size p v)) p Hp_pos ltac:(lia)) as M1.
      destruct (round_up_spec (Z.max (C p) (elem_size p v)) p Hp_pos ltac:(lia)) as [M2 _].
      destruct Hm as [[Hm _]|[Hm _]]; rewrite Hm, Hsz by auto.
      * lia.
      * destruct (round_up_spec (Z.max (wsz p c) (elem_size p v)) p Hp_pos ltac:(lia)) as [M3 _].
        split; [lia|]. rewrite <- (round_up_idem (Z.max (C p) _) p) by lia. apply round_up_mono; lia.
    + unfold C2'. lia.
    + destruct Hm as [[Hm Hm2]|[Hm Hm2]].
      * destruct Hex as [Hex|Hex]; [left; intros p Hp; unfold C2'; rewrite Hm, Hsz, Hex by auto; reflexivity|].
        right. apply ptr_al_max; auto. apply He.
      * right. apply ptr_al_max; auto; [|apply He]. destruct Hm2; [left; auto|right; apply He; auto].
    + apply Sm.
    + apply Sm.
    + exact C1.
    + intros Hx. apply ptr_al_max; auto; [|apply He]. destruct Hm as [[Hm Hm2]|[Hm Hm2]]; [apply Hm2 in Hx|clear Hx; rename Hm2 into Hx];
        (destruct Hx; [left; auto|right; apply He; auto]).
    + exists C'. split; [|split; [exact I1|split; [exact I2|split; [exact I3|split; [exact I4|split; [exact I5|split; [exact I6|split; [exact I7|]]]]]]]].
      * intros p Hp. rewrite I0 by auto. unfold C2'. rewrite max_of_cons.
        pose proof (max_of_ge (map (elem_size p) vs) 0). lia.
      * intros p Hp. rewrite I8, C2, (oi_align _ _ He) by auto. rewrite max_of_cons. lia.
Qed.

Definition oal (p : Z) (c : option vt) : Z := match c with Some t => alignment p t | None => 1 end.
Definition osz (p : Z) (c : option vt) : Z := match c with Some t => elem_size p t | None => 0 end.
Lemma somes_align p cs : max_of (map (oal p) cs) 1 = max_of (map (alignment p) (somes cs)) 1.
Proof.
  induction cs as [|[c|] cs IH]; cbn [map somes max_of fold_right oal]; [reflexivity| |].
  - unfold max_of in IH. rewrite IH. reflexivity.
  - unfold max_of in IH. rewrite IH. pose proof (max_of_ge (map (alignment p) (somes cs)) 1). unfold max_of in *. lia.
Qed.
Lemma somes_size p cs : max_of (map (osz p) cs) 0 = max_of (map (elem_size p) (somes cs)) 0.
Proof.
  induction cs as [|[c|] cs IH]; cbn [map somes max_of fold_right osz]; [reflexivity| |].
  - unfold max_of in IH. rewrite IH. reflexivity.
  - unfold max_of in IH. rewrite IH. pose proof (max_of_ge (map (elem_size p) (somes cs)) 0). unfold max_of in *. lia.
Qed.

Lemma round_absorb p A D C x : 0 < p -> 0 < A -> A mod p = 0 -> D mod p = 0 -> 0 <= D -> 0 <= C ->
  C <= x <= round_up C p -> round_up (D + x) A = round_up (D + C) A.
Proof.
  intros Hp HA HAp HDp HD HC Hx.
  destruct (round_up_spec C p Hp HC) as [R1 R2]. destruct (round_up_spec (D + C) A HA ltac:(lia)) as [S1 S2].
  apply Z.le_antisymm; [|apply round_up_mono; lia].
  rewrite <- (round_up_idem (D + C) A) by lia. apply round_up_mono; [exact HA|].
  enough (D + round_up C p <= round_up (D + C) A) by lia.
  set (r := round_up C p) in *. set (y := round_up (D + C) A) in *.
  apply Z.mod_divide in S2, HAp, HDp, R2; try lia.
  destruct (Z.divide_trans _ _ _ HAp S2) as [k Hk]. destruct HDp as [d Hd]. destruct R2 as [c Hc].
  assert (D + C <= k * p) by lia. assert (c * p < C + p) by lia.
  assert ((d + c) * p < (k + 1) * p) by lia. assert (d + c < k + 1) by nia. nia.
Qed.

Lemma ptr_al_mod p a : width p -> ptr_al a -> aw p a mod p = 0.
Proof. intros [-> | ->] [-> | ->]; reflexivity. Qed.

Definition tag_bytes (t : int_t) : Z := match t with IU8 => 1 | IU16 => 2 | IU32 => 4 | IU64 => 8 end.

Lemma variant_ok tag is cs : Forall2 ok_info is (somes cs) -> Forall (fun v => elem_size 8 v < LIMIT) (somes cs) ->
  tag_bytes tag = discriminant_bytes (zlen cs) -> elem_size 8 (VVariant cs) < LIMIT ->
  ok_info (variant_info tag is) (VVariant cs).
Proof.
  intros H Hlims Htag Hlim. unfold variant_info. destruct (fold_left variant_step is _) as [c a] eqn:E.
  destruct (fun H1 H2 H3 H4 H5 H6 H7 => variant_fold _ _ H Hlims (mkSize 0 0) align_default (fun _ => 0) H1 H2 H3 H4 H5 H6 H7 _ _ E) as (C & F0 & F1 & F2 & F3 & F4 & F5 & F6 & F7 & F8).
  - intros p [-> | ->]; vm_compute; repeat split; congruence.
  - reflexivity.
  - left. intros p _. unfold wsz. cbn. lia.
  - cbn. lia.
  - cbn. lia.
  - apply default_good.
  - cbn. lia.
  - set (db := discriminant_bytes (zlen cs)) in *.
    assert (Hal : forall p, width p -> aw p a = case_alignment p cs).
    { intros p Hp. rewrite F8 by auto. unfold case_alignment. change (fun c0 => match c0 with Some t => alignment p t | None => 1 end) with (oal p).
      rewrite somes_align. cbn [align_default aw]. pose proof (max_of_ge (map (alignment p) (somes cs)) 1). lia. }
    assert (HC : forall p, width p -> C p = max_of (map (osz p) cs) 0).
    { intros p Hp. rewrite F0, somes_size by auto. pose proof (max_of_ge (map (elem_size p) (somes cs)) 0). lia. }
    assert (Hsz : forall p, width p -> elem_size p (VVariant cs) = round_up (round_up db (aw p a) + C p) (Z.max db (aw p a))).
    { intros p Hp. rewrite Hal, HC by auto. reflexivity. }
    assert (Hint : good (int_align tag) /\ forall p, aw p (int_align tag) = db).
    { rewrite <- Htag. destruct tag; (split; [vm_compute; tauto|reflexivity]). }
    destruct Hint as [Hig Hid].
    assert (Hdb : 0 < db <= 8) by (rewrite <- Htag; destruct tag; vm_compute; split; congruence).
    assert (Htsz : forall p, wsz p (asize_of_align (int_align tag)) = db).
    { intros p. rewrite <- Htag. destruct tag; unfold wsz; cbn; lia. }
    destruct (align_arch_ok (asize_of_align (int_align tag)) a) as (A1 & A2 & A3 & A4); auto.
    { split; [|split].
      - destruct tag; vm_compute; congruence.
      - destruct tag; vm_compute; congruence.
      - rewrite Htsz. lia. }
    set (D := align_to_arch (asize_of_align (int_align tag)) a) in *.
    assert (HD : forall p, width p -> wsz p D = round_up db (aw p a)).
    { intros p Hp. rewrite A1, Htsz by auto. reflexivity. }
    destruct (align_max_ok (int_align tag) a Hig F6) as [M1 M2].
    assert (Ha8 : 0 < aw 8 a <= 8) by (destruct F6 as [-> |[-> |[-> |[-> | ->]]]]; vm_compute; split; congruence).
    destruct (round_up_spec db (aw 8 a)) as [D1 _]; [lia|lia|].
    assert (L8 : wsz 8 c < 2 ^ 60 + 8). { unfold LIMIT in *. destruct (F1 8 w8) as [X Y]. destruct (round_up_spec (C 8) 8); lia. }
    destruct (asize_add_ok D c) as (B1 & B2 & B3).
    { repeat split; auto. rewrite HD by auto. lia. }
    { repeat split; auto. lia. }
    { rewrite HD by auto. lia. }
    destruct (align_arch_ok (asize_add D c) (align_max (int_align tag) a) B1 M1) as (G1 & G2 & G3 & G4).
    constructor; cbn [i_size i_align]; auto.
    + intros p Hp. rewrite G1, B2, HD, M2, Hid, Hsz by auto.
      destruct F3 as [F3|F3]; [rewrite F3 by auto; reflexivity|].
      pose proof (aw_pos p a Hp F6) as Hap. destruct (round_up_spec db (aw p a) Hap ltac:(lia)) as [R1 R2].
      pose proof (ptr_al_mod p a Hp F3) as Hmod.
      destruct (F1 p Hp) as [X Y].
      apply (round_absorb p); try lia.
      * destruct Hp as [-> | ->]; lia.
      * rewrite <- Htag. destruct tag; destruct Hp as [-> | ->]; destruct F3 as [-> | ->]; reflexivity.
      * apply Z.mod_divide in R2, Hmod; try (destruct Hp as [-> | ->]; lia).
        apply Z.mod_divide; [destruct Hp as [-> | ->]; lia|]. eapply Z.divide_trans; eauto.
    + intros p Hp. rewrite M2, Hid, Hal by auto. reflexivity.
    + intros Hx. apply G4 in Hx as [Hx|Hx]; [|left; exact Hx]. rewrite B3 in Hx.
      apply ptr_al_max; auto. right.
      destruct (Z.lt_ge_cases 0 (s_pointers c)) as [G|G]; [auto|].
      assert (Hy : 0 < s_pointers D) by lia. apply A4 in Hy as [Hy|Hy]; [destruct tag; cbn in Hy; lia|left; exact Hy].
Qed.
