(** The trap-free code does not trap, and does what the plain instruction does
    wherever it lets it run. *)
From Coq Require Import ZArith Lia List Bool String SpecFloat.
From Verif Require Import Base.Prelude Peephole.Flt Peephole.Machine Smith.Structured Smith.NoTraps Smith.FloatOrder.
Import ListNotations.
Open Scope Z_scope.

Lemma upd_same : forall A (f : nat -> A) n a, upd f n a n = a.
Proof. intros. unfold upd. rewrite Nat.eqb_refl. reflexivity. Qed.
Lemma upd_other : forall A (f : nat -> A) n m a, m <> n -> upd f n a m = f m.
Proof. intros. unfold upd. destruct (Nat.eqb_spec m n); [contradiction|reflexivity]. Qed.
Lemma iw_refl : forall w, iw_eqb w w = true. Proof. intros []; reflexivity. Qed.
Lemma fw_refl : forall f, fw_eqb f f = true. Proof. intros []; reflexivity. Qed.

Section Runs.
Variable decode : access -> list Z -> value.
Variable encode : access -> value -> list Z.
Variable memtys : nat -> memty.
Notation exec1 := (exec1 decode encode memtys).
Notation exec := (exec decode encode memtys).

Lemma exec_block : forall b s, exec1 (IBlock b) s =
  match exec b s with Branch O s' => Norm (put (st_stack s) s') | Branch (S n) s' => Branch n s' | o => o end.
Proof.
  intros b s. cbn [Structured.exec1].
  assert (X : forall b s, (fix run (l : list instr) (s : state) {struct l} : out :=
      match l with [] => Norm s | i :: l => match exec1 i s with Norm s => run l s | o => o end end) b s = exec b s).
  { clear. induction b; intros s; [reflexivity|]. cbn [Structured.exec]. destruct (exec1 a s); auto. }
  rewrite X. destruct (exec b s); reflexivity.
Qed.
Lemma exec_if : forall t e s c k, st_stack s = IV W32 c :: k -> exec1 (IIf t e) s =
  match exec (if c =? 0 then e else t) (put k s) with
  | Branch O s' => Norm (put k s') | Branch (S n) s' => Branch n s' | o => o end.
Proof.
  intros t e s c k K. cbn [Structured.exec1]. rewrite K.
  assert (X : forall b s, (fix run (l : list instr) (s : state) {struct l} : out :=
      match l with [] => Norm s | i :: l => match exec1 i s with Norm s => run l s | o => o end end) b s = exec b s).
  { clear. induction b; intros s; [reflexivity|]. cbn [Structured.exec]. destruct (exec1 a s); auto. }
  destruct (c =? 0); rewrite X; [destruct (exec e _)|destruct (exec t _)]; reflexivity.
Qed.
Lemma exec_cons : forall i l s, exec (i :: l) s = match exec1 i s with Norm s => exec l s | o => o end.
Proof. reflexivity. Qed.
Lemma exec_nil : forall s, exec [] s = Norm s. Proof. reflexivity. Qed.

(** Steps, on a state given by its parts. *)
Lemma x_get : forall n k L M, exec1 (ILocalGet n) (mkState k L M) = Norm (mkState (L n :: k) L M).
Proof. reflexivity. Qed.
Lemma x_set : forall n v k L M, exec1 (ILocalSet n) (mkState (v :: k) L M) = Norm (mkState k (upd L n v) M).
Proof. reflexivity. Qed.
Lemma x_tee : forall n v k L M, exec1 (ILocalTee n) (mkState (v :: k) L M) = Norm (mkState (v :: k) (upd L n v) M).
Proof. reflexivity. Qed.
Lemma x_const : forall v k L M, exec1 (IConst v) (mkState k L M) = Norm (mkState (v :: k) L M).
Proof. reflexivity. Qed.
Lemma x_int : forall w o a b k L M, exec1 (IInt w o) (mkState (IV w b :: IV w a :: k) L M) =
  match ieval o (bits w) a b with Some z => Norm (mkState (IV (if irel o then W32 else w) z :: k) L M) | None => Trap end.
Proof. intros. cbn. rewrite !iw_refl. reflexivity. Qed.
Lemma x_eqz : forall w a k L M, exec1 (IEqz w) (mkState (IV w a :: k) L M) = Norm (mkState (bool_val (a =? 0) :: k) L M).
Proof. intros. cbn. rewrite iw_refl. reflexivity. Qed.
Lemma x_fcmp : forall f c a b k L M, exec1 (IFcmp f c) (mkState (FV f b :: FV f a :: k) L M) =
  Norm (mkState (bool_val (fcmp_eval c a b) :: k) L M).
Proof. intros. cbn. rewrite fw_refl. reflexivity. Qed.
Lemma x_trunc : forall w f sg a k L M, exec1 (ITrunc w f sg) (mkState (FV f a :: k) L M) =
  match trunc_to w sg a with Some z => Norm (mkState (IV w z :: k) L M) | None => Trap end.
Proof. intros. cbn. rewrite fw_refl. reflexivity. Qed.
Lemma x_select : forall c a b k L M, exec1 ISelect (mkState (bool_val c :: b :: a :: k) L M) =
  Norm (mkState ((if c then a else b) :: k) L M).
Proof. intros []; reflexivity. Qed.
Lemma x_brif : forall n c k L M, exec1 (IBrIf n) (mkState (bool_val c :: k) L M) =
  if c then Branch n (mkState k L M) else Norm (mkState k L M).
Proof. intros n []; reflexivity. Qed.
Lemma x_br : forall n k L M, exec1 (IBr n) (mkState k L M) = Branch n (mkState k L M).
Proof. reflexivity. Qed.
Lemma x_if : forall t e c k L M, exec1 (IIf t e) (mkState (bool_val c :: k) L M) =
  match exec (if c then t else e) (mkState k L M) with
  | Branch O s' => Norm (put k s') | Branch (S n) s' => Branch n s' | o => o end.
Proof. intros. unfold bool_val. rewrite (exec_if t e (mkState (IV W32 (b2z c) :: k) L M) (b2z c) k eq_refl). destruct c; reflexivity. Qed.
Lemma x_size : forall m k L M, exec1 (IMemSize m) (mkState k L M) =
  let w := mt_iw (memtys m) in Norm (mkState (IV w (wrapu (bits w) (me_pages (M m))) :: k) L M).
Proof. reflexivity. Qed.

Lemma x_put : forall k k' L M, put k (mkState k' L M) = mkState k L M.
Proof. reflexivity. Qed.
Ltac go := repeat first
  [ rewrite x_put | progress cbn [st_stack negb] | rewrite exec_cons | rewrite exec_nil | rewrite x_get | rewrite x_set | rewrite x_tee | rewrite x_const
  | rewrite x_eqz | rewrite x_fcmp | rewrite x_select | rewrite x_brif | rewrite x_br
  | rewrite x_if | rewrite exec_block | rewrite upd_same | rewrite upd_other by lia
  | progress unfold int_const_inst, int_min_const_inst ].
Ltac goi := rewrite x_int; cbn [ieval irel].

(** Division and remainder. *)
Lemma div_u_safe : forall o n b a, o = DivU \/ o = RemU -> b <> 0 -> exists z, ieval o n a b = Some z.
Proof.
  intros o n b a [->| ->] H; cbn [ieval]; destruct (Z.eqb_spec b 0); try contradiction; eauto.
Qed.

Lemma unsigned_run : forall w o n a b k L M, o = DivU \/ o = RemU ->
  let r := ieval o (bits w) a (if b =? 0 then 1 else b) in
  exec (fst (unsigned_div_rem w o n)) (mkState (IV w b :: IV w a :: k) L M) =
  match r with Some z => Norm (mkState (IV w z :: k) (upd L n (IV w b)) M) | None => Trap end /\ r <> None.
Proof.
  intros w o n a b k L M Ho r. split.
  - cbn [fst unsigned_div_rem]. go.
    assert (X : (if b =? 0 then IV w (wrapu (bits w) 1) else IV w b) = IV w (if b =? 0 then 1 else b)).
    { destruct (b =? 0); [destruct w; reflexivity|reflexivity]. }
    rewrite X. rewrite x_int. fold r. destruct r; [|reflexivity]. destruct Ho as [->| ->]; reflexivity.
  - destruct (div_u_safe o (bits w) (if b =? 0 then 1 else b) a Ho) as [z E]; [|unfold r; congruence].
    destruct (Z.eqb_spec b 0); lia.
Qed.

Definition int_min (w : iw) : Z := 2 ^ (bits w - 1).
Definition minus_one (w : iw) : Z := 2 ^ bits w - 1.
Lemma int_min_wrap : forall w, wrapu (bits w) (- 2 ^ (bits w - 1)) = int_min w.
Proof. intros []; reflexivity. Qed.
Lemma minus_one_wrap : forall w, wrapu (bits w) (-1) = minus_one w.
Proof. intros []; reflexivity. Qed.
Lemma one_wrap : forall w, wrapu (bits w) 1 = 1.
Proof. intros []; reflexivity. Qed.

(** The divisor the code divides by. *)
Definition safe_divisor (w : iw) (a b : Z) : Z :=
  let b := if b =? 0 then 1 else b in
  if (a =? int_min w) && (b =? minus_one w) then 1 else b.

Lemma signed_run : forall w o n a b k L M, o = DivS \/ o = RemS -> 0 <= a < 2 ^ bits w -> 0 <= b < 2 ^ bits w ->
  let r := ieval o (bits w) a (safe_divisor w a b) in
  r <> None /\ exists L',
  exec (fst (signed_div_rem w o n)) (mkState (IV w b :: IV w a :: k) L M) =
  match r with Some z => Norm (mkState (IV w z :: k) L' M) | None => Trap end /\
  (forall i, (i < n)%nat -> L' i = L i).
Proof.
  intros w o n a b k L M Ho Ha Hb r.
  assert (R : r <> None).
  { unfold r, safe_divisor. set (b' := if b =? 0 then 1 else b).
    assert (b' <> 0) by (unfold b'; destruct (Z.eqb_spec b 0); lia).
    assert (0 <= b' < 2 ^ bits w) by (unfold b'; destruct (Z.eqb_spec b 0); destruct w; cbn in *; lia).
    destruct ((a =? int_min w) && (b' =? minus_one w)) eqn:C.
    - assert (sgn (bits w) 1 = 1) as S1 by (destruct w; reflexivity).
      destruct Ho as [->| ->]; cbn [ieval]; change (1 =? 0) with false; cbv iota; [|discriminate].
      rewrite S1. change (1 =? -1) with false. rewrite andb_false_r. discriminate.
    - destruct Ho as [->| ->]; cbn [ieval]; destruct (Z.eqb_spec b' 0); try contradiction; [|discriminate].
      destruct ((sgn (bits w) a =? - 2 ^ (bits w - 1)) && (sgn (bits w) b' =? -1)) eqn:D; [|discriminate].
      exfalso. apply andb_true_iff in D as [D1 D2]. apply Z.eqb_eq in D1, D2. apply andb_false_iff in C.
      unfold sgn, int_min, minus_one in *.
      destruct (a <? 2 ^ (bits w - 1)) eqn:A1; destruct (b' <? 2 ^ (bits w - 1)) eqn:B1;
        destruct w; cbn [bits] in *; destruct C as [C|C]; apply Z.eqb_neq in C; lia. }
  split; [exact R|].
  assert (X : (if b =? 0 then IV w (wrapu (bits w) 1) else IV w b) = IV w (if b =? 0 then 1 else b)).
  { rewrite one_wrap. destruct (b =? 0); reflexivity. }
  assert (RO : irel o = false) by (destruct Ho as [->| ->]; reflexivity).
  unfold r, safe_divisor in *. clear r. set (b' := if b =? 0 then 1 else b) in *.
  cbn [fst signed_div_rem].
  assert (N : forall x y, IV W32 (b2z (negb (x =? y))) = bool_val (negb (x =? y))) by reflexivity.
  destruct (a =? int_min w) eqn:A; [destruct (b' =? minus_one w) eqn:B|]; cbn [andb] in *;
  (eexists; split;
   [ go; rewrite X; go; rewrite ?int_min_wrap; goi; rewrite N, A; go; rewrite ?minus_one_wrap;
     try (goi; rewrite N, B; go);
     rewrite ?one_wrap; rewrite x_int, RO; match goal with |- context [ieval o ?n ?x ?y] => destruct (ieval o n x y) end; reflexivity
   | intros i Hi; rewrite ?upd_other by lia; reflexivity ]).
Qed.

(** Loads and stores.  [refused]: the code does not let the access happen. *)
Definition refused (t : memty) (a : access) (offset : Z) (m : mem) (x : Z) : bool :=
  let w := mt_iw t in
  (wrapu (bits w) (mem_bytes t m) <=? wrapu (bits w) (offset + size_of_type_in_memory (ac_type a) + x)) ||
  (sgn (bits w) x <=? 0).

Definition offset_ok (t : memty) (offset : Z) : Prop := 0 <= offset <= no_trap_max t.

Lemma bits_gt : forall w, 2 ^ bits w = 2 * 2 ^ (bits w - 1) /\ 2 ^ 31 <= 2 ^ (bits w - 1).
Proof. intros []; cbn; lia. Qed.

Lemma size_bound : forall t, 0 < size_of_type_in_memory t <= 16.
Proof. intros []; cbn; lia. Qed.

Lemma eos_ok : forall t ty offset, offset_ok t offset ->
  let eos := offset + size_of_type_in_memory ty in
  0 <= eos < 2 ^ (bits (mt_iw t) - 1) /\ wrapu (bits (mt_iw t)) (wraps 64 (wrapu 64 eos)) = eos.
Proof.
  intros t ty offset H eos. unfold offset_ok, no_trap_max in H. pose proof (size_bound ty).
  assert (0 <= eos < 2 ^ 63) as E by (unfold eos; destruct (mt_64 t); cbn in *; lia).
  assert (0 <= eos < 2 ^ (bits (mt_iw t) - 1)) as E2 by (unfold eos, mt_iw; destruct (mt_64 t); cbn in *; lia).
  split; [exact E2|]. unfold wrapu, wraps.
  rewrite (Z.mod_small eos (2 ^ 64)) by (cbn in *; lia).
  replace (eos mod 2 ^ 64) with eos by (symmetry; apply Z.mod_small; cbn in *; lia).
  change (2 ^ (64 - 1)) with (2 ^ 63). destruct (Z.ltb_spec eos (2 ^ 63)); [|lia].
  apply Z.mod_small. destruct (bits_gt (mt_iw t)). lia.
Qed.

Lemma refused_safe : forall t a offset m x, offset_ok t offset -> 0 <= ac_width a <= size_of_type_in_memory (ac_type a) ->
  0 <= x < 2 ^ bits (mt_iw t) -> 0 <= mem_bytes t m -> refused t a offset m x = false ->
  x + offset + ac_width a <= mem_bytes t m.
Proof.
  intros t a offset m x HO HW HX HM R. unfold refused in R. apply orb_false_iff in R as [R1 R2].
  apply Z.leb_gt in R1, R2. destruct (eos_ok t (ac_type a) offset HO) as [E _].
  set (eos := offset + size_of_type_in_memory (ac_type a)) in *. destruct (bits_gt (mt_iw t)) as [B _].
  unfold sgn in R2. destruct (Z.ltb_spec x (2 ^ (bits (mt_iw t) - 1))); [|lia].
  unfold wrapu in R1. rewrite (Z.mod_small (eos + x)) in R1 by lia.
  pose proof (Z.mod_le (mem_bytes t m) (2 ^ bits (mt_iw t)) HM ltac:(lia)). unfold eos in *. lia.
Qed.

Lemma mem_size_wrap : forall w p q, wrapu (bits w) (wrapu (bits w) p * wrapu (bits w) q) = wrapu (bits w) (p * q).
Proof.
  intros w p q. destruct (bits_gt w). unfold wrapu. rewrite Z.mul_mod_idemp_l, Z.mul_mod_idemp_r by lia. reflexivity.
Qed.
Lemma zero_wrap : forall w, wrapu (bits w) 0 = 0. Proof. intros []; reflexivity. Qed.
Lemma sgn_zero : forall w, sgn (bits w) 0 = 0. Proof. intros []; reflexivity. Qed.
Lemma leb_val : forall x y, IV W32 (b2z (x <=? y)) = bool_val (x <=? y). Proof. reflexivity. Qed.

Lemma x_load : forall a m offset x k L M, exec1 (ILoad a m offset) (mkState (IV (mt_iw (memtys m)) x :: k) L M) =
  if x + offset + ac_width a <=? mem_bytes (memtys m) (M m)
  then Norm (mkState (decode a (read_bytes (M m) (x + offset) (ac_width a)) :: k) L M) else Trap.
Proof. intros. cbn. rewrite iw_refl. reflexivity. Qed.
Lemma x_store : forall a m offset v x k L M, exec1 (IStore a m offset) (mkState (v :: IV (mt_iw (memtys m)) x :: k) L M) =
  if x + offset + ac_width a <=? mem_bytes (memtys m) (M m)
  then Norm (mkState k L (upd M m (write_bytes (M m) (x + offset) (encode a v)))) else Trap.
Proof. intros. cbn. rewrite iw_refl. reflexivity. Qed.

Definition dummy (t : vt) : value := match dummy_value_inst t with IConst v => v | _ => VV 0 end.

Lemma load_run : forall a m offset n x k L M, let t := memtys m in
  offset_ok t offset -> 0 <= ac_width a <= size_of_type_in_memory (ac_type a) ->
  0 <= x < 2 ^ bits (mt_iw t) -> 0 <= mem_bytes t (M m) ->
  exists L', exec (fst (load a t m offset n)) (mkState (IV (mt_iw t) x :: k) L M) =
    Norm (mkState ((if refused t a offset (M m) x then dummy (ac_type a)
                    else decode a (read_bytes (M m) (x + offset) (ac_width a))) :: k) L' M) /\
    (forall i, (i < n)%nat -> L' i = L i).
Proof.
  intros a m offset n x k L M t HO HW HX HM.
  pose proof (refused_safe t a offset (M m) x HO HW HX HM) as RS.
  destruct (eos_ok t (ac_type a) offset HO) as [E1 E2]. set (eos := offset + size_of_type_in_memory (ac_type a)) in *.
  unfold refused in *. fold eos in RS |- *.
  cbn [fst load]. fold eos. set (w := mt_iw t) in *.
  assert (D : dummy_value_inst (ac_type a) = IConst (dummy (ac_type a))) by (destruct (ac_type a); reflexivity).
  rewrite D. unfold int_const_inst. rewrite E2, zero_wrap.
  destruct (wrapu (bits w) (mem_bytes t (M m)) <=? wrapu (bits w) (eos + x)) eqn:C1;
    [|destruct (sgn (bits w) x <=? 0) eqn:C2]; cbn [orb] in *;
  (eexists; split;
   [ go; rewrite x_size; cbv zeta; fold t; fold w; go; goi; go; rewrite mem_size_wrap; fold (mem_bytes t (M m)); goi; go; goi;
     rewrite leb_val, C1; go;
     try (goi; rewrite sgn_zero, leb_val, C2; go);
     try (unfold w, t; rewrite x_load; fold t; specialize (RS eq_refl); apply Z.leb_le in RS; rewrite RS; go);
     reflexivity
   | intros i Hi; rewrite ?upd_other by lia; reflexivity ]).
Qed.

Lemma store_run : forall a m offset n v x k L M, let t := memtys m in
  offset_ok t offset -> 0 <= ac_width a <= size_of_type_in_memory (ac_type a) ->
  0 <= x < 2 ^ bits (mt_iw t) -> 0 <= mem_bytes t (M m) ->
  exists L', exec (fst (store a t m offset n)) (mkState (v :: IV (mt_iw t) x :: k) L M) =
    Norm (mkState k L' (if refused t a offset (M m) x then M
                        else upd M m (write_bytes (M m) (x + offset) (encode a v)))) /\
    (forall i, (i < n)%nat -> L' i = L i).
Proof.
  intros a m offset n v x k L M t HO HW HX HM.
  pose proof (refused_safe t a offset (M m) x HO HW HX HM) as RS.
  destruct (eos_ok t (ac_type a) offset HO) as [E1 E2]. set (eos := offset + size_of_type_in_memory (ac_type a)) in *.
  unfold refused in *. fold eos in RS |- *.
  cbn [fst store]. fold eos. set (w := mt_iw t) in *.
  unfold int_const_inst. rewrite E2, zero_wrap.
  destruct (wrapu (bits w) (mem_bytes t (M m)) <=? wrapu (bits w) (eos + x)) eqn:C1;
    [|destruct (sgn (bits w) x <=? 0) eqn:C2]; cbn [orb] in *;
  (eexists; split;
   [ go; rewrite x_size; cbv zeta; fold t; fold w; go; goi; go; rewrite mem_size_wrap; fold (mem_bytes t (M m)); goi; go; goi;
     rewrite leb_val, C1; go;
     try (goi; rewrite sgn_zero, leb_val, C2; go);
     try (unfold w, t; rewrite x_store; fold t; specialize (RS eq_refl); apply Z.leb_le in RS; rewrite RS; go);
     reflexivity
   | intros i Hi; rewrite ?upd_other by lia; reflexivity ]).
Qed.

(** Truncation. *)
Definition no_number (x : spec_float) : bool :=
  negb (SFeqb x x) || (SFeqb x (S754_infinity false) || SFeqb x (S754_infinity true)).
Definition clamp (w : iw) (f : fw) (sg : bool) (x : spec_float) : spec_float :=
  let x := if no_number x then S754_zero false else x in
  let x := if SFltb x (min_input w f sg) then min_input w f sg else x in
  if SFltb (max_input w f sg) x then max_input w f sg else x.

Lemma x_or : forall a b k L M, exec1 (IInt W32 Or) (mkState (bool_val b :: bool_val a :: k) L M) =
  Norm (mkState (bool_val (a || b) :: k) L M).
Proof. intros [] []; reflexivity. Qed.

Lemma trunc_run : forall w f sg n x k L M,
  exists L', exec (fst (trunc w f sg n)) (mkState (FV f x :: k) L M) =
    match trunc_to w sg (clamp w f sg x) with Some z => Norm (mkState (IV w z :: k) L' M) | None => Trap end /\
    (forall i, (i < n)%nat -> L' i = L i).
Proof.
  intros w f sg n x k L M. cbn [fst trunc].
  assert (D : dummy_value_inst (fty f) = IConst (FV f (S754_zero false))) by (destruct f; reflexivity). rewrite D.
  unfold clamp. set (mn := min_input w f sg). set (mx := max_input w f sg).
  set (x1 := if no_number x then S754_zero false else x).
  set (x2 := if SFltb x1 mn then mn else x1).
  set (x3 := if SFltb mx x2 then mx else x2).
  (* each conditional only replaces the local *)
  assert (IF : forall c v y L0, L0 n = FV f y -> exists L1,
    exec1 (IIf [IConst (FV f v); ILocalSet n] []) (mkState (bool_val c :: k) L0 M) = Norm (mkState k L1 M) /\
    L1 n = FV f (if c then v else y) /\ forall i, (i < n)%nat -> L1 i = L0 i).
  { intros c v y L0 E. rewrite x_if. destruct c; eexists; split; [go; reflexivity| |go; reflexivity|].
    - split; [apply upd_same|]. intros i Hi. apply upd_other. lia.
    - split; [exact E|]. auto. }
  destruct (IF (no_number x) (S754_zero false) x (upd L n (FV f x))) as (L1 & E1 & V1 & K1); [apply upd_same|]. fold x1 in V1.
  destruct (IF (SFltb x1 mn) mn x1 L1 V1) as (L2 & E2 & V2 & K2). fold x2 in V2.
  destruct (IF (SFltb mx x2) mx x2 L2 V2) as (L3 & E3 & V3 & K3). fold x3 in V3.
  exists L3. split.
  - repeat first [rewrite exec_cons | rewrite x_tee | rewrite x_get | rewrite upd_same | rewrite x_const | rewrite x_fcmp | rewrite x_or].
    unfold fcmp_eval. fold (no_number x). rewrite E1. rewrite exec_cons, x_get, V1, exec_cons, x_const, exec_cons, x_fcmp.
    unfold fcmp_eval. rewrite exec_cons, E2. rewrite exec_cons, x_get, V2, exec_cons, x_const, exec_cons, x_fcmp.
    unfold fcmp_eval. rewrite exec_cons, E3. rewrite exec_cons, x_get, V3, exec_cons, x_trunc.
    destruct (trunc_to w sg x3); reflexivity.
  - intros i Hi. rewrite K3, K2, K1 by assumption. apply upd_other. lia.
Qed.
End Runs.

Lemma fw_prec : forall f, 1 < fprec f /\ fprec f < femax f. Proof. intros []; split; reflexivity. Qed.

Lemma no_number_spec : forall x, no_number x = negb (finite x).
Proof.
  intros [s|s| |s m e]; unfold no_number; try reflexivity.
  - destruct s; reflexivity.
  - cbn. unfold SFeqb. cbn [SFcompare].
    assert ((if s then match e ?= e with Datatypes.Eq => CompOpp (Pos.compare_cont Datatypes.Eq m m) | Datatypes.Lt => Datatypes.Gt | Datatypes.Gt => Datatypes.Lt end
      else match e ?= e with Datatypes.Eq => Pos.compare_cont Datatypes.Eq m m | c => c end) = Datatypes.Eq) as E.
    { rewrite Z.compare_refl. change (Pos.compare_cont Datatypes.Eq m m) with (m ?= m)%positive. rewrite Pos.compare_refl. destruct s; reflexivity. }
    destruct s; rewrite Z.compare_refl; change (Pos.compare_cont Datatypes.Eq m m) with (m ?= m)%positive; rewrite Pos.compare_refl; reflexivity.
Qed.

(** The bounds are finite floats in order, and in the range of the target type. *)
Definition lo (w : iw) (sg : bool) : Z := if sg then - 2 ^ (bits w - 1) else 0.
Definition hi (w : iw) (sg : bool) : Z := if sg then 2 ^ (bits w - 1) else 2 ^ bits w.
Lemma bounds_ok : forall w f sg,
  valid_binary (fprec f) (femax f) (min_input w f sg) = true /\ finite (min_input w f sg) = true /\
  valid_binary (fprec f) (femax f) (max_input w f sg) = true /\ finite (max_input w f sg) = true /\
  num (fprec f) (femax f) (min_input w f sg) <= 0 <= num (fprec f) (femax f) (max_input w f sg) /\
  (exists a, ftrunc (min_input w f sg) = Some a /\ lo w sg <= a) /\
  (exists b, ftrunc (max_input w f sg) = Some b /\ b < hi w sg).
Proof.
  intros w f sg. destruct w, f, sg;
    (split; [vm_compute; reflexivity|]); (split; [vm_compute; reflexivity|]);
    (split; [vm_compute; reflexivity|]); (split; [vm_compute; reflexivity|]);
    (split; [split; apply Z.leb_le; vm_compute; reflexivity|]);
    (split; (eexists; split; [vm_compute; reflexivity|])); first [apply Z.leb_le; vm_compute; reflexivity|apply Z.ltb_lt; vm_compute; reflexivity].
Qed.

Lemma clamp_spec : forall w f sg x, valid_binary (fprec f) (femax f) x = true ->
  let N := num (fprec f) (femax f) in let c := clamp w f sg x in
  valid_binary (fprec f) (femax f) c = true /\ finite c = true /\
  N (min_input w f sg) <= N c <= N (max_input w f sg) /\
  (finite x = true -> N (min_input w f sg) <= N x <= N (max_input w f sg) -> c = x) /\
  (finite x = true -> N x < N (min_input w f sg) -> c = min_input w f sg) /\
  (finite x = true -> N (max_input w f sg) < N x -> c = max_input w f sg).
Proof.
  intros w f sg x V N c. destruct (bounds_ok w f sg) as (V1 & F1 & V2 & F2 & Z0 & _). fold N in Z0.
  destruct (fw_prec f) as [P1 P2].
  unfold c, clamp. rewrite no_number_spec.
  set (x1 := if negb (finite x) then S754_zero false else x).
  assert (valid_binary (fprec f) (femax f) x1 = true /\ finite x1 = true) as [Vx Fx].
  { unfold x1. destruct (finite x) eqn:F; cbn [negb]; auto. }
  assert (X1 : finite x = true -> x1 = x) by (intros E; unfold x1; rewrite E; reflexivity). clearbody x1.
  rewrite (num_ltb (fprec f) (femax f) P1 x1 _ Vx V1 Fx F1). fold N.
  destruct (Z.ltb_spec (N x1) (N (min_input w f sg))) as [L|L].
  - rewrite (num_ltb (fprec f) (femax f) P1 _ _ V2 V1 F2 F1). fold N.
    destruct (Z.ltb_spec (N (max_input w f sg)) (N (min_input w f sg))); [lia|].
    repeat split; auto; try lia; intros FF; specialize (X1 FF); subst x1; lia.
  - rewrite (num_ltb (fprec f) (femax f) P1 _ _ V2 Vx F2 Fx). fold N.
    destruct (Z.ltb_spec (N (max_input w f sg)) (N x1)).
    + repeat split; auto; try lia; intros FF; specialize (X1 FF); subst x1; lia.
    + repeat split; auto; try lia; intros FF; specialize (X1 FF); subst x1; auto; lia.
Qed.

Lemma clamp_fits : forall w f sg x, valid_binary (fprec f) (femax f) x = true ->
  exists z, trunc_to w sg (clamp w f sg x) = Some z /\ 0 <= z < 2 ^ bits w.
Proof.
  intros w f sg x V. destruct (clamp_spec w f sg x V) as (Vc & Fc & [N1 N2] & _).
  destruct (bounds_ok w f sg) as (V1 & F1 & V2 & F2 & _ & (a & A1 & A2) & (b & B1 & B2)). destruct (fw_prec f) as [P1 P2].
  set (c := clamp w f sg x) in *. pose proof (ftrunc_num _ _ P1 P2 c Vc Fc) as T.
  set (q := Z.quot _ _) in T. 
  pose proof (ftrunc_mono _ _ P1 P2 _ _ _ _ V1 Vc F1 Fc N1 A1 T) as Lo.
  pose proof (ftrunc_mono _ _ P1 P2 _ _ _ _ Vc V2 Fc F2 N2 T B1) as Hi.
  unfold trunc_to. rewrite T. fold (lo w sg) (hi w sg).
  destruct (Z.leb_spec (lo w sg) q); [|lia]. destruct (Z.ltb_spec q (hi w sg)); [|lia]. cbn [andb].
  eexists. split; [reflexivity|]. unfold wrapu. apply Z.mod_pos_bound. destruct w; reflexivity.
Qed.
