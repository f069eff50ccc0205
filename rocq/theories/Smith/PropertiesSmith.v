(** C34: with [disallow_traps], the code wasm-smith emits around division,
    remainder, float truncation, load and store never traps, and computes what
    the plain instruction computes.

    [exec] runs code, [Norm s] is running to the end in state [s]; how bytes of
    memory make a value ([decode], [encode]) is arbitrary. *)
From Coq Require Import ZArith Lia List Bool String SpecFloat.
From Verif Require Import Base.Prelude Peephole.Machine Smith.Structured Smith.NoTraps Smith.FloatOrder Smith.NoTrapsProofs.
Import ListNotations.
Open Scope Z_scope.

(** code_builder.rs:4128-4131, 4144-4147, 4160-4163, 4176-4179 and 4360-4411:
    which of the two functions an operator goes through. *)
Definition div_rem (w : iw) (o : ibin) (n : nat) : list instr * nat :=
  match o with DivS | RemS => signed_div_rem w o n | _ => unsigned_div_rem w o n end.

(** [s'] is a possible end of code that replaces an instruction with one result:
    one more value on top of [k], nothing but locals from [n] on changed. *)
Definition ends_with (n : nat) (k : list value) (v : value) (L : nat -> value) (M : nat -> mem) (s' : state) : Prop :=
  same_below n s' (mkState (v :: k) L M).

(** Division and remainder: never a trap, and the plain instruction's result
    whenever it has one. *)
Theorem C34_div_rem : forall decode encode memtys w o n a b k L M,
  In o [DivU; DivS; RemU; RemS] -> 0 <= a < 2 ^ bits w -> 0 <= b < 2 ^ bits w ->
  let s := mkState (IV w b :: IV w a :: k) L M in
  exists s' z, exec decode encode memtys (fst (div_rem w o n)) s = Norm s' /\
    ends_with n k (IV w z) L M s' /\
    forall s1, exec1 decode encode memtys (IInt w o) s = Norm s1 -> same_below n s' s1.
Proof.
  intros decode encode memtys w o n a b k L M Ho Ha Hb s.
  assert (P : forall s1, exec1 decode encode memtys (IInt w o) s = Norm s1 ->
    exists z, ieval o (bits w) a b = Some z /\ s1 = mkState (IV w z :: k) L M).
  { intros s1 E. unfold s in E. rewrite x_int in E. destruct (ieval o (bits w) a b) as [z|]; inversion E. exists z. split; [reflexivity|].
    cbn in Ho. repeat destruct Ho as [<-|Ho]; try contradiction; reflexivity. }
  assert (U : o = DivU \/ o = RemU -> fst (div_rem w o n) = fst (unsigned_div_rem w o n)) by (intros [->| ->]; reflexivity).
  assert (S : o = DivS \/ o = RemS -> fst (div_rem w o n) = fst (signed_div_rem w o n)) by (intros [->| ->]; reflexivity).
  assert (C : (o = DivU \/ o = RemU) \/ (o = DivS \/ o = RemS)) by (cbn in Ho; intuition auto).
  destruct C as [C|C].
  - destruct (unsigned_run decode encode memtys w o n a b k L M C) as [R NN]. rewrite (U C).
    destruct (ieval o (bits w) a (if b =? 0 then 1 else b)) as [z|] eqn:E; [|congruence].
    eexists _, z. split; [exact R|]. split.
    + split; [reflexivity|]. split; [reflexivity|]. intros i Hi. cbn. apply upd_other. lia.
    + intros s1 H. destruct (P s1 H) as (z' & E' & ->).
      assert (z' = z).
      { destruct (Z.eqb_spec b 0) as [->|Nb]; [|congruence]. destruct C as [->| ->]; discriminate E'. }
      subst z'. split; [reflexivity|]. split; [reflexivity|]. intros i Hi. cbn. apply upd_other. lia.
  - destruct (signed_run decode encode memtys w o n a b k L M C Ha Hb) as (NN & L' & R & K). rewrite (S C).
    destruct (ieval o (bits w) a (safe_divisor w a b)) as [z|] eqn:E; [|congruence].
    eexists _, z. split; [exact R|]. split; [split; [reflexivity|]; split; [reflexivity|exact K]|].
    intros s1 H. destruct (P s1 H) as (z' & E' & ->).
    assert (z' = z).
    { unfold safe_divisor in E. destruct (Z.eqb_spec b 0) as [->|Nb].
      - destruct C as [->| ->]; discriminate E'.
      - destruct (Z.eqb_spec a (int_min w)) as [->|Na]; cbn [andb] in E; [|congruence].
        destruct (Z.eqb_spec b (minus_one w)) as [->|Nm]; [|congruence].
        destruct w, C as [->| ->]; vm_compute in E, E'; congruence. }
    subst z'. split; [reflexivity|]. split; [reflexivity|exact K].
Qed.
Print Assumptions C34_div_rem.

(** Truncation never traps; and it gives the plain instruction's result on every
    float between the bounds written into the code.  The full agreement ("whenever
    the plain instruction would not trap") fails outside: see the refutation. *)
Theorem C34_trunc_partial : forall decode encode memtys w f signed n x k L M,
  valid_binary (fprec f) (femax f) x = true ->
  let s := mkState (FV f x :: k) L M in
  exists s' z, exec decode encode memtys (fst (trunc w f signed n)) s = Norm s' /\
    0 <= z < 2 ^ bits w /\ ends_with n k (IV w z) L M s' /\
    (finite x = true -> SFltb x (min_input w f signed) = false -> SFltb (max_input w f signed) x = false ->
     forall s1, exec1 decode encode memtys (ITrunc w f signed) s = Norm s1 -> same_below n s' s1).
Proof.
  intros decode encode memtys w f sg n x k L M V s.
  destruct (trunc_run decode encode memtys w f sg n x k L M) as (L' & R & K).
  destruct (clamp_fits w f sg x V) as (z & T & Z). rewrite T in R.
  eexists _, z. split; [exact R|]. split; [exact Z|]. split; [split; [reflexivity|]; split; [reflexivity|exact K]|].
  intros F B1 B2 s1 H. unfold s in H. rewrite x_trunc in H.
  destruct (clamp_spec w f sg x V) as (_ & _ & _ & C & _). destruct (bounds_ok w f sg) as (V1 & F1 & V2 & F2 & _). destruct (fw_prec f) as [P1 P2].
  rewrite (num_ltb (fprec f) (femax f) P1 x _ V V1 F F1) in B1. rewrite (num_ltb (fprec f) (femax f) P1 _ x V2 V F2 F) in B2. apply Z.ltb_ge in B1, B2. rewrite C in T by (auto; lia).
  rewrite T in H. inversion H; subst. split; [reflexivity|]. split; [reflexivity|exact K].
Qed.
Print Assumptions C34_trunc_partial.

(** From f64 to i32, signed, the agreement is full. *)
Theorem C34_trunc_f64_i32_s : forall decode encode memtys n x k L M,
  valid_binary 53 1024 x = true ->
  let s := mkState (FV F64 x :: k) L M in
  exists s' z, exec decode encode memtys (fst (trunc W32 F64 true n)) s = Norm s' /\
    ends_with n k (IV W32 z) L M s' /\
    forall s1, exec1 decode encode memtys (ITrunc W32 F64 true) s = Norm s1 -> same_below n s' s1.
Proof.
  intros decode encode memtys n x k L M V s.
  destruct (trunc_run decode encode memtys W32 F64 true n x k L M) as (L' & R & K).
  destruct (clamp_fits W32 F64 true x V) as (z & T & Z). rewrite T in R.
  eexists _, z. split; [exact R|]. split; [split; [reflexivity|]; split; [reflexivity|exact K]|].
  intros s1 H. unfold s in H. rewrite x_trunc in H. destruct (trunc_to W32 true x) as [z'|] eqn:T'; [|discriminate].
  inversion H; subst. clear H. assert (z' = z); [|subst; split; [reflexivity|]; split; [reflexivity|exact K]].
  assert (F : finite x = true) by (destruct x; try reflexivity; discriminate T').
  destruct (bounds_ok W32 F64 true) as (V1 & F1 & V2 & F2 & _).
  destruct (clamp_spec W32 F64 true x V) as (_ & _ & _ & C & C1 & C2). cbv zeta in *.
  set (N := num (fprec F64) (femax F64)) in *.
  assert (P1 : 1 < fprec F64) by reflexivity. assert (P2 : fprec F64 < femax F64) by reflexivity.
  destruct (Z.lt_ge_cases (N x) (N (min_input W32 F64 true))) as [Lo|Lo].
  - rewrite (C1 F Lo) in T. unfold trunc_to in T, T'. destruct (ftrunc x) as [q|] eqn:Q; [|discriminate].
    assert (M1 : ftrunc (min_input W32 F64 true) = Some (- 2 ^ 31)) by (vm_compute; reflexivity). rewrite M1 in T.
    assert (q <= - 2 ^ 31) by (eapply (ftrunc_mono (fprec F64) (femax F64) P1 P2); [exact V|exact V1|exact F|exact F1|fold N; lia|exact Q|exact M1]).
    destruct ((- 2 ^ (bits W32 - 1) <=? q) && (q <? 2 ^ (bits W32 - 1))) eqn:B; [|discriminate]. apply andb_true_iff in B as [B1 B2].
    apply Z.leb_le in B1. assert (q = - 2 ^ 31) by (cbn in *; lia). subst q. vm_compute in T, T'. congruence.
  - destruct (Z.lt_ge_cases (N (max_input W32 F64 true)) (N x)) as [Hi|Hi].
    + rewrite (C2 F Hi) in T. unfold trunc_to in T, T'. destruct (ftrunc x) as [q|] eqn:Q; [|discriminate].
      assert (M1 : ftrunc (max_input W32 F64 true) = Some (2 ^ 31 - 1)) by (vm_compute; reflexivity). rewrite M1 in T.
      assert (2 ^ 31 - 1 <= q) by (eapply (ftrunc_mono (fprec F64) (femax F64) P1 P2); [exact V2|exact V|exact F2|exact F|fold N; lia|exact M1|exact Q]).
      destruct ((- 2 ^ (bits W32 - 1) <=? q) && (q <? 2 ^ (bits W32 - 1))) eqn:B; [|discriminate]. apply andb_true_iff in B as [B1 B2].
      apply Z.ltb_lt in B2. assert (q = 2 ^ 31 - 1) by (cbn in *; lia). subst q. vm_compute in T, T'. congruence.
    + rewrite (C F (conj Lo Hi)) in T. congruence.
Qed.
Print Assumptions C34_trunc_f64_i32_s.

(** Whatever the configuration and the numbers drawn, an offset is one the
    arithmetic of the check can represent. *)
Definition draws (draw : Z -> Z -> Z) : Prop := forall lo hi, lo <= hi -> lo <= draw lo hi <= hi.
Lemma offset_drawn : forall t minimum ca cb choice draw, draws draw -> 0 <= minimum -> 0 < mt_page t ->
  offset_ok t (memory_offset t minimum ca cb choice draw).
Proof.
  intros t minimum ca cb choice draw D Hm Hp. unfold offset_ok, memory_offset.
  assert (0 <= minimum * mt_page t) by nia.
  assert (0 <= no_trap_max t) by (unfold no_trap_max; destruct (mt_64 t); cbn; lia).
  set (mn := Z.min (Z.min (minimum * mt_page t) (2 ^ 64 - 1)) (no_trap_max t)).
  assert (0 <= mn <= no_trap_max t) by (unfold mn; cbn in *; lia).
  destruct (choice <? ca); [pose proof (D 0 mn ltac:(lia)); lia|].
  destruct (choice <? ca + cb); [pose proof (D mn (no_trap_max t) ltac:(lia)); lia|].
  pose proof (D (no_trap_max t) (no_trap_max t) ltac:(lia)). lia.
Qed.

Lemma width_ok : forall nm a, In (nm, a) loads \/ In (nm, a) stores -> 0 <= ac_width a <= size_of_type_in_memory (ac_type a).
Proof.
  intros nm a H. unfold loads, stores in H. cbn [In] in H.
  repeat match type of H with _ \/ _ => destruct H as [H|H] end; try contradiction; inversion H; subst; cbn; lia.
Qed.

(** The addresses at which the code lets the access happen: not 0, not negative
    as a signed number, and the whole value type fits strictly inside. *)
Definition well_inside (t : memty) (a : access) (offset : Z) (m : mem) (x : Z) : Prop :=
  0 < x < 2 ^ (bits (mt_iw t) - 1) /\ mem_bytes t m < 2 ^ bits (mt_iw t) /\
  x + offset + size_of_type_in_memory (ac_type a) < mem_bytes t m.

Lemma inside_not_refused : forall t a offset m x, offset_ok t offset -> 0 <= mem_bytes t m ->
  well_inside t a offset m x -> refused t a offset m x = false.
Proof.
  intros t a offset m x HO HM (HX & HB & HI). unfold refused. destruct (eos_ok t (ac_type a) offset HO) as [E _].
  destruct (bits_gt (mt_iw t)) as [B _]. unfold wrapu. rewrite !Z.mod_small by lia.
  unfold sgn. destruct (Z.ltb_spec x (2 ^ (bits (mt_iw t) - 1))); [|lia].
  apply orb_false_iff. split; apply Z.leb_gt; lia.
Qed.

(** Loads: never a trap, whatever the address, the offset drawn and the size of
    the memory; the bytes of memory wherever [well_inside]. *)
Theorem C34_load_partial : forall decode encode memtys nm a m minimum ca cb choice draw n x k L M,
  In (nm, a) loads -> draws draw -> 0 <= minimum ->
  let t := memtys m in 0 < mt_page t -> 0 <= me_pages (M m) ->
  0 <= x < 2 ^ bits (mt_iw t) ->
  let offset := memory_offset t minimum ca cb choice draw in
  let s := mkState (IV (mt_iw t) x :: k) L M in
  exists s' v, exec decode encode memtys (fst (load a t m offset n)) s = Norm s' /\
    ends_with n k v L M s' /\
    (well_inside t a offset (M m) x ->
     exists s1, exec1 decode encode memtys (ILoad a m offset) s = Norm s1 /\ same_below n s' s1).
Proof.
  intros decode encode memtys nm a m minimum ca cb choice draw n x k L M Ha D Hm t Hp HM HX offset s.
  pose proof (offset_drawn t minimum ca cb choice draw D Hm Hp) as HO. fold offset in HO.
  pose proof (width_ok nm a (or_introl Ha)) as HW.
  assert (0 <= mem_bytes t (M m)) as HB by (unfold mem_bytes; nia).
  destruct (load_run decode encode memtys a m offset n x k L M HO HW HX HB) as (L' & R & K).
  eexists _, _. split; [exact R|]. split; [split; [reflexivity|]; split; [reflexivity|exact K]|].
  intros W. pose proof (inside_not_refused _ _ _ _ _ HO HB W) as NR. pose proof (refused_safe decode encode _ _ _ _ _ HO HW HX HB NR) as S.
  unfold s, t. rewrite x_load. fold t. apply Z.leb_le in S. rewrite S.
  eexists. split; [reflexivity|]. rewrite NR. split; [reflexivity|]. split; [reflexivity|exact K].
Qed.
Print Assumptions C34_load_partial.

(** Stores: the same; where the access is not let happen, nothing is written. *)
Theorem C34_store_partial : forall decode encode memtys nm a m minimum ca cb choice draw n v x k L M,
  In (nm, a) stores -> draws draw -> 0 <= minimum ->
  let t := memtys m in 0 < mt_page t -> 0 <= me_pages (M m) ->
  0 <= x < 2 ^ bits (mt_iw t) ->
  let offset := memory_offset t minimum ca cb choice draw in
  let s := mkState (v :: IV (mt_iw t) x :: k) L M in
  exists s', exec decode encode memtys (fst (store a t m offset n)) s = Norm s' /\
    ((exists s1, exec1 decode encode memtys (IStore a m offset) s = Norm s1 /\ same_below n s' s1) \/
     same_below n s' (mkState k L M)) /\
    (well_inside t a offset (M m) x ->
     exists s1, exec1 decode encode memtys (IStore a m offset) s = Norm s1 /\ same_below n s' s1).
Proof.
  intros decode encode memtys nm a m minimum ca cb choice draw n v x k L M Ha D Hm t Hp HM HX offset s.
  pose proof (offset_drawn t minimum ca cb choice draw D Hm Hp) as HO. fold offset in HO.
  pose proof (width_ok nm a (or_intror Ha)) as HW.
  assert (0 <= mem_bytes t (M m)) as HB by (unfold mem_bytes; nia).
  destruct (store_run decode encode memtys a m offset n v x k L M HO HW HX HB) as (L' & R & K).
  assert (P : refused t a offset (M m) x = false -> exists s1, exec1 decode encode memtys (IStore a m offset) s = Norm s1 /\
    same_below n (mkState k L' (if refused t a offset (M m) x then M else upd M m (write_bytes (M m) (x + offset) (encode a v)))) s1).
  { intros NR. pose proof (refused_safe decode encode _ _ _ _ _ HO HW HX HB NR) as S.
    unfold s, t. rewrite x_store. fold t. apply Z.leb_le in S. rewrite S.
    eexists. split; [reflexivity|]. rewrite NR. split; [reflexivity|]. split; [reflexivity|exact K]. }
  fold t in R. eexists. split; [exact R|]. split.
  - destruct (refused t a offset (M m) x) eqn:NR.
    + right. split; [reflexivity|]. split; [reflexivity|exact K].
    + left. apply P. reflexivity.
  - intros W. exact (P (inside_not_refused _ _ _ _ _ HO HB W)).
Qed.
Print Assumptions C34_store_partial.

(** The agreement "whenever the plain instruction would not trap" fails: a load
    at address 0 reads memory when plain and gives 0 when guarded, and an
    unsigned truncation of three thousand million to i32 gives another number. *)
Definition le_bytes (a : access) (l : list Z) : value := IV W32 (fold_right (fun b z => b + 256 * z) 0 l).
Definition one_page : nat -> memty := fun _ => mkMemty false 65536.
Definition start : state := mkState [IV W32 0] (fun _ => IV W32 0) (fun _ => mkMem 1 (fun i => if i =? 0 then 42 else 0)).
Definition three_milliards : spec_float := literal F32 3000000000.
Theorem C34_agreement_refuted :
  (exists s1 s2, exec1 le_bytes (fun _ _ => []) one_page (ILoad (mkAccess TI32 4) 0 0) start = Norm s1 /\
     exec le_bytes (fun _ _ => []) one_page (fst (load (mkAccess TI32 4) (one_page 0) 0 0 0)) start = Norm s2 /\
     st_stack s1 = [IV W32 42] /\ st_stack s2 = [IV W32 0]) /\
  (forall decode encode memtys L M, let s := mkState [FV F32 three_milliards] L M in
   exists s1 s2, exec1 decode encode memtys (ITrunc W32 F32 false) s = Norm s1 /\
     exec decode encode memtys (fst (trunc W32 F32 false 0)) s = Norm s2 /\
     st_stack s1 = [IV W32 3000000000] /\ st_stack s2 = [IV W32 2147483520]).
Proof.
  split.
  - eexists _, _. split; [vm_compute; reflexivity|]. split; [vm_compute; reflexivity|]. split; vm_compute; reflexivity.
  - intros decode encode memtys L M s.
    destruct (trunc_run decode encode memtys W32 F32 false 0 three_milliards [] L M) as (L' & R & _).
    assert (T : trunc_to W32 false (clamp W32 F32 false three_milliards) = Some 2147483520) by (vm_compute; reflexivity).
    rewrite T in R.
    eexists _, _. split; [|split; [exact R|]; split; [|reflexivity]].
    + unfold s. rewrite x_trunc. assert (T' : trunc_to W32 false three_milliards = Some 3000000000) by (vm_compute; reflexivity).
      rewrite T'. reflexivity.
    + reflexivity.
Qed.
Print Assumptions C34_agreement_refuted.

(** A case of each. *)
Example C34_case :
  In ("i32.load", mkAccess TI32 4)%string loads /\ In ("i64.store32", mkAccess TI64 4)%string stores /\
  draws (fun lo _ => lo) /\
  well_inside (one_page 0) (mkAccess TI32 4) 8 (st_mems start 0%nat) 100 /\
  exec le_bytes (fun _ _ => []) one_page (fst (div_rem W32 DivS 3)) (mkState [IV W32 (2^32 - 1); IV W32 (2^31)] (fun _ => IV W32 9) (st_mems start)) <> Trap /\
  exec1 le_bytes (fun _ _ => []) one_page (IInt W32 DivS) (mkState [IV W32 (2^32 - 1); IV W32 (2^31)] (fun _ => IV W32 9) (st_mems start)) = Trap /\
  exec1 le_bytes (fun _ _ => []) one_page (ILoad (mkAccess TI32 4) 0 8) (mkState [IV W32 65530] (fun _ => IV W32 9) (st_mems start)) = Trap /\
  exec1 le_bytes (fun _ _ => []) one_page (ITrunc W64 F32 true) (mkState [FV F32 S754_nan] (fun _ => IV W32 9) (st_mems start)) = Trap.
Proof.
  split; [left; reflexivity|]. split; [do 8 right; left; reflexivity|]. split; [intros l h H; lia|]. split.
  - split; [cbn; lia|]. split; [reflexivity|]. reflexivity.
  - split; [vm_compute; discriminate|]. repeat split.
Qed.
