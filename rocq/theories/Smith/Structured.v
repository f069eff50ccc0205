(** The part of the WebAssembly execution semantics the trap-free code of
    wasm-smith uses: structured control without loops, locals, integer and float
    operators, float truncation, and linear memories that trap out of bounds.

    This file is specification, not a model of /repo.  Integers are unsigned,
    floats are the standard library's [SpecFloat], vectors are 128-bit numbers. *)
From Coq Require Import ZArith Lia List Bool SpecFloat.
From Verif Require Import Base.Prelude Peephole.Machine.
Import ListNotations.
Open Scope Z_scope.

Inductive vt := TI32 | TI64 | TF32 | TF64 | TV128.
Inductive value := IV (w : iw) (z : Z) | FV (f : fw) (x : spec_float) | VV (z : Z).

Definition ity (w : iw) : vt := match w with W32 => TI32 | W64 => TI64 end.
Definition fty (f : fw) : vt := match f with F32 => TF32 | F64 => TF64 end.
Definition vty (v : value) : vt := match v with IV w _ => ity w | FV f _ => fty f | VV _ => TV128 end.
Definition vokv (v : value) : Prop :=
  match v with
  | IV w z => 0 <= z < 2 ^ bits w
  | FV f x => valid_binary (fprec f) (femax f) x = true
  | VV z => 0 <= z < 2 ^ 128
  end.

Inductive fcmp := FEq | FNe | FLt | FGt.
Definition fcmp_eval (c : fcmp) (x y : spec_float) : bool :=
  match c with
  | FEq => SFeqb x y | FNe => negb (SFeqb x y) | FLt => SFltb x y | FGt => SFltb y x
  end.

(** Rounding towards zero; no number for a NaN or an infinity. *)
Definition ftrunc (x : spec_float) : option Z :=
  match x with
  | S754_zero _ => Some 0
  | S754_finite s m e =>
      let a := if 0 <=? e then Zpos m * 2 ^ e else Zpos m / 2 ^ (- e) in
      Some (if s then - a else a)
  | _ => None
  end.
(** [iN.trunc_fM_s] and [iN.trunc_fM_u]: defined if the number fits. *)
Definition trunc_to (w : iw) (signed : bool) (x : spec_float) : option Z :=
  match ftrunc x with
  | Some z =>
      let lo := if signed then - 2 ^ (bits w - 1) else 0 in
      let hi := if signed then 2 ^ (bits w - 1) else 2 ^ bits w in
      if (lo <=? z) && (z <? hi) then Some (wrapu (bits w) z) else None
  | None => None
  end.

(** One way to read or write memory: the type of the value and how many bytes
    are touched. *)
Record access := mkAccess { ac_type : vt; ac_width : Z }.

Inductive instr :=
| ILocalGet (n : nat) | ILocalSet (n : nat) | ILocalTee (n : nat)
| IConst (v : value)
| IInt (w : iw) (o : ibin) | IEqz (w : iw)
| IFcmp (f : fw) (c : fcmp)
| ITrunc (w : iw) (f : fw) (signed : bool)
| ISelect
| IMemSize (m : nat)
| ILoad (a : access) (m : nat) (offset : Z)
| IStore (a : access) (m : nat) (offset : Z)
| IBlock (b : list instr)
| IIf (t e : list instr)
| IBr (n : nat) | IBrIf (n : nat).

(** Types of memories: index type and bytes in a page. *)
Record memty := mkMemty { mt_64 : bool; mt_page : Z }.
Definition mt_iw (t : memty) : iw := if mt_64 t then W64 else W32.
Record mem := mkMem { me_pages : Z; me_bytes : Z -> Z }.
Record state := mkState { st_stack : list value; st_locals : nat -> value; st_mems : nat -> mem }.
Definition put (k : list value) (s : state) : state := mkState k (st_locals s) (st_mems s).
Definition set_local (n : nat) (v : value) (s : state) : state :=
  mkState (st_stack s) (upd (st_locals s) n v) (st_mems s).
Definition set_mem (n : nat) (m : mem) (s : state) : state :=
  mkState (st_stack s) (st_locals s) (upd (st_mems s) n m).

Inductive out := Norm (s : state) | Branch (n : nat) (s : state) | Trap | Stuck.

Definition mem_bytes (t : memty) (m : mem) : Z := me_pages m * mt_page t.
Definition read_bytes (m : mem) (a n : Z) : list Z := map (fun i => me_bytes m (a + Z.of_nat i)) (seq 0 (Z.to_nat n)).
Definition write_bytes (m : mem) (a : Z) (l : list Z) : mem :=
  mkMem (me_pages m) (fun x => if (a <=? x) && (x <? a + zlen l) then nth (Z.to_nat (x - a)) l 0 else me_bytes m x).

(** How bytes make a value and a value makes bytes is left open. *)
Section Exec.
Variable decode : access -> list Z -> value.
Variable encode : access -> value -> list Z.
Variable memtys : nat -> memty.

Definition bool_val (b : bool) : value := IV W32 (b2z b).
Definition iw_eqb (a b : iw) : bool := match a, b with W32, W32 | W64, W64 => true | _, _ => false end.
Definition fw_eqb (a b : fw) : bool := match a, b with F32, F32 | F64, F64 => true | _, _ => false end.

Fixpoint exec1 (i : instr) (s : state) {struct i} : out :=
  let run := fix run (l : list instr) (s : state) {struct l} : out :=
    match l with
    | [] => Norm s
    | i :: l => match exec1 i s with Norm s => run l s | o => o end
    end in
  (* a branch to a block without results leaves the stack as it was *)
  let label (k : list value) (o : out) :=
    match o with Branch O s => Norm (put k s) | Branch (S n) s => Branch n s | o => o end in
  match i, st_stack s with
  | ILocalGet n, k => Norm (put (st_locals s n :: k) s)
  | ILocalSet n, v :: k => Norm (set_local n v (put k s))
  | ILocalTee n, v :: k => Norm (set_local n v s)
  | IConst v, k => Norm (put (v :: k) s)
  | IInt w o, IV wb b :: IV wa a :: k =>
      if iw_eqb wa w && iw_eqb wb w then
        match ieval o (bits w) a b with
        | Some z => Norm (put (IV (if irel o then W32 else w) z :: k) s)
        | None => Trap
        end
      else Stuck
  | IEqz w, IV wa a :: k => if iw_eqb wa w then Norm (put (bool_val (a =? 0) :: k) s) else Stuck
  | IFcmp f c, FV fb b :: FV fa a :: k =>
      if fw_eqb fa f && fw_eqb fb f then Norm (put (bool_val (fcmp_eval c a b) :: k) s) else Stuck
  | ITrunc w f sg, FV fa a :: k =>
      if fw_eqb fa f then
        match trunc_to w sg a with Some z => Norm (put (IV w z :: k) s) | None => Trap end
      else Stuck
  | ISelect, IV W32 c :: b :: a :: k => Norm (put ((if c =? 0 then b else a) :: k) s)
  | IMemSize m, k => let w := mt_iw (memtys m) in
      Norm (put (IV w (wrapu (bits w) (me_pages (st_mems s m))) :: k) s)
  | ILoad a m offset, IV wa x :: k =>
      if iw_eqb wa (mt_iw (memtys m)) then
        if x + offset + ac_width a <=? mem_bytes (memtys m) (st_mems s m)
        then Norm (put (decode a (read_bytes (st_mems s m) (x + offset) (ac_width a)) :: k) s)
        else Trap
      else Stuck
  | IStore a m offset, v :: IV wa x :: k =>
      if iw_eqb wa (mt_iw (memtys m)) then
        if x + offset + ac_width a <=? mem_bytes (memtys m) (st_mems s m)
        then Norm (set_mem m (write_bytes (st_mems s m) (x + offset) (encode a v)) (put k s))
        else Trap
      else Stuck
  | IBlock b, k => label k (run b s)
  | IIf t e, IV W32 c :: k => label k (if c =? 0 then run e (put k s) else run t (put k s))
  | IBr n, k => Branch n s
  | IBrIf n, IV W32 c :: k => if c =? 0 then Norm (put k s) else Branch n (put k s)
  | _, _ => Stuck
  end.
Fixpoint exec (l : list instr) (s : state) : out :=
  match l with
  | [] => Norm s
  | i :: l => match exec1 i s with Norm s => exec l s | o => o end
  end.
End Exec.

(** Two states that an observer who does not look at locals from [n] on cannot
    tell apart. *)
Definition same_below (n : nat) (a b : state) : Prop :=
  st_stack a = st_stack b /\ st_mems a = st_mems b /\
  forall i, (i < n)%nat -> st_locals a i = st_locals b i.
