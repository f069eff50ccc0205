(** Trap-free code: crates/wasm-smith/src/core/code_builder/no_traps.rs.

    Each function takes the number [n] of locals the function has so far
    ([CodeBuilder::alloc_local] appends one and returns its index) and returns
    the code and the number of locals afterwards.  Simplified: the [Block], [If],
    [Else] and [End] instructions pushed to the vector are nested code here. *)
From Coq Require Import ZArith Lia List Bool String SpecFloat.
From Verif Require Import Base.Prelude Peephole.Machine Smith.Structured.
Import ListNotations.
Open Scope Z_scope.

(** no_traps.rs:352-393 ([get_memarg]) and 499-543 ([type_of_memory_access]): the
    loads and stores, with the type of the value; the number of bytes touched is
    WebAssembly's. *)
Definition loads : list (string * access) :=
  [("i32.load", mkAccess TI32 4); ("i64.load", mkAccess TI64 8); ("f32.load", mkAccess TF32 4);
   ("f64.load", mkAccess TF64 8); ("i32.load8_s", mkAccess TI32 1); ("i32.load8_u", mkAccess TI32 1);
   ("i32.load16_s", mkAccess TI32 2); ("i32.load16_u", mkAccess TI32 2); ("i64.load8_s", mkAccess TI64 1);
   ("i64.load8_u", mkAccess TI64 1); ("i64.load16_s", mkAccess TI64 2); ("i64.load16_u", mkAccess TI64 2);
   ("i64.load32_s", mkAccess TI64 4); ("i64.load32_u", mkAccess TI64 4); ("v128.load", mkAccess TV128 16);
   ("v128.load8x8_s", mkAccess TV128 8); ("v128.load8x8_u", mkAccess TV128 8);
   ("v128.load16x4_s", mkAccess TV128 8); ("v128.load16x4_u", mkAccess TV128 8);
   ("v128.load32x2_s", mkAccess TV128 8); ("v128.load32x2_u", mkAccess TV128 8);
   ("v128.load8_splat", mkAccess TV128 1); ("v128.load16_splat", mkAccess TV128 2);
   ("v128.load32_splat", mkAccess TV128 4); ("v128.load64_splat", mkAccess TV128 8);
   ("v128.load32_zero", mkAccess TV128 4); ("v128.load64_zero", mkAccess TV128 8)]%string.
Definition stores : list (string * access) :=
  [("i32.store", mkAccess TI32 4); ("i64.store", mkAccess TI64 8); ("f32.store", mkAccess TF32 4);
   ("f64.store", mkAccess TF64 8); ("i32.store8", mkAccess TI32 1); ("i32.store16", mkAccess TI32 2);
   ("i64.store8", mkAccess TI64 1); ("i64.store16", mkAccess TI64 2); ("i64.store32", mkAccess TI64 4);
   ("v128.store", mkAccess TV128 16)]%string.

(** no_traps.rs:635-644 ([size_of_type_in_memory]). *)
Definition size_of_type_in_memory (t : vt) : Z :=
  match t with TI32 => 4 | TI64 => 8 | TF32 => 4 | TF64 => 8 | TV128 => 16 end.

(** no_traps.rs:395-407 ([dummy_value_inst]). *)
Definition dummy_value_inst (t : vt) : instr :=
  IConst match t with
         | TI32 => IV W32 0 | TI64 => IV W64 0
         | TF32 => FV F32 (S754_zero false) | TF64 => FV F64 (S754_zero false)
         | TV128 => VV 0
         end.

(** no_traps.rs:553-559 ([int_const_inst]): [x as i32] wraps. *)
Definition int_const_inst (w : iw) (x : Z) : instr := IConst (IV w (wrapu (bits w) x)).
(** no_traps.rs:545-551 ([int_min_const_inst]). *)
Definition int_min_const_inst (w : iw) : instr := IConst (IV w (wrapu (bits w) (- 2 ^ (bits w - 1)))).

(** no_traps.rs:9-85 ([load]). *)
Definition load (a : access) (t : memty) (m : nat) (offset : Z) (n : nat) : list instr * nat :=
  let w := mt_iw t in
  let address_local := n in
  let result_local := S n in
  ([ILocalSet address_local;
    IBlock
      [IBlock
         [IMemSize m;
          int_const_inst w (mt_page t);
          IInt w Mul;
          int_const_inst w (wraps 64 (wrapu 64 (offset + size_of_type_in_memory (ac_type a))));
          ILocalGet address_local;
          IInt w Add;
          IInt w LeU;
          IBrIf 0;
          ILocalGet address_local;
          int_const_inst w 0;
          IInt w LeS;
          IBrIf 0;
          ILocalGet address_local;
          ILoad a m offset;
          ILocalSet result_local;
          IBr 1];
       dummy_value_inst (ac_type a);
       ILocalSet result_local];
    ILocalGet result_local], S (S n)).

(** no_traps.rs:91-161 ([store]). *)
Definition store (a : access) (t : memty) (m : nat) (offset : Z) (n : nat) : list instr * nat :=
  let w := mt_iw t in
  let address_local := n in
  let value_local := S n in
  ([ILocalSet value_local;
    ILocalSet address_local;
    IMemSize m;
    int_const_inst w (mt_page t);
    IInt w Mul;
    int_const_inst w (wraps 64 (wrapu 64 (offset + size_of_type_in_memory (ac_type a))));
    ILocalGet address_local;
    IInt w Add;
    IInt w LeU;
    IIf []
      [ILocalGet address_local;
       int_const_inst w 0;
       IInt w LeS;
       IIf []
         [ILocalGet address_local;
          ILocalGet value_local;
          IStore a m offset]]], S (S n)).

(** no_traps.rs:169-192 ([unsigned_div_rem]). *)
Definition unsigned_div_rem (w : iw) (o : ibin) (n : nat) : list instr * nat :=
  ([ILocalSet n;
    int_const_inst w 1;
    ILocalGet n;
    ILocalGet n;
    IEqz w;
    ISelect;
    IInt w o], S n).

(** no_traps.rs:278-350 ([signed_div_rem]). *)
Definition signed_div_rem (w : iw) (o : ibin) (n : nat) : list instr * nat :=
  let temp_divisor := n in
  let temp_dividend := S n in
  ([ILocalSet temp_divisor;
    int_const_inst w 1;
    ILocalGet temp_divisor;
    ILocalGet temp_divisor;
    IEqz w;
    ISelect;
    ILocalSet temp_divisor;
    ILocalSet temp_dividend;
    IBlock
      [IBlock
         [ILocalGet temp_dividend;
          ILocalGet temp_divisor;
          ILocalSet temp_divisor;
          ILocalTee temp_dividend;
          int_min_const_inst w;
          IInt w Ne;
          IBrIf 0;
          ILocalGet temp_divisor;
          int_const_inst w (-1);
          IInt w Ne;
          IBrIf 0;
          int_const_inst w 1;
          ILocalSet temp_divisor;
          IBr 1]];
    ILocalGet temp_dividend;
    ILocalGet temp_divisor;
    IInt w o], S (S n)).

(** A Rust float literal of integer value: the nearest float. *)
Definition literal (f : fw) (z : Z) : spec_float := binary_normalize (fprec f) (femax f) z 0 false.

(** no_traps.rs:455-473 ([min_input_const_for_trunc]). *)
Definition min_input (w : iw) (f : fw) (signed : bool) : spec_float :=
  match w, f, signed with
  | W32, F32, true => literal F32 (-2147483500)
  | W64, F32, true => literal F32 (-9223372000000000000)
  | W32, F64, true => literal F64 (- 2 ^ 31)
  | W64, F64, true => literal F64 (-9223372036854775000)
  | _, _, false => S754_zero false
  end.
(** no_traps.rs:475-497 ([max_input_const_for_trunc]). *)
Definition max_input (w : iw) (f : fw) (signed : bool) : spec_float :=
  match w, f with
  | W32, F32 => literal F32 2147483500
  | W64, F32 => literal F32 9223371500000000000
  | W32, F64 => literal F64 (2 ^ 31 - 1)
  | W64, F64 => literal F64 9223372036854775000
  end.

(** no_traps.rs:194-270 ([trunc]). *)
Definition trunc (w : iw) (f : fw) (signed : bool) (n : nat) : list instr * nat :=
  let c x := IConst (FV f x) in
  ([ILocalTee n;
    ILocalGet n;
    IFcmp f FNe;
    ILocalGet n;
    c (S754_infinity false);
    IFcmp f FEq;
    ILocalGet n;
    c (S754_infinity true);
    IFcmp f FEq;
    IInt W32 Or;
    IInt W32 Or;
    IIf [dummy_value_inst (fty f); ILocalSet n] [];
    ILocalGet n;
    c (min_input w f signed);
    IFcmp f FLt;
    IIf [c (min_input w f signed); ILocalSet n] [];
    ILocalGet n;
    c (max_input w f signed);
    IFcmp f FGt;
    IIf [c (max_input w f signed); ILocalSet n] [];
    ILocalGet n;
    ITrunc w f signed], S n).

(** code_builder.rs:5363-5413 ([memory_offset]) with [disallow_traps]: the offset
    of a load or store.  [draw lo hi] is [Unstructured::int_in_range(lo..=hi)];
    [ca], [cb] the configured weights, [choice] the number drawn first. *)
Definition no_trap_max (t : memty) : Z := if mt_64 t then 2 ^ 63 - 1 - 16 else 2 ^ 31 - 1 - 16.
Definition memory_offset (t : memty) (minimum : Z) (ca cb choice : Z) (draw : Z -> Z -> Z) : Z :=
  let min := Z.min (Z.min (minimum * mt_page t) (2 ^ 64 - 1)) (no_trap_max t) in
  if choice <? ca then draw 0 min
  else if choice <? ca + cb then draw min (no_trap_max t)
  else draw (no_trap_max t) (no_trap_max t).
