(** The part of the WebAssembly execution semantics the peephole rules of
    wasm-mutate talk about: a stack machine over integers, floats, locals,
    globals and the size of one memory.

    This file is specification, not a model of /repo: it follows the
    WebAssembly core specification (numeric instructions are the i32/i64
    operators modulo 2^N; floats are the standard library's IEEE-754
    [SpecFloat], round to nearest even, NaN payloads forgotten). *)
From Coq Require Import ZArith Lia List Bool SpecFloat.
From Verif Require Import Base.Prelude.
Import ListNotations.
Open Scope Z_scope.

Inductive iw := W32 | W64.
Inductive fw := F32 | F64.
Inductive prim := PI (w : iw) | PF (f : fw) | PEmpty.

Definition bits (w : iw) : Z := match w with W32 => 32 | W64 => 64 end.
Definition fprec (f : fw) : Z := match f with F32 => 24 | F64 => 53 end.
Definition femax (f : fw) : Z := match f with F32 => 128 | F64 => 1024 end.

(** Runtime values: integers are kept unsigned. *)
Inductive val := VI (w : iw) (z : Z) | VF (f : fw) (x : spec_float).

Definition vprim (v : val) : prim := match v with VI w _ => PI w | VF f _ => PF f end.
Definition vok (v : val) : Prop :=
  match v with
  | VI w z => 0 <= z < 2 ^ bits w
  | VF f x => valid_binary (fprec f) (femax f) x = true
  end.

Inductive ibin :=
| Add | Sub | Mul | And | Or | Xor | Shl | ShrU | ShrS
| DivS | DivU | RemS | RemU
| Eq | Ne | LtS | LtU | GtS | GtU | LeS | LeU | GeS | GeU.
Inductive fbin := FAdd | FMul.
Inductive binop := OI (w : iw) (o : ibin) | OF (f : fw) (o : fbin).

Definition sgn (n a : Z) : Z := if a <? 2 ^ (n - 1) then a else a - 2 ^ n.
Definition b2z (b : bool) : Z := if b then 1 else 0.

(** Integer operators; [None] is a trap. *)
Definition ieval (o : ibin) (n a b : Z) : option Z :=
  match o with
  | Add => Some (wrapu n (a + b))
  | Sub => Some (wrapu n (a - b))
  | Mul => Some (wrapu n (a * b))
  | And => Some (Z.land a b)
  | Or => Some (Z.lor a b)
  | Xor => Some (Z.lxor a b)
  | Shl => Some (wrapu n (a * 2 ^ (b mod n)))
  | ShrU => Some (a / 2 ^ (b mod n))
  | ShrS => Some (wrapu n (sgn n a / 2 ^ (b mod n)))
  | DivS => if b =? 0 then None
            else if (sgn n a =? - 2 ^ (n - 1)) && (sgn n b =? -1) then None
            else Some (wrapu n (Z.quot (sgn n a) (sgn n b)))
  | DivU => if b =? 0 then None else Some (a / b)
  | RemS => if b =? 0 then None else Some (wrapu n (Z.rem (sgn n a) (sgn n b)))
  | RemU => if b =? 0 then None else Some (a mod b)
  | Eq => Some (b2z (a =? b))
  | Ne => Some (b2z (negb (a =? b)))
  | LtS => Some (b2z (sgn n a <? sgn n b))
  | LtU => Some (b2z (a <? b))
  | GtS => Some (b2z (sgn n b <? sgn n a))
  | GtU => Some (b2z (b <? a))
  | LeS => Some (b2z (sgn n a <=? sgn n b))
  | LeU => Some (b2z (a <=? b))
  | GeS => Some (b2z (sgn n b <=? sgn n a))
  | GeU => Some (b2z (b <=? a))
  end.

Definition irel (o : ibin) : bool :=
  match o with Eq | Ne | LtS | LtU | GtS | GtU | LeS | LeU | GeS | GeU => true | _ => false end.
Definition ipartial (o : ibin) : bool :=
  match o with DivS | DivU | RemS | RemU => true | _ => false end.

Definition feval (o : fbin) (f : fw) (a b : spec_float) : spec_float :=
  match o with
  | FAdd => SFadd (fprec f) (femax f) a b
  | FMul => SFmul (fprec f) (femax f) a b
  end.

(** Operand and result types of a binary operator. *)
Definition oarg (o : binop) : prim := match o with OI w _ => PI w | OF f _ => PF f end.
Definition ores (o : binop) : prim :=
  match o with OI w o => if irel o then PI W32 else PI w | OF f _ => PF f end.

Inductive eres := EVal (v : val) | ETrap | EStuck.

Definition beval (o : binop) (a b : val) : eres :=
  match o, a, b with
  | OI w o, VI wa x, VI wb y =>
      match w, wa, wb with
      | W32, W32, W32 | W64, W64, W64 =>
          match ieval o (bits w) x y with
          | Some z => EVal (VI (if irel o then W32 else w) z)
          | None => ETrap
          end
      | _, _, _ => EStuck
      end
  | OF f o, VF fa x, VF fb y =>
      match f, fa, fb with
      | F32, F32, F32 | F64, F64, F64 => EVal (VF f (feval o f x y))
      | _, _, _ => EStuck
      end
  | _, _, _ => EStuck
  end.

Inductive conv := CEqz (w : iw) | CWrap | CExtU | CExtS.
Definition carg (c : conv) : prim := match c with CEqz w => PI w | CWrap => PI W64 | _ => PI W32 end.
Definition cres (c : conv) : prim := match c with CEqz _ => PI W32 | CWrap => PI W32 | _ => PI W64 end.
Definition ceval (c : conv) (v : val) : eres :=
  match c, v with
  | CEqz W32, VI W32 z | CEqz W64, VI W64 z => EVal (VI W32 (b2z (z =? 0)))
  | CWrap, VI W64 z => EVal (VI W32 (wrapu 32 z))
  | CExtU, VI W32 z => EVal (VI W64 z)
  | CExtS, VI W32 z => EVal (VI W64 (wrapu 64 (sgn 32 z)))
  | _, _ => EStuck
  end.

Inductive instr :=
| IConst (v : val)
| ILocalGet (n : nat) | ILocalTee (n : nat)
| IGlobalGet (n : nat) | IGlobalSet (n : nat)
| IBin (o : binop) | IConv (c : conv)
| ISelect | IDrop | INop
| IMemSize | IMemGrow.

Record state := mkState {
  st_stack : list val;
  st_locals : list val;
  st_globals : nat -> val;
  st_pages : Z;         (* current size of memory 0, in pages *)
  st_max : Z            (* how far memory 0 may grow *)
}.

Definition with_stack (s : state) (k : list val) : state :=
  mkState k (st_locals s) (st_globals s) (st_pages s) (st_max s).
Definition upd {A} (f : nat -> A) (n : nat) (a : A) : nat -> A :=
  fun m => if Nat.eqb m n then a else f m.
Fixpoint set_nth {A} (n : nat) (a : A) (l : list A) : list A :=
  match l, n with
  | [], _ => []
  | _ :: t, O => a :: t
  | x :: t, S n => x :: set_nth n a t
  end.

Inductive outcome := Ran (s : state) | Trapped | Stuck.

Definition step (i : instr) (s : state) : outcome :=
  match i, st_stack s with
  | IConst v, k => Ran (with_stack s (v :: k))
  | ILocalGet n, k => match nth_error (st_locals s) n with
                      | Some v => Ran (with_stack s (v :: k)) | None => Stuck end
  | ILocalTee n, v :: k => Ran (mkState (v :: k) (set_nth n v (st_locals s)) (st_globals s) (st_pages s) (st_max s))
  | IGlobalGet n, k => Ran (with_stack s (st_globals s n :: k))
  | IGlobalSet n, v :: k => Ran (mkState k (st_locals s) (upd (st_globals s) n v) (st_pages s) (st_max s))
  | IBin o, b :: a :: k => match beval o a b with
                           | EVal v => Ran (with_stack s (v :: k)) | ETrap => Trapped | EStuck => Stuck end
  | IConv c, a :: k => match ceval c a with
                       | EVal v => Ran (with_stack s (v :: k)) | ETrap => Trapped | EStuck => Stuck end
  | ISelect, VI W32 c :: b :: a :: k => Ran (with_stack s ((if c =? 0 then b else a) :: k))
  | IDrop, _ :: k => Ran (with_stack s k)
  | INop, k => Ran (with_stack s k)
  | IMemSize, k => Ran (with_stack s (VI W32 (wrapu 32 (st_pages s)) :: k))
  | IMemGrow, VI W32 d :: k =>
      if st_pages s + d <=? st_max s
      then Ran (mkState (VI W32 (wrapu 32 (st_pages s)) :: k) (st_locals s) (st_globals s) (st_pages s + d) (st_max s))
      else Ran (with_stack s (VI W32 (2 ^ 32 - 1) :: k))
  | _, _ => Stuck
  end.

Fixpoint exec (c : list instr) (s : state) : outcome :=
  match c with
  | [] => Ran s
  | i :: c => match step i s with Ran s => exec c s | o => o end
  end.

Lemma exec_app : forall c d s,
  exec (c ++ d) s = match exec c s with Ran s => exec d s | o => o end.
Proof.
  induction c; intros d s; [reflexivity|]. cbn [exec app]. destruct (step a s); auto.
Qed.

(** Two final states an observer of the original program cannot tell apart:
    they may differ only in globals the original program does not have. *)
Definition same_state (globals : nat) (a b : state) : Prop :=
  st_stack a = st_stack b /\ st_locals a = st_locals b /\
  st_pages a = st_pages b /\ st_max a = st_max b /\
  forall n, (n < globals)%nat -> st_globals a n = st_globals b n.

Definition same_outcome (globals : nat) (a b : outcome) : Prop :=
  match a, b with
  | Ran a, Ran b => same_state globals a b
  | Trapped, Trapped => True
  | _, _ => False
  end.
