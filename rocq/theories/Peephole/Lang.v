(** Terms of wasm-mutate's peephole language, how they are turned back into
    instructions, and the rewriting rules it uses when asked to preserve
    semantics.  Models crates/wasm-mutate/src/mutators/peephole. *)
From Coq Require Import ZArith Lia List Bool String SpecFloat.
From Verif Require Import Base.Prelude Peephole.Flt Peephole.Machine.
Import ListNotations.
Open Scope Z_scope.

(** eggsy/lang.rs:101-1000 ([enum Lang]), the integer, conversion, select and
    bookkeeping nodes; [TVar] is a pattern variable (egg's [?x]).  Simplified:
    of the float operators only add and mul (the only ones any rule mentions),
    and no loads, stores, calls, tables, references or vectors.  [TContainer]
    has exactly two children, which is how the rules build it. *)
Inductive term :=
| TVar (n : nat)
| TI (w : iw) (z : Z)
| TF (f : fw) (x : spec_float)
| TLocalGet (n : nat)
| TGlobalGet (n : nat)
| TMemSize
| TNop
| TRand (w : iw)
| TBin (o : binop) (a b : term)
| TConv (c : conv) (a : term)
| TSelect (a b c : term)
| TDrop (a : term)
| TContainer (a b : term)
| TUseGlobal (p : prim) (a : term)
| TUnfold (w : iw) (a : term)
| TLocalTee (n : nat) (a : term)
| TMemGrow (a : term).

(** eggsy/encoder/expr2wasm.rs:37-688 ([expr2wasm]): children first, then the
    node.  [rnd] is the sequence of random numbers drawn, [k] how many have been
    drawn, [g] the index the next requested global gets (it starts at the number
    of globals of the module, line 78).  [None] is the error of lines 137/156
    (an [unfold] whose child is not a constant); for the terms modelled there is
    no other.  [TVar] never reaches the encoder. *)
Fixpoint compile (rnd : nat -> Z) (t : term) (k g : nat) : option (list instr * nat * nat) :=
  match t with
  | TVar _ => None
  | TI w z => Some ([IConst (VI w (wrapu (bits w) z))], k, g)
  | TF f x => Some ([IConst (VF f x)], k, g)
  | TLocalGet n => Some ([ILocalGet n], k, g)
  | TGlobalGet n => Some ([IGlobalGet n], k, g)
  | TMemSize => Some ([IMemSize], k, g)
  | TNop => Some ([INop], k, g)
  | TRand w => Some ([IConst (VI w (wrapu (bits w) (rnd k)))], S k, g)
  | TBin o a b =>
      match compile rnd a k g with
      | Some (ca, k, g) =>
          match compile rnd b k g with
          | Some (cb, k, g) => Some (ca ++ cb ++ [IBin o], k, g)
          | None => None
          end
      | None => None
      end
  | TConv c a =>
      match compile rnd a k g with
      | Some (ca, k, g) => Some (ca ++ [IConv c], k, g)
      | None => None
      end
  | TSelect a b c =>
      match compile rnd a k g with
      | Some (ca, k, g) =>
          match compile rnd b k g with
          | Some (cb, k, g) =>
              match compile rnd c k g with
              | Some (cc, k, g) => Some (ca ++ cb ++ cc ++ [ISelect], k, g)
              | None => None
              end
          | None => None
          end
      | None => None
      end
  | TDrop a =>
      match compile rnd a k g with
      | Some (ca, k, g) => Some (ca ++ [IDrop], k, g)
      | None => None
      end
  | TContainer a b =>
      match compile rnd a k g with
      | Some (ca, k, g) =>
          match compile rnd b k g with
          | Some (cb, k, g) => Some (ca ++ cb, k, g)
          | None => None
          end
      | None => None
      end
  | TUseGlobal _ a =>
      match compile rnd a k g with
      | Some (ca, k, g) => Some (ca ++ [IGlobalSet g; IGlobalGet g], k, S g)
      | None => None
      end
  | TUnfold w a =>
      match a with
      | TI w' z =>
          match w, w' with
          | W32, W32 | W64, W64 =>
              let r := wraps (bits w) (rnd k) in
              Some ([IConst (VI w (wrapu (bits w) r));
                     IConst (VI w (wrapu (bits w) (z - r)));
                     IBin (OI w Add)], S k, g)
          | _, _ => None
          end
      | _ => None
      end
  | TLocalTee n a =>
      match compile rnd a k g with
      | Some (ca, k, g) => Some (ca ++ [ILocalTee n], k, g)
      | None => None
      end
  | TMemGrow a =>
      match compile rnd a k g with
      | Some (ca, k, g) => Some (ca ++ [IMemGrow], k, g)
      | None => None
      end
  end.

(** eggsy/analysis.rs:46-460 ([get_returning_tpe]) for every node but [select],
    whose type is that of the e-class of its first operand.  [lt], [gt] are the
    types of locals and globals (memory 0 is a 32-bit memory). *)
Definition node_type (lt gt : list prim) (t : term) : option prim :=
  match t with
  | TVar _ | TSelect _ _ _ => None
  | TI w _ => Some (PI w)
  | TF f _ => Some (PF f)
  | TLocalGet n => nth_error lt n
  | TGlobalGet n => nth_error gt n
  | TMemSize => Some (PI W32)
  | TNop => Some PEmpty
  | TRand w => Some (PI w)
  | TBin o _ _ => Some (ores o)
  | TConv c _ => Some (cres c)
  | TDrop _ => Some PEmpty
  | TContainer _ _ => Some PEmpty
  | TUseGlobal p _ => Some p
  | TUnfold w _ => Some (PI w)
  | TLocalTee n _ => nth_error lt n
  | TMemGrow _ => Some (PI W32)
  end.

(** rules.rs:680-685 ([enum Condition]). *)
Inductive cond := CType (x : nat) (p : prim) | CConst (x : nat) | CBool (b : bool).

Record rule := mkRule { r_name : string; r_lhs : term; r_rhs : term; r_conds : list cond }.

Fixpoint subst (s : nat -> term) (t : term) : term :=
  match t with
  | TVar n => s n
  | TI _ _ | TF _ _ | TLocalGet _ | TGlobalGet _ | TMemSize | TNop | TRand _ => t
  | TBin o a b => TBin o (subst s a) (subst s b)
  | TConv c a => TConv c (subst s a)
  | TSelect a b c => TSelect (subst s a) (subst s b) (subst s c)
  | TDrop a => TDrop (subst s a)
  | TContainer a b => TContainer (subst s a) (subst s b)
  | TUseGlobal p a => TUseGlobal p (subst s a)
  | TUnfold w a => TUnfold w (subst s a)
  | TLocalTee n a => TLocalTee n (subst s a)
  | TMemGrow a => TMemGrow (subst s a)
  end.

(** rules.rs:631-641 ([add_bidirectional_rewrite]) and 643-678 ([add_rewrite]). *)
Definition one (n : string) (l r : term) (c : list cond) : list rule := [mkRule n l r c].
Definition both (n : string) (l r : term) (c : list cond) : list rule :=
  [mkRule n l r c; mkRule (n ++ "-rev")%string r l c].

Definition vx := TVar 0. Definition vy := TVar 1. Definition vz := TVar 2.
Definition i2 (w : iw) (o : ibin) (a b : term) := TBin (OI w o) a b.
Definition f2 (f : fw) (o : fbin) (a b : term) := TBin (OF f o) a b.
Definition eqz (w : iw) (a : term) := TConv (CEqz w) a.
(** [f32.const.1,0] and [f32.const.0,0]. *)
Definition fone (f : fw) := TF f (SFone (fprec f)).
Definition fzero (f : fw) := TF f (S754_zero false).
Definition nm (w : iw) (s : string) : string :=
  append (match w with W32 => "i32" | W64 => "i64" end) s.
Definition fnm (f : fw) (s : string) : string :=
  append (match f with F32 => "f32" | F64 => "f64" end) s.
(** The rules come in i32/i64 (f32/f64) pairs, in that order. *)
Definition for_i (r : iw -> list rule) : list rule := r W32 ++ r W64.
Definition for_f (r : fw -> list rule) : list rule := r F32 ++ r F64.

(** rules.rs:34-64. *)
Definition rules_identities_reduce : list rule :=
  for_i (fun w => one (nm w ".or--1") (i2 w Or vx (TI w (-1))) (TI w (-1)) []) ++
  for_i (fun w => one (nm w ".or-x-x") (i2 w Or vx vx) vx []) ++
  for_i (fun w => one (nm w ".and-x-x") (i2 w And vx vx) vx []) ++
  one "select-same-branches" (TSelect vy vy vx) vy [] ++
  for_i (fun w => one (nm w ".sub-0") (i2 w Sub vx (TI w 0)) vx []) ++
  for_i (fun w => one (nm w ".mul-x-1") (i2 w Mul vx (TI w 1)) vx []) ++
  for_f (fun f => one (fnm f ".mul-x-1") (f2 f FMul vx (fone f)) vx []) ++
  for_i (fun w => one (nm w ".add-x-0") (i2 w Add vx (TI w 0)) vx []) ++
  one "f32-add-x-0" (f2 F32 FAdd vx (fzero F32)) vx [] ++
  one "f64.add-x-0" (f2 F64 FAdd vx (fzero F64)) vx [] ++
  for_i (fun w => one (nm w ".xor-x-0") (i2 w Xor vx (TI w 0)) vx []) ++
  for_i (fun w => one (nm w ".eq-x-0") (i2 w Eq vx (TI w 0)) (eqz w vx) []) ++
  for_i (fun w => one (nm w ".shl-by-0") (i2 w Shl vx (TI w 0)) vx []) ++
  for_i (fun w => one (nm w ".shr_u-by-0") (i2 w ShrU vx (TI w 0)) vx []) ++
  for_i (fun w => one (nm w ".shr_s-by-0") (i2 w ShrS vx (TI w 0)) vx []).

(** rules.rs:65-200. *)
Definition rules_identities : list rule :=
  for_i (fun w => one (nm w ".or--1") (i2 w Or vx (TI w (-1))) (TI w (-1)) []) ++
  for_i (fun w => both (nm w ".or-x-x") (i2 w Or vx vx) vx [CType 0 (PI w)]) ++
  for_i (fun w => both (nm w ".and-x-x") (i2 w And vx vx) vx [CType 0 (PI w)]) ++
  one "select-same-branches" (TSelect vy vy vx) vy [] ++
  for_i (fun w => both (nm w ".sub-0") (i2 w Sub vx (TI w 0)) vx [CType 0 (PI w)]) ++
  for_i (fun w => both (nm w ".mul-x-1") vx (i2 w Mul vx (TI w 1)) [CType 0 (PI w)]) ++
  for_f (fun f => both (fnm f ".mul-x-1") vx (f2 f FMul vx (fone f)) [CType 0 (PF f)]) ++
  for_i (fun w => both (nm w ".add-x-0") vx (i2 w Add vx (TI w 0)) [CType 0 (PI w)]) ++
  both "f32-add-x-0" vx (f2 F32 FAdd vx (fzero F32)) [CType 0 (PF F32)] ++
  both "f64.add-x-0" vx (f2 F64 FAdd vx (fzero F64)) [CType 0 (PF F64)] ++
  for_i (fun w => both (nm w ".xor-x-0") vx (i2 w Xor vx (TI w 0)) [CType 0 (PI w)]) ++
  for_i (fun w => both (nm w ".eq-x-0") (i2 w Eq vx (TI w 0)) (eqz w vx) [CType 0 (PI w)]) ++
  for_i (fun w => both (nm w ".shl-by-0") (i2 w Shl vx (TI w 0)) vx [CType 0 (PI w)]) ++
  for_i (fun w => both (nm w ".shr_u-by-0") (i2 w ShrU vx (TI w 0)) vx [CType 0 (PI w)]) ++
  for_i (fun w => both (nm w ".shr_s-by-0") (i2 w ShrS vx (TI w 0)) vx [CType 0 (PI w)]).

(** rules.rs:202-226. *)
Definition commutes (n : string) (o : binop) : list rule := both n (TBin o vx vy) (TBin o vy vx) [].
Definition rules_commute : list rule :=
  for_i (fun w => commutes (nm w ".add-commutes") (OI w Add)) ++
  for_f (fun f => commutes (fnm f ".add-commutes") (OF f FAdd)) ++
  for_i (fun w => commutes (nm w ".mul-commutes") (OI w Mul)) ++
  for_f (fun f => commutes (fnm f ".mul-commutes") (OF f FMul)) ++
  for_i (fun w => commutes (nm w ".and-commutes") (OI w And)) ++
  for_i (fun w => commutes (nm w ".or-commutes") (OI w Or)) ++
  for_i (fun w => commutes (nm w ".xor-commutes") (OI w Xor)) ++
  for_i (fun w => commutes (nm w ".eq-commutes") (OI w Eq)).

(** rules.rs:228-285. *)
Definition associates (n : string) (o : binop) : list rule :=
  both n (TBin o vx (TBin o vy vz)) (TBin o (TBin o vx vy) vz) [].
Definition rules_associate : list rule :=
  for_i (fun w => associates (nm w ".mul-associates") (OI w Mul)) ++
  for_i (fun w => associates (nm w ".add-associates") (OI w Add)) ++
  for_i (fun w => associates (nm w ".and-associates") (OI w And)) ++
  for_i (fun w => associates (nm w ".or-associates") (OI w Or)) ++
  for_i (fun w => associates (nm w ".xor-associates") (OI w Xor)) ++
  for_i (fun w => associates (nm w ".eq-associates") (OI w Eq)).

(** rules.rs:287-307. *)
Definition rules_strength : list rule :=
  for_i (fun w => both (nm w ".mul-by-2") (i2 w Shl vx (TI w 1)) (i2 w Mul vx (TI w 2)) []) ++
  for_i (fun w => both (nm w ".mul-by-4") (i2 w Shl vx (TI w 2)) (i2 w Mul vx (TI w 4)) []) ++
  for_i (fun w => both (nm w ".mul-by-8") (i2 w Shl vx (TI w 3)) (i2 w Mul vx (TI w 8)) []) ++
  both "select-invert" (TSelect vx vy vz) (TSelect vy vx (eqz W32 vz)) [] ++
  for_i (fun w => both (nm w ".add-x-x") (i2 w Add vx vx) (i2 w Mul vx (TI w 2)) []).

(** rules.rs:333-341, 343-369, 371-385 (the two middle ones with the bound on the
    number of globals, line 345). *)
Definition rules_insert (gcount : Z) : list rule :=
  one "container-nop-x" vx (TContainer TNop vx) [] ++
  one "container-x-nop" vx (TContainer vx TNop) [] ++
  for_i (fun w => one (append "container-drop-" (nm w ".rand-x")) vx (TContainer (TDrop (TRand w)) vx) []) ++
  for_i (fun w => one (append "container-x-drop-" (nm w ".rand")) vx (TContainer vx (TDrop (TRand w))) []) ++
  for_i (fun w => one (nm w ".use_of_global") vx (TUseGlobal (PI w) vx) [CType 0 (PI w); CBool (gcount <? 100000)]) ++
  for_f (fun f => one (fnm f ".use_of_global") vx (TUseGlobal (PF f) vx) [CType 0 (PF f); CBool (gcount <? 100000)]) ++
  for_i (fun w => one (nm w ".unfold") vx (TUnfold w vx) [CConst 0; CType 0 (PI w)]).

(** rules.rs:19-618 ([get_rules]) with [preserve_semantics] set: the rules under
    [!config.preserve_semantics] (lines 310-331 and 387-606) are absent. *)
Definition get_rules (reduce : bool) (gcount : Z) : list rule :=
  (if reduce then rules_identities_reduce else rules_identities) ++
  rules_commute ++ rules_associate ++
  (if reduce then [] else rules_strength ++ rules_insert gcount).

(** What may be asked of a term or a pair of terms while egg runs: the term is
    represented in the e-graph, the two terms are in one e-class, the class of
    the term has this type.  Every e-graph egg can build from [start] with
    [rules], in any order and for any number of iterations, represents at most
    what [holds] derives; every expression the mutator yields
    (eggsy/expr_enumerator.rs [lazy_expand], egg's [Extractor]) is drawn from
    the class of [start].  The children of an [unfold] are not rewritten: the
    encoder refuses one whose child is not a literal.
    rules.rs:687-714 ([Condition::check]): the type condition reads the type
    recorded for the class, which is that of one of its nodes
    (eggsy/analysis.rs:602-604, [merge]); the constant condition asks that the
    class be a single literal. *)
Inductive fact := Rep (t : term) | Same (a b : term) | Ty (t : term) (p : prim).

Definition is_literal (t : term) : Prop :=
  match t with TI _ _ | TF _ _ => True | _ => False end.

Inductive child : term -> term -> Prop :=
| ch_bin1 o a b : child a (TBin o a b)
| ch_bin2 o a b : child b (TBin o a b)
| ch_conv c a : child a (TConv c a)
| ch_sel1 a b c : child a (TSelect a b c)
| ch_sel2 a b c : child b (TSelect a b c)
| ch_sel3 a b c : child c (TSelect a b c)
| ch_drop a : child a (TDrop a)
| ch_cont1 a b : child a (TContainer a b)
| ch_cont2 a b : child b (TContainer a b)
| ch_use p a : child a (TUseGlobal p a)
| ch_unf w a : child a (TUnfold w a)
| ch_tee n a : child a (TLocalTee n a)
| ch_grow a : child a (TMemGrow a).

Section Egraph.
Variables (lt gt : list prim) (rules : list rule) (start : term).

Inductive holds : fact -> Prop :=
| h_start : holds (Rep start)
| h_child a t : holds (Rep t) -> child a t -> holds (Rep a)
| h_rep a b : holds (Same a b) -> holds (Rep b)
| h_refl t : holds (Rep t) -> holds (Same t t)
| h_sym a b : holds (Same a b) -> holds (Same b a)
| h_trans a b c : holds (Same a b) -> holds (Same b c) -> holds (Same a c)
| h_bin o a b a' b' : holds (Rep (TBin o a b)) -> holds (Same a a') -> holds (Same b b') ->
    holds (Same (TBin o a b) (TBin o a' b'))
| h_conv c a a' : holds (Rep (TConv c a)) -> holds (Same a a') -> holds (Same (TConv c a) (TConv c a'))
| h_sel a b c a' b' c' : holds (Rep (TSelect a b c)) -> holds (Same a a') -> holds (Same b b') ->
    holds (Same c c') -> holds (Same (TSelect a b c) (TSelect a' b' c'))
| h_drop a a' : holds (Rep (TDrop a)) -> holds (Same a a') -> holds (Same (TDrop a) (TDrop a'))
| h_cont a b a' b' : holds (Rep (TContainer a b)) -> holds (Same a a') -> holds (Same b b') ->
    holds (Same (TContainer a b) (TContainer a' b'))
| h_use p a a' : holds (Rep (TUseGlobal p a)) -> holds (Same a a') ->
    holds (Same (TUseGlobal p a) (TUseGlobal p a'))
| h_tee n a a' : holds (Rep (TLocalTee n a)) -> holds (Same a a') ->
    holds (Same (TLocalTee n a) (TLocalTee n a'))
| h_grow a a' : holds (Rep (TMemGrow a)) -> holds (Same a a') ->
    holds (Same (TMemGrow a) (TMemGrow a'))
| h_rule r s :
    In r rules -> holds (Rep (subst s (r_lhs r))) ->
    (forall v p, In (CType v p) (r_conds r) -> holds (Ty (s v) p)) ->
    (forall v, In (CConst v) (r_conds r) -> is_literal (s v)) ->
    (forall b, In (CBool b) (r_conds r) -> b = true) ->
    holds (Same (subst s (r_lhs r)) (subst s (r_rhs r)))
| h_ty t t' p : holds (Same t t') -> node_type lt gt t' = Some p -> holds (Ty t p)
| h_ty_sel t a b c p : holds (Same t (TSelect a b c)) -> holds (Ty a p) -> holds (Ty t p).
End Egraph.

(** dfg.rs:294-321 ([register_node]), 339-350 ([new_color]), 357-760 ([get_dfg]):
    with [preserve_semantics] the builder numbers the nodes of a basic block with
    a colour that changes after every instruction that leaves nothing on the
    stack and after [local.tee] (line 435); dfg.rs:72-89
    ([is_subtree_consistent]): only a tree of one colour is mutated.  [colours t
    c] are the colours the nodes of [t] get, and the colour afterwards. *)
Fixpoint colours (t : term) (c : Z) : list Z * Z :=
  match t with
  | TNop => ([c], c + 1)
  | TBin _ a b | TContainer a b =>
      let '(la, c) := colours a c in let '(lb, c) := colours b c in (la ++ lb ++ [c], c)
  | TSelect a b d =>
      let '(la, c) := colours a c in let '(lb, c) := colours b c in
      let '(ld, c) := colours d c in (la ++ lb ++ ld ++ [c], c)
  | TConv _ a | TMemGrow a | TUseGlobal _ a | TUnfold _ a =>
      let '(la, c) := colours a c in (la ++ [c], c)
  | TDrop a | TLocalTee _ a => let '(la, c) := colours a c in (la ++ [c], c + 1)
  | _ => ([c], c)
  end.
Definition one_colour (t : term) : bool :=
  match fst (colours t 0) with [] => false | c :: l => forallb (Z.eqb c) l end.
