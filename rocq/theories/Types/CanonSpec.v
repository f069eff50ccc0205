(** What recursion groups, subtyping and validity of defined types mean, after the WebAssembly
    specification (GC, shared-everything-threads, stack switching and custom descriptors). *)
From Verif.Base Require Import Prelude.
From Verif.Types Require Import CanonModel.

(** * The type references inside a type *)
Section Refs.
Context {I : Type}.
Definition refs_opt (o : option I) : list I := match o with Some i => [i] | None => [] end.
Definition refs_heap (h : heap I) : list I := match h with HA _ _ => [] | HC i | HX i => [i] end.
Definition refs_val (v : vty I) : list I := match v with VRef r => refs_heap (rt_heap r) | _ => [] end.
Definition refs_sto (s : sty I) : list I := match s with SVal v => refs_val v | _ => [] end.
Definition refs_inner (n : inner I) : list I :=
  match n with
  | IFunc ps rs => flat_map refs_val ps ++ flat_map refs_val rs
  | IArray f => refs_sto (fd_elem f)
  | IStruct fs => flat_map (fun f => refs_sto (fd_elem f)) fs
  | ICont i => [i]
  end.
Definition refs_sub (t : subty I) : list I :=
  refs_opt (s_super t) ++ refs_opt (c_descriptor (s_comp t)) ++ refs_opt (c_describes (s_comp t)) ++ refs_inner (c_inner (s_comp t)).
End Refs.
(** Replacing every reference. *)
Section Map.
Context {I J : Type} (f : I -> J).
Definition m_heap (h : heap I) : heap J := match h with HA s t => HA s t | HC i => HC (f i) | HX i => HX (f i) end.
Definition m_val (v : vty I) : vty J :=
  match v with VI32 => VI32 | VI64 => VI64 | VF32 => VF32 | VF64 => VF64 | VV128 => VV128
  | VRef r => VRef (mkR (rt_null r) (m_heap (rt_heap r))) end.
Definition m_sto (s : sty I) : sty J := match s with SI8 => SI8 | SI16 => SI16 | SVal v => SVal (m_val v) end.
Definition m_fld (x : fty I) : fty J := mkF (m_sto (fd_elem x)) (fd_mut x).
Definition m_inner (n : inner I) : inner J :=
  match n with
  | IFunc ps rs => IFunc (map m_val ps) (map m_val rs)
  | IArray x => IArray (m_fld x)
  | IStruct fs => IStruct (map m_fld fs)
  | ICont i => ICont (f i)
  end.
Definition m_sub (t : subty I) : subty J :=
  mkS (s_final t) (option_map f (s_super t))
    (mkC (m_inner (c_inner (s_comp t))) (c_shared (s_comp t)) (option_map f (c_descriptor (s_comp t))) (option_map f (c_describes (s_comp t)))).
End Map.

(** * Subtyping, given the list [T] of all defined types *)
(** The hierarchy of abstract heap types, one step at a time. *)
Inductive below : aht -> aht -> Prop :=
| eq_any : below Eq Any | i31_eq : below I31 Eq | struct_eq : below Struct Eq | array_eq : below Array Eq
| none_i31 : below ANone I31 | none_struct : below ANone Struct | none_array : below ANone Array
| nofunc_func : below NoFunc Func | noextern_extern : below NoExtern Extern
| noexn_exn : below NoExn Exn | nocont_cont : below NoCont Cont.
(** The abstract type just above the defined types of a kind, and the one below all of them. *)
Definition kind_of {I} (c : comp I) : aht :=
  match c_inner c with IFunc _ _ => Func | IArray _ => Array | IStruct _ => Struct | ICont _ => Cont end.
Definition bottom_of {I} (c : comp I) : aht :=
  match c_inner c with IFunc _ _ => NoFunc | IArray _ | IStruct _ => ANone | ICont _ => NoCont end.

Section Subtyping.
Variable T : list (subty Z).
Definition is_type (i : Z) (t : subty Z) : Prop := nthz T i = Some t.
Inductive heap_sub : heap Z -> heap Z -> Prop :=
| hs_refl h : heap_sub h h
| hs_trans h1 h2 h3 : heap_sub h1 h2 -> heap_sub h2 h3 -> heap_sub h1 h3
| hs_abs sh a b : below a b -> heap_sub (HA sh a) (HA sh b)
| hs_declared i t j : is_type i t -> s_super t = Some j -> heap_sub (HC i) (HC j)
| hs_exact i : heap_sub (HX i) (HC i)
| hs_kind i t : is_type i t -> heap_sub (HC i) (HA (c_shared (s_comp t)) (kind_of (s_comp t)))
| hs_bottom i t : is_type i t -> heap_sub (HA (c_shared (s_comp t)) (bottom_of (s_comp t))) (HX i).
Definition ref_sub (a b : rty Z) : Prop := (rt_null a = true -> rt_null b = true) /\ heap_sub (rt_heap a) (rt_heap b).
Definition val_sub (a b : vty Z) : Prop :=
  match a, b with VRef a, VRef b => ref_sub a b | VRef _, _ | _, VRef _ => False | _, _ => a = b end.
Definition sto_sub (a b : sty Z) : Prop :=
  match a, b with SVal a, SVal b => val_sub a b | SVal _, _ | _, SVal _ => False | _, _ => a = b end.
Definition fld_sub (a b : fty Z) : Prop :=
  fd_mut a = fd_mut b /\ sto_sub (fd_elem a) (fd_elem b) /\ (fd_mut a = true -> sto_sub (fd_elem b) (fd_elem a)).
(** Structural subtyping: the conditions for a type to be declared a subtype of another. *)
Definition comp_sub (a b : comp Z) : Prop :=
  c_shared a = c_shared b /\
  match c_inner a, c_inner b with
  | IFunc pa ra, IFunc pb rb => Forall2 val_sub pb pa /\ Forall2 val_sub ra rb
  | IArray x, IArray y => fld_sub x y
  | IStruct fa, IStruct fb => exists same rest, fa = same ++ rest /\ Forall2 fld_sub same fb
  | ICont i, ICont j => heap_sub (HC i) (HC j)
  | _, _ => False
  end.

(** * Validity of a defined type *)
(** The values a type holds. *)
Definition sto_vals (s : sty Z) : list (vty Z) := match s with SVal v => [v] | _ => [] end.
Definition vals_of (c : comp Z) : list (vty Z) :=
  match c_inner c with
  | IFunc ps rs => ps ++ rs
  | IArray x => sto_vals (fd_elem x)
  | IStruct fs => flat_map (fun x => sto_vals (fd_elem x)) fs
  | ICont _ => []
  end.
Definition shared_val (v : vty Z) : Prop :=
  match v with
  | VRef r => match rt_heap r with HA sh _ => sh = true | HC i | HX i => exists t, is_type i t /\ c_shared (s_comp t) = true end
  | _ => True
  end.
(** The length of the chain of declared supertypes. *)
Inductive depth : Z -> Z -> Prop :=
| depth_root i t : is_type i t -> s_super t = None -> depth i 0
| depth_sub i t j d : is_type i t -> s_super t = Some j -> depth j d -> depth i (d + 1).
Definition struct_type (t : subty Z) : Prop := exists fs, c_inner (s_comp t) = IStruct fs.
(** [u] declares [o] as its supertype. *)
Definition declares (i o : Z) : Prop := exists t, is_type i t /\ s_super t = Some o.
Record valid_type (i : Z) (t : subty Z) : Prop := mkValid {
  (* a shared type holds shared values only *)
  v_shared : c_shared (s_comp t) = true -> Forall shared_val (vals_of (s_comp t));
  (* a continuation is made of a function *)
  v_cont : forall j, c_inner (s_comp t) = ICont j -> exists u ps rs, is_type j u /\ c_inner (s_comp u) = IFunc ps rs;
  (* the declared supertype is open and matches structurally *)
  v_super : forall j, s_super t = Some j -> exists u, is_type j u /\ s_final u = false /\ comp_sub (s_comp t) (s_comp u);
  (* chains of supertypes are short *)
  v_depth : exists d, depth i d /\ d <= 63;
  (* descriptors and described types are structures and name each other *)
  v_clause : c_descriptor (s_comp t) <> None \/ c_describes (s_comp t) <> None -> struct_type t;
  v_descriptor : forall d, c_descriptor (s_comp t) = Some d -> exists u, is_type d u /\ c_describes (s_comp u) = Some i;
  v_describes : forall d, c_describes (s_comp t) = Some d -> exists u, is_type d u /\ c_descriptor (s_comp u) = Some i;
  (* and follow the supertypes *)
  v_super_clause : forall j u, s_super t = Some j -> is_type j u ->
    match c_descriptor (s_comp t), c_descriptor (s_comp u) with
    | Some d, Some du => declares d du
    | None, Some _ => False
    | _, None => True
    end /\
    match c_describes (s_comp t), c_describes (s_comp u) with
    | Some a, Some b => declares a b
    | None, None => True
    | _, _ => False
    end
}.
End Subtyping.

(** A reference to a defined type. *)
Definition defined (T : list (subty Z)) (i : Z) : Prop := 0 <= i < zlen T.

(** * A group in its module *)
(** Scoping: references are to earlier types of the module or to the group itself, supertypes and
    described types to earlier types. *)
Definition before (b : Z) (o : option Z) : Prop := match o with Some i => i < b | None => True end.
Definition in_scope (have len k : Z) (t : subty Z) : Prop :=
  Forall (fun i => 0 <= i < have + len) (refs_sub t) /\
  before (have + k) (s_super t) /\ before (have + k) (c_describes (s_comp t)).
Definition group_in_scope (have : Z) (g : list (subty Z)) : Prop :=
  forall k t, nthz g k = Some t -> in_scope have (zlen g) k t.
(** The ids the references of a group stand for, if its types are put at [base]. *)
Definition place (ids : list Z) (base i : Z) : Z :=
  match nthz ids i with Some id => id | None => base + (i - zlen ids) end.
Definition placed (ids : list Z) (base : Z) (g : list (subty Z)) : list (subty Z) := map (m_sub (place ids base)) g.

(** * What a type is, apart from any numbering *)
(** A type of a group is that group and a position in it; inside the group references are positions,
    the others are types in turn. *)
Inductive meaning := Inside (k : Z) | Outside (g : list (subty meaning)) (k : Z).
Fixpoint count {A} (k : Z) (l : list A) : list Z := match l with [] => [] | _ :: l => k :: count (k + 1) l end.
(** The meaning of the types of a group, given those of the module before it. *)
Definition roll (env : list meaning) (i : Z) : meaning :=
  match nthz env i with Some m => m | None => Inside (i - zlen env) end.
Definition group_meaning (env : list meaning) (g : list (subty Z)) : list (subty meaning) := map (m_sub (roll env)) g.
Definition group_types (env : list meaning) (g : list (subty Z)) : list meaning := map (Outside (group_meaning env g)) (count 0 g).
(** The meanings of the types of every scope after a history. *)
Definition mupd (f : Z -> list meaning) (k : Z) (v : list meaning) : Z -> list meaning := fun x => if x =? k then v else f x.
Fixpoint meanings (sc : Z -> list meaning) (h : list event) : Z -> list meaning :=
  match h with
  | [] => sc
  | AddGroup k g :: h => meanings (mupd sc k (sc k ++ group_types (sc k) g)) h
  | Alias k from i :: h => meanings (mupd sc k (sc k ++ match nthz (sc from) i with Some m => [m] | None => [] end)) h
  | HostFunc _ _ :: h => meanings sc h
  end.
Definition no_meanings : Z -> list meaning := fun _ => [].

(** What the theorems range over: a validator that accepted a history. *)
Definition reached (h : list event) (w : world) : Prop := run start_world h = Done w.
(** An outcome that is an answer [r] with [r = true] exactly when [P]. *)
Definition decides (o : outcome bool) (P : Prop) : Prop := exists r, o = Done r /\ (r = true <-> P).
