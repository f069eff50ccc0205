(** What the component model's canonical ABI (CanonicalABI.md, "Alignment",
    "Element Size", "Flattening") prescribes, for pointers of [p] bytes: [p = 4] is
    the document's text, [p = 8] the same formulas for 64-bit memories. *)
From Verif.Base Require Import Prelude.
From Verif.Wit Require Import LayoutModel.

(** Value types with the names resolved. *)
Inductive vt :=
| VPrim (p : prim)
| VList                                (* list<_>, map<_,_> *)
| VFixed (t : vt) (n : Z)
| VRecord (fields : list vt)           (* records and tuples *)
| VVariant (cases : list (option vt))  (* variant, enum, option, result *)
| VFlags (n : Z)
| VHandle.                             (* own, borrow, future, stream *)

Fixpoint all_some {A} (l : list (option A)) : option (list A) :=
  match l with
  | [] => Some []
  | Some a :: l => match all_some l with Some l => Some (a :: l) | None => None end
  | None :: _ => None
  end.
(** [Some None] for a case without payload. *)
Definition flip_opt {A B} (f : A -> option B) (o : option A) : option (option B) :=
  match o with None => Some None | Some a => match f a with Some b => Some (Some b) | None => None end end.

(** [expand n defs t = Some v]: [t] stands for [v]; [n] bounds the depth of the
    definitions followed. *)
Fixpoint expand (n : nat) (defs : list kind) (t : ty) : option vt :=
  match t with
  | TPrim p => Some (VPrim p)
  | TId i =>
      match n, nth_error defs i with
      | S n, Some k =>
          let ex := expand n defs in
          match k with
          | KRecord l | KTuple l => match all_some (map ex l) with Some vs => Some (VRecord vs) | None => None end
          | KVariant l => match all_some (map (flip_opt ex) l) with Some vs => Some (VVariant vs) | None => None end
          | KOption t => match ex t with Some v => Some (VVariant [None; Some v]) | None => None end
          | KResult a b => match flip_opt ex a, flip_opt ex b with
                           | Some a, Some b => Some (VVariant [a; b]) | _, _ => None end
          | KEnum n => Some (VVariant (repeat None (Z.to_nat n)))
          | KFlags n => Some (VFlags n)
          | KFixed t n => match ex t with Some v => Some (VFixed v n) | None => None end
          | KList _ | KMap _ _ => Some VList
          | KHandle | KFuture _ | KStream _ => Some VHandle
          | KType t => ex t
          | KResource | KUnknown => None
          end
      | _, _ => None
      end
  end.

(** Round [s] up to a multiple of [a]. *)
Definition round_up (s a : Z) : Z := (s + (a - 1)) / a * a.

Definition prim_bytes (p : Z) (t : prim) : Z :=
  match t with
  | PBool | PU8 | PS8 => 1
  | PU16 | PS16 => 2
  | PU32 | PS32 | PF32 | PChar | PErrorContext => 4
  | PU64 | PS64 | PF64 => 8
  | PString => 2 * p
  end.
Definition prim_alignment (p : Z) (t : prim) : Z :=
  match t with PString => p | t => prim_bytes p t end.

(** Bytes of the discriminant: [2 ^ (8 * b)] is the least such power that is at
    least the number of cases. *)
Definition discriminant_bytes (cases : Z) : Z :=
  if cases <=? 2 ^ 8 then 1 else if cases <=? 2 ^ 16 then 2 else 4.

Definition flags_bytes (n : Z) : Z :=
  if n <=? 8 then 1 else if n <=? 16 then 2 else 4 * ((n + 31) / 32).
Definition flags_alignment (n : Z) : Z := if n <=? 8 then 1 else if n <=? 16 then 2 else 4.

Definition max_of (l : list Z) (d : Z) : Z := fold_right Z.max d l.

Fixpoint alignment (p : Z) (v : vt) : Z :=
  match v with
  | VPrim t => prim_alignment p t
  | VList => p
  | VFixed t _ => alignment p t
  | VRecord fs => max_of (map (alignment p) fs) 1
  | VVariant cs =>
      Z.max (discriminant_bytes (zlen cs))
            (max_of (map (fun c => match c with Some t => alignment p t | None => 1 end) cs) 1)
  | VFlags n => flags_alignment n
  | VHandle => 4
  end.
Definition case_alignment (p : Z) (cs : list (option vt)) : Z :=
  max_of (map (fun c => match c with Some t => alignment p t | None => 1 end) cs) 1.

Fixpoint elem_size (p : Z) (v : vt) : Z :=
  match v with
  | VPrim t => prim_bytes p t
  | VList => 2 * p
  | VFixed t n => n * elem_size p t
  | VRecord fs =>
      round_up (fold_left (fun s f => round_up s (alignment p f) + elem_size p f) fs 0)
               (alignment p (VRecord fs))
  | VVariant cs =>
      round_up (round_up (discriminant_bytes (zlen cs)) (case_alignment p cs)
                + max_of (map (fun c => match c with Some t => elem_size p t | None => 0 end) cs) 0)
               (alignment p (VVariant cs))
  | VFlags n => flags_bytes n
  | VHandle => 4
  end.

(** Types the component model allows: no empty flags, at least one case,
    counts within 32 bits; and no part of the type is so big that its size comes
    near the end of a 64-bit address space. *)
Definition LIMIT : Z := 2 ^ 60.
Fixpoint allowed (v : vt) : Prop :=
  elem_size 8 v < LIMIT /\
  match v with
  | VPrim _ | VList | VHandle => True
  | VFixed t n => 0 <= n < 2 ^ 32 /\ allowed t
  | VRecord fs => fold_right (fun f P => allowed f /\ P) True fs
  | VVariant cs => 0 < zlen cs <= 2 ^ 32 /\
      fold_right (fun c P => match c with Some t => allowed t | None => True end /\ P) True cs
  | VFlags n => 0 < n < 2 ^ 60
  end.

(** Fields [vs] placed at [offs], from position [pos] on, within [fin] bytes: in
    order, aligned, without overlap and with no more padding than alignment needs. *)
Fixpoint laid_out (p pos : Z) (vs : list vt) (offs : list Z) (fin : Z) : Prop :=
  match vs, offs with
  | [], [] => pos <= fin
  | v :: vs, o :: offs =>
      pos <= o < pos + alignment p v /\ o mod alignment p v = 0 /\
      laid_out p (o + elem_size p v) vs offs fin
  | _, _ => False
  end.

(** Definitions refer to earlier ones only. *)
Definition refs (k : kind) : list ty :=
  match k with
  | KRecord l | KTuple l => l
  | KVariant l => somes l
  | KOption t | KFixed t _ | KType t => [t]
  | KResult a b => somes [a; b]
  | _ => []
  end.
Definition earlier (i : nat) (t : ty) : Prop := match t with TPrim _ => True | TId j => (j < i)%nat end.
Definition in_dependency_order (defs : list kind) : Prop :=
  forall i k, nth_error defs i = Some k -> Forall (earlier i) (refs k).
