(** Structured function bodies and the scopes of their labels. *)
From Coq Require Import List Arith.
Import ListNotations.
From Verif.Label Require Import Model.

(** A body as the grammar has it: blocks with their contents. *)
Inductive code :=
| Nil
| Br (k : nat) (labels : list idx) (rest : code)
| Loc (k : nat) (i : idx) (rest : code)
| Oth (n : nat) (rest : code)
| Blk (k : nat) (label : option nat) (body : code) (label_end : option nat) (rest : code)
| IfElse (k : nat) (label : option nat) (body : code) (label_else : option nat) (body_else : code) (label_end : option nat) (rest : code)
| Try (label : option nat) (catches : list idx) (body : code) (label_end : option nat) (rest : code)
| TryDelegate (k : nat) (label : option nat) (body : code) (target : idx) (rest : code).
(** The instructions of a body in order, followed by [t]. *)
Fixpoint flat (c : code) (t : list ins) : list ins :=
  match c with
  | Nil => t
  | Br k l r => Branch k l :: flat r t
  | Loc k i r => Local k i :: flat r t
  | Oth n r => Other n :: flat r t
  | Blk k x b e r => Open k x :: flat b (End e :: flat r t)
  | IfElse k x b y b' e r => Open k x :: flat b (Else y :: flat b' (End e :: flat r t))
  | Try x cs b e r => TryTable x cs :: flat b (End e :: flat r t)
  | TryDelegate k x b l r => Open k x :: flat b (Delegate l :: flat r t)
  end.
(** A name stands for the place of the first entry of that name, and a number for itself. *)
Definition stands (env : list (option nat)) (i j : idx) : Prop :=
  match i with
  | Num n => j = Num n
  | Sym x => exists n, j = Num n /\ nth_error env n = Some (Some x) /\ forall m, m < n -> nth_error env m <> Some (Some x)
  end.
(** A label repeated at the end of a block is that of the block. *)
Definition repeats (e label : option nat) : Prop := e = None \/ e = label.
(** [means locals env c c']: [c'] is [c] with its names replaced, where [env] are the labels of the blocks around it, the innermost first.
    A catch and the target of a delegate are outside of their block. *)
Inductive means (locals : list (option nat)) : list (option nat) -> code -> code -> Prop :=
| MNil : forall env, means locals env Nil Nil
| MBr : forall env k l l' r r', Forall2 (stands env) l l' -> means locals env r r' -> means locals env (Br k l r) (Br k l' r')
| MLoc : forall env k i i' r r', stands locals i i' -> means locals env r r' -> means locals env (Loc k i r) (Loc k i' r')
| MOth : forall env n r r', means locals env r r' -> means locals env (Oth n r) (Oth n r')
| MBlk : forall env k x b b' e r r', means locals (x :: env) b b' -> repeats e x -> means locals env r r' -> means locals env (Blk k x b e r) (Blk k x b' e r')
| MIf : forall env k x b b' y c c' e r r', means locals (x :: env) b b' -> repeats y x -> means locals (x :: env) c c' -> repeats e x -> means locals env r r' ->
    means locals env (IfElse k x b y c e r) (IfElse k x b' y c' e r')
| MTry : forall env x l l' b b' e r r', Forall2 (stands env) l l' -> means locals (x :: env) b b' -> repeats e x -> means locals env r r' -> means locals env (Try x l b e r) (Try x l' b' e r')
| MDel : forall env k x b b' l l' r r', means locals (x :: env) b b' -> stands env l l' -> means locals env r r' -> means locals env (TryDelegate k x b l r) (TryDelegate k x b' l' r').
(** The names of locals are distinct. *)
Definition names (l : list (option nat)) : list nat := flat_map (fun o => match o with Some x => [x] | None => [] end) l.
(** No names are left. *)
Definition number (i : idx) : Prop := exists n, i = Num n.
Definition resolved (i : ins) : Prop :=
  match i with
  | Branch _ ls | TryTable _ ls => Forall number ls
  | Delegate i | Local _ i => number i
  | Open _ _ | Else _ | End _ | Other _ => True
  end.
(** Other names: [f] on those of labels and [g] on those of locals. *)
Definition rename_idx (f : nat -> nat) (i : idx) : idx := match i with Num n => Num n | Sym x => Sym (f x) end.
Definition rename (f g : nat -> nat) (i : ins) : ins :=
  match i with
  | Open k x => Open k (option_map f x)
  | TryTable x ls => TryTable (option_map f x) (map (rename_idx f) ls)
  | Else x => Else (option_map f x)
  | End x => End (option_map f x)
  | Branch k ls => Branch k (map (rename_idx f) ls)
  | Delegate i => Delegate (rename_idx f i)
  | Local k i => Local k (rename_idx g i)
  | Other n => Other n
  end.
(** Different names stay different; the error about a name is about the new one. *)
Definition inj (f : nat -> nat) : Prop := forall x y, f x = f y -> x = y.
Definition rename_err (f g : nat -> nat) (e : failure) : failure :=
  match e with UnknownLabel x => UnknownLabel (f x) | UnknownLocal x => UnknownLocal (g x) | DuplicateLocal x => DuplicateLocal (g x) | Mismatch x => Mismatch (f x) end.
Definition rename_res {A} (f g : nat -> nat) (h : A -> A) (r : res A) : res A := match r with Ok a => Ok (h a) | Err e => Err (rename_err f g e) end.
