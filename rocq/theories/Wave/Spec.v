(** What C38 is about: types with proper names, values of a type, nesting, the
    text of a number. *)
From Coq Require Import ZArith Lia List Bool String Arith Sorted.
From Verif Require Import Base.Prelude Names.Kebab Names.KebabProofs Wave.Model.
Import ListNotations.
Open Scope Z_scope.

(** A Unicode scalar value. *)
Definition scalar (c : Z) : Prop := 0 <= c < 0xd800 \/ 0xe000 <= c <= 0x10ffff.
Definition names_ok (l : list str) : Prop := Forall label l /\ NoDup l.
Definition width (w : Z) : Prop := w = 8 \/ w = 16 \/ w = 32 \/ w = 64.

(** Types whose names are labels of the component model (such as WIT has), no two
    in a type alike, and whose tuples are not empty. *)
Inductive ty_ok : ty -> Prop :=
| O_bool : ty_ok TBool
| O_int signed w : width w -> ty_ok (TInt signed w)
| O_float w : w = 32 \/ w = 64 -> ty_ok (TFloat w)
| O_char : ty_ok TChar
| O_string : ty_ok TString
| O_list t : ty_ok t -> ty_ok (TList t)
| O_record fields : names_ok (List.map fst fields) -> Forall (fun f => ty_ok (snd f)) fields -> ty_ok (TRecord fields)
| O_tuple ts : ts <> [] -> Forall ty_ok ts -> ty_ok (TTuple ts)
| O_variant cases : names_ok (List.map fst cases) -> (forall name t, In (name, Some t) cases -> ty_ok t) -> ty_ok (TVariant cases)
| O_enum cases : names_ok cases -> ty_ok (TEnum cases)
| O_option t : ty_ok t -> ty_ok (TOption t)
| O_result ok err : (forall t, ok = Some t -> ty_ok t) -> (forall t, err = Some t -> ty_ok t) -> ty_ok (TResult ok err)
| O_flags names : names_ok names -> ty_ok (TFlags names).

(** The bits of an IEEE 754 number [w] bits wide: below the sign the exponent, below it the fraction.  A NaN has
    an exponent of ones and a fraction which is not zero; the canonical one is positive and has in the fraction
    only the highest bit. *)
Definition fraction_bits (w : Z) : Z := if w =? 32 then 23 else 52.
Definition exponent_ones (w : Z) : Z := 2 ^ (w - 1 - fraction_bits w) - 1.
Definition nan_bits (w b : Z) : Prop :=
  (b / 2 ^ fraction_bits w) mod 2 ^ (w - 1 - fraction_bits w) = exponent_ones w /\ b mod 2 ^ fraction_bits w <> 0.
Definition quiet_nan (w : Z) : Z := exponent_ones w * 2 ^ fraction_bits w + 2 ^ (fraction_bits w - 1).

(** A payload where there is a type for one, and only there. *)
Inductive opt_has (P : ty -> value -> Prop) : option ty -> option value -> Prop :=
| P_none : opt_has P None None
| P_some t v : P t v -> opt_has P (Some t) (Some v).
(** Values of a type: a NaN is the canonical one, a set of flags lists each once
    and in order. *)
Inductive has_type : ty -> value -> Prop :=
| H_bool b : has_type TBool (VBool b)
| H_int (signed : bool) w z : (if signed then in_s w z else in_u w z) -> has_type (TInt signed w) (VInt z)
| H_float w b : in_u w b -> (nan_bits w b -> b = quiet_nan w) -> has_type (TFloat w) (VFloat b)
| H_char c : scalar c -> has_type TChar (VChar c)
| H_string s : Forall scalar s -> has_type TString (VString s)
| H_list t vs : Forall (has_type t) vs -> has_type (TList t) (VList vs)
| H_record fields vs : Forall2 (fun f v => has_type (snd f) v) fields vs -> has_type (TRecord fields) (VRecord vs)
| H_tuple ts vs : Forall2 has_type ts vs -> has_type (TTuple ts) (VTuple vs)
| H_variant cases i name t v : nth_error cases i = Some (name, t) -> opt_has has_type t v -> has_type (TVariant cases) (VVariant i v)
| H_enum cases i : (i < List.length cases)%nat -> has_type (TEnum cases) (VEnum i)
| H_none t : has_type (TOption t) (VOption None)
| H_some t v : has_type t v -> has_type (TOption t) (VOption (Some v))
| H_ok ok err v : opt_has has_type ok v -> has_type (TResult ok err) (VResult true v)
| H_err ok err v : opt_has has_type err v -> has_type (TResult ok err) (VResult false v)
| H_flags names is : StronglySorted lt is -> Forall (fun i => (i < List.length names)%nat) is -> has_type (TFlags names) (VFlags is).

(** How deep values are nested. *)
Fixpoint depth (v : value) : nat :=
  let many := fold_right (fun v n => Nat.max (depth v) n) O in
  match v with
  | VList vs | VRecord vs | VTuple vs => S (many vs)
  | VVariant _ (Some v) | VOption (Some v) | VResult _ (Some v) => S (depth v)
  | _ => 1
  end.

(** The text of a number: an optional minus, zero or digits which do not begin
    with it, an optional fraction, an optional exponent; or an infinity. *)
Definition digits (s : str) : Prop := s <> [] /\ Forall (fun c => dg c = true) s.
Definition number_text (s : str) : Prop :=
  s = lit "inf" \/ s = lit "-inf" \/
  exists m i f e, s = m ++ i ++ f ++ e /\ (m = [] \/ m = lit "-") /\
    (i = lit "0" \/ digits i /\ forall t, i <> 48 :: t) /\
    (f = [] \/ exists d, f = 46 :: d /\ digits d) /\
    (e = [] \/ exists c g d, e = c :: g ++ d /\ (c = 101 \/ c = 69) /\ (g = [] \/ g = lit "-" \/ g = lit "+") /\ digits d).
(** What is relied on of the standard library's floats: what is written is a
    number's text and is read as the same bits, and [nan] is read as a NaN. *)
Definition float_contract (fmt : Z -> Z -> str) (parse : Z -> str -> option Z) : Prop :=
  forall w, w = 32 \/ w = 64 ->
    (exists b, parse w (lit "nan") = Some b /\ in_u w b /\ nan_bits w b) /\
    (forall b, in_u w b -> ~ nan_bits w b -> number_text (fmt w b) /\ parse w (fmt w b) = Some b).
