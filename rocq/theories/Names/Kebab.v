(** Kebab-case strings: crates/wasmparser/src/validator/names.rs:20-120.

    A string is the list of its characters (code points). *)
From Coq Require Import ZArith Lia List Bool Ascii String.
From Verif Require Import Base.Prelude.
Import ListNotations.
Open Scope Z_scope.

Definition str := list Z.
(** A string literal (ASCII). *)
Definition lit (s : string) : str := map (fun c => Z.of_nat (nat_of_ascii c)) (list_ascii_of_string s).

Definition in_range (lo hi c : Z) : bool := (lo <=? c) && (c <=? hi).
Definition lc (c : Z) : bool := in_range 97 122 c.      (* 'a'..='z' *)
Definition uc (c : Z) : bool := in_range 65 90 c.       (* 'A'..='Z' *)
Definition dg (c : Z) : bool := in_range 48 57 c.       (* '0'..='9' *)
Definition dash : Z := 45.                              (* '-' *)

(** names.rs:46-70 ([KebabStr::is_kebab_case]), the loop: the four flags. *)
Fixpoint kebab_loop (s : str) (lower upper is_first has_digit : bool) : bool :=
  match s with
  | [] => true
  | c :: s =>
      if lc c && (negb lower && negb upper) then kebab_loop s true upper is_first has_digit
      else if uc c && (negb lower && negb upper) then kebab_loop s lower true is_first has_digit
      else if dg c && (negb lower && negb upper && negb is_first) then kebab_loop s lower upper is_first true
      else if lc c && lower then kebab_loop s lower upper is_first has_digit
      else if uc c && upper then kebab_loop s lower upper is_first has_digit
      else if dg c && (lower || upper) then kebab_loop s lower upper is_first true
      else if (c =? dash) && (lower || upper || has_digit) then kebab_loop s false false false false
      else false
  end.

(** [str::ends_with] a character. *)
Definition ends_with_char (s : str) (c : Z) : bool :=
  match rev s with x :: _ => x =? c | [] => false end.

(** names.rs:46-70 ([is_kebab_case]); 27-30 ([KebabStr::new] is [Some] exactly
    when it is true). *)
Definition is_kebab_case (s : str) : bool :=
  kebab_loop s false false true false && (negb (match s with [] => true | _ => false end) && negb (ends_with_char s dash)).

(** [char::to_ascii_lowercase]. *)
Definition to_lower (c : Z) : Z := if uc c then c + 32 else c.

(** The number of bytes of a character in UTF-8, and [str::len]. *)
Definition char_len (c : Z) : Z := if c <? 128 then 1 else if c <? 2048 then 2 else if c <? 65536 then 3 else 4.
Definition str_len (s : str) : Z := fold_right (fun c n => char_len c + n) 0 s.

(** names.rs:81-91 ([PartialEq]): [zip] stops at the shorter one. *)
Fixpoint zip_all (a b : str) : bool :=
  match a, b with x :: a, y :: b => (to_lower x =? to_lower y) && zip_all a b | _, _ => true end.
Definition kebab_eq (a b : str) : bool := if negb (str_len a =? str_len b) then false else zip_all a b.

(** [Iterator::cmp]: lexicographic; the derived order of [str] is that of its
    bytes, which for UTF-8 is that of its characters. *)
Fixpoint lex (f : Z -> Z) (a b : str) : comparison :=
  match a, b with
  | [], [] => Datatypes.Eq | [], _ :: _ => Datatypes.Lt | _ :: _, [] => Datatypes.Gt
  | x :: a, y :: b => match f x ?= f y with Datatypes.Eq => lex f a b | o => o end
  end.
(** names.rs:99-105 ([Ord]). *)
Definition kebab_cmp : str -> str -> comparison := lex to_lower.
(** [str::cmp]. *)
Definition str_cmp : str -> str -> comparison := lex (fun c => c).

(** names.rs:113-121 ([Hash]): what is fed to the hasher. *)
Definition kebab_hash (a : str) : list Z := str_len a :: map to_lower a.
