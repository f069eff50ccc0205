(** Component import and export names: crates/wasmparser/src/validator/names.rs:210-917.

    Simplified: positions in strings are counted in characters rather than bytes,
    and an error is [None] (messages are not modelled).  The [semver] crate's
    [Version::parse] is a parameter: whether it accepts the string. *)
From Coq Require Import ZArith Lia List Bool String.
From Verif Require Import Base.Prelude Names.Kebab.
Import ListNotations.
Open Scope Z_scope.

(** names.rs:236-246 ([ParsedComponentNameKind]), in this order. *)
Inductive pkind := PLabel | PConstructor | PMethod | PStatic | PInterface | PDependency | PUrl | PHash.
Definition rank (k : pkind) : Z :=
  match k with PLabel => 0 | PConstructor => 1 | PMethod => 2 | PStatic => 3 | PInterface => 4
             | PDependency => 5 | PUrl => 6 | PHash => 7 end.

(** names.rs:250-276 ([ComponentNameKind]). *)
Inductive ckind :=
| Label (s : str) | Constructor (s : str) | Method (s : str) | Static (s : str)
| Interface (s : str) | Dependency (s : str) | Url (s : str) | Hash (s : str).

(** [str::strip_prefix], [str::find] with a character (what is before it, and
    what starts with it), [str::rfind]. *)
Fixpoint strip_prefix (p s : str) : option str :=
  match p, s with
  | [], _ => Some s
  | x :: p, y :: s => if x =? y then strip_prefix p s else None
  | _ :: _, [] => None
  end.
Fixpoint find (c : Z) (s : str) : option (str * str) :=
  match s with
  | [] => None
  | x :: s' => if x =? c then Some ([], s) else match find c s' with Some (a, b) => Some (x :: a, b) | None => None end
  end.
Fixpoint rfind (c : Z) (s : str) : option (str * str) :=
  match s with
  | [] => None
  | x :: s' => match rfind c s' with
               | Some (a, b) => Some (x :: a, b)
               | None => if x =? c then Some ([], s) else None
               end
  end.
Definition contains (c : Z) (s : str) : bool := match find c s with Some _ => true | None => false end.

Definition CONSTRUCTOR := lit "[constructor]".
Definition METHOD := lit "[method]".
Definition STATIC := lit "[static]".

Section Parse.
Variable semver : str -> bool.
(** [WasmFeatures::cm_nested_names]. *)
Variable nested : bool.

(** The parser's methods take what is left of the name and return what is left
    afterwards, or [None] for an error. *)
(** names.rs:806-814 ([eat_str]) and 816-822 ([expect_str]). *)
Definition expect_str (p : string) (s : str) : option str := strip_prefix (lit p) s.
(** names.rs:898-901 ([expect_kebab]): takes all there is. *)
Definition expect_kebab (s : str) : option str := if is_kebab_case s then Some [] else None.
(** names.rs:873-882 ([take_kebab]). *)
Definition kebab_char (c : Z) : bool := lc c || uc c || dg c || (c =? dash).
Fixpoint span (f : Z -> bool) (s : str) : str * str :=
  match s with
  | [] => ([], [])
  | c :: s' => if f c then let (a, b) := span f s' in (c :: a, b) else ([], s)
  end.
Definition take_kebab (s : str) : option (str * str) :=
  let (k, r) := span kebab_char s in if is_kebab_case k then Some (k, r) else None.
(** names.rs:884-896 ([take_lowercase_kebab]): kebab strings are ASCII. *)
Definition take_lowercase_kebab (s : str) : option str :=
  match take_kebab s with
  | Some (k, r) => if existsb uc k then None else Some r
  | None => None
  end.
(** names.rs:853-858 ([take_until]). *)
Definition take_until (c : Z) (s : str) : option (str * str) :=
  match find c s with Some (a, b) => Some (a, tl b) | None => None end.

(** names.rs:692-723 ([pkg_path]).  The loops consume at least a character each
    time: the fuel is the length. *)
Fixpoint namespaces (fuel : nat) (s : str) : option str :=
  match fuel, strip_prefix (lit ":") s with
  | S fuel, Some s => match take_lowercase_kebab s with Some s => namespaces fuel s | None => None end
  | _, _ => Some s
  end.
Fixpoint projections (fuel : nat) (s : str) : option str :=
  match fuel, strip_prefix (lit "/") s with
  | S fuel, Some s => match take_kebab s with Some (_, s) => projections fuel s | None => None end
  | _, _ => Some s
  end.
Definition pkg_path (require_projection : bool) (s : str) : option str :=
  match take_lowercase_kebab s with
  | None => None
  | Some s => match expect_str ":" s with
  | None => None
  | Some s => match take_lowercase_kebab s with
  | None => None
  | Some s => match (if nested then namespaces (List.length s) s else Some s) with
  | None => None
  | Some s => match strip_prefix (lit "/") s with
      | Some s => match take_kebab s with
                  | None => None
                  | Some (_, s) => if nested then projections (List.length s) s else Some s
                  end
      | None => if require_projection then None else Some s
      end
  end end end end.

(** names.rs:672-689 ([pkg_name]). *)
Definition pkg_name (is_interface_name : bool) (s : str) : option str :=
  match pkg_path is_interface_name s with
  | None => None
  | Some s => match strip_prefix (lit "@") s with
      | None => Some s
      | Some s => let (version, rest) := match find 62 s with Some (a, b) => (a, b) | None => (s, []) end in
                  if is_interface_name || semver version then Some rest else None
      end
  end.

(** names.rs:730-763 ([semver_range]). *)
Definition semver_range (range : str) : bool :=
  if match strip_prefix (lit "*") range with Some [] => true | _ => false end then true
  else match strip_prefix (lit ">=") range with
  | Some range =>
      match find 32 range with
      | None => semver range
      | Some (lower, upper) => semver lower && match strip_prefix (lit "<") (tl upper) with Some u => semver u | None => false end
      end
  | None => match strip_prefix (lit "<") range with Some u => semver u | None => false end
  end.

(** names.rs:654-669 ([pkg_name_query]). *)
Definition pkg_name_query (s : str) : option str :=
  match pkg_path false s with
  | None => None
  | Some s => match strip_prefix (lit "@") s with
      | None => Some s
      | Some s => match strip_prefix (lit "*") s with
          | Some s => Some s
          | None => match expect_str "{" s with
              | None => None
              | Some s => match find 125 s with
                  | None => None
                  | Some (range, s) => if semver_range range then Some (tl s) else None
                  end
              end
          end
      end
  end.

(** names.rs:904-917 ([is_base64]). *)
Fixpoint base64_loop (first : bool) (equals : nat) (s : str) : bool :=
  match s with
  | [] => true
  | c :: s => if (dg c || lc c || uc c || (c =? 43) || (c =? 47)) && (match equals with O => true | _ => false end)
              then base64_loop false equals s
              else if (c =? 61) && (negb first && (Nat.ltb equals 2)) then base64_loop false (S equals) s
              else false
  end.
Definition is_base64 (s : str) : bool := match s with [] => false | _ => base64_loop true 0 s end.

(** [str::split_whitespace]: Unicode's [White_Space]. *)
Definition white (c : Z) : bool :=
  in_range 9 13 c || existsb (Z.eqb c) [32; 133; 160; 5760; 8232; 8233; 8239; 8287; 12288] || in_range 8192 8202 c.
Fixpoint split_white (cur s : str) : list str :=
  match s with
  | [] => match cur with [] => [] | _ => [rev cur] end
  | c :: s => if white c then match cur with [] => split_white [] s | _ => rev cur :: split_white [] s end
              else split_white (c :: cur) s
  end.

(** names.rs:765-794 ([parse_hash]). *)
Definition hash_ok (h : str) : bool :=
  match (match strip_prefix (lit "sha256") h with Some r => Some r | None =>
         match strip_prefix (lit "sha384") h with Some r => Some r | None => strip_prefix (lit "sha512") h end end) with
  | None => false
  | Some r => match strip_prefix (lit "-") r with
      | None => false
      | Some r => is_base64 (match find 63 r with Some (a, _) => a | None => r end)
      end
  end.
Definition parse_hash (s : str) : option str :=
  match find 62 s with
  | None => None
  | Some (integrity, s) => let hs := split_white [] integrity in
      if forallb hash_ok hs && (match hs with [] => false | _ => true end) then Some s else None
  end.
(** names.rs:796-804 ([eat_optional_hash]). *)
Definition eat_optional_hash (s : str) : option str :=
  match strip_prefix (lit ",") s with
  | None => Some s
  | Some s => match expect_str "integrity=<" s with
      | None => None
      | Some s => match parse_hash s with None => None | Some s => expect_str ">" s end
      end
  end.

(** names.rs:589-651 ([parse]). *)
Definition parse (s : str) : option (pkind * str) :=
  let ret k r := match r with Some s => Some (k, s) | None => None end in
  match strip_prefix CONSTRUCTOR s with Some s => ret PConstructor (expect_kebab s) | None =>
  match strip_prefix METHOD s with
  | Some s => ret PMethod (match take_until 46 s with
                           | Some (r, s) => if is_kebab_case r then expect_kebab s else None
                           | None => None end) | None =>
  match strip_prefix STATIC s with
  | Some s => ret PStatic (match take_until 46 s with
                           | Some (r, s) => if is_kebab_case r then expect_kebab s else None
                           | None => None end) | None =>
  match strip_prefix (lit "unlocked-dep=") s with
  | Some s => ret PDependency (match expect_str "<" s with
                               | Some s => match pkg_name_query s with Some s => expect_str ">" s | None => None end
                               | None => None end) | None =>
  match strip_prefix (lit "locked-dep=") s with
  | Some s => ret PDependency (match expect_str "<" s with
                               | Some s => match pkg_name false s with
                                           | Some s => match expect_str ">" s with Some s => eat_optional_hash s | None => None end
                                           | None => None end
                               | None => None end) | None =>
  match strip_prefix (lit "url=") s with
  | Some s => ret PUrl (match expect_str "<" s with
                        | Some s => match find 62 s with
                                    | Some (url, s) => if contains 60 url then None
                                                       else match expect_str ">" s with Some s => eat_optional_hash s | None => None end
                                    | None => None end
                        | None => None end) | None =>
  match strip_prefix (lit "integrity=") s with
  | Some s => ret PHash (match expect_str "<" s with
                         | Some s => match parse_hash s with Some s => expect_str ">" s | None => None end
                         | None => None end) | None =>
  if contains 58 s then ret PInterface (pkg_name true s) else ret PLabel (expect_kebab s)
  end end end end end end end.

(** names.rs:295-309 ([ComponentName::new_with_features]): the kind, the raw
    string being the name itself. *)
Definition new_name (s : str) : option pkind :=
  match parse s with Some (k, []) => Some k | _ => None end.
End Parse.

(** names.rs:311-323 ([ComponentName::kind]). *)
Definition kind_of (k : pkind) (raw : str) : ckind :=
  match k with
  | PLabel => Label raw
  | PConstructor => Constructor (skipn (List.length CONSTRUCTOR) raw)
  | PMethod => Method (skipn (List.length METHOD) raw)
  | PStatic => Static (skipn (List.length STATIC) raw)
  | PInterface => Interface raw | PDependency => Dependency raw | PUrl => Url raw | PHash => Hash raw
  end.

(** names.rs:378-389 ([ComponentNameKind::kind]). *)
Definition pk (k : ckind) : pkind :=
  match k with
  | Label _ => PLabel | Constructor _ => PConstructor | Method _ => PMethod | Static _ => PStatic
  | Interface _ => PInterface | Dependency _ => PDependency | Url _ => PUrl | Hash _ => PHash
  end.

(** * Accessors.  [None] is a panic: [unwrap] of [None], or a slice whose start is
    after its end. *)
(** names.rs:477-480 ([ResourceFunc::resource]) and 483-486 ([method]). *)
Definition resource (s : str) : option str := match find 46 s with Some (a, _) => Some a | None => None end.
Definition method (s : str) : option str := match find 46 s with Some (_, b) => Some (tl b) | None => None end.

(** [&s[i..j]]. *)
Definition slice (s : str) (i j : nat) : option str :=
  if (Nat.leb i j && Nat.leb j (List.length s))%bool then Some (firstn (j - i) (skipn i s)) else None.
(** names.rs:500-503 ([InterfaceName::namespace]). *)
Definition namespace (s : str) : option str := match rfind 58 s with Some (a, _) => Some a | None => None end.
(** names.rs:506-510 ([package]). *)
Definition package (s : str) : option str :=
  match rfind 58 s, find 47 s with
  | Some (a, _), Some (b, _) => slice s (List.length a + 1) (List.length b)
  | _, _ => None
  end.
(** names.rs:520-524 ([projection]). *)
Definition projection (s : str) : option str :=
  match find 47 s with
  | Some (a, _) => let at_ := match find 64 s with Some (b, _) => List.length b | None => List.length s end in
                   slice s (List.length a + 1) at_
  | None => None
  end.
(** names.rs:513-517 ([interface]). *)
Definition interface (s : str) : option str :=
  match projection s with
  | Some p => Some (match find 47 p with Some (a, _) => a | None => p end)
  | None => None
  end.
(** names.rs:527-541 ([version]): the string given to [Version::parse] when no
    suffix is given. *)
Definition version (s : str) : option str := match find 64 s with Some (_, b) => Some (tl b) | None => None end.

(** * Comparison. *)
(** names.rs:392-424 ([Ord for ComponentNameKind]); [None] is a panic. *)
Definition by_kind (a b : ckind) : option comparison := Some (rank (pk a) ?= rank (pk b)).
Definition plain_vs (a b : ckind) (plain m : str) : option comparison :=
  match resource m, method m with
  | Some r, Some f => if kebab_eq plain r && kebab_eq plain f then Some Datatypes.Eq else by_kind a b
  | _, _ => None
  end.
Definition cmp (a b : ckind) : option comparison :=
  match a, b with
  | Label x, Label y => Some (kebab_cmp x y)
  | Constructor x, Constructor y => Some (kebab_cmp x y)
  | (Method x | Static x), (Method y | Static y) => Some (str_cmp x y)
  | Label p, (Method m | Static m) => plain_vs a b p m
  | (Method m | Static m), Label p => plain_vs a b p m
  | Interface x, Interface y => Some (str_cmp x y)
  | Dependency x, Dependency y => Some (str_cmp x y)
  | Url x, Url y => Some (str_cmp x y)
  | Hash x, Hash y => Some (str_cmp x y)
  | _, _ => by_kind a b
  end.
(** names.rs:459-463 ([PartialEq]). *)
Definition name_eq (a b : ckind) : bool := match cmp a b with Some Datatypes.Eq => true | _ => false end.

(** names.rs:432-457 ([Hash]): what is fed to the hasher; [None] is a panic. *)
Definition str_hash (s : str) : list Z := s ++ [255].
Definition name_hash (a : ckind) : option (list Z) :=
  match a with
  | Label s => Some (0 :: kebab_hash s)
  | Constructor s => Some (1 :: kebab_hash s)
  | Method s | Static s =>
      match resource s, method s with
      | Some r, Some f => Some (if kebab_eq r f then 0 :: kebab_hash r else 2 :: str_hash s)
      | _, _ => None
      end
  | Interface s => Some (3 :: str_hash s)
  | Dependency s => Some (4 :: str_hash s)
  | Url s => Some (5 :: str_hash s)
  | Hash s => Some (6 :: str_hash s)
  end.

(** names.rs:358-362 ([PartialOrd for ComponentName]): the field [kind] is the
    parsed kind, not the method's result. *)
Definition name_partial_cmp (a b : ckind) : comparison := rank (pk a) ?= rank (pk b).
