(** C28 and C52: floats of the text format. *)
From Coq Require Import ZArith Lia List Bool String.
From Verif Require Import Base.Prelude Names.Kebab Text.Lexer Text.Spec Text.LexProofs
  Text.Print Text.Numbers Text.IntProofs Text.FloatCore Text.FloatFinish Text.HexFloat Text.FloatText Text.FloatPrint.
Import ListNotations.
Open Scope Z_scope.

(** * C28: floats survive printing. *)
(** Every bit pattern of either width, NaN payloads, signed zeros and subnormal
    numbers included, is printed as one token which is read as that bit pattern.
    [dec] stands for Rust's reading of base-10 floats: it does not matter. *)
Theorem C28_roundtrip : forall dec allow w e bits rest, fmt_ok w e -> in_u w bits -> delimited rest ->
  exists k, parse_token allow (print_float w e bits ++ rest) = LOk (Some (k, print_float w e bits, rest)) /\
    parse_float dec w e k (print_float w e bits) = Some bits.
Proof.
  intros dec allow w e bits rest W B D. destruct (print_reads w e W dec bits B) as (k & C & P & F & N). exists k. split; [|exact P].
  apply word_kind; assumption.
Qed.
Print Assumptions C28_roundtrip.
Corollary C28_distinct : forall w e a b, fmt_ok w e -> in_u w a -> in_u w b -> print_float w e a = print_float w e b -> a = b.
Proof.
  intros w e a b W A B E. destruct (print_reads w e W (fun _ => None) a A) as (k & C & P & _). destruct (print_reads w e W (fun _ => None) b B) as (k' & C' & P' & _).
  rewrite E in C, P. rewrite C in C'. injection C' as <-. rewrite P in P'. injection P' as <-. reflexivity.
Qed.
Print Assumptions C28_distinct.
Example C28_case :
  print_float 32 8 0x3fc00000 = lit "0x1.8p+0" /\ print_float 32 8 0x80000000 = lit "-0x0p+0" /\ print_float 32 8 1 = lit "0x1.p-149" /\
  print_float 32 8 0xff812345 = lit "-nan:0x12345" /\ print_float 64 11 0x7ff8000000000000 = lit "nan" /\ print_float 64 11 0xfff0000000000000 = lit "-inf" /\
  print_float 64 11 0x000fffffffffffff = lit "0x1.ffffffffffffep-1023" /\
  Forall (fun b => exists k, classify_number (print_float 64 11 b) = Some k /\ parse_float (fun _ => None) 64 11 k (print_float 64 11 b) = Some b)
    [0; 1; 0x000fffffffffffff; 0x7fefffffffffffff; 0x7ff0000000000001; 0xffffffffffffffff].
Proof.
  repeat (split; [vm_compute; reflexivity|]). repeat constructor; eexists; (split; [vm_compute; reflexivity|vm_compute; reflexivity]).
Qed.

(** * C52: hexadecimal literals are rounded to the nearest float. *)
(** A hexadecimal float (or integer) literal is read as one token of exactly its
    text, and gives the nearest float, ties to even ([Spec.rounds_to]), with its
    sign; it is rejected exactly when that is an infinity. Left out are literals
    of 2^28 characters or more, exponents of 2^30 or more, and those whose first
    digit which is not zero is less than 8 and whose last digit which is not
    zero is the one at place [w / 4] after it ([Spec.counted]): for those it is
    false, [C52_refuted]. *)
Theorem C52_partial : forall dec allow w e l rest, fmt_ok w e -> hl_wf l -> delimited rest ->
  zlen (hl_text l) < 2 ^ 28 -> - 2 ^ 30 < hl_exp10 l < 2 ^ 30 -> counted w l ->
  exists k b, parse_token allow (hl_text l ++ rest) = LOk (Some (k, hl_text l, rest)) /\
    rounds_to w e (hl_units_num w e l) (hl_units_den w e l) b /\
    parse_float dec w e k (hl_text l) = if b =? inf_bits w e then None else Some (b + match hl_sign l with IMinus => 2 ^ (w - 1) | _ => 0 end).
Proof.
  intros dec allow w e l rest W WF D LEN XB C. destruct (hex_lit_value dec w e l W WF LEN XB C) as (b & R & P).
  exists (hl_kind l), b. split; [|split; assumption]. destruct (hl_idchars l WF) as [F N]. apply word_kind; try assumption. apply hl_class. exact WF.
Qed.
Print Assumptions C52_partial.
(** What it rounds to is unique. *)
Theorem C52_nearest_unique : forall w e l b b', fmt_ok w e -> rounds_to w e (hl_units_num w e l) (hl_units_den w e l) b ->
  rounds_to w e (hl_units_num w e l) (hl_units_den w e l) b' -> b = b'.
Proof. intros w e l b b' W. apply round_unique; [exact W|]. unfold hl_units_den. apply p2. lia. Qed.
Print Assumptions C52_nearest_unique.
(** The literal 0x1.00000108 lies just above the middle between 1 and the next
    32 bit float, but is read as 1; likewise for 64 bits. *)
Definition lost32 : hex_lit := HexLit INone (lit "1") (Some (lit "00000108")) None.
Definition lost64 : hex_lit := HexLit INone (lit "1") (Some (lit "0000000000000801")) None.
Lemma digits_ok : forall t, forallb is_hex t = true -> t <> [] -> number 16 t.
Proof. intros t F N. apply digits_number; [|exact N]. apply Forall_forall. intros c C. apply is_digit_16. exact (proj1 (forallb_forall _ _) F c C). Qed.
Theorem C52_refuted :
  (hl_wf lost32 /\ exists k, classify_number (hl_text lost32) = Some k /\
     (forall dec, parse_float dec 32 8 k (hl_text lost32) = Some 0x3f800000) /\
     rounds_to 32 8 (hl_units_num 32 8 lost32) (hl_units_den 32 8 lost32) 0x3f800001 /\
     ~ rounds_to 32 8 (hl_units_num 32 8 lost32) (hl_units_den 32 8 lost32) 0x3f800000) /\
  (hl_wf lost64 /\ exists k, classify_number (hl_text lost64) = Some k /\
     (forall dec, parse_float dec 64 11 k (hl_text lost64) = Some 0x3ff0000000000000) /\
     ~ rounds_to 64 11 (hl_units_num 64 11 lost64) (hl_units_den 64 11 lost64) 0x3ff0000000000000).
Proof.
  assert (NR : forall w e n d b b', 0 <= b' <= inf_bits w e -> b' <> b -> Z.abs (n - units w e b' * d) < Z.abs (n - units w e b * d) -> ~ rounds_to w e n d b).
  { intros w e n d b b' B N L [_ H]. specialize (H b' B N). lia. }
  split; (split; [split; [apply digits_ok; [reflexivity|discriminate]|split; [apply digits_ok; [reflexivity|discriminate]|exact Logic.I]]|]).
  - eexists. split; [vm_compute; reflexivity|]. split; [intros dec; vm_compute; reflexivity|]. split.
    + assert (W : fmt_ok 32 8) by (left; auto).
      pose proof (round_pick 32 8 W (hl_units_num 32 8 lost32) (hl_units_den 32 8 lost32) 0x3f800000) as R.
      assert (A : 0 < hl_units_den 32 8 lost32) by reflexivity. specialize (R A ltac:(vm_compute; split; [discriminate|reflexivity]) ltac:(vm_compute; split; [discriminate|reflexivity])).
      match type of R with rounds_to _ _ _ _ (if ?c then _ else _) => assert (C : c = true) by (vm_compute; reflexivity); rewrite C in R end. exact R.
    + apply (NR _ _ _ _ _ 0x3f800001); [vm_compute; split; discriminate|discriminate|vm_compute; reflexivity].
  - eexists. split; [vm_compute; reflexivity|]. split; [intros dec; vm_compute; reflexivity|].
    apply (NR _ _ _ _ _ 0x3ff0000000000001); [vm_compute; split; discriminate|discriminate|vm_compute; reflexivity].
Qed.
Print Assumptions C52_refuted.
(** The condition of [C52_partial] is exact about [lost32]: one more digit and it holds. *)
Example C52_case :
  let l := HexLit IMinus (lit "0") (Some (lit "1_0000010801")) (Some (true, IPlus, lit "4")) in
  hl_wf l /\ hl_text l = lit "-0x0.1_0000010801P+4" /\ counted 32 l /\ ~ counted 32 lost32 /\
  (exists k, parse_token false (hl_text l ++ lit ")") = LOk (Some (k, hl_text l, lit ")")) /\ parse_float (fun _ => None) 32 8 k (hl_text l) = Some 0xbf800001) /\
  (exists k, classify_number (lit "0x1p128") = Some k /\ parse_float (fun _ => None) 32 8 k (lit "0x1p128") = None) /\
  (exists k, classify_number (lit "0x1.fffffefffp127") = Some k /\ parse_float (fun _ => None) 32 8 k (lit "0x1.fffffefffp127") = Some 0x7f7fffff).
Proof.
  cbv zeta. split.
  { split; [apply digits_ok; [reflexivity|discriminate]|]. split.
    - assert (D1 : is_digit 16 49) by (apply is_digit_16; reflexivity). assert (D0 : is_digit 16 48) by (apply is_digit_16; reflexivity). assert (D8 : is_digit 16 56) by (apply is_digit_16; reflexivity).
      apply (N_more 16 (lit "1_000001080")); [|exact D1]. apply (N_more 16 (lit "1_00000108")); [|exact D0]. apply (N_more 16 (lit "1_0000010")); [|exact D8].
      apply (N_more 16 (lit "1_000001")); [|exact D0]. apply (N_more 16 (lit "1_00000")); [|exact D1]. apply (N_more 16 (lit "1_0000")); [|exact D0].
      apply (N_more 16 (lit "1_000")); [|exact D0]. apply (N_more 16 (lit "1_00")); [|exact D0]. apply (N_more 16 (lit "1_0")); [|exact D0].
      apply (N_under 16 (lit "1")); [|exact D0]. apply N_one. exact D1.
    - apply N_one. exists 4. split; reflexivity. }
  split; [reflexivity|]. split; [right; right; vm_compute; right; left; discriminate|].
  split; [intros [H|[H|H]]; [apply H; reflexivity|discriminate H|inversion H]|].
  repeat split; eexists; (split; [vm_compute; reflexivity|vm_compute; reflexivity]).
Qed.
