(** C26, C27, C50 and C51: strings, integers, identifiers and tokens of the text format. *)
From Coq Require Import ZArith Lia List Bool String.
From Verif Require Import Base.Prelude Base.Utf8 Names.Kebab Names.Name Names.NameProofs Text.Lexer Text.Spec Text.LexProofs
  Text.Print Text.PrintProofs Text.Tile Text.Numbers Text.IntProofs.
Import ListNotations.
Open Scope Z_scope.

(** * C26: strings. *)
(** A printed name, wherever the text ends or continues with something that is
    not part of a word, is read as one string token of exactly that text, and
    its value is the UTF-8 encoding of the name. *)
Theorem C26_str : forall allow s rest, Forall (fun c => is_scalar c = true) s -> delimited rest ->
  parse_token allow (print_str s ++ rest) = LOk (Some (TString, print_str s, rest)) /\
  token_string (print_str s) = LOk (utf8_encode s).
Proof.
  intros allow s rest F D. unfold print_str. cbn [app]. rewrite <- app_assoc. cbn [app]. split.
  - eapply string_token; [apply print_contents; exact F|exact D].
  - apply token_string_contents. apply print_contents. exact F.
Qed.
Print Assumptions C26_str.
(** Likewise for the bytes of a data segment. *)
Theorem C26_bytes : forall allow bs rest, bytes_ok bs -> delimited rest ->
  parse_token allow (print_bytes bs ++ rest) = LOk (Some (TString, print_bytes bs, rest)) /\
  token_string (print_bytes bs) = LOk bs.
Proof.
  intros allow s rest F D. unfold print_bytes. cbn [app]. rewrite <- app_assoc. cbn [app]. split.
  - eapply string_token; [apply print_bytes_contents; exact F|exact D].
  - apply token_string_contents. apply print_bytes_contents. exact F.
Qed.
Print Assumptions C26_bytes.
(** After the opening quote, reading succeeds with [b] exactly when the text up
    to a quote is a sequence of plain characters and escapes ([Spec.elem])
    standing for [b]. *)
Theorem C26_grammar : forall allow it b rest, parse_str allow it = LOk (b, rest) <->
  exists t, it = t ++ 34 :: rest /\ contents (fun c => allow = true \/ confusing c = false) t b.
Proof. exact parse_str_iff. Qed.
Print Assumptions C26_grammar.
Example C26_case :
  parse_token false (print_str [97; 34; 10; 0x202a; 0x1f600] ++ lit ")") =
    LOk (Some (TString, print_str [97; 34; 10; 0x202a; 0x1f600], lit ")")) /\
  token_string (print_str [97; 34; 10; 0x202a; 0x1f600]) = LOk [97; 34; 10; 226; 128; 170; 240; 159; 152; 128] /\
  print_bytes [0; 97; 92; 255] = lit """\00a\5c\ff""".
Proof. repeat split; vm_compute; reflexivity. Qed.

(** * C27: integers. *)
(** A token is an integer exactly when its text is an integer literal. *)
Theorem C27_grammar : forall src, (exists u sg hex, classify_number src = Some (TInteger u sg hex)) <-> exists l, il_wf l /\ src = il_text l.
Proof.
  intros src. split.
  - intros (u & sg & hex & H). apply classify_int_sound in H. destruct H as (l & A & B & _). exists l. auto.
  - intros (l & W & ->). rewrite classify_int by exact W. eauto.
Qed.
Print Assumptions C27_grammar.
(** An integer literal is read as one token of exactly its text; parsed as an
    8, 16, 32 or 64 bit integer it gives [x] exactly when the integer denoted
    is in range ([IntProofs.representable]) and [x] is the value of the type
    congruent to it. *)
Theorem C27_value : forall allow l rest signed n, il_wf l -> delimited rest -> width_ok n ->
  exists k, parse_token allow (il_text l ++ rest) = LOk (Some (k, il_text l, rest)) /\
  forall x, parse_int signed n k (il_text l) = Some x <->
    representable signed n l /\ (if signed then in_s n x else in_u n x) /\ x mod 2 ^ n = il_value l mod 2 ^ n.
Proof.
  intros allow l rest signed n W D N. eexists. destruct (text_idchars l W) as [F NE]. split.
  - apply word_kind; [exact NE|exact F|exact D|apply classify_int; exact W].
  - intros x. apply int_value; assumption.
Qed.
Print Assumptions C27_value.
(** Whatever is out of range is rejected. *)
Corollary C27_reject : forall l signed n k, il_wf l -> width_ok n -> classify_number (il_text l) = Some k ->
  (parse_int signed n k (il_text l) = None <-> ~ representable signed n l).
Proof.
  intros l signed n k W N C. rewrite classify_int in C by exact W. injection C as <-.
  pose proof (int_value l signed n) as V. destruct (parse_int signed n _ (il_text l)) as [x|] eqn:P.
  - split; [discriminate|]. intros H. exfalso. apply H. destruct (proj1 (V x W N) eq_refl) as [R _]. exact R.
  - split; [|reflexivity]. intros _ R.
    assert (PP : 0 < 2 ^ (n - 1) /\ 2 ^ n = 2 * 2 ^ (n - 1)) by (destruct N as [-> |[-> |[-> | ->]]]; split; reflexivity).
    assert (Q : exists x, (if signed then in_s n x else in_u n x) /\ x mod 2 ^ n = il_value l mod 2 ^ n).
    { pose proof (Z.mod_pos_bound (il_value l) (2 ^ n) ltac:(lia)) as B. set (m := il_value l mod 2 ^ n) in *.
      destruct signed.
      - destruct (Z.lt_ge_cases m (2 ^ (n - 1))) as [L|L].
        + exists m. split; [unfold in_s; lia|]. unfold m. apply Z.mod_mod. lia.
        + exists (m - 2 ^ n). split; [unfold in_s; lia|]. unfold m. apply mod_minus. lia.
      - exists m. split; [unfold in_u; lia|]. unfold m. apply Z.mod_mod. lia. }
    destruct Q as (x & X1 & X2). pose proof (proj2 (V x W N) (conj R (conj X1 X2))). discriminate.
Qed.
Print Assumptions C27_reject.
Example C27_case :
  let l := IntLit IMinus true (lit "8000_0000") in
  il_wf l /\ il_text l = lit "-0x8000_0000" /\ il_value l = - 2 ^ 31 /\
  (exists k, parse_token false (il_text l ++ lit " 1") = LOk (Some (k, il_text l, lit " 1")) /\
     parse_int true 32 k (il_text l) = Some (- 2 ^ 31) /\ parse_int true 16 k (il_text l) = None) /\
  (exists k, classify_number (lit "0xffff_ffff") = Some k /\ parse_int true 32 k (lit "0xffff_ffff") = Some (-1)) /\
  classify_number (lit "1__2") = None.
Proof.
  split.
  { unfold il_wf, il_base. cbn [il_hex il_digits].
    assert (D0 : is_digit 16 48) by (exists 0; split; reflexivity). assert (D8 : is_digit 16 56) by (exists 8; split; reflexivity).
    apply (N_more _ (lit "8000_000")); [|exact D0]. apply (N_more _ (lit "8000_00")); [|exact D0]. apply (N_more _ (lit "8000_0")); [|exact D0].
    apply (N_under _ (lit "8000")); [|exact D0]. apply (N_more _ (lit "800")); [|exact D0]. apply (N_more _ (lit "80")); [|exact D0].
    apply (N_more _ (lit "8")); [|exact D0]. apply N_one. exact D8. }
  split; [reflexivity|]. split; [reflexivity|]. split.
  - eexists. split; [vm_compute; reflexivity|]. split; vm_compute; reflexivity.
  - split; [|vm_compute; reflexivity]. eexists. split; [vm_compute; reflexivity|]. vm_compute; reflexivity.
Qed.

(** * C50: identifiers. *)
(** Every identifier the printer makes for a name is read as one identifier
    token of exactly its text; the identifier is the name itself, unless it is
    empty, begins with [#], or was already used: then it is the group and index
    after a [#], a space, and the name. *)
Theorem C50_identifier : forall allow s i group used rest,
  Forall (fun c => is_scalar c = true) s -> 0 <= i -> Forall ascii_plain_char group -> delimited rest ->
  let n := fst (naming_new s i group used) in
  parse_token allow (write_identifier n ++ rest) = LOk (Some (TId, write_identifier n, rest)) /\
  token_id (write_identifier n) = LOk (utf8_encode
    (match s with
     | [] => 35 :: group ++ fmt_uint 10 i ++ 32 :: s
     | c :: _ => if (c =? 35) || match used with Some l => mem s l | None => false end then 35 :: group ++ fmt_uint 10 i ++ 32 :: s else s
     end)).
Proof.
  intros allow s i group used rest F I G D n. pose proof (new_ok s i group used F I G) as OK.
  destruct (identifier_read allow n rest OK D) as [A B]. split; [exact A|]. rewrite B. do 2 f_equal.
  unfold n, naming_new, ident. destruct s as [|c s]; cbn [fst snd app]; [rewrite <- app_assoc; reflexivity|].
  destruct (c =? 35); cbn [orb fst snd app]; [rewrite <- app_assoc; reflexivity|].
  destruct used as [l|].
  - destruct (mem (c :: s) l); cbn [fst snd app]; [rewrite <- app_assoc; reflexivity|]. destruct (existsb _ _); reflexivity.
  - cbn [fst snd]. destruct (existsb _ _); reflexivity.
Qed.
Print Assumptions C50_identifier.
(** How a printed index is read back: an identifier or a number. *)
Definition reads_id (allow : bool) (text : str) (id : list Z) : Prop :=
  forall rest, delimited rest -> parse_token allow (text ++ rest) = LOk (Some (TId, text, rest)) /\ token_id text = LOk id.
Definition reads_u32 (allow : bool) (text : str) (v : Z) : Prop :=
  forall rest, delimited rest -> exists k, parse_token allow (text ++ rest) = LOk (Some (k, text, rest)) /\ parse_int false 32 k text = Some v.
(** With the names of one subsection of the name section, every index is printed
    as an identifier or as its number, and no two indices have the same
    identifier, so that each identifier resolves to the index it was printed for.
    The groups are words of small letters (lib.rs:2468-2492). Names from two
    subsections of one kind are not covered: [C50_refuted]. *)
Theorem C50_distinct_partial : forall allow nu group names,
  Forall (fun c => 97 <= c <= 122) group ->
  Forall (fun p => in_u 32 (fst p) /\ Forall (fun c => is_scalar c = true) (snd p)) names ->
  let m := name_map [] group names in
  (forall i, in_u 32 i -> (exists id, reads_id allow (print_idx nu m group i) id) \/ reads_u32 allow (print_idx nu m group i) i) /\
  (forall i j id, in_u 32 i -> in_u 32 j ->
     reads_id allow (print_idx nu m group i) id -> reads_id allow (print_idx nu m group j) id -> i = j).
Proof.
  intros allow nu group names G F m.
  assert (GP : Forall ascii_plain_char group).
  { eapply Forall_impl; [|exact G]. unfold ascii_plain_char. intros c H. lia. }
  assert (GS : ~ In 32 group).
  { intros H. rewrite Forall_forall in G. apply G in H. lia. }
  assert (INV : Forall (entry_ok group) m /\ NoDup (plain_names m)).
  { unfold m, name_map. apply name_map_inv; try assumption; [|constructor|constructor|intros x []].
    eapply Forall_impl; [|exact F]. intros [i s] [H H0]. unfold in_u in H. cbn [fst snd] in *. split; [lia|exact H0]. }
  destruct INV as [E ND].
  assert (RD : forall i, in_u 32 i ->
    (reads_id allow (print_idx nu m group i) (utf8_encode (idx_ident m group i)) /\ Forall (fun c => is_scalar c = true) (idx_ident m group i)) \/
    reads_u32 allow (print_idx nu m group i) i /\ exists k, classify_number (print_idx nu m group i) = Some k /\
       parse_token allow (print_idx nu m group i ++ []) = LOk (Some (k, print_idx nu m group i, [])) /\ k <> TId).
  { intros i I. unfold in_u in I. unfold print_idx, idx_ident. destruct (lookup i m) as [n|] eqn:L.
    - left. apply lookup_in in L. pose proof (proj1 (Forall_forall _ _) E _ L) as [OK _]. cbn [snd] in OK.
      split; [intros rest D; apply identifier_read; assumption|apply ident_scalar; exact OK].
    - destruct nu.
      + left. assert (W : Forall (fun c => idchar c = true) (35 :: group ++ fmt_uint 10 i)).
        { constructor; [reflexivity|]. apply Forall_app. split.
          - eapply Forall_impl; [|exact G]. intros c H. apply idchar_word. right. right. left. exact H.
          - eapply Forall_impl; [|apply (fmt_chars 10); lia]. intros c. apply hex_idchar. }
        assert (S : Forall (fun c => is_scalar c = true) (35 :: group ++ fmt_uint 10 i)).
        { constructor; [reflexivity|]. apply Forall_app. split.
          - eapply Forall_impl; [|exact G]. intros c H. cbv beta in H. apply scalar_iff. lia.
          - eapply Forall_impl; [|apply fmt_plain; lia]. intros c (A & _). apply scalar_iff. lia. }
        split; [|exact S]. intros rest D.
        destruct (identifier_read allow (DollarName, 35 :: group ++ fmt_uint 10 i) rest) as [A B]; [|exact D|split; [exact A|exact B]].
        split; [exact S|]. split; [discriminate|exact W].
      + right.
        set (l := IntLit INone false (fmt_uint 10 i)).
        assert (W : il_wf l) by (apply fmt_number; lia). split.
        * intros rest D. destruct (C27_value allow l rest false 32 W D) as (k & A & B); [unfold width_ok; auto|].
          exists k. split; [exact A|]. change (fmt_uint 10 i) with (il_text l). apply B.
          assert (V : il_value l = i) by (apply fmt_magnitude; lia).
          unfold representable. rewrite V. split; [split; [discriminate|lia]|]. split; [unfold in_u; lia|reflexivity].
        * eexists. change (fmt_uint 10 i) with (il_text l). destruct (text_idchars l W) as [TF NE].
          split; [apply classify_int; exact W|]. split; [|discriminate].
          apply word_kind; [exact NE|exact TF|exact Logic.I|apply classify_int; exact W]. }
  split.
  - intros i I. destruct (RD i I) as [[R _]|[R _]]; eauto.
  - intros i j id I J RI RJ.
    assert (ID : forall i, in_u 32 i -> reads_id allow (print_idx nu m group i) id ->
      id = utf8_encode (idx_ident m group i) /\ Forall (fun c => is_scalar c = true) (idx_ident m group i)).
    { intros x X R. destruct (RD x X) as [[R' S]|[_ (k & _ & P & K)]].
      - split; [|exact S]. destruct (R [] Logic.I) as [_ A]. destruct (R' [] Logic.I) as [_ B]. rewrite A in B. injection B as B. exact B.
      - destruct (R [] Logic.I) as [A _]. rewrite P in A. injection A as A. contradiction. }
    destruct (ID i I RI) as [A SA]. destruct (ID j J RJ) as [B SB]. rewrite A in B. apply encode_inj in B; try assumption.
    destruct (Z.eq_dec i j) as [Q|Q]; [exact Q|]. exfalso. unfold in_u in *. revert B. apply (idents_distinct group); try assumption; lia.
Qed.
Print Assumptions C50_distinct_partial.
(** Names of two subsections of one kind: two functions get the same identifier,
    so the text is ambiguous. *)
Theorem C50_refuted : exists names1 names2 i j id,
  i <> j /\ let m := name_map (name_map [] (lit "func") names1) (lit "func") names2 in
  reads_id false (print_idx false m (lit "func") i) id /\ reads_id false (print_idx false m (lit "func") j) id.
Proof.
  exists [(0, lit "a")], [(1, lit "a")], 0, 1, [97]. split; [discriminate|]. cbv zeta.
  assert (R : reads_id false (lit "$a") [97]).
  { intros rest D. apply (identifier_read false (DollarName, lit "a") rest); [|exact D].
    repeat split; try discriminate; repeat constructor. }
  split; exact R.
Qed.
Print Assumptions C50_refuted.
Example C50_case : let m := name_map [] (lit "func") [(0, lit "a"); (1, lit "b c"); (2, lit "a"); (3, [])] in
  map (print_idx true m (lit "func")) [0; 1; 2; 3; 4] =
  [lit "$a"; lit "$""b c"""; lit "$""#func2 a"""; lit "$""#func3 """; lit "$#func4"].
Proof. vm_compute. reflexivity. Qed.

(** * C51: tokens. *)
(** Lexing ends for every text, and when it succeeds the texts of the tokens,
    none of them empty, are the source. *)
Theorem C51_terminates : forall allow s, tokens allow s <> LErr Fuel /\ forall fuel, (List.length s < fuel)%nat -> all_tokens fuel allow s = tokens allow s.
Proof.
  intros allow s. split; [apply tokens_fuel; lia|]. intros fuel. unfold tokens. revert s.
  assert (M : forall f1 f2 s, (List.length s < f1)%nat -> (List.length s < f2)%nat -> all_tokens f1 allow s = all_tokens f2 allow s).
  { induction f1 as [|f1 IH]; intros [|f2] s L1 L2; try lia. cbn [all_tokens].
    destruct (parse_token allow s) as [[[[k t] r]|]|e] eqn:P; cbn [lbind]; try reflexivity.
    apply token_proper in P. destruct P as [_ P]. apply proper_length in P. rewrite (IH f2 r) by lia. reflexivity. }
  intros s L. apply M; lia.
Qed.
Print Assumptions C51_terminates.
Theorem C51_tile : forall allow s l, tokens allow s = LOk l -> List.concat (map snd l) = s /\ Forall (fun kt => snd kt <> []) l.
Proof. intros allow s l. apply tokens_tile. Qed.
Print Assumptions C51_tile.
Example C51_case : tokens false (lit "(a ;; x") = LOk [(LParen, lit "("); (TKeyword, lit "a"); (Whitespace, lit " "); (LineComment, lit ";; x")].
Proof. vm_compute. reflexivity. Qed.
