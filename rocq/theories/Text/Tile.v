(** The tokens of a source, in order, are all of it; the names of a name map are
    printed as distinct identifiers. *)
From Coq Require Import ZArith Lia List Bool String Arith.
From Verif Require Import Base.Prelude Base.Utf8 Names.Kebab Names.Name Names.NameProofs Text.Lexer Text.Spec Text.LexProofs Text.Print Text.PrintProofs.
Import ListNotations.
Open Scope Z_scope.

Definition suffix (r s : str) : Prop := exists t, s = t ++ r.
Lemma suffix_refl : forall s, suffix s s. Proof. intros s. exists []. reflexivity. Qed.
Lemma suffix_cons : forall c r s, suffix r s -> suffix r (c :: s). Proof. intros c r s [t ->]. exists (c :: t). reflexivity. Qed.
Lemma suffix_trans : forall a b c, suffix a b -> suffix b c -> suffix a c.
Proof. intros a b c [t ->] [u ->]. exists (u ++ t). apply app_assoc. Qed.
Lemma suffix_length : forall r s, suffix r s -> (List.length r <= List.length s)%nat.
Proof. intros r s [t ->]. rewrite app_length. lia. Qed.
Definition proper (r s : str) : Prop := exists c t, s = c :: t /\ suffix r t.
Lemma proper_length : forall r s, proper r s -> (List.length r < List.length s)%nat.
Proof. intros r s (c & t & -> & S). apply suffix_length in S. cbn. lia. Qed.
Lemma proper_eaten : forall r s, proper r s -> s = eaten s r ++ r /\ eaten s r <> [].
Proof.
  intros r s (c & t & -> & u & ->). change (c :: u ++ r) with ((c :: u) ++ r). rewrite eaten_app. split; [reflexivity|discriminate].
Qed.
Lemma parse_str_suffix : forall allow s b r, parse_str allow s = LOk (b, r) -> suffix r s.
Proof.
  intros allow s b r H. apply parse_str_iff in H. destruct H as (t & -> & _). exists (t ++ [34]). rewrite <- app_assoc. reflexivity.
Qed.
Lemma reserved_suffix : forall fuel allow i n s i' n' r, reserved_loop fuel allow i n s = LOk (i', n', r) -> suffix r s.
Proof.
  induction fuel as [|fuel IH]; intros allow i n s i' n' r H; [discriminate|]. destruct s as [|c s]; cbn [reserved_loop] in H.
  - injection H as <- <- <-. apply suffix_refl.
  - destruct (idchar c); [apply suffix_cons; eapply IH; exact H|]. destruct (c =? 34).
    + destruct (parse_str allow s) as [[b s']|e] eqn:P; cbn [lbind] in H; [|discriminate]. apply suffix_cons.
      eapply suffix_trans; [eapply IH; exact H|]. eapply parse_str_suffix; exact P.
    + injection H as <- <- <-. apply suffix_refl.
Qed.
Lemma reserved_proper : forall fuel allow i n c s i' n' r, idchar c || (c =? 34) = true ->
  reserved_loop fuel allow i n (c :: s) = LOk (i', n', r) -> proper r (c :: s).
Proof.
  intros fuel allow i n c s i' n' r C H. exists c, s. split; [reflexivity|]. destruct fuel as [|fuel]; [discriminate|].
  cbn [reserved_loop] in H. destruct (idchar c); [eapply reserved_suffix; exact H|]. cbn [orb] in C. rewrite C in H.
  destruct (parse_str allow s) as [[b s']|e] eqn:P; cbn [lbind] in H; [|discriminate].
  eapply suffix_trans; [eapply reserved_suffix; exact H|]. eapply parse_str_suffix; exact P.
Qed.
Lemma skip_suffix : forall f s, suffix (skip_while f s) s.
Proof. induction s as [|c s IH]; [apply suffix_refl|]. cbn. destruct (f c); [apply suffix_cons; exact IH|apply suffix_refl]. Qed.
Lemma block_suffix : forall len s level r, (List.length s <= len)%nat -> block_loop level s = Some r -> suffix r s.
Proof.
  induction len as [|len IH]; intros [|c s] level r L H; try discriminate; cbn [List.length] in L; [lia|].
  cbn [block_loop] in H. destruct (c =? 40).
  - destruct s as [|d s]; [discriminate|]. cbn [List.length] in L. destruct (d =? 59).
    + do 2 apply suffix_cons. eapply IH; [|exact H]. lia.
    + apply suffix_cons. eapply IH; [|exact H]. cbn. lia.
  - destruct (c =? 59).
    + destruct s as [|d s]; [discriminate|]. cbn [List.length] in L. destruct (d =? 41).
      * destruct (level - 1 =? 0); [injection H as <-; do 2 apply suffix_cons; apply suffix_refl|].
        do 2 apply suffix_cons. eapply IH; [|exact H]. lia.
      * apply suffix_cons. eapply IH; [|exact H]. cbn. lia.
    + apply suffix_cons. eapply IH; [|exact H]. lia.
Qed.
Lemma token_proper : forall allow s k t r, parse_token allow s = LOk (Some (k, t, r)) -> t = eaten s r /\ proper r s.
Proof.
  intros allow [|c s] k t r H; [discriminate|]. unfold parse_token in H.
  assert (ONE : forall k', LOk (Some (k', eaten (c :: s) s, s)) = LOk (Some (k, t, r)) -> t = eaten (c :: s) r /\ proper r (c :: s)).
  { intros k' E. injection E as <- <- <-. split; [reflexivity|]. exists c, s. split; [reflexivity|apply suffix_refl]. }
  destruct (c =? 40).
  { destruct s as [|d s']; [eapply ONE; exact H|]. destruct (d =? 59); [|eapply ONE; exact H].
    destruct (block_loop 1 s') as [rest|] eqn:B; [|discriminate]. destruct (check_comment _ _); cbn [lbind] in H; [|discriminate].
    injection H as <- <- <-. split; [reflexivity|]. exists c, (d :: s'). split; [reflexivity|]. apply suffix_cons. eapply block_suffix; [|exact B]. reflexivity. }
  destruct (c =? 41); [eapply ONE; exact H|].
  destruct (is_ws c) eqn:W.
  { injection H as <- <- <-. split; [reflexivity|]. exists c, s. split; [reflexivity|]. cbn [skip_while]. rewrite W. apply skip_suffix. }
  destruct (idchar c || (c =? 34)) eqn:I.
  { unfold parse_reserved in H. destruct (reserved_loop _ _ _ _ _) as [[[i n] rest]|e] eqn:R; cbn [lbind] in H; [|discriminate].
    apply reserved_proper in R; [|exact I].
    assert (G : forall k', LOk (Some (k', eaten (c :: s) rest, rest)) = LOk (Some (k, t, r)) -> t = eaten (c :: s) r /\ proper r (c :: s)).
    { intros k' E. injection E as <- <- <-. split; [reflexivity|exact R]. }
    match goal with H : match ?X with _ => _ end = _ |- _ => destruct X end;
      try (eapply G; exact H).
    destruct (classify_number _); [eapply G; exact H|].
    destruct (c =? 36); [eapply G; exact H|]. destruct (c =? 64); [eapply G; exact H|]. destruct (in_range 97 122 c); eapply G; exact H. }
  destruct (c =? 59).
  { destruct s as [|d s']; [eapply ONE; exact H|]. destruct (d =? 59) eqn:D; [|eapply ONE; exact H].
    destruct (check_comment _ _); cbn [lbind] in H; [|discriminate]. injection H as <- <- <-. split; [reflexivity|].
    destruct (negb ((c =? 10) || (c =? 13))) eqn:N.
    - exists c, (d :: s'). split; [reflexivity|]. change (suffix (skip_while (fun c => negb ((c =? 10) || (c =? 13))) (d :: s')) (d :: s')). apply skip_suffix.
    - exfalso. unfold is_ws in W. apply negb_false_iff in N. apply orb_true_iff in N.
      destruct N as [N|N]; rewrite N in W; rewrite ?orb_true_r, ?orb_true_l in W; discriminate. }
  destruct (existsb _ _); [eapply ONE; exact H|discriminate].
Qed.
Lemma reserved_fuel : forall fuel allow i n s, (List.length s < fuel)%nat -> reserved_loop fuel allow i n s <> LErr Fuel.
Proof.
  induction fuel as [|fuel IH]; intros allow i n s L; [lia|]. destruct s as [|c s]; [discriminate|]. cbn [reserved_loop List.length] in *.
  destruct (idchar c); [apply IH; lia|]. destruct (c =? 34); [|discriminate].
  destruct (parse_str allow s) as [[b s']|e] eqn:P; cbn [lbind].
  - apply parse_str_suffix in P. apply suffix_length in P. apply IH. lia.
  - intros E. injection E as ->. revert P. apply str_fuel. lia.
Qed.
Lemma token_fuel : forall allow s, parse_token allow s <> LErr Fuel.
Proof.
  intros allow [|c s]; [discriminate|]. unfold parse_token.
  assert (CC : forall (al : bool) t (X : option (tkind * str * str)), lbind (check_comment al t) (fun _ => LOk X) <> LErr Fuel).
  { intros al t X. unfold check_comment. destruct al; [discriminate|]. destruct (List.find confusing t); discriminate. }
  destruct (c =? 40).
  { destruct s as [|d s']; [discriminate|]. destruct (d =? 59); [|discriminate]. destruct (block_loop 1 s'); [apply CC|discriminate]. }
  destruct (c =? 41); [discriminate|]. destruct (is_ws c); [discriminate|].
  destruct (idchar c || (c =? 34)).
  { unfold parse_reserved. pose proof (reserved_fuel (S (List.length (c :: s))) allow 0 0 (c :: s) ltac:(lia)) as R.
    destruct (reserved_loop _ _ _ _ _) as [[[i n] rest]|e]; cbn [lbind]; [|intros E; injection E as ->; contradiction].
    match goal with |- match ?X with _ => _ end <> _ => destruct X end; try discriminate.
    destruct (classify_number _); [discriminate|]. destruct (c =? 36); [discriminate|]. destruct (c =? 64); [discriminate|].
    destruct (in_range 97 122 c); discriminate. }
  destruct (c =? 59).
  { destruct s as [|d s']; [discriminate|]. destruct (d =? 59); [apply CC|discriminate]. }
  destruct (existsb _ _); discriminate.
Qed.
Lemma tokens_fuel : forall fuel allow s, (List.length s < fuel)%nat -> all_tokens fuel allow s <> LErr Fuel.
Proof.
  induction fuel as [|fuel IH]; intros allow s L; [lia|]. cbn [all_tokens].
  destruct (parse_token allow s) as [[[[k t] r]|]|e] eqn:P; cbn [lbind].
  - apply token_proper in P. destruct P as [_ P]. apply proper_length in P.
    specialize (IH allow r ltac:(lia)). destruct (all_tokens fuel allow r); cbn [lbind]; [discriminate|]. congruence.
  - discriminate.
  - intros E. injection E as ->. exact (token_fuel allow s P).
Qed.
Lemma tokens_tile : forall fuel allow s l, all_tokens fuel allow s = LOk l ->
  List.concat (map snd l) = s /\ Forall (fun kt => snd kt <> []) l.
Proof.
  induction fuel as [|fuel IH]; intros allow s l H; [discriminate|]. cbn [all_tokens] in H.
  destruct (parse_token allow s) as [[[[k t] r]|]|e] eqn:P; cbn [lbind] in H; [| |discriminate].
  - destruct (all_tokens fuel allow r) as [l'|e] eqn:A; cbn [lbind] in H; [|discriminate]. injection H as <-.
    apply token_proper in P. destruct P as [-> P]. apply proper_eaten in P. destruct P as [P1 P2].
    apply IH in A. destruct A as [A1 A2]. cbn [map snd List.concat]. rewrite A1. split; [symmetry; exact P1|]. constructor; assumption.
  - injection H as <-. destruct s as [|c s]; [split; [reflexivity|constructor]|]. exfalso.
    unfold parse_token in P. 
    assert (X : forall (x : tkind * str * str), LOk (Some x) <> LOk None) by discriminate.
    destruct (c =? 40). { destruct s as [|d s']; [discriminate|]. destruct (d =? 59); [|discriminate]. destruct (block_loop 1 s'); [|discriminate]. destruct (check_comment _ _); discriminate. }
    destruct (c =? 41); [discriminate|]. destruct (is_ws c); [discriminate|].
    destruct (idchar c || (c =? 34)).
    { destruct (parse_reserved allow (c :: s)) as [[[rk t] rest]|e]; cbn [lbind] in P; [|discriminate]. destruct rk; try discriminate.
      destruct (classify_number t); [discriminate|]. destruct (c =? 36); [discriminate|]. destruct (c =? 64); [discriminate|]. destruct (in_range 97 122 c); discriminate. }
    destruct (c =? 59). { destruct s as [|d s']; [discriminate|]. destruct (d =? 59); [|discriminate]. destruct (check_comment _ _); discriminate. }
    destruct (existsb _ _); discriminate.
Qed.

(** Name maps. *)
Definition is_synth (n : naming) : bool := match fst n with SyntheticPrefix _ => true | _ => false end.
Definition plain_names (m : list (Z * naming)) : list str := map (fun e => snd (snd e)) (filter (fun e => negb (is_synth (snd e))) m).
Definition entry_ok (group : str) (e : Z * naming) : Prop :=
  naming_ok (snd e) /\
  match fst (snd e) with
  | SyntheticPrefix p => p = 35 :: group ++ fmt_uint 10 (fst e)
  | _ => starts 35 (snd (snd e)) = false
  end.
Lemma mem_iff : forall s l, mem s l = true <-> In s l.
Proof.
  induction l as [|x l IH]; cbn [mem In]; [split; [discriminate|tauto]|].
  destruct (list_eq_dec Z.eq_dec s x) as [->|N]; cbn [orb]; [tauto|]. rewrite IH. split; [auto|]. intros [->|H]; [contradiction|exact H].
Qed.
Lemma name_map_inv : forall group, Forall ascii_plain_char group -> forall names used into,
  Forall (fun p => 0 <= fst p /\ Forall (fun c => is_scalar c = true) (snd p)) names ->
  Forall (entry_ok group) into -> NoDup (plain_names into) -> incl (plain_names into) used ->
  Forall (entry_ok group) (name_map_loop group used into names) /\ NoDup (plain_names (name_map_loop group used into names)).
Proof.
  intros group G. induction names as [|[i s] names IH]; intros used into F E N I; [split; assumption|].
  inversion_clear F as [|? ? [F1 F2] F']. cbn [fst snd] in F1, F2. cbn [name_map_loop].
  pose proof (new_ok s i group (Some used) F2 F1 G) as OK.
  assert (SYN : forall names', (forall u i0, Forall (entry_ok group) i0 -> NoDup (plain_names i0) -> incl (plain_names i0) u ->
             Forall (entry_ok group) (name_map_loop group u i0 names') /\ NoDup (plain_names (name_map_loop group u i0 names'))) ->
             naming_ok (SyntheticPrefix (35 :: group ++ fmt_uint 10 i), s) ->
             Forall (entry_ok group) (name_map_loop group used ((i, (SyntheticPrefix (35 :: group ++ fmt_uint 10 i), s)) :: into) names') /\
             NoDup (plain_names (name_map_loop group used ((i, (SyntheticPrefix (35 :: group ++ fmt_uint 10 i), s)) :: into) names'))).
  { intros names' IH' O. apply IH'.
    - constructor; [|exact E]. split; [exact O|]. reflexivity.
    - exact N.
    - exact I. }
  unfold naming_new in *. destruct s as [|c s].
  - cbn [fst] in OK. apply SYN; [intros; apply IH; assumption|exact OK].
  - destruct (c =? 35) eqn:C35.
    + cbn [fst] in OK. apply SYN; [intros; apply IH; assumption|exact OK].
    + destruct (mem (c :: s) used) eqn:M.
      * cbn [fst] in OK. apply SYN; [intros; apply IH; assumption|exact OK].
      * cbn [fst] in OK.
        assert (NI : ~ In (c :: s) used) by (rewrite <- mem_iff; congruence).
        set (k := if existsb (fun c0 => negb (print_idchar c0)) (c :: s) then DollarQuotedName else DollarName) in *.
        assert (PN : plain_names ((i, (k, c :: s)) :: into) = (c :: s) :: plain_names into).
        { unfold plain_names. cbn [filter snd is_synth fst]. unfold k. destruct (existsb _ (c :: s)); reflexivity. }
        apply IH; [exact F'| | |].
        -- constructor; [|exact E]. split; [exact OK|]. cbn [fst snd]. unfold k. destruct (existsb _ (c :: s)); exact C35.
        -- match goal with |- NoDup ?x => assert (x = (c :: s) :: plain_names into) as -> by exact PN end. constructor; [|exact N]. intros H. apply NI. apply I. exact H.
        -- match goal with |- incl ?x _ => assert (x = (c :: s) :: plain_names into) as -> by exact PN end. intros y [<-|H]; [left; reflexivity|right; apply I; exact H].
Qed.
Lemma lookup_in : forall i m n, lookup i m = Some n -> In (i, n) m.
Proof.
  induction m as [|[j n'] m IH]; intros n H; [discriminate|]. cbn [lookup] in H. destruct (i =? j) eqn:E.
  - apply Z.eqb_eq in E. injection H as ->. subst. left. reflexivity.
  - right. apply IH. exact H.
Qed.
Lemma plain_distinct : forall m i j n n', NoDup (plain_names m) -> In (i, n) m -> In (j, n') m -> i <> j ->
  is_synth n = false -> is_synth n' = false -> snd n <> snd n'.
Proof.
  induction m as [|[k x] m IH]; intros i j n n' ND A B NE SN SN' EQ; [destruct A|].
  unfold plain_names in ND. cbn [filter snd] in ND. 
  destruct A as [A|A], B as [B|B].
  - congruence.
  - injection A as -> ->. rewrite SN in ND. cbn [negb map snd] in ND. inversion_clear ND as [|? ? NI _]. apply NI. rewrite EQ.
    apply in_map_iff. exists (j, n'). split; [reflexivity|]. apply filter_In. cbn [snd]. rewrite SN'. split; [exact B|reflexivity].
  - injection B as -> ->. rewrite SN' in ND. cbn [negb map snd] in ND. inversion_clear ND as [|? ? NI _]. apply NI. rewrite <- EQ.
    apply in_map_iff. exists (i, n). split; [reflexivity|]. apply filter_In. cbn [snd]. rewrite SN. split; [exact A|reflexivity].
  - revert EQ. apply (IH i j n n'); try assumption. destruct (is_synth x); cbn [negb map] in ND; [exact ND|]. inversion ND; assumption.
Qed.
Lemma space_not_digit : forall n, 0 <= n -> ~ In 32 (fmt_uint 10 n).
Proof. intros n N H. pose proof (fmt_chars 10 ltac:(lia) n N) as F. rewrite Forall_forall in F. apply F in H. discriminate. Qed.
Definition idx_ident (m : list (Z * naming)) (desc : str) (i : Z) : str :=
  match lookup i m with Some n => ident n | None => 35 :: desc ++ fmt_uint 10 i end.
Lemma synth_ident : forall p s, ident (SyntheticPrefix p, s) = p ++ 32 :: s. Proof. reflexivity. Qed.
Lemma idents_distinct : forall group desc m i j, Forall (entry_ok group) m -> NoDup (plain_names m) ->
  ~ In 32 desc -> 0 <= i -> 0 <= j -> i <> j -> idx_ident m desc i <> idx_ident m desc j.
Proof.
  intros group desc m i j E N D I J NE. unfold idx_ident.
  assert (SU : forall k p s i', 0 <= i' -> 0 <= k -> p = 35 :: group ++ fmt_uint 10 k -> p ++ 32 :: s <> 35 :: desc ++ fmt_uint 10 i').
  { intros k p s i' I' K -> H. cbn [app] in H. injection H as H. assert (In 32 (desc ++ fmt_uint 10 i')) as Q.
    { rewrite <- H. apply in_or_app. right. left. reflexivity. }
    apply in_app_or in Q. destruct Q as [Q|Q]; [exact (D Q)|]. revert Q. apply space_not_digit. exact I'. }
  assert (PH : forall n s, is_synth n = false -> starts 35 (snd n) = false -> ident n <> 35 :: s).
  { intros [k s0] s SN ST H. unfold ident in H. cbn [fst snd] in *. destruct k; try discriminate SN; rewrite H in ST; discriminate. }
  destruct (lookup i m) as [n|] eqn:LI; destruct (lookup j m) as [n'|] eqn:LJ.
  - apply lookup_in in LI, LJ. pose proof (proj1 (Forall_forall _ _) E _ LI) as [OK OE]. pose proof (proj1 (Forall_forall _ _) E _ LJ) as [OK' OE'].
    cbn [fst snd] in OE, OE'. destruct n as [k s], n' as [k' s']. cbn [fst snd] in *.
    destruct (is_synth (k, s)) eqn:S1; destruct (is_synth (k', s')) eqn:S2.
    + destruct k as [| |p]; try discriminate S1. destruct k' as [| |p']; try discriminate S2. rewrite !synth_ident. subst p p'.
      intros H. cbn [app] in H. injection H as H. rewrite <- !app_assoc in H. apply app_inv_head in H.
      pose proof (find_app 32 (fmt_uint 10 i) s (space_not_digit i I)) as A.
      pose proof (find_app 32 (fmt_uint 10 j) s' (space_not_digit j J)) as B. rewrite H in A. rewrite A in B. injection B as B _.
      apply NE. apply (fmt_inj 10); try lia. exact B.
    + destruct k as [| |p]; try discriminate S1. intros H. symmetry in H. rewrite synth_ident, OE in H. cbn [app] in H. revert H. apply PH; [exact S2|].
      destruct k'; try discriminate S2; exact OE'.
    + destruct k' as [| |p]; try discriminate S2. intros H. rewrite synth_ident, OE' in H. cbn [app] in H. revert H. apply PH; [exact S1|].
      destruct k; try discriminate S1; exact OE.
    + intros H. unfold ident in H. apply (plain_distinct m i j (k, s) (k', s') N LI LJ NE S1 S2).
      cbn [fst snd] in H |- *. destruct k; try discriminate S1; destruct k'; try discriminate S2; exact H.
  - apply lookup_in in LI. pose proof (proj1 (Forall_forall _ _) E _ LI) as [OK OE]. cbn [fst snd] in OE. destruct n as [k s]. cbn [fst snd] in *.
    destruct k as [| |p]; [apply PH; [reflexivity|exact OE]..|]. rewrite synth_ident. eapply SU; [exact J| |exact OE]. exact I.
  - apply lookup_in in LJ. pose proof (proj1 (Forall_forall _ _) E _ LJ) as [OK OE]. cbn [fst snd] in OE. destruct n' as [k s]. cbn [fst snd] in *.
    intros H. symmetry in H. revert H.
    destruct k as [| |p]; [apply PH; [reflexivity|exact OE]..|]. rewrite synth_ident. eapply SU; [exact I| |exact OE]. exact J.
  - intros H. injection H as H. apply app_inv_head in H. apply NE. apply (fmt_inj 10); try lia. exact H.
Qed.
