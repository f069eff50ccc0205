(** Property C56: validating a module gives a result or an error, and does not panic. *)
From Verif.Base Require Import Prelude.
From Verif.Reader Require Import Model.
From Verif.Types Require Import RefModel CodecModel EntityModel CanonModel CanonSpec CanonLemmas CanonTop CanonPanic.
From Verif.Instr Require Import ImmModel Ops BodyModel.
From Verif.Sections Require Import SegModel.
From Verif.Validator Require Import State Checks Visit Api Body Module Calm CalmModule CalmLimit.
From Verif.Modval Require Import Model Spec Stages Top PropertiesModule QuietRead QuietTop.

(** The sections [secs] are any that the parser can hand to a validator: in the order of modules and each at most once ([in_order]), read out of any bytes by
    the readers of their items ([as_read], QuietTop.v; the section readers are those of C28-C32), with at most as many bodies as functions.  The bodies are any bytes.  The
    validator has any history [h] and any features.
    The English claim has no condition on the number of types; as in C54 it is proved while those held and those of the module are at most 2^20.  Missing: what debug builds check, and the panics
    of the store on an unknown type in the questions of [module_resources] about subtypes, shared types and tops, which are answered instead. *)
Theorem C56_module_partial : forall F G ft pos h w k secs, 0 < pos ->
  reached h w -> w_scope w k = [] -> zlen (st_types (w_store w)) + sum (map types_in secs) <= 2 ^ 20 ->
  in_order 0 secs -> Forall (as_read ft) secs -> sum (map given_bodies secs) <= sum (map declared secs) ->
  validate_module F G ft pos (w_store w) secs <> Panicked.
Proof. intros F G ft pos h w k secs Hp. apply module_quiet. exact Hp. Qed.
Print Assumptions C56_module_partial.

(** The module of C53 meets the hypotheses, and so do one whose data segment has an offset that names a function, after the code section (where the set of
    the functions named cannot grow any more), and one whose bodies are no code at all. *)
Definition late : list sec :=
  [STypes (rd read_rec [1; 0x60;0;0]); SFunctions [0]; SMemories (rd read_memory [1; 0;1]); SCode [[0; 0x0b]]; SData (rd SegModel.read_data [1; 0;0xd2;0;0x0b;1;120])].
Definition noise : list sec := [STypes (rd read_rec [1; 0x60;0;0]); SFunctions [0; 0]; SCode [[255; 3; 9]; []]].
Definition C56_hypotheses (secs : list sec) : Prop :=
  sum (map types_in secs) <= 2 ^ 20 /\ in_order 0 secs /\ Forall (as_read all_features) secs /\ sum (map given_bodies secs) <= sum (map declared secs).
Example C56_case :
  (C56_hypotheses good /\ validate_module (fun _ => true) (fun _ => true) all_features 1 (w_store start_world) good = Done tt) /\
  (C56_hypotheses late /\ exists e, validate_module (fun _ => true) (fun _ => true) all_features 1 (w_store start_world) late = Rejected e) /\
  (C56_hypotheses noise /\ exists e, validate_module (fun _ => true) (fun _ => true) all_features 1 (w_store start_world) noise = Rejected e).
Proof.
  assert (RB : forall A (item : R A) b, bytes_ok b -> (exists l, section_items item all_features 1 b = Ok l) -> read_by item all_features (rd item b)).
  { intros A item b Hb (l & E). exists 1, b. split; [exact Hb|]. unfold rd. rewrite E. reflexivity. }
  split; [|split]; (split; [|first [vm_compute; reflexivity|eexists; vm_compute; reflexivity]]); (split; [vm_compute; discriminate|]); (split; [cbn [in_order rank good sample late noise]; repeat split; lia|]);
    (split; [|vm_compute; discriminate]); unfold good, sample, late, noise; repeat (constructor; [cbn [as_read]; first [exact I|apply RB; [repeat constructor; lia|eexists; vm_compute; reflexivity]|repeat constructor; lia]|]); constructor.
Qed.

(** C56 does not hold without the bound: after modules with 1048576 different types, the module with one type and the one function [ref.null 0; drop] makes the
    validator panic, while a fresh one accepts it. *)
Definition small : list sec := [STypes (rd read_rec [1; 0x60;0;0]); SFunctions [0]; SCode [null_body]].
Lemma one_more h e w w' : reached h w -> reached (h ++ [e]) w' -> run w [e] = CanonModel.Done w'.
Proof. intros R. apply reached_app. exact R. Qed.
Theorem C56_refuted : exists h w k secs,
  reached h w /\ w_scope w k = [] /\ sum (map types_in secs) = 1 /\ in_order 0 secs /\ Forall (as_read all_features) secs /\ sum (map given_bodies secs) = sum (map declared secs) /\
  (forall k' g, In (AddGroup k' g) h -> zlen g <= 1000000) /\
  validate_module (fun _ => true) (fun _ => true) all_features 1 (w_store w) secs = Panicked /\
  validate_module (fun _ => true) (fun _ => true) all_features 1 (w_store start_world) secs = Done tt.
Proof.
  destruct crowded as (w' & H & Es & Et). change [AddGroup 0 fillA; AddGroup 1 fillB; AddGroup 2 [FT]] with ([AddGroup 0 fillA; AddGroup 1 fillB] ++ [AddGroup 2 [FT]]) in H.
  destruct filled as (w & Rw & ET & ES). exists [AddGroup 0 fillA; AddGroup 1 fillB], w, 2, small.
  pose proof (one_more [AddGroup 0 fillA; AddGroup 1 fillB] (AddGroup 2 [FT]) w w' Rw H) as H1. clear H. rename H1 into H. split; [exact Rw|]. split; [exact ES|].
  split; [vm_compute; reflexivity|]. split; [cbn [in_order rank small]; repeat split; lia|]. split.
  { unfold small. repeat (constructor; [cbn [as_read]; first [exact I|exists 1, [1; 0x60;0;0]; split; [repeat constructor; lia|vm_compute; reflexivity]|repeat constructor; lia]|]). constructor. }
  split; [vm_compute; reflexivity|]. split; [intros k' g [X|[X|[]]]; injection X as <- <-; [unfold fillA|unfold fillB]; rewrite zlen_repeat by lia; lia|]. split; [|vm_compute; reflexivity].
  set (tr := fun _ : feature => true). set (tg := fun _ : m_feature => true).
  set (l := rd read_rec [1; 0x60;0;0]). assert (Eg : all_some g_group l = Some [[FT]]) by (vm_compute; reflexivity).
  pose proof (types_each 1 2 l [[FT]] Eg (new_mstate (w_store w)) w) as TE.
  assert (IW : in_world 2 (new_mstate (w_store w)) w) by (split; [reflexivity|]; split; [symmetry; exact ES|reflexivity]).
  pose proof (proj2 (TE IW (with_world 2 (new_mstate (w_store w)) w')) (ex_intro _ w' (conj H eq_refl))) as HT. clear TE.
  unfold validate_module, small. fold l. cbn [each section]. cbv zeta. cbn [fst snd]. unfold counted at 1. cbn [new_mstate ms_mod md_types empty_modul].
  change (check_max 1 (zlen []) (zlen l) MAX_TYPES "count exceeds limit") with (Done tt : outcome unit). cbn [obind assert_mut ms_frozen]. fold (new_mstate (w_store w)).
  change (mkMs (w_store w) empty_modul 0 [] 1 None false) with (new_mstate (w_store w)). rewrite HT. cbn [obind].
  set (st1 := with_world 2 (new_mstate (w_store w)) w').
  assert (Hfun : each (add_function 1) st1 [0] = Done (with_mod st1 (set_functions (ms_mod st1) [0]))).
  { cbn [each]. unfold add_function, assert_mut, func_type, Model.id_at. cbn [st1 with_world with_mod with_store new_mstate ms_frozen ms_store ms_mod set_types md_types md_functions empty_modul obind].
    rewrite Es. change (nthz [2 ^ 20] 0) with (Some (2 ^ 20)). cbn [obind]. rewrite Et. reflexivity. }
  change (assert_mut (new_mstate (w_store w))) with (Done tt : outcome unit). cbn [obind fst snd].
  unfold counted. change (check_max 1 (zlen (md_functions (ms_mod st1))) (zlen [0]) MAX_FUNCTIONS "count exceeds limit") with (Done tt : outcome unit).
  change (assert_mut st1) with (Done tt : outcome unit). cbn [obind fst snd]. rewrite Hfun. cbn [obind fst snd].
  set (st2 := with_mod st1 _). change (assert_mut st2) with (Done tt : outcome unit). cbn [obind].
  assert (Hcode : code_entries 1 st2 [null_body] = Done (with_code st2 (Some 1), [(0, null_body)])) by reflexivity.
  rewrite Hcode. cbn [obind app each]. unfold body. cbn [fst snd]. cbn [with_code ms_store ms_mod].
  set (R := module_resources (ms_store st2) (ms_mod st2)).
  assert (E1 : r_sub_type_at R 0 = Some (m_sub UId FT)).
  { cbn [R module_resources r_sub_type_at st2 st1 with_world with_mod with_store set_functions set_types ms_store ms_mod md_types]. unfold opt_nthz. rewrite Es. change (nthz [2 ^ 20] 0) with (Some (2 ^ 20)). unfold stored. rewrite Et. reflexivity. }
  assert (E2 : forall a, r_check_heap_type R (HC (UModule 0)) a = Ok (HC (UId (2 ^ 20)))).
  { intros a. cbn [R module_resources r_check_heap_type st2 st1 with_world with_mod with_store set_functions set_types ms_store ms_mod]. unfold md_check_heap. cbn [md_types]. rewrite Es. reflexivity. }
  unfold new_func. cbn [e_res]. rewrite E1. change (c_inner (s_comp (m_sub UId FT))) with (@IFunc uidx [] []). cbv iota beta.
  unfold tr. rewrite (null_panics R 0 1 E1 E2). reflexivity.
Qed.
Print Assumptions C56_refuted.
