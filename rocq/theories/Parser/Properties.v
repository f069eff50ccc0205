(** Properties C06-C12: the streaming parser, and the modules wasm-encoder builds. *)
From Verif.Base Require Import Prelude Utf8.
From Verif.Reader Require Import Model.
From Verif.Leb Require Import Spec.
From Verif.Encoder Require Import Model.
From Verif.Parser Require Import Model Spec Tiling Top Encoded.

(** C06 for everything that is not a component: any piecewise run delivers exactly
    the payloads and the outcome of the run over the whole input.  (99 bytes of
    address space beyond the input are left so that no position computation can
    reach [u64::MAX].) *)
Theorem C06_chunk_invariance : forall off cs tr out tr' out',
  0 <= off -> off + zlen (List.concat cs) + 99 <= U64MAX ->
  bytes_ok (List.concat cs) -> ~ is_component (List.concat cs) ->
  run (new_parser off) [] [] cs false tr out ->
  yields (parse_all_of (new_parser off) (List.concat cs)) tr' out' ->
  tr = tr' /\ out = out'.
Proof. exact chunks_module. Qed.
Print Assumptions C06_chunk_invariance.

(** Both kinds of run always exist, so the theorem above compares something. *)
Theorem C06_runs_exist : forall off cs,
  0 <= off -> off + zlen (List.concat cs) <= U64MAX -> bytes_ok (List.concat cs) ->
  exists tr out, run (new_parser off) [] [] cs false tr out.
Proof. exact run_exists. Qed.
Print Assumptions C06_runs_exist.
Example C06_case : let cs := [[0; 97; 115]; [109; 1; 0]; [0; 0; 1; 1]; [0]] in
  bytes_ok (List.concat cs) /\ ~ is_component (List.concat cs) /\ exists tr, run (new_parser 0) [] [] cs false tr None.
Proof.
  split; [repeat constructor; vm_compute; discriminate|]. split; [intros [t E]; discriminate E|].
  eexists. apply run_feed. eapply run_more; [vm_compute; reflexivity|]. do 2 apply run_feed.
  eapply run_item; [vm_compute; reflexivity|reflexivity|]. eapply run_more; [vm_compute; reflexivity|].
  apply run_feed. eapply run_item; [vm_compute; reflexivity|reflexivity|]. apply run_eof.
  eapply run_last; [vm_compute; reflexivity|reflexivity].
Qed.

(** C06 for arbitrary inputs, components included, as long as no component start
    section is delivered: same payloads; both runs succeed or both fail, with the
    same error up to the two messages named in [agree].  Missing: component start
    sections, for which the claim is false (next theorem), and equality of those
    two error messages. *)
Theorem C06_component_partial : forall off cs tr out tr' out',
  0 <= off -> off + zlen (List.concat cs) <= U64MAX -> bytes_ok (List.concat cs) ->
  run (new_parser off) [] [] cs false tr out ->
  yields (parse_all_of (new_parser off) (List.concat cs)) tr' out' ->
  Forall (fun pl => ~ is_component_start pl) tr' -> tr = tr' /\ agree out' out.
Proof. exact chunks_any. Qed.
Print Assumptions C06_component_partial.
Example C06_component_case : let cs := [[0; 97; 115; 109; 13]; [0; 1; 0; 0; 2; 1]; [97]] in
  bytes_ok (List.concat cs) /\
  exists tr, yields (parse_all_of (new_parser 0) (List.concat cs)) tr None /\ Forall (fun pl => ~ is_component_start pl) tr.
Proof.
  split; [repeat constructor; vm_compute; discriminate|]. eexists. split.
  - do 2 (eapply yields_item; [vm_compute; reflexivity|reflexivity|]).
    eapply yields_last; [vm_compute; reflexivity|reflexivity].
  - repeat constructor; intros [].
Qed.

(** C06 fails for components: the flag "a start section was seen" is set before the
    section's bytes have arrived, so the retry after [NeedMoreData] is rejected. *)
Theorem C06_component_refuted : exists cs tr out tr',
  bytes_ok (List.concat cs) /\
  run (new_parser 0) [] [] cs false tr out /\
  yields (parse_all_of (new_parser 0) (List.concat cs)) tr' None /\ out <> None.
Proof. exact chunks_refuted. Qed.
Print Assumptions C06_component_refuted.

(** C07: in every situation a caller can get into. *)
Theorem C07_protocol : forall off cs0 cur st buf cs e,
  0 <= off -> off + zlen (List.concat cs0) <= U64MAX -> bytes_ok (List.concat cs0) ->
  driven off cs0 cur st buf cs e ->
  match fst (parse cur buf e) with
  | Ok (NeedMoreData h) => e = false /\ 0 < h
  | Ok (Parsed n pl) => 0 <= n <= zlen buf /\ (n = 0 <-> is_end_payload pl = true)
  | Err _ => True
  end.
Proof. exact protocol. Qed.
Print Assumptions C07_protocol.
Example C07_case : exists cur st buf cs e, buf <> [] /\ p_state cur = SSectionStart /\
  driven 0 [[0; 97; 115; 109; 1; 0; 0; 0; 3]; [2; 1; 0]] cur st buf cs e.
Proof.
  do 5 eexists. split; [|split]; cycle 2.
  - eapply dr_item; [apply dr_feed, dr_init|vm_compute; reflexivity|reflexivity].
  - discriminate.
  - reflexivity.
Qed.

(** C08: [parse_all] always comes to an end, after at most two items per byte. *)
Theorem C08_terminates : forall off data,
  0 <= off -> off + zlen data <= U64MAX -> bytes_ok data ->
  exists tr out, yields (parse_all_of (new_parser off) data) tr out /\ zlen tr <= 2 * zlen data + 1.
Proof. exact yields_total. Qed.
Print Assumptions C08_terminates.
Example C08_terminates_case : bytes_ok [0; 97; 115; 109; 255].
Proof. repeat constructor; vm_compute; discriminate. Qed.

(** C08: if it ends without error the payloads tile the module, and the last one is
    an [End] at its last byte. *)
Theorem C08_tiles_module : forall off data tr,
  0 <= off -> off + zlen data <= U64MAX -> bytes_ok data -> ~ is_component data ->
  yields (parse_all_of (new_parser off) data) tr None ->
  tiles off data tr /\ exists tr0, tr = tr0 ++ [PEnd (off + zlen data)].
Proof. exact module_tiles. Qed.
Print Assumptions C08_tiles_module.
Example C08_tiles_case : exists tr,
  yields (parse_all_of (new_parser 0) [0; 97; 115; 109; 1; 0; 0; 0; 8; 1; 5; 0; 1; 0]) tr None.
Proof.
  eexists. do 3 (eapply yields_item; [vm_compute; reflexivity|reflexivity|]).
  eapply yields_last; [vm_compute; reflexivity|reflexivity].
Qed.

(** C08 for components and for failing runs: the payloads tile the consumed part of
    the input, all of it if there is no error.  Missing: the position of the last
    [End]; it may lie beyond the input (next theorem). *)
Theorem C08_tiles_any_partial : forall off data tr out,
  0 <= off -> off + zlen data <= U64MAX -> bytes_ok data ->
  yields (parse_all_of (new_parser off) data) tr out ->
  exists d rest, data = d ++ rest /\ tiles_cut off d tr /\ (out = None -> rest = []).
Proof. exact component_tiles. Qed.
Print Assumptions C08_tiles_any_partial.
Example C08_tiles_any_case : bytes_ok [0; 97; 115; 109; 13; 0; 1; 0; 0; 2; 1; 97].
Proof. repeat constructor; vm_compute; discriminate. Qed.

(** C08 fails for components: a nested module whose announced length exceeds the
    input is accepted, and [End] is reported at an offset that is not the input's. *)
Theorem C08_component_end_refuted : exists data tr off,
  bytes_ok data /\ yields (parse_all_of (new_parser 0) data) (tr ++ [PEnd off]) None /\ off <> zlen data.
Proof. exact component_end_refuted. Qed.
Print Assumptions C08_component_end_refuted.

(** C09 and C10 together: without error [parse_all] delivers [tr] exactly when the
    input is a module in the sense of the grammar [accepted]. *)
Theorem C09_accepts_exactly : forall off data tr,
  0 <= off -> off + zlen data <= U64MAX -> bytes_ok data -> ~ is_component data ->
  (yields (parse_all_of (new_parser off) data) tr None <-> accepted off data tr).
Proof. exact accept_iff. Qed.
Print Assumptions C09_accepts_exactly.

(** C09: for well-formed sections with agreeing counts, order decides. *)
Theorem C09_order_decides : forall off secs bytes pls,
  0 <= off -> off + 8 + zlen bytes <= U64MAX -> bytes_ok bytes ->
  shows_all (off + 8) secs bytes pls -> items_of 3 pls = bodies_of pls -> data_counts_ok pls ->
  ((exists tr, yields (parse_all_of (new_parser off) ([0; 97; 115; 109; 1; 0; 0; 0] ++ bytes)) tr None)
   <-> in_order (map fst secs)).
Proof. exact order_decides. Qed.
Print Assumptions C09_order_decides.
Example C09_case_in_order : in_order [0; 1; 3; 0; 5; 13; 12; 10; 11; 0] /\ ~ in_order [5; 13; 5] /\ ~ in_order [10; 12].
Proof.
  split; [cbv; repeat (apply sub_take || apply sub_skip || apply sub_nil)|].
  split; intros Hx; unfold in_order in Hx; cbn in Hx;
    repeat match goal with Hy : subseq _ _ |- _ => inversion Hy; clear Hy; subst end.
Qed.

Example C09_case : exists pls,
  shows_all 8 [(1, [0]); (0, [1; 97; 7])] [1; 1; 0; 0; 3; 1; 97; 7] pls /\ items_of 3 pls = bodies_of pls.
Proof.
  eexists. split.
  - eapply (sa_cons _ 1 [0] [1]); [apply uN_last; vm_compute; repeat split; congruence| |].
    + apply (sh_limited _ 1 [0] 0 []); [cbn; auto|apply uN_last; vm_compute; repeat split; congruence].
    + eapply (sa_cons _ 0 [1; 97; 7] [3]); [apply uN_last; vm_compute; repeat split; congruence| |constructor].
      apply (sh_custom _ [1] [97] [7]); [apply uN_last; vm_compute; repeat split; congruence|vm_compute; discriminate|reflexivity].
  - reflexivity.
Qed.

(** C10, however the input arrives. *)
Theorem C10_counts_agree : forall off cs tr,
  0 <= off -> off + zlen (List.concat cs) + 99 <= U64MAX ->
  bytes_ok (List.concat cs) -> ~ is_component (List.concat cs) ->
  run (new_parser off) [] [] cs false tr None ->
  items_of 3 tr = bodies_of tr /\ data_counts_ok tr.
Proof. exact chunks_counts. Qed.
Print Assumptions C10_counts_agree.
Example C10_case : exists tr,
  run (new_parser 0) [] [] [[0; 97; 115; 109; 1; 0; 0; 0; 3; 2; 1; 0]; [10; 4; 1; 2; 0; 11]] false tr None /\ bodies_of tr = 1.
Proof.
  eexists. split.
  - do 2 apply run_feed. do 4 (eapply run_item; [vm_compute; reflexivity|reflexivity|]). apply run_eof.
    eapply run_last; [vm_compute; reflexivity|reflexivity].
  - reflexivity.
Qed.

(** C11: what the section builders were given is what the parser reports. *)
Theorem C11_built_modules_parse : forall ts data, module_build ts = Some data ->
  Forall tsection_ok ts -> in_order (map tsection_id ts) -> declared 3 ts = defined ts ->
  (forall n, In (TDataCount n) ts -> n = declared 11 ts) -> bytes_ok data -> zlen data <= U64MAX ->
  exists groups, Forall2 tells ts groups /\
    yields (parse_all_of (new_parser 0) data)
      (PVersion 1 EModule (0, 8) :: List.concat groups ++ [PEnd (zlen data)]) None.
Proof. exact module_build_parses. Qed.
Print Assumptions C11_built_modules_parse.
Example C11_built_case :
  let ts := [TLimited 1 1 [96; 0; 0]; TLimited 3 1 [0]; TDataCount 1; TCode [[0; 11]]; TLimited 11 1 [1; 0]; TCustom [97] [1; 2]] in
  Forall tsection_ok ts /\ in_order (map tsection_id ts) /\ declared 3 ts = defined ts /\
  (forall n, In (TDataCount n) ts -> n = declared 11 ts) /\ exists data, module_build ts = Some data /\ bytes_ok data.
Proof.
  cbv zeta. split; [repeat constructor; cbn; auto 12; vm_compute; congruence|].
  split; [cbv; repeat (apply sub_take || apply sub_skip || apply sub_nil)|]. split; [reflexivity|].
  split; [intros n H; repeat (destruct H as [H|H]; [try discriminate H; injection H as <-; reflexivity|]); destruct H|].
  eexists. split; [vm_compute; reflexivity|repeat constructor; vm_compute; discriminate].
Qed.

(** C11 for raw sections with arbitrary contents: if the parser accepts the module,
    it reports exactly these identifiers, in this order, and the ranges it reports
    point at exactly these contents. *)
Theorem C11_raw_sections_reported : forall secs data tr,
  module_finish secs = Some data -> bytes_ok data -> zlen data <= U64MAX ->
  yields (parse_all_of (new_parser 0) data) tr None ->
  Forall2 (fun sec h => fst h = fst sec /\ slice data (fst (snd h)) (snd (snd h)) = snd sec) secs (sections_of tr).
Proof. exact module_finish_reports. Qed.
Print Assumptions C11_raw_sections_reported.
Example C11_raw_case : exists data tr, module_finish [(1, [0]); (0, [1; 97; 7])] = Some data /\
  yields (parse_all_of (new_parser 0) data) tr None.
Proof.
  do 2 eexists. split; [vm_compute; reflexivity|].
  do 3 (eapply yields_item; [vm_compute; reflexivity|reflexivity|]).
  eapply yields_last; [vm_compute; reflexivity|reflexivity].
Qed.

(** C12: skipping the code section with [skip_section] and reading all its bodies
    lead to parsers that answer every later call alike. *)
Theorem C12_skip_section : forall off cs0 cur st buf cs e n count rg size p1,
  0 <= off -> off + zlen (List.concat cs0) <= U64MAX -> bytes_ok (List.concat cs0) ->
  driven off cs0 cur st buf cs e ->
  parse cur buf e = (Ok (Parsed n (PCodeStart count rg size)), p1) ->
  exists q, skip_section p1 = Some q /\
    forall tr p2 rest, reads_bodies p1 (skipn (Z.to_nat n) buf) tr p2 rest ->
      zlen tr = count -> zlen (skipn (Z.to_nat n) buf) - zlen rest = size ->
      skipn (Z.to_nat size) (skipn (Z.to_nat n) buf) = rest /\
      forall data e', p_offset q + zlen data <= U64MAX -> parse q data e' = parse p2 data e'.
Proof. exact skip_same. Qed.
Print Assumptions C12_skip_section.
Example C12_case : exists cur st buf cs e n rg p1 tr p2 rest,
  driven 0 [[0; 97; 115; 109; 1; 0; 0; 0; 3; 2; 1; 0; 10; 4; 1; 2; 0; 11; 0; 1; 0]] cur st buf cs e /\
  parse cur buf e = (Ok (Parsed n (PCodeStart 1 rg 3)), p1) /\
  reads_bodies p1 (skipn (Z.to_nat n) buf) tr p2 rest /\ zlen tr = 1 /\
  zlen (skipn (Z.to_nat n) buf) - zlen rest = 3.
Proof.
  do 11 eexists. split.
  - eapply dr_item; [eapply dr_item; [apply dr_feed, dr_init|vm_compute; reflexivity|reflexivity]|vm_compute; reflexivity|reflexivity].
  - split; [vm_compute; reflexivity|]. split; [eapply rb_cons; [vm_compute; reflexivity|apply rb_nil]|].
    split; reflexivity.
Qed.
