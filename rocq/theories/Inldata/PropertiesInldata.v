(** C61: inline data in the text format. *)
From Coq Require Import List ZArith Bool Lia.
Import ListNotations.
From Verif.Inldata Require Import Model Spec Proofs.
Open Scope Z_scope.

(** A memory with inline data: for every page size that is accepted, and data that fit in an address space, nothing overflows and the
    memory has the least number of pages that hold the data, as its minimum and its maximum; the segment has all the data, at 0, with a constant of the
    type of the memory's addresses. *)
Theorem C61_memory : forall is64 size data, total data < 2 ^ 63 ->
  (forall s, size = Some s -> 0 <= s < 2 ^ 32 /\ page_size s <> None) ->
  let log2 := match size with Some s => page_size s | None => None end in
  exists pages, inline_memory is64 log2 data = Done (mkMem is64 pages (Some pages) false log2, mkSeg is64 0 (flat_map kept data)) /\
    Z.of_nat (length (flat_map kept data)) = total data /\ forall n, 0 <= n -> (total data <= n * bytes_per_page size <-> pages <= n).
Proof.
  intros is64 size data T S log2. assert (T0 : 0 <= total data) by (rewrite <- bytes_total; lia).
  assert (B : exists sz, 0 < sz < 2 ^ 32 /\ sz = bytes_per_page size /\ match log2 with Some k => if 64 <=? k then Panicked else Done (2 ^ k) | None => Done 65536 end = Done sz).
  { unfold log2. destruct size as [s |]; [| exists 65536; simpl; split; [lia | auto]]. destruct (S s eq_refl) as [Bs P]. destruct (page_size s) as [k |] eqn:E; [| contradiction]. apply page_size_iff in E. destruct E as [K ->].
    exists (2 ^ k). pose proof (Z.pow_pos_nonneg 2 k). split; [lia |]. split; [reflexivity |]. destruct (Z.leb_spec 64 k) as [C | C]; [| reflexivity]. pose proof (Z.pow_le_mono_r 2 64 k). lia. }
  destruct B as (sz & Bs & Es & Em). exists ((total data + sz - 1) / sz). split; [| split; [apply bytes_total |]].
  - unfold inline_memory. rewrite total_sum, Z.add_0_l, Em, pushed. unfold u64. destruct (Z.leb_spec (2 ^ 64) (total data)); [lia |]. destruct (Z.leb_spec (2 ^ 64) (total data + sz)); [lia |]. destruct (Z.eqb_spec sz 0); [lia |]. reflexivity.
  - intros n Hn. rewrite <- Es. pose proof (Z.div_mod (total data + sz - 1) sz) as D. pose proof (Z.mod_pos_bound (total data + sz - 1) sz) as M. split; intro H; nia.
Qed.
Print Assumptions C61_memory.

(** Page sizes that are accepted are the powers of two, and what is kept is the exponent. *)
Theorem C61_page_size : forall s, (page_size s <> None <-> power_of_two s) /\ forall k, page_size s = Some k -> s = 2 ^ k.
Proof.
  intro s. split.
  - split; [destruct (page_size s) as [k |] eqn:E; [intros _; exists k; apply page_size_iff; exact E | contradiction] |]. intros (k & K). apply page_size_iff in K. congruence.
  - intros k H. apply page_size_iff in H. apply H.
Qed.
Print Assumptions C61_page_size.

(** Every number of the data is found where it should be: after all that is written before it, in little-endian bytes of its width, as itself modulo the width;
    and a string as its bytes. *)
Theorem C61_numbers : forall before w vs1 v vs2 after,
  let b := slice (flat_map kept (before ++ Nums w (vs1 ++ v :: vs2) :: after)) (total before + Z.of_nat w * Z.of_nat (length vs1)) (Z.of_nat w) in
  length b = w /\ Forall (fun x => 0 <= x < 256) b /\ from_le b = v mod 256 ^ Z.of_nat w.
Proof.
  intros before w vs1 v vs2 after b. assert (E : b = to_le w v).
  { unfold b. rewrite flat_map_app. simpl flat_map. change (fold_left _ _ []) with (kept (Nums w (vs1 ++ v :: vs2))). rewrite kept_nums, flat_map_app. simpl. rewrite <- bytes_total.
    replace (flat_map kept before ++ (flat_map (to_le w) vs1 ++ to_le w v ++ flat_map (to_le w) vs2) ++ flat_map kept after)
      with ((flat_map kept before ++ flat_map (to_le w) vs1) ++ to_le w v ++ (flat_map (to_le w) vs2 ++ flat_map kept after)) by (rewrite <- !app_assoc; reflexivity).
    replace (Z.of_nat (length (flat_map kept before)) + Z.of_nat w * Z.of_nat (length vs1)) with (Z.of_nat (length (flat_map kept before ++ flat_map (to_le w) vs1))) by (rewrite app_length, flat_length; lia).
    replace (Z.of_nat w) with (Z.of_nat (length (to_le w v))) by (rewrite to_le_length; reflexivity). apply slice_at. }
  rewrite E. split; [apply to_le_length | split; [apply to_le_bytes | apply from_to]].
Qed.
Print Assumptions C61_numbers.
Theorem C61_strings : forall before s after, slice (flat_map kept (before ++ Str s :: after)) (total before) (Z.of_nat (length s)) = s.
Proof. intros before s after. rewrite flat_map_app, <- bytes_total. simpl. apply slice_at. Qed.
Print Assumptions C61_strings.

(** [(memory (pagesize 2) (data "abc" (i16 -2 513)))], one without a page size, and sizes that are refused. *)
Example C61_case :
  inline_memory true (page_size 2) [Str [97; 98; 99]; Nums 2 [-2; 513]] = Done (mkMem true 4 (Some 4) false (Some 1), mkSeg true 0 [97; 98; 99; 254; 255; 1; 2]) /\
  inline_memory false None [Str [97]] = Done (mkMem false 1 (Some 1) false None, mkSeg false 0 [97]) /\ inline_memory false None [] = Done (mkMem false 0 (Some 0) false None, mkSeg false 0 []) /\
  page_size 3 = None /\ page_size 0 = None /\ page_size 65536 = Some 16.
Proof. repeat split. Qed.
