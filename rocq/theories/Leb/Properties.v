(** Properties C01-C05: integers of the binary format. *)
From Verif.Base Require Import Prelude.
From Verif.Reader Require Import Model Spec Mono.
From Verif.Leb Require Import Spec Model Proofs Top.

(** C01: whatever [u32] wasm-encoder writes, wasmparser reads back. *)
Theorem C01_u32_roundtrip : forall v, in_u 32 v ->
  exists bs, encode_u32 v = Some bs /\
    forall rest pos off ft, bytes_ok rest ->
      read_var_u32 (mkReader (bs ++ rest) pos off ft)
      = Ok (v, mkReader rest (pos + zlen bs) off ft).
Proof. exact u32_roundtrip. Qed.
Print Assumptions C01_u32_roundtrip.
Example C01_u32_case : in_u 32 624485 /\ encode_u32 624485 = Some [229; 142; 38].
Proof. split; [split; vm_compute; congruence|vm_compute; reflexivity]. Qed.

(** C01, 64-bit. *)
Theorem C01_u64_roundtrip : forall v, in_u 64 v ->
  exists bs, encode_u64 v = Some bs /\
    forall rest pos off ft, bytes_ok rest ->
      read_var_u64 (mkReader (bs ++ rest) pos off ft)
      = Ok (v, mkReader rest (pos + zlen bs) off ft).
Proof. exact u64_roundtrip. Qed.
Print Assumptions C01_u64_roundtrip.
Example C01_u64_case : in_u 64 (2 ^ 64 - 1) /\
  encode_u64 (2 ^ 64 - 1) = Some [255; 255; 255; 255; 255; 255; 255; 255; 255; 1].
Proof. split; [split; vm_compute; congruence|vm_compute; reflexivity]. Qed.

(** C02: signed integers. *)
Theorem C02_i32_roundtrip : forall v, in_s 32 v ->
  exists bs, encode_s32 v = Some bs /\
    forall rest pos off ft, bytes_ok rest ->
      read_var_i32 (mkReader (bs ++ rest) pos off ft)
      = Ok (v, mkReader rest (pos + zlen bs) off ft).
Proof. exact i32_roundtrip. Qed.
Print Assumptions C02_i32_roundtrip.
Example C02_i32_case : in_s 32 (- 2 ^ 31) /\ encode_s32 (- 2 ^ 31) = Some [128; 128; 128; 128; 120].
Proof. split; [split; vm_compute; congruence|vm_compute; reflexivity]. Qed.

Theorem C02_i64_roundtrip : forall v, in_s 64 v ->
  exists bs, encode_s64 v = Some bs /\
    forall rest pos off ft, bytes_ok rest ->
      read_var_i64 (mkReader (bs ++ rest) pos off ft)
      = Ok (v, mkReader rest (pos + zlen bs) off ft).
Proof. exact i64_roundtrip. Qed.
Print Assumptions C02_i64_roundtrip.
Example C02_i64_case : in_s 64 (-123456) /\ encode_s64 (-123456) = Some [192; 187; 120].
Proof. split; [split; vm_compute; congruence|vm_compute; reflexivity]. Qed.

(** C02: type indices are written as [i64] and read as 33-bit integers. *)
Theorem C02_s33_index_roundtrip : forall v, in_u 32 v ->
  exists bs, encode_s64 v = Some bs /\
    forall rest pos off ft, bytes_ok rest ->
      read_var_s33 (mkReader (bs ++ rest) pos off ft)
      = Ok (v, mkReader rest (pos + zlen bs) off ft).
Proof. exact s33_index_roundtrip. Qed.
Print Assumptions C02_s33_index_roundtrip.
Example C02_s33_case : in_u 32 (2 ^ 32 - 1).
Proof. split; vm_compute; congruence. Qed.

(** C02: for general 33-bit values the round trip holds down to -2^27 only; see
    [C03_s33_exact_refuted] for what happens below. *)
Theorem C02_s33_roundtrip_partial : forall v, - 2 ^ 27 <= v < 2 ^ 32 ->
  exists bs, encode_s64 v = Some bs /\
    forall rest pos off ft, bytes_ok rest ->
      read_var_s33 (mkReader (bs ++ rest) pos off ft)
      = Ok (v, mkReader rest (pos + zlen bs) off ft).
Proof. exact s33_short_roundtrip. Qed.
Print Assumptions C02_s33_roundtrip_partial.

(** C03: each reader accepts exactly the encodings of the specification
    (inductive relations [uN], [sN] of Leb/Spec.v) and returns the value encoded. *)
Theorem C03_u32_exact : forall r v r', bytes_ok (r_rem r) ->
  (read_var_u32 r = Ok (v, r') <-> exists bs, uN 32 bs v /\ consumes r bs r').
Proof. exact u32_exact. Qed.
Print Assumptions C03_u32_exact.
Theorem C03_u64_exact : forall r v r', bytes_ok (r_rem r) ->
  (read_var_u64 r = Ok (v, r') <-> exists bs, uN 64 bs v /\ consumes r bs r').
Proof. exact u64_exact. Qed.
Print Assumptions C03_u64_exact.
Theorem C03_i32_exact : forall r v r', bytes_ok (r_rem r) ->
  (read_var_i32 r = Ok (v, r') <-> exists bs, sN 32 bs v /\ consumes r bs r').
Proof. exact i32_exact. Qed.
Print Assumptions C03_i32_exact.
Theorem C03_i64_exact : forall r v r', bytes_ok (r_rem r) ->
  (read_var_i64 r = Ok (v, r') <-> exists bs, sN 64 bs v /\ consumes r bs r').
Proof. exact i64_exact. Qed.
Print Assumptions C03_i64_exact.
(** A non-minimal encoding of 3 in four bytes is accepted; a sixth byte is not. *)
Example C03_case :
  read_var_u32 (mkReader [131; 128; 128; 0; 9] 0 0 all_features)
    = Ok (3, mkReader [9] 4 0 all_features) /\
  is_ok (read_var_u32 (mkReader [131; 128; 128; 128; 128; 0] 0 0 all_features)) = false.
Proof. split; vm_compute; reflexivity. Qed.

(** C03 fails for [read_var_s33]: an in-range encoding is accepted but the value
    returned is not the value encoded. *)
Theorem C03_s33_exact_refuted : exists bs rest v,
  sN 33 bs v /\
  (exists w r', read_var_s33 (mkReader (bs ++ rest) 0 0 all_features) = Ok (w, r') /\
                r_rem r' = rest /\ w <> v).
Proof. exact s33_refuted. Qed.
Print Assumptions C03_s33_exact_refuted.

(** What [read_var_s33] does compute: it accepts exactly the 33-bit encodings, and
    returns the value encoded, plus 2^35 when that value is negative and was
    encoded in five bytes.  Missing for the full property: the second case. *)
Theorem C03_s33_exact_partial : forall r v r', bytes_ok (r_rem r) ->
  (read_var_s33 r = Ok (v, r') <->
   exists bs m, sN 33 bs m /\ consumes r bs r' /\
     v = if (m <? 0) && (zlen bs =? 5) then m + 2 ^ 35 else m).
Proof. exact ReaderProofs.read_var_s33_char. Qed.
Print Assumptions C03_s33_exact_partial.

(** C04: the writers emit the shortest encoding, and for unsigned integers it is
    the only one of that length. *)
Theorem C04_u32_minimal : forall v bs, in_u 32 v -> encode_u32 v = Some bs ->
  uN 32 bs v /\ zlen bs <= 5 /\ encoding_size v = Some (zlen bs) /\
  (forall n bs', uN n bs' v -> zlen bs <= zlen bs') /\
  (forall n bs', uN n bs' v -> zlen bs' = zlen bs -> bs' = bs).
Proof. exact minimal_u32. Qed.
Print Assumptions C04_u32_minimal.
Theorem C04_u64_minimal : forall v bs, in_u 64 v -> encode_u64 v = Some bs ->
  uN 64 bs v /\ zlen bs <= 10 /\
  (forall n bs', uN n bs' v -> zlen bs <= zlen bs') /\
  (forall n bs', uN n bs' v -> zlen bs' = zlen bs -> bs' = bs).
Proof. exact minimal_u64. Qed.
Print Assumptions C04_u64_minimal.
Theorem C04_s32_minimal : forall v bs, in_s 32 v -> encode_s32 v = Some bs ->
  sN 32 bs v /\ zlen bs <= 5 /\ (forall n bs', sN n bs' v -> zlen bs <= zlen bs').
Proof. exact minimal_s32. Qed.
Print Assumptions C04_s32_minimal.
Theorem C04_s64_minimal : forall v bs, in_s 64 v -> encode_s64 v = Some bs ->
  sN 64 bs v /\ zlen bs <= 10 /\ (forall n bs', sN n bs' v -> zlen bs <= zlen bs').
Proof. exact minimal_s64. Qed.
Print Assumptions C04_s64_minimal.
Example C04_case : encode_u32 300 = Some [172; 2] /\ encode_s32 (-65) = Some [191; 127].
Proof. split; vm_compute; reflexivity. Qed.

(** C05: every modelled reader operation is honest about the end of its input
    (definition [honest] in Reader/Mono.v). *)
Theorem C05_varints_honest :
  honest read_var_u32 /\ honest read_var_u64 /\ honest read_var_i32 /\
  honest read_var_i64 /\ honest read_var_s33.
Proof. exact honest_varints. Qed.
Print Assumptions C05_varints_honest.
Theorem C05_fixed_honest :
  honest read_u8 /\ honest peek /\ honest read_u7 /\ honest read_u32 /\ honest read_u64 /\
  (forall n, honest (read_bytes n)) /\
  (forall n, honest (peek_bytes n)) /\
  (forall n, honest (skip_bytes n)) /\
  (forall l d, honest (read_size l d)) /\
  honest read_string /\ honest read_unlimited_string /\ honest skip_string /\
  honest read_reader /\
  (forall A (item : R A), honest item -> forall l d, honest (read_list l d item)).
Proof. exact honest_fixed. Qed.
Print Assumptions C05_fixed_honest.
(** All three kinds of outcome occur. *)
Example C05_cases :
  read_var_u32 (mkReader [128] 0 0 all_features) = Err (err_eof 1 1) /\
  read_var_u32 (mkReader [128; 1] 0 0 all_features) = Ok (128, mkReader [] 2 0 all_features) /\
  e_hint (match read_var_u32 (mkReader [255; 255; 255; 255; 255] 0 0 all_features) with
          | Err e => e | Ok _ => err_eof 0 0 end) = None.
Proof. repeat split; vm_compute; reflexivity. Qed.
