(** Generated by tools/gen_instr.py from crates/wasm-encoder/src/core/instructions.rs and code.rs: do not edit. *)
From Verif.Base Require Import Prelude.
From Verif.Reader Require Import Model.
From Verif.Leb Require Import Model.
From Verif.Codec Require Import Kit.
From Verif.Types Require Import RefModel CodecModel EntityModel.
From Verif.Instr Require Import ImmModel Ops.

(** The methods of [InstructionSink] (instructions.rs); lines on the right. *)
Definition sink_unreachable : out := o_byte 0x00. (* 24 *)
Definition sink_nop : out := o_byte 0x01. (* 30 *)
Definition sink_block (bt : e_block) : out := o_byte 0x02 +++ enc_block bt. (* 36 *)
Definition sink_loop_ (bt : e_block) : out := o_byte 0x03 +++ enc_block bt. (* 43 *)
Definition sink_if_ (bt : e_block) : out := o_byte 0x04 +++ enc_block bt. (* 50 *)
Definition sink_else_ : out := o_byte 0x05. (* 57 *)
Definition sink_end : out := o_byte 0x0b. (* 63 *)
Definition sink_br (l : Z) : out := o_byte 0x0c +++ encode_u32 l. (* 69 *)
Definition sink_br_if (l : Z) : out := o_byte 0x0d +++ encode_u32 l. (* 76 *)
Definition sink_br_table (ls : list Z) (l : Z) : out := o_byte 0x0e +++ o_vec encode_u32 ls +++ encode_u32 l. (* 83 *)
Definition sink_br_on_null (l : Z) : out := o_byte 0xd5 +++ encode_u32 l. (* 94 *)
Definition sink_br_on_non_null (l : Z) : out := o_byte 0xd6 +++ encode_u32 l. (* 101 *)
Definition sink_return_ : out := o_byte 0x0f. (* 108 *)
Definition sink_call (f : Z) : out := o_byte 0x10 +++ encode_u32 f. (* 114 *)
Definition sink_call_ref (ty : Z) : out := o_byte 0x14 +++ encode_u32 ty. (* 121 *)
Definition sink_call_indirect (table_index : Z) (type_index : Z) : out := o_byte 0x11 +++ encode_u32 type_index +++ encode_u32 table_index. (* 128 *)
Definition sink_return_call_ref (ty : Z) : out := o_byte 0x15 +++ encode_u32 ty. (* 136 *)
Definition sink_return_call (f : Z) : out := o_byte 0x12 +++ encode_u32 f. (* 143 *)
Definition sink_return_call_indirect (table_index : Z) (type_index : Z) : out := o_byte 0x13 +++ encode_u32 type_index +++ encode_u32 table_index. (* 150 *)
Definition sink_try_table (ty : e_block) (catches : list catch) : out := o_byte 0x1f +++ enc_block ty +++ o_vec enc_catch catches. (* 158 *)
Definition sink_throw (t : Z) : out := o_byte 0x08 +++ encode_u32 t. (* 173 *)
Definition sink_throw_ref : out := o_byte 0x0a. (* 180 *)
Definition sink_try_ (bt : e_block) : out := o_byte 0x06 +++ enc_block bt. (* 188 *)
Definition sink_delegate (l : Z) : out := o_byte 0x18 +++ encode_u32 l. (* 195 *)
Definition sink_catch (t : Z) : out := o_byte 0x07 +++ encode_u32 t. (* 202 *)
Definition sink_catch_all : out := o_byte 0x19. (* 209 *)
Definition sink_rethrow (l : Z) : out := o_byte 0x09 +++ encode_u32 l. (* 215 *)
Definition sink_drop : out := o_byte 0x1a. (* 224 *)
Definition sink_select : out := o_byte 0x1b. (* 230 *)
Definition sink_local_get (l : Z) : out := o_byte 0x20 +++ encode_u32 l. (* 238 *)
Definition sink_local_set (l : Z) : out := o_byte 0x21 +++ encode_u32 l. (* 245 *)
Definition sink_local_tee (l : Z) : out := o_byte 0x22 +++ encode_u32 l. (* 252 *)
Definition sink_global_get (g : Z) : out := o_byte 0x23 +++ encode_u32 g. (* 259 *)
Definition sink_global_set (g : Z) : out := o_byte 0x24 +++ encode_u32 g. (* 266 *)
Definition sink_i32_load (m : e_memarg) : out := o_byte 0x28 +++ enc_memarg m. (* 275 *)
Definition sink_i64_load (m : e_memarg) : out := o_byte 0x29 +++ enc_memarg m. (* 282 *)
Definition sink_f32_load (m : e_memarg) : out := o_byte 0x2a +++ enc_memarg m. (* 289 *)
Definition sink_f64_load (m : e_memarg) : out := o_byte 0x2b +++ enc_memarg m. (* 296 *)
Definition sink_i32_load8_s (m : e_memarg) : out := o_byte 0x2c +++ enc_memarg m. (* 303 *)
Definition sink_i32_load8_u (m : e_memarg) : out := o_byte 0x2d +++ enc_memarg m. (* 310 *)
Definition sink_i32_load16_s (m : e_memarg) : out := o_byte 0x2e +++ enc_memarg m. (* 317 *)
Definition sink_i32_load16_u (m : e_memarg) : out := o_byte 0x2f +++ enc_memarg m. (* 324 *)
Definition sink_i64_load8_s (m : e_memarg) : out := o_byte 0x30 +++ enc_memarg m. (* 331 *)
Definition sink_i64_load8_u (m : e_memarg) : out := o_byte 0x31 +++ enc_memarg m. (* 338 *)
Definition sink_i64_load16_s (m : e_memarg) : out := o_byte 0x32 +++ enc_memarg m. (* 345 *)
Definition sink_i64_load16_u (m : e_memarg) : out := o_byte 0x33 +++ enc_memarg m. (* 352 *)
Definition sink_i64_load32_s (m : e_memarg) : out := o_byte 0x34 +++ enc_memarg m. (* 359 *)
Definition sink_i64_load32_u (m : e_memarg) : out := o_byte 0x35 +++ enc_memarg m. (* 366 *)
Definition sink_i32_store (m : e_memarg) : out := o_byte 0x36 +++ enc_memarg m. (* 373 *)
Definition sink_i64_store (m : e_memarg) : out := o_byte 0x37 +++ enc_memarg m. (* 380 *)
Definition sink_f32_store (m : e_memarg) : out := o_byte 0x38 +++ enc_memarg m. (* 387 *)
Definition sink_f64_store (m : e_memarg) : out := o_byte 0x39 +++ enc_memarg m. (* 394 *)
Definition sink_i32_store8 (m : e_memarg) : out := o_byte 0x3a +++ enc_memarg m. (* 401 *)
Definition sink_i32_store16 (m : e_memarg) : out := o_byte 0x3b +++ enc_memarg m. (* 408 *)
Definition sink_i64_store8 (m : e_memarg) : out := o_byte 0x3c +++ enc_memarg m. (* 415 *)
Definition sink_i64_store16 (m : e_memarg) : out := o_byte 0x3d +++ enc_memarg m. (* 422 *)
Definition sink_i64_store32 (m : e_memarg) : out := o_byte 0x3e +++ enc_memarg m. (* 429 *)
Definition sink_memory_size (i : Z) : out := o_byte 0x3f +++ encode_u32 i. (* 436 *)
Definition sink_memory_grow (i : Z) : out := o_byte 0x40 +++ encode_u32 i. (* 443 *)
Definition sink_memory_init (mem : Z) (data_index : Z) : out := o_byte 0xfc +++ o_byte 0x08 +++ encode_u32 data_index +++ encode_u32 mem. (* 450 *)
Definition sink_data_drop (data : Z) : out := o_byte 0xfc +++ o_byte 0x09 +++ encode_u32 data. (* 459 *)
Definition sink_memory_copy (dst_mem : Z) (src_mem : Z) : out := o_byte 0xfc +++ o_byte 0x0a +++ encode_u32 dst_mem +++ encode_u32 src_mem. (* 467 *)
Definition sink_memory_fill (mem : Z) : out := o_byte 0xfc +++ o_byte 0x0b +++ encode_u32 mem. (* 476 *)
Definition sink_memory_discard (mem : Z) : out := o_byte 0xfc +++ o_byte 0x12 +++ encode_u32 mem. (* 484 *)
Definition sink_i32_const (x : Z) : out := o_byte 0x41 +++ encode_s32 x. (* 494 *)
Definition sink_i64_const (x : Z) : out := o_byte 0x42 +++ encode_s64 x. (* 501 *)
Definition sink_f32_const (x : Z) : out := o_byte 0x43 +++ o_le 4 x. (* 508 *)
Definition sink_f64_const (x : Z) : out := o_byte 0x44 +++ o_le 8 x. (* 516 *)
Definition sink_i32_eqz : out := o_byte 0x45. (* 524 *)
Definition sink_i32_eq : out := o_byte 0x46. (* 530 *)
Definition sink_i32_ne : out := o_byte 0x47. (* 536 *)
Definition sink_i32_lt_s : out := o_byte 0x48. (* 542 *)
Definition sink_i32_lt_u : out := o_byte 0x49. (* 548 *)
Definition sink_i32_gt_s : out := o_byte 0x4a. (* 554 *)
Definition sink_i32_gt_u : out := o_byte 0x4b. (* 560 *)
Definition sink_i32_le_s : out := o_byte 0x4c. (* 566 *)
Definition sink_i32_le_u : out := o_byte 0x4d. (* 572 *)
Definition sink_i32_ge_s : out := o_byte 0x4e. (* 578 *)
Definition sink_i32_ge_u : out := o_byte 0x4f. (* 584 *)
Definition sink_i64_eqz : out := o_byte 0x50. (* 590 *)
Definition sink_i64_eq : out := o_byte 0x51. (* 596 *)
Definition sink_i64_ne : out := o_byte 0x52. (* 602 *)
Definition sink_i64_lt_s : out := o_byte 0x53. (* 608 *)
Definition sink_i64_lt_u : out := o_byte 0x54. (* 614 *)
Definition sink_i64_gt_s : out := o_byte 0x55. (* 620 *)
Definition sink_i64_gt_u : out := o_byte 0x56. (* 626 *)
Definition sink_i64_le_s : out := o_byte 0x57. (* 632 *)
Definition sink_i64_le_u : out := o_byte 0x58. (* 638 *)
Definition sink_i64_ge_s : out := o_byte 0x59. (* 644 *)
Definition sink_i64_ge_u : out := o_byte 0x5a. (* 650 *)
Definition sink_f32_eq : out := o_byte 0x5b. (* 656 *)
Definition sink_f32_ne : out := o_byte 0x5c. (* 662 *)
Definition sink_f32_lt : out := o_byte 0x5d. (* 668 *)
Definition sink_f32_gt : out := o_byte 0x5e. (* 674 *)
Definition sink_f32_le : out := o_byte 0x5f. (* 680 *)
Definition sink_f32_ge : out := o_byte 0x60. (* 686 *)
Definition sink_f64_eq : out := o_byte 0x61. (* 692 *)
Definition sink_f64_ne : out := o_byte 0x62. (* 698 *)
Definition sink_f64_lt : out := o_byte 0x63. (* 704 *)
Definition sink_f64_gt : out := o_byte 0x64. (* 710 *)
Definition sink_f64_le : out := o_byte 0x65. (* 716 *)
Definition sink_f64_ge : out := o_byte 0x66. (* 722 *)
Definition sink_i32_clz : out := o_byte 0x67. (* 728 *)
Definition sink_i32_ctz : out := o_byte 0x68. (* 734 *)
Definition sink_i32_popcnt : out := o_byte 0x69. (* 740 *)
Definition sink_i32_add : out := o_byte 0x6a. (* 746 *)
Definition sink_i32_sub : out := o_byte 0x6b. (* 752 *)
Definition sink_i32_mul : out := o_byte 0x6c. (* 758 *)
Definition sink_i32_div_s : out := o_byte 0x6d. (* 764 *)
Definition sink_i32_div_u : out := o_byte 0x6e. (* 770 *)
Definition sink_i32_rem_s : out := o_byte 0x6f. (* 776 *)
Definition sink_i32_rem_u : out := o_byte 0x70. (* 782 *)
Definition sink_i32_and : out := o_byte 0x71. (* 788 *)
Definition sink_i32_or : out := o_byte 0x72. (* 794 *)
Definition sink_i32_xor : out := o_byte 0x73. (* 800 *)
Definition sink_i32_shl : out := o_byte 0x74. (* 806 *)
Definition sink_i32_shr_s : out := o_byte 0x75. (* 812 *)
Definition sink_i32_shr_u : out := o_byte 0x76. (* 818 *)
Definition sink_i32_rotl : out := o_byte 0x77. (* 824 *)
Definition sink_i32_rotr : out := o_byte 0x78. (* 830 *)
Definition sink_i64_clz : out := o_byte 0x79. (* 836 *)
Definition sink_i64_ctz : out := o_byte 0x7a. (* 842 *)
Definition sink_i64_popcnt : out := o_byte 0x7b. (* 848 *)
Definition sink_i64_add : out := o_byte 0x7c. (* 854 *)
Definition sink_i64_sub : out := o_byte 0x7d. (* 860 *)
Definition sink_i64_mul : out := o_byte 0x7e. (* 866 *)
Definition sink_i64_div_s : out := o_byte 0x7f. (* 872 *)
Definition sink_i64_div_u : out := o_byte 0x80. (* 878 *)
Definition sink_i64_rem_s : out := o_byte 0x81. (* 884 *)
Definition sink_i64_rem_u : out := o_byte 0x82. (* 890 *)
Definition sink_i64_and : out := o_byte 0x83. (* 896 *)
Definition sink_i64_or : out := o_byte 0x84. (* 902 *)
Definition sink_i64_xor : out := o_byte 0x85. (* 908 *)
Definition sink_i64_shl : out := o_byte 0x86. (* 914 *)
Definition sink_i64_shr_s : out := o_byte 0x87. (* 920 *)
Definition sink_i64_shr_u : out := o_byte 0x88. (* 926 *)
Definition sink_i64_rotl : out := o_byte 0x89. (* 932 *)
Definition sink_i64_rotr : out := o_byte 0x8a. (* 938 *)
Definition sink_f32_abs : out := o_byte 0x8b. (* 944 *)
Definition sink_f32_neg : out := o_byte 0x8c. (* 950 *)
Definition sink_f32_ceil : out := o_byte 0x8d. (* 956 *)
Definition sink_f32_floor : out := o_byte 0x8e. (* 962 *)
Definition sink_f32_trunc : out := o_byte 0x8f. (* 968 *)
Definition sink_f32_nearest : out := o_byte 0x90. (* 974 *)
Definition sink_f32_sqrt : out := o_byte 0x91. (* 980 *)
Definition sink_f32_add : out := o_byte 0x92. (* 986 *)
Definition sink_f32_sub : out := o_byte 0x93. (* 992 *)
Definition sink_f32_mul : out := o_byte 0x94. (* 998 *)
Definition sink_f32_div : out := o_byte 0x95. (* 1004 *)
Definition sink_f32_min : out := o_byte 0x96. (* 1010 *)
Definition sink_f32_max : out := o_byte 0x97. (* 1016 *)
Definition sink_f32_copysign : out := o_byte 0x98. (* 1022 *)
Definition sink_f64_abs : out := o_byte 0x99. (* 1028 *)
Definition sink_f64_neg : out := o_byte 0x9a. (* 1034 *)
Definition sink_f64_ceil : out := o_byte 0x9b. (* 1040 *)
Definition sink_f64_floor : out := o_byte 0x9c. (* 1046 *)
Definition sink_f64_trunc : out := o_byte 0x9d. (* 1052 *)
Definition sink_f64_nearest : out := o_byte 0x9e. (* 1058 *)
Definition sink_f64_sqrt : out := o_byte 0x9f. (* 1064 *)
Definition sink_f64_add : out := o_byte 0xa0. (* 1070 *)
Definition sink_f64_sub : out := o_byte 0xa1. (* 1076 *)
Definition sink_f64_mul : out := o_byte 0xa2. (* 1082 *)
Definition sink_f64_div : out := o_byte 0xa3. (* 1088 *)
Definition sink_f64_min : out := o_byte 0xa4. (* 1094 *)
Definition sink_f64_max : out := o_byte 0xa5. (* 1100 *)
Definition sink_f64_copysign : out := o_byte 0xa6. (* 1106 *)
Definition sink_i32_wrap_i64 : out := o_byte 0xa7. (* 1112 *)
Definition sink_i32_trunc_f32_s : out := o_byte 0xa8. (* 1118 *)
Definition sink_i32_trunc_f32_u : out := o_byte 0xa9. (* 1124 *)
Definition sink_i32_trunc_f64_s : out := o_byte 0xaa. (* 1130 *)
Definition sink_i32_trunc_f64_u : out := o_byte 0xab. (* 1136 *)
Definition sink_i64_extend_i32_s : out := o_byte 0xac. (* 1142 *)
Definition sink_i64_extend_i32_u : out := o_byte 0xad. (* 1148 *)
Definition sink_i64_trunc_f32_s : out := o_byte 0xae. (* 1154 *)
Definition sink_i64_trunc_f32_u : out := o_byte 0xaf. (* 1160 *)
Definition sink_i64_trunc_f64_s : out := o_byte 0xb0. (* 1166 *)
Definition sink_i64_trunc_f64_u : out := o_byte 0xb1. (* 1172 *)
Definition sink_f32_convert_i32_s : out := o_byte 0xb2. (* 1178 *)
Definition sink_f32_convert_i32_u : out := o_byte 0xb3. (* 1184 *)
Definition sink_f32_convert_i64_s : out := o_byte 0xb4. (* 1190 *)
Definition sink_f32_convert_i64_u : out := o_byte 0xb5. (* 1196 *)
Definition sink_f32_demote_f64 : out := o_byte 0xb6. (* 1202 *)
Definition sink_f64_convert_i32_s : out := o_byte 0xb7. (* 1208 *)
Definition sink_f64_convert_i32_u : out := o_byte 0xb8. (* 1214 *)
Definition sink_f64_convert_i64_s : out := o_byte 0xb9. (* 1220 *)
Definition sink_f64_convert_i64_u : out := o_byte 0xba. (* 1226 *)
Definition sink_f64_promote_f32 : out := o_byte 0xbb. (* 1232 *)
Definition sink_i32_reinterpret_f32 : out := o_byte 0xbc. (* 1238 *)
Definition sink_i64_reinterpret_f64 : out := o_byte 0xbd. (* 1244 *)
Definition sink_f32_reinterpret_i32 : out := o_byte 0xbe. (* 1250 *)
Definition sink_f64_reinterpret_i64 : out := o_byte 0xbf. (* 1256 *)
Definition sink_i32_extend8_s : out := o_byte 0xc0. (* 1262 *)
Definition sink_i32_extend16_s : out := o_byte 0xc1. (* 1268 *)
Definition sink_i64_extend8_s : out := o_byte 0xc2. (* 1274 *)
Definition sink_i64_extend16_s : out := o_byte 0xc3. (* 1280 *)
Definition sink_i64_extend32_s : out := o_byte 0xc4. (* 1286 *)
Definition sink_i32_trunc_sat_f32_s : out := o_byte 0xfc +++ o_byte 0x00. (* 1292 *)
Definition sink_i32_trunc_sat_f32_u : out := o_byte 0xfc +++ o_byte 0x01. (* 1299 *)
Definition sink_i32_trunc_sat_f64_s : out := o_byte 0xfc +++ o_byte 0x02. (* 1306 *)
Definition sink_i32_trunc_sat_f64_u : out := o_byte 0xfc +++ o_byte 0x03. (* 1313 *)
Definition sink_i64_trunc_sat_f32_s : out := o_byte 0xfc +++ o_byte 0x04. (* 1320 *)
Definition sink_i64_trunc_sat_f32_u : out := o_byte 0xfc +++ o_byte 0x05. (* 1327 *)
Definition sink_i64_trunc_sat_f64_s : out := o_byte 0xfc +++ o_byte 0x06. (* 1334 *)
Definition sink_i64_trunc_sat_f64_u : out := o_byte 0xfc +++ o_byte 0x07. (* 1341 *)
Definition sink_typed_select (ty : e_val) : out := o_byte 0x1c +++ o_vec enc_val [ty]. (* 1350 *)
Definition sink_typed_select_multi (tys : list e_val) : out := o_byte 0x1c +++ o_vec enc_val tys. (* 1357 *)
Definition sink_ref_null (ty : e_heap) : out := o_byte 0xd0 +++ enc_heap ty. (* 1364 *)
Definition sink_ref_is_null : out := o_byte 0xd1. (* 1371 *)
Definition sink_ref_func (f : Z) : out := o_byte 0xd2 +++ encode_u32 f. (* 1377 *)
Definition sink_ref_eq : out := o_byte 0xd3. (* 1384 *)
Definition sink_ref_as_non_null : out := o_byte 0xd4. (* 1390 *)
Definition sink_struct_new (type_index : Z) : out := o_byte 0xfb +++ o_byte 0x00 +++ encode_u32 type_index. (* 1398 *)
Definition sink_struct_new_default (type_index : Z) : out := o_byte 0xfb +++ o_byte 0x01 +++ encode_u32 type_index. (* 1406 *)
Definition sink_struct_get (struct_type_index : Z) (field_index : Z) : out := o_byte 0xfb +++ o_byte 0x02 +++ encode_u32 struct_type_index +++ encode_u32 field_index. (* 1414 *)
Definition sink_struct_get_s (struct_type_index : Z) (field_index : Z) : out := o_byte 0xfb +++ o_byte 0x03 +++ encode_u32 struct_type_index +++ encode_u32 field_index. (* 1423 *)
Definition sink_struct_get_u (struct_type_index : Z) (field_index : Z) : out := o_byte 0xfb +++ o_byte 0x04 +++ encode_u32 struct_type_index +++ encode_u32 field_index. (* 1432 *)
Definition sink_struct_set (struct_type_index : Z) (field_index : Z) : out := o_byte 0xfb +++ o_byte 0x05 +++ encode_u32 struct_type_index +++ encode_u32 field_index. (* 1441 *)
Definition sink_struct_new_desc (type_index : Z) : out := o_byte 0xfb +++ o_byte 0x20 +++ encode_u32 type_index. (* 1450 *)
Definition sink_struct_new_default_desc (type_index : Z) : out := o_byte 0xfb +++ o_byte 0x21 +++ encode_u32 type_index. (* 1458 *)
Definition sink_array_new (type_index : Z) : out := o_byte 0xfb +++ o_byte 0x06 +++ encode_u32 type_index. (* 1466 *)
Definition sink_array_new_default (type_index : Z) : out := o_byte 0xfb +++ o_byte 0x07 +++ encode_u32 type_index. (* 1474 *)
Definition sink_array_new_fixed (array_type_index : Z) (array_size : Z) : out := o_byte 0xfb +++ o_byte 0x08 +++ encode_u32 array_type_index +++ encode_u32 array_size. (* 1482 *)
Definition sink_array_new_data (array_type_index : Z) (array_data_index : Z) : out := o_byte 0xfb +++ o_byte 0x09 +++ encode_u32 array_type_index +++ encode_u32 array_data_index. (* 1491 *)
Definition sink_array_new_elem (array_type_index : Z) (array_elem_index : Z) : out := o_byte 0xfb +++ o_byte 0x0a +++ encode_u32 array_type_index +++ encode_u32 array_elem_index. (* 1500 *)
Definition sink_array_get (type_index : Z) : out := o_byte 0xfb +++ o_byte 0x0b +++ encode_u32 type_index. (* 1509 *)
Definition sink_array_get_s (type_index : Z) : out := o_byte 0xfb +++ o_byte 0x0c +++ encode_u32 type_index. (* 1517 *)
Definition sink_array_get_u (type_index : Z) : out := o_byte 0xfb +++ o_byte 0x0d +++ encode_u32 type_index. (* 1525 *)
Definition sink_array_set (type_index : Z) : out := o_byte 0xfb +++ o_byte 0x0e +++ encode_u32 type_index. (* 1533 *)
Definition sink_array_len : out := o_byte 0xfb +++ o_byte 0x0f. (* 1541 *)
Definition sink_array_fill (type_index : Z) : out := o_byte 0xfb +++ o_byte 0x10 +++ encode_u32 type_index. (* 1548 *)
Definition sink_array_copy (array_type_index_dst : Z) (array_type_index_src : Z) : out := o_byte 0xfb +++ o_byte 0x11 +++ encode_u32 array_type_index_dst +++ encode_u32 array_type_index_src. (* 1556 *)
Definition sink_array_init_data (array_type_index : Z) (array_data_index : Z) : out := o_byte 0xfb +++ o_byte 0x12 +++ encode_u32 array_type_index +++ encode_u32 array_data_index. (* 1569 *)
Definition sink_array_init_elem (array_type_index : Z) (array_elem_index : Z) : out := o_byte 0xfb +++ o_byte 0x13 +++ encode_u32 array_type_index +++ encode_u32 array_elem_index. (* 1578 *)
Definition sink_ref_test_non_null (heap_type : e_heap) : out := o_byte 0xfb +++ o_byte 0x14 +++ enc_heap heap_type. (* 1587 *)
Definition sink_ref_test_nullable (heap_type : e_heap) : out := o_byte 0xfb +++ o_byte 0x15 +++ enc_heap heap_type. (* 1595 *)
Definition sink_ref_cast_non_null (heap_type : e_heap) : out := o_byte 0xfb +++ o_byte 0x16 +++ enc_heap heap_type. (* 1603 *)
Definition sink_ref_cast_nullable (heap_type : e_heap) : out := o_byte 0xfb +++ o_byte 0x17 +++ enc_heap heap_type. (* 1611 *)
Definition sink_br_on_cast (relative_depth : Z) (from_ref_type : e_ref) (to_ref_type : e_ref) : out := o_byte 0xfb +++ o_byte 0x18 +++ o_byte (cast_flags from_ref_type to_ref_type) +++ encode_u32 relative_depth +++ enc_heap (er_heap from_ref_type) +++ enc_heap (er_heap to_ref_type). (* 1619 *)
Definition sink_br_on_cast_fail (relative_depth : Z) (from_ref_type : e_ref) (to_ref_type : e_ref) : out := o_byte 0xfb +++ o_byte 0x19 +++ o_byte (cast_flags from_ref_type to_ref_type) +++ encode_u32 relative_depth +++ enc_heap (er_heap from_ref_type) +++ enc_heap (er_heap to_ref_type). (* 1636 *)
Definition sink_any_convert_extern : out := o_byte 0xfb +++ o_byte 0x1a. (* 1653 *)
Definition sink_extern_convert_any : out := o_byte 0xfb +++ o_byte 0x1b. (* 1660 *)
Definition sink_ref_i31 : out := o_byte 0xfb +++ o_byte 0x1c. (* 1667 *)
Definition sink_i31_get_s : out := o_byte 0xfb +++ o_byte 0x1d. (* 1674 *)
Definition sink_i31_get_u : out := o_byte 0xfb +++ o_byte 0x1e. (* 1681 *)
Definition sink_table_init (table : Z) (elem_index : Z) : out := o_byte 0xfc +++ o_byte 0x0c +++ encode_u32 elem_index +++ encode_u32 table. (* 1690 *)
Definition sink_elem_drop (segment : Z) : out := o_byte 0xfc +++ o_byte 0x0d +++ encode_u32 segment. (* 1699 *)
Definition sink_table_fill (table : Z) : out := o_byte 0xfc +++ o_byte 0x11 +++ encode_u32 table. (* 1707 *)
Definition sink_table_set (table : Z) : out := o_byte 0x26 +++ encode_u32 table. (* 1715 *)
Definition sink_table_get (table : Z) : out := o_byte 0x25 +++ encode_u32 table. (* 1722 *)
Definition sink_table_grow (table : Z) : out := o_byte 0xfc +++ o_byte 0x0f +++ encode_u32 table. (* 1729 *)
Definition sink_table_size (table : Z) : out := o_byte 0xfc +++ o_byte 0x10 +++ encode_u32 table. (* 1737 *)
Definition sink_table_copy (dst_table : Z) (src_table : Z) : out := o_byte 0xfc +++ o_byte 0x0e +++ encode_u32 dst_table +++ encode_u32 src_table. (* 1745 *)
Definition sink_v128_load (memarg : e_memarg) : out := o_byte 0xfd +++ encode_u32 0x00 +++ enc_memarg memarg. (* 1756 *)
Definition sink_v128_load8x8_s (memarg : e_memarg) : out := o_byte 0xfd +++ encode_u32 0x01 +++ enc_memarg memarg. (* 1764 *)
Definition sink_v128_load8x8_u (memarg : e_memarg) : out := o_byte 0xfd +++ encode_u32 0x02 +++ enc_memarg memarg. (* 1772 *)
Definition sink_v128_load16x4_s (memarg : e_memarg) : out := o_byte 0xfd +++ encode_u32 0x03 +++ enc_memarg memarg. (* 1780 *)
Definition sink_v128_load16x4_u (memarg : e_memarg) : out := o_byte 0xfd +++ encode_u32 0x04 +++ enc_memarg memarg. (* 1788 *)
Definition sink_v128_load32x2_s (memarg : e_memarg) : out := o_byte 0xfd +++ encode_u32 0x05 +++ enc_memarg memarg. (* 1796 *)
Definition sink_v128_load32x2_u (memarg : e_memarg) : out := o_byte 0xfd +++ encode_u32 0x06 +++ enc_memarg memarg. (* 1804 *)
Definition sink_v128_load8_splat (memarg : e_memarg) : out := o_byte 0xfd +++ encode_u32 0x07 +++ enc_memarg memarg. (* 1812 *)
Definition sink_v128_load16_splat (memarg : e_memarg) : out := o_byte 0xfd +++ encode_u32 0x08 +++ enc_memarg memarg. (* 1820 *)
Definition sink_v128_load32_splat (memarg : e_memarg) : out := o_byte 0xfd +++ encode_u32 0x09 +++ enc_memarg memarg. (* 1828 *)
Definition sink_v128_load64_splat (memarg : e_memarg) : out := o_byte 0xfd +++ encode_u32 0x0a +++ enc_memarg memarg. (* 1836 *)
Definition sink_v128_load32_zero (memarg : e_memarg) : out := o_byte 0xfd +++ encode_u32 0x5c +++ enc_memarg memarg. (* 1844 *)
Definition sink_v128_load64_zero (memarg : e_memarg) : out := o_byte 0xfd +++ encode_u32 0x5d +++ enc_memarg memarg. (* 1852 *)
Definition sink_v128_store (memarg : e_memarg) : out := o_byte 0xfd +++ encode_u32 0x0b +++ enc_memarg memarg. (* 1860 *)
Definition sink_v128_load8_lane (memarg : e_memarg) (lane : Z) : out := o_byte 0xfd +++ encode_u32 0x54 +++ enc_memarg memarg +++ o_byte lane. (* 1868 *)
Definition sink_v128_load16_lane (memarg : e_memarg) (lane : Z) : out := o_byte 0xfd +++ encode_u32 0x55 +++ enc_memarg memarg +++ o_byte lane. (* 1877 *)
Definition sink_v128_load32_lane (memarg : e_memarg) (lane : Z) : out := o_byte 0xfd +++ encode_u32 0x56 +++ enc_memarg memarg +++ o_byte lane. (* 1886 *)
Definition sink_v128_load64_lane (memarg : e_memarg) (lane : Z) : out := o_byte 0xfd +++ encode_u32 0x57 +++ enc_memarg memarg +++ o_byte lane. (* 1895 *)
Definition sink_v128_store8_lane (memarg : e_memarg) (lane : Z) : out := o_byte 0xfd +++ encode_u32 0x58 +++ enc_memarg memarg +++ o_byte lane. (* 1904 *)
Definition sink_v128_store16_lane (memarg : e_memarg) (lane : Z) : out := o_byte 0xfd +++ encode_u32 0x59 +++ enc_memarg memarg +++ o_byte lane. (* 1913 *)
Definition sink_v128_store32_lane (memarg : e_memarg) (lane : Z) : out := o_byte 0xfd +++ encode_u32 0x5a +++ enc_memarg memarg +++ o_byte lane. (* 1922 *)
Definition sink_v128_store64_lane (memarg : e_memarg) (lane : Z) : out := o_byte 0xfd +++ encode_u32 0x5b +++ enc_memarg memarg +++ o_byte lane. (* 1931 *)
Definition sink_v128_const (x : Z) : out := o_byte 0xfd +++ encode_u32 0x0c +++ o_le 16 x. (* 1940 *)
Definition sink_i8x16_shuffle (lanes : list Z) : out := o_byte 0xfd +++ encode_u32 0x0d +++ o_raw lanes. (* 1948 *)
Definition sink_i8x16_extract_lane_s (lane : Z) : out := o_byte 0xfd +++ encode_u32 0x15 +++ o_byte lane. (* 1956 *)
Definition sink_i8x16_extract_lane_u (lane : Z) : out := o_byte 0xfd +++ encode_u32 0x16 +++ o_byte lane. (* 1964 *)
Definition sink_i8x16_replace_lane (lane : Z) : out := o_byte 0xfd +++ encode_u32 0x17 +++ o_byte lane. (* 1972 *)
Definition sink_i16x8_extract_lane_s (lane : Z) : out := o_byte 0xfd +++ encode_u32 0x18 +++ o_byte lane. (* 1980 *)
Definition sink_i16x8_extract_lane_u (lane : Z) : out := o_byte 0xfd +++ encode_u32 0x19 +++ o_byte lane. (* 1988 *)
Definition sink_i16x8_replace_lane (lane : Z) : out := o_byte 0xfd +++ encode_u32 0x1a +++ o_byte lane. (* 1996 *)
Definition sink_i32x4_extract_lane (lane : Z) : out := o_byte 0xfd +++ encode_u32 0x1b +++ o_byte lane. (* 2004 *)
Definition sink_i32x4_replace_lane (lane : Z) : out := o_byte 0xfd +++ encode_u32 0x1c +++ o_byte lane. (* 2012 *)
Definition sink_i64x2_extract_lane (lane : Z) : out := o_byte 0xfd +++ encode_u32 0x1d +++ o_byte lane. (* 2020 *)
Definition sink_i64x2_replace_lane (lane : Z) : out := o_byte 0xfd +++ encode_u32 0x1e +++ o_byte lane. (* 2028 *)
Definition sink_f32x4_extract_lane (lane : Z) : out := o_byte 0xfd +++ encode_u32 0x1f +++ o_byte lane. (* 2036 *)
Definition sink_f32x4_replace_lane (lane : Z) : out := o_byte 0xfd +++ encode_u32 0x20 +++ o_byte lane. (* 2044 *)
Definition sink_f64x2_extract_lane (lane : Z) : out := o_byte 0xfd +++ encode_u32 0x21 +++ o_byte lane. (* 2052 *)
Definition sink_f64x2_replace_lane (lane : Z) : out := o_byte 0xfd +++ encode_u32 0x22 +++ o_byte lane. (* 2060 *)
Definition sink_i8x16_swizzle : out := o_byte 0xfd +++ encode_u32 0x0e. (* 2068 *)
Definition sink_i8x16_splat : out := o_byte 0xfd +++ encode_u32 0x0f. (* 2075 *)
Definition sink_i16x8_splat : out := o_byte 0xfd +++ encode_u32 0x10. (* 2082 *)
Definition sink_i32x4_splat : out := o_byte 0xfd +++ encode_u32 0x11. (* 2089 *)
Definition sink_i64x2_splat : out := o_byte 0xfd +++ encode_u32 0x12. (* 2096 *)
Definition sink_f32x4_splat : out := o_byte 0xfd +++ encode_u32 0x13. (* 2103 *)
Definition sink_f64x2_splat : out := o_byte 0xfd +++ encode_u32 0x14. (* 2110 *)
Definition sink_i8x16_eq : out := o_byte 0xfd +++ encode_u32 0x23. (* 2117 *)
Definition sink_i8x16_ne : out := o_byte 0xfd +++ encode_u32 0x24. (* 2124 *)
Definition sink_i8x16_lt_s : out := o_byte 0xfd +++ encode_u32 0x25. (* 2131 *)
Definition sink_i8x16_lt_u : out := o_byte 0xfd +++ encode_u32 0x26. (* 2138 *)
Definition sink_i8x16_gt_s : out := o_byte 0xfd +++ encode_u32 0x27. (* 2145 *)
Definition sink_i8x16_gt_u : out := o_byte 0xfd +++ encode_u32 0x28. (* 2152 *)
Definition sink_i8x16_le_s : out := o_byte 0xfd +++ encode_u32 0x29. (* 2159 *)
Definition sink_i8x16_le_u : out := o_byte 0xfd +++ encode_u32 0x2a. (* 2166 *)
Definition sink_i8x16_ge_s : out := o_byte 0xfd +++ encode_u32 0x2b. (* 2173 *)
Definition sink_i8x16_ge_u : out := o_byte 0xfd +++ encode_u32 0x2c. (* 2180 *)
Definition sink_i16x8_eq : out := o_byte 0xfd +++ encode_u32 0x2d. (* 2187 *)
Definition sink_i16x8_ne : out := o_byte 0xfd +++ encode_u32 0x2e. (* 2194 *)
Definition sink_i16x8_lt_s : out := o_byte 0xfd +++ encode_u32 0x2f. (* 2201 *)
Definition sink_i16x8_lt_u : out := o_byte 0xfd +++ encode_u32 0x30. (* 2208 *)
Definition sink_i16x8_gt_s : out := o_byte 0xfd +++ encode_u32 0x31. (* 2215 *)
Definition sink_i16x8_gt_u : out := o_byte 0xfd +++ encode_u32 0x32. (* 2222 *)
Definition sink_i16x8_le_s : out := o_byte 0xfd +++ encode_u32 0x33. (* 2229 *)
Definition sink_i16x8_le_u : out := o_byte 0xfd +++ encode_u32 0x34. (* 2236 *)
Definition sink_i16x8_ge_s : out := o_byte 0xfd +++ encode_u32 0x35. (* 2243 *)
Definition sink_i16x8_ge_u : out := o_byte 0xfd +++ encode_u32 0x36. (* 2250 *)
Definition sink_i32x4_eq : out := o_byte 0xfd +++ encode_u32 0x37. (* 2257 *)
Definition sink_i32x4_ne : out := o_byte 0xfd +++ encode_u32 0x38. (* 2264 *)
Definition sink_i32x4_lt_s : out := o_byte 0xfd +++ encode_u32 0x39. (* 2271 *)
Definition sink_i32x4_lt_u : out := o_byte 0xfd +++ encode_u32 0x3a. (* 2278 *)
Definition sink_i32x4_gt_s : out := o_byte 0xfd +++ encode_u32 0x3b. (* 2285 *)
Definition sink_i32x4_gt_u : out := o_byte 0xfd +++ encode_u32 0x3c. (* 2292 *)
Definition sink_i32x4_le_s : out := o_byte 0xfd +++ encode_u32 0x3d. (* 2299 *)
Definition sink_i32x4_le_u : out := o_byte 0xfd +++ encode_u32 0x3e. (* 2306 *)
Definition sink_i32x4_ge_s : out := o_byte 0xfd +++ encode_u32 0x3f. (* 2313 *)
Definition sink_i32x4_ge_u : out := o_byte 0xfd +++ encode_u32 0x40. (* 2320 *)
Definition sink_i64x2_eq : out := o_byte 0xfd +++ encode_u32 0xd6. (* 2327 *)
Definition sink_i64x2_ne : out := o_byte 0xfd +++ encode_u32 0xd7. (* 2334 *)
Definition sink_i64x2_lt_s : out := o_byte 0xfd +++ encode_u32 0xd8. (* 2341 *)
Definition sink_i64x2_gt_s : out := o_byte 0xfd +++ encode_u32 0xd9. (* 2348 *)
Definition sink_i64x2_le_s : out := o_byte 0xfd +++ encode_u32 0xda. (* 2355 *)
Definition sink_i64x2_ge_s : out := o_byte 0xfd +++ encode_u32 0xdb. (* 2362 *)
Definition sink_f32x4_eq : out := o_byte 0xfd +++ encode_u32 0x41. (* 2369 *)
Definition sink_f32x4_ne : out := o_byte 0xfd +++ encode_u32 0x42. (* 2376 *)
Definition sink_f32x4_lt : out := o_byte 0xfd +++ encode_u32 0x43. (* 2383 *)
Definition sink_f32x4_gt : out := o_byte 0xfd +++ encode_u32 0x44. (* 2390 *)
Definition sink_f32x4_le : out := o_byte 0xfd +++ encode_u32 0x45. (* 2397 *)
Definition sink_f32x4_ge : out := o_byte 0xfd +++ encode_u32 0x46. (* 2404 *)
Definition sink_f64x2_eq : out := o_byte 0xfd +++ encode_u32 0x47. (* 2411 *)
Definition sink_f64x2_ne : out := o_byte 0xfd +++ encode_u32 0x48. (* 2418 *)
Definition sink_f64x2_lt : out := o_byte 0xfd +++ encode_u32 0x49. (* 2425 *)
Definition sink_f64x2_gt : out := o_byte 0xfd +++ encode_u32 0x4a. (* 2432 *)
Definition sink_f64x2_le : out := o_byte 0xfd +++ encode_u32 0x4b. (* 2439 *)
Definition sink_f64x2_ge : out := o_byte 0xfd +++ encode_u32 0x4c. (* 2446 *)
Definition sink_v128_not : out := o_byte 0xfd +++ encode_u32 0x4d. (* 2453 *)
Definition sink_v128_and : out := o_byte 0xfd +++ encode_u32 0x4e. (* 2460 *)
Definition sink_v128_andnot : out := o_byte 0xfd +++ encode_u32 0x4f. (* 2467 *)
Definition sink_v128_or : out := o_byte 0xfd +++ encode_u32 0x50. (* 2474 *)
Definition sink_v128_xor : out := o_byte 0xfd +++ encode_u32 0x51. (* 2481 *)
Definition sink_v128_bitselect : out := o_byte 0xfd +++ encode_u32 0x52. (* 2488 *)
Definition sink_v128_any_true : out := o_byte 0xfd +++ encode_u32 0x53. (* 2495 *)
Definition sink_i8x16_abs : out := o_byte 0xfd +++ encode_u32 0x60. (* 2502 *)
Definition sink_i8x16_neg : out := o_byte 0xfd +++ encode_u32 0x61. (* 2509 *)
Definition sink_i8x16_popcnt : out := o_byte 0xfd +++ encode_u32 0x62. (* 2516 *)
Definition sink_i8x16_all_true : out := o_byte 0xfd +++ encode_u32 0x63. (* 2523 *)
Definition sink_i8x16_bitmask : out := o_byte 0xfd +++ encode_u32 0x64. (* 2530 *)
Definition sink_i8x16_narrow_i16x8_s : out := o_byte 0xfd +++ encode_u32 0x65. (* 2537 *)
Definition sink_i8x16_narrow_i16x8_u : out := o_byte 0xfd +++ encode_u32 0x66. (* 2544 *)
Definition sink_i8x16_shl : out := o_byte 0xfd +++ encode_u32 0x6b. (* 2551 *)
Definition sink_i8x16_shr_s : out := o_byte 0xfd +++ encode_u32 0x6c. (* 2558 *)
Definition sink_i8x16_shr_u : out := o_byte 0xfd +++ encode_u32 0x6d. (* 2565 *)
Definition sink_i8x16_add : out := o_byte 0xfd +++ encode_u32 0x6e. (* 2572 *)
Definition sink_i8x16_add_sat_s : out := o_byte 0xfd +++ encode_u32 0x6f. (* 2579 *)
Definition sink_i8x16_add_sat_u : out := o_byte 0xfd +++ encode_u32 0x70. (* 2586 *)
Definition sink_i8x16_sub : out := o_byte 0xfd +++ encode_u32 0x71. (* 2593 *)
Definition sink_i8x16_sub_sat_s : out := o_byte 0xfd +++ encode_u32 0x72. (* 2600 *)
Definition sink_i8x16_sub_sat_u : out := o_byte 0xfd +++ encode_u32 0x73. (* 2607 *)
Definition sink_i8x16_min_s : out := o_byte 0xfd +++ encode_u32 0x76. (* 2614 *)
Definition sink_i8x16_min_u : out := o_byte 0xfd +++ encode_u32 0x77. (* 2621 *)
Definition sink_i8x16_max_s : out := o_byte 0xfd +++ encode_u32 0x78. (* 2628 *)
Definition sink_i8x16_max_u : out := o_byte 0xfd +++ encode_u32 0x79. (* 2635 *)
Definition sink_i8x16_avgr_u : out := o_byte 0xfd +++ encode_u32 0x7b. (* 2642 *)
Definition sink_i16x8_extadd_pairwise_i8x16_s : out := o_byte 0xfd +++ encode_u32 0x7c. (* 2649 *)
Definition sink_i16x8_extadd_pairwise_i8x16_u : out := o_byte 0xfd +++ encode_u32 0x7d. (* 2656 *)
Definition sink_i16x8_abs : out := o_byte 0xfd +++ encode_u32 0x80. (* 2663 *)
Definition sink_i16x8_neg : out := o_byte 0xfd +++ encode_u32 0x81. (* 2670 *)
Definition sink_i16x8_q15mulr_sat_s : out := o_byte 0xfd +++ encode_u32 0x82. (* 2677 *)
Definition sink_i16x8_all_true : out := o_byte 0xfd +++ encode_u32 0x83. (* 2684 *)
Definition sink_i16x8_bitmask : out := o_byte 0xfd +++ encode_u32 0x84. (* 2691 *)
Definition sink_i16x8_narrow_i32x4_s : out := o_byte 0xfd +++ encode_u32 0x85. (* 2698 *)
Definition sink_i16x8_narrow_i32x4_u : out := o_byte 0xfd +++ encode_u32 0x86. (* 2705 *)
Definition sink_i16x8_extend_low_i8x16_s : out := o_byte 0xfd +++ encode_u32 0x87. (* 2712 *)
Definition sink_i16x8_extend_high_i8x16_s : out := o_byte 0xfd +++ encode_u32 0x88. (* 2719 *)
Definition sink_i16x8_extend_low_i8x16_u : out := o_byte 0xfd +++ encode_u32 0x89. (* 2726 *)
Definition sink_i16x8_extend_high_i8x16_u : out := o_byte 0xfd +++ encode_u32 0x8a. (* 2733 *)
Definition sink_i16x8_shl : out := o_byte 0xfd +++ encode_u32 0x8b. (* 2740 *)
Definition sink_i16x8_shr_s : out := o_byte 0xfd +++ encode_u32 0x8c. (* 2747 *)
Definition sink_i16x8_shr_u : out := o_byte 0xfd +++ encode_u32 0x8d. (* 2754 *)
Definition sink_i16x8_add : out := o_byte 0xfd +++ encode_u32 0x8e. (* 2761 *)
Definition sink_i16x8_add_sat_s : out := o_byte 0xfd +++ encode_u32 0x8f. (* 2768 *)
Definition sink_i16x8_add_sat_u : out := o_byte 0xfd +++ encode_u32 0x90. (* 2775 *)
Definition sink_i16x8_sub : out := o_byte 0xfd +++ encode_u32 0x91. (* 2782 *)
Definition sink_i16x8_sub_sat_s : out := o_byte 0xfd +++ encode_u32 0x92. (* 2789 *)
Definition sink_i16x8_sub_sat_u : out := o_byte 0xfd +++ encode_u32 0x93. (* 2796 *)
Definition sink_i16x8_mul : out := o_byte 0xfd +++ encode_u32 0x95. (* 2803 *)
Definition sink_i16x8_min_s : out := o_byte 0xfd +++ encode_u32 0x96. (* 2810 *)
Definition sink_i16x8_min_u : out := o_byte 0xfd +++ encode_u32 0x97. (* 2817 *)
Definition sink_i16x8_max_s : out := o_byte 0xfd +++ encode_u32 0x98. (* 2824 *)
Definition sink_i16x8_max_u : out := o_byte 0xfd +++ encode_u32 0x99. (* 2831 *)
Definition sink_i16x8_avgr_u : out := o_byte 0xfd +++ encode_u32 0x9b. (* 2838 *)
Definition sink_i16x8_extmul_low_i8x16_s : out := o_byte 0xfd +++ encode_u32 0x9c. (* 2845 *)
Definition sink_i16x8_extmul_high_i8x16_s : out := o_byte 0xfd +++ encode_u32 0x9d. (* 2852 *)
Definition sink_i16x8_extmul_low_i8x16_u : out := o_byte 0xfd +++ encode_u32 0x9e. (* 2859 *)
Definition sink_i16x8_extmul_high_i8x16_u : out := o_byte 0xfd +++ encode_u32 0x9f. (* 2866 *)
Definition sink_i32x4_extadd_pairwise_i16x8_s : out := o_byte 0xfd +++ encode_u32 0x7e. (* 2873 *)
Definition sink_i32x4_extadd_pairwise_i16x8_u : out := o_byte 0xfd +++ encode_u32 0x7f. (* 2880 *)
Definition sink_i32x4_abs : out := o_byte 0xfd +++ encode_u32 0xa0. (* 2887 *)
Definition sink_i32x4_neg : out := o_byte 0xfd +++ encode_u32 0xa1. (* 2894 *)
Definition sink_i32x4_all_true : out := o_byte 0xfd +++ encode_u32 0xa3. (* 2901 *)
Definition sink_i32x4_bitmask : out := o_byte 0xfd +++ encode_u32 0xa4. (* 2908 *)
Definition sink_i32x4_extend_low_i16x8_s : out := o_byte 0xfd +++ encode_u32 0xa7. (* 2915 *)
Definition sink_i32x4_extend_high_i16x8_s : out := o_byte 0xfd +++ encode_u32 0xa8. (* 2922 *)
Definition sink_i32x4_extend_low_i16x8_u : out := o_byte 0xfd +++ encode_u32 0xa9. (* 2929 *)
Definition sink_i32x4_extend_high_i16x8_u : out := o_byte 0xfd +++ encode_u32 0xaa. (* 2936 *)
Definition sink_i32x4_shl : out := o_byte 0xfd +++ encode_u32 0xab. (* 2943 *)
Definition sink_i32x4_shr_s : out := o_byte 0xfd +++ encode_u32 0xac. (* 2950 *)
Definition sink_i32x4_shr_u : out := o_byte 0xfd +++ encode_u32 0xad. (* 2957 *)
Definition sink_i32x4_add : out := o_byte 0xfd +++ encode_u32 0xae. (* 2964 *)
Definition sink_i32x4_sub : out := o_byte 0xfd +++ encode_u32 0xb1. (* 2971 *)
Definition sink_i32x4_mul : out := o_byte 0xfd +++ encode_u32 0xb5. (* 2978 *)
Definition sink_i32x4_min_s : out := o_byte 0xfd +++ encode_u32 0xb6. (* 2985 *)
Definition sink_i32x4_min_u : out := o_byte 0xfd +++ encode_u32 0xb7. (* 2992 *)
Definition sink_i32x4_max_s : out := o_byte 0xfd +++ encode_u32 0xb8. (* 2999 *)
Definition sink_i32x4_max_u : out := o_byte 0xfd +++ encode_u32 0xb9. (* 3006 *)
Definition sink_i32x4_dot_i16x8_s : out := o_byte 0xfd +++ encode_u32 0xba. (* 3013 *)
Definition sink_i32x4_extmul_low_i16x8_s : out := o_byte 0xfd +++ encode_u32 0xbc. (* 3020 *)
Definition sink_i32x4_extmul_high_i16x8_s : out := o_byte 0xfd +++ encode_u32 0xbd. (* 3027 *)
Definition sink_i32x4_extmul_low_i16x8_u : out := o_byte 0xfd +++ encode_u32 0xbe. (* 3034 *)
Definition sink_i32x4_extmul_high_i16x8_u : out := o_byte 0xfd +++ encode_u32 0xbf. (* 3041 *)
Definition sink_i64x2_abs : out := o_byte 0xfd +++ encode_u32 0xc0. (* 3048 *)
Definition sink_i64x2_neg : out := o_byte 0xfd +++ encode_u32 0xc1. (* 3055 *)
Definition sink_i64x2_all_true : out := o_byte 0xfd +++ encode_u32 0xc3. (* 3062 *)
Definition sink_i64x2_bitmask : out := o_byte 0xfd +++ encode_u32 0xc4. (* 3069 *)
Definition sink_i64x2_extend_low_i32x4_s : out := o_byte 0xfd +++ encode_u32 0xc7. (* 3076 *)
Definition sink_i64x2_extend_high_i32x4_s : out := o_byte 0xfd +++ encode_u32 0xc8. (* 3083 *)
Definition sink_i64x2_extend_low_i32x4_u : out := o_byte 0xfd +++ encode_u32 0xc9. (* 3090 *)
Definition sink_i64x2_extend_high_i32x4_u : out := o_byte 0xfd +++ encode_u32 0xca. (* 3097 *)
Definition sink_i64x2_shl : out := o_byte 0xfd +++ encode_u32 0xcb. (* 3104 *)
Definition sink_i64x2_shr_s : out := o_byte 0xfd +++ encode_u32 0xcc. (* 3111 *)
Definition sink_i64x2_shr_u : out := o_byte 0xfd +++ encode_u32 0xcd. (* 3118 *)
Definition sink_i64x2_add : out := o_byte 0xfd +++ encode_u32 0xce. (* 3125 *)
Definition sink_i64x2_sub : out := o_byte 0xfd +++ encode_u32 0xd1. (* 3132 *)
Definition sink_i64x2_mul : out := o_byte 0xfd +++ encode_u32 0xd5. (* 3139 *)
Definition sink_i64x2_extmul_low_i32x4_s : out := o_byte 0xfd +++ encode_u32 0xdc. (* 3146 *)
Definition sink_i64x2_extmul_high_i32x4_s : out := o_byte 0xfd +++ encode_u32 0xdd. (* 3153 *)
Definition sink_i64x2_extmul_low_i32x4_u : out := o_byte 0xfd +++ encode_u32 0xde. (* 3160 *)
Definition sink_i64x2_extmul_high_i32x4_u : out := o_byte 0xfd +++ encode_u32 0xdf. (* 3167 *)
Definition sink_f32x4_ceil : out := o_byte 0xfd +++ encode_u32 0x67. (* 3174 *)
Definition sink_f32x4_floor : out := o_byte 0xfd +++ encode_u32 0x68. (* 3181 *)
Definition sink_f32x4_trunc : out := o_byte 0xfd +++ encode_u32 0x69. (* 3188 *)
Definition sink_f32x4_nearest : out := o_byte 0xfd +++ encode_u32 0x6a. (* 3195 *)
Definition sink_f32x4_abs : out := o_byte 0xfd +++ encode_u32 0xe0. (* 3202 *)
Definition sink_f32x4_neg : out := o_byte 0xfd +++ encode_u32 0xe1. (* 3209 *)
Definition sink_f32x4_sqrt : out := o_byte 0xfd +++ encode_u32 0xe3. (* 3216 *)
Definition sink_f32x4_add : out := o_byte 0xfd +++ encode_u32 0xe4. (* 3223 *)
Definition sink_f32x4_sub : out := o_byte 0xfd +++ encode_u32 0xe5. (* 3230 *)
Definition sink_f32x4_mul : out := o_byte 0xfd +++ encode_u32 0xe6. (* 3237 *)
Definition sink_f32x4_div : out := o_byte 0xfd +++ encode_u32 0xe7. (* 3244 *)
Definition sink_f32x4_min : out := o_byte 0xfd +++ encode_u32 0xe8. (* 3251 *)
Definition sink_f32x4_max : out := o_byte 0xfd +++ encode_u32 0xe9. (* 3258 *)
Definition sink_f32x4_pmin : out := o_byte 0xfd +++ encode_u32 0xea. (* 3265 *)
Definition sink_f32x4_pmax : out := o_byte 0xfd +++ encode_u32 0xeb. (* 3272 *)
Definition sink_f64x2_ceil : out := o_byte 0xfd +++ encode_u32 0x74. (* 3279 *)
Definition sink_f64x2_floor : out := o_byte 0xfd +++ encode_u32 0x75. (* 3286 *)
Definition sink_f64x2_trunc : out := o_byte 0xfd +++ encode_u32 0x7a. (* 3293 *)
Definition sink_f64x2_nearest : out := o_byte 0xfd +++ encode_u32 0x94. (* 3300 *)
Definition sink_f64x2_abs : out := o_byte 0xfd +++ encode_u32 0xec. (* 3307 *)
Definition sink_f64x2_neg : out := o_byte 0xfd +++ encode_u32 0xed. (* 3314 *)
Definition sink_f64x2_sqrt : out := o_byte 0xfd +++ encode_u32 0xef. (* 3321 *)
Definition sink_f64x2_add : out := o_byte 0xfd +++ encode_u32 0xf0. (* 3328 *)
Definition sink_f64x2_sub : out := o_byte 0xfd +++ encode_u32 0xf1. (* 3335 *)
Definition sink_f64x2_mul : out := o_byte 0xfd +++ encode_u32 0xf2. (* 3342 *)
Definition sink_f64x2_div : out := o_byte 0xfd +++ encode_u32 0xf3. (* 3349 *)
Definition sink_f64x2_min : out := o_byte 0xfd +++ encode_u32 0xf4. (* 3356 *)
Definition sink_f64x2_max : out := o_byte 0xfd +++ encode_u32 0xf5. (* 3363 *)
Definition sink_f64x2_pmin : out := o_byte 0xfd +++ encode_u32 0xf6. (* 3370 *)
Definition sink_f64x2_pmax : out := o_byte 0xfd +++ encode_u32 0xf7. (* 3377 *)
Definition sink_i32x4_trunc_sat_f32x4_s : out := o_byte 0xfd +++ encode_u32 0xf8. (* 3384 *)
Definition sink_i32x4_trunc_sat_f32x4_u : out := o_byte 0xfd +++ encode_u32 0xf9. (* 3391 *)
Definition sink_f32x4_convert_i32x4_s : out := o_byte 0xfd +++ encode_u32 0xfa. (* 3398 *)
Definition sink_f32x4_convert_i32x4_u : out := o_byte 0xfd +++ encode_u32 0xfb. (* 3405 *)
Definition sink_i32x4_trunc_sat_f64x2_s_zero : out := o_byte 0xfd +++ encode_u32 0xfc. (* 3412 *)
Definition sink_i32x4_trunc_sat_f64x2_u_zero : out := o_byte 0xfd +++ encode_u32 0xfd. (* 3419 *)
Definition sink_f64x2_convert_low_i32x4_s : out := o_byte 0xfd +++ encode_u32 0xfe. (* 3426 *)
Definition sink_f64x2_convert_low_i32x4_u : out := o_byte 0xfd +++ encode_u32 0xff. (* 3433 *)
Definition sink_f32x4_demote_f64x2_zero : out := o_byte 0xfd +++ encode_u32 0x5e. (* 3440 *)
Definition sink_f64x2_promote_low_f32x4 : out := o_byte 0xfd +++ encode_u32 0x5f. (* 3447 *)
Definition sink_i8x16_relaxed_swizzle : out := o_byte 0xfd +++ encode_u32 0x100. (* 3456 *)
Definition sink_i32x4_relaxed_trunc_f32x4_s : out := o_byte 0xfd +++ encode_u32 0x101. (* 3463 *)
Definition sink_i32x4_relaxed_trunc_f32x4_u : out := o_byte 0xfd +++ encode_u32 0x102. (* 3470 *)
Definition sink_i32x4_relaxed_trunc_f64x2_s_zero : out := o_byte 0xfd +++ encode_u32 0x103. (* 3477 *)
Definition sink_i32x4_relaxed_trunc_f64x2_u_zero : out := o_byte 0xfd +++ encode_u32 0x104. (* 3484 *)
Definition sink_f32x4_relaxed_madd : out := o_byte 0xfd +++ encode_u32 0x105. (* 3491 *)
Definition sink_f32x4_relaxed_nmadd : out := o_byte 0xfd +++ encode_u32 0x106. (* 3498 *)
Definition sink_f64x2_relaxed_madd : out := o_byte 0xfd +++ encode_u32 0x107. (* 3505 *)
Definition sink_f64x2_relaxed_nmadd : out := o_byte 0xfd +++ encode_u32 0x108. (* 3512 *)
Definition sink_i8x16_relaxed_laneselect : out := o_byte 0xfd +++ encode_u32 0x109. (* 3519 *)
Definition sink_i16x8_relaxed_laneselect : out := o_byte 0xfd +++ encode_u32 0x10a. (* 3526 *)
Definition sink_i32x4_relaxed_laneselect : out := o_byte 0xfd +++ encode_u32 0x10b. (* 3533 *)
Definition sink_i64x2_relaxed_laneselect : out := o_byte 0xfd +++ encode_u32 0x10c. (* 3540 *)
Definition sink_f32x4_relaxed_min : out := o_byte 0xfd +++ encode_u32 0x10d. (* 3547 *)
Definition sink_f32x4_relaxed_max : out := o_byte 0xfd +++ encode_u32 0x10e. (* 3554 *)
Definition sink_f64x2_relaxed_min : out := o_byte 0xfd +++ encode_u32 0x10f. (* 3561 *)
Definition sink_f64x2_relaxed_max : out := o_byte 0xfd +++ encode_u32 0x110. (* 3568 *)
Definition sink_i16x8_relaxed_q15mulr_s : out := o_byte 0xfd +++ encode_u32 0x111. (* 3575 *)
Definition sink_i16x8_relaxed_dot_i8x16_i7x16_s : out := o_byte 0xfd +++ encode_u32 0x112. (* 3582 *)
Definition sink_i32x4_relaxed_dot_i8x16_i7x16_add_s : out := o_byte 0xfd +++ encode_u32 0x113. (* 3589 *)
Definition sink_memory_atomic_notify (memarg : e_memarg) : out := o_byte 0xfe +++ o_byte 0x00 +++ enc_memarg memarg. (* 3598 *)
Definition sink_memory_atomic_wait32 (memarg : e_memarg) : out := o_byte 0xfe +++ o_byte 0x01 +++ enc_memarg memarg. (* 3606 *)
Definition sink_memory_atomic_wait64 (memarg : e_memarg) : out := o_byte 0xfe +++ o_byte 0x02 +++ enc_memarg memarg. (* 3614 *)
Definition sink_atomic_fence : out := o_byte 0xfe +++ o_byte 0x03 +++ o_byte 0x00. (* 3622 *)
Definition sink_i32_atomic_load (memarg : e_memarg) : out := o_byte 0xfe +++ o_byte 0x10 +++ enc_memarg memarg. (* 3630 *)
Definition sink_i64_atomic_load (memarg : e_memarg) : out := o_byte 0xfe +++ o_byte 0x11 +++ enc_memarg memarg. (* 3638 *)
Definition sink_i32_atomic_load8_u (memarg : e_memarg) : out := o_byte 0xfe +++ o_byte 0x12 +++ enc_memarg memarg. (* 3646 *)
Definition sink_i32_atomic_load16_u (memarg : e_memarg) : out := o_byte 0xfe +++ o_byte 0x13 +++ enc_memarg memarg. (* 3654 *)
Definition sink_i64_atomic_load8_u (memarg : e_memarg) : out := o_byte 0xfe +++ o_byte 0x14 +++ enc_memarg memarg. (* 3662 *)
Definition sink_i64_atomic_load16_u (memarg : e_memarg) : out := o_byte 0xfe +++ o_byte 0x15 +++ enc_memarg memarg. (* 3670 *)
Definition sink_i64_atomic_load32_u (memarg : e_memarg) : out := o_byte 0xfe +++ o_byte 0x16 +++ enc_memarg memarg. (* 3678 *)
Definition sink_i32_atomic_store (memarg : e_memarg) : out := o_byte 0xfe +++ o_byte 0x17 +++ enc_memarg memarg. (* 3686 *)
Definition sink_i64_atomic_store (memarg : e_memarg) : out := o_byte 0xfe +++ o_byte 0x18 +++ enc_memarg memarg. (* 3694 *)
Definition sink_i32_atomic_store8 (memarg : e_memarg) : out := o_byte 0xfe +++ o_byte 0x19 +++ enc_memarg memarg. (* 3702 *)
Definition sink_i32_atomic_store16 (memarg : e_memarg) : out := o_byte 0xfe +++ o_byte 0x1a +++ enc_memarg memarg. (* 3710 *)
Definition sink_i64_atomic_store8 (memarg : e_memarg) : out := o_byte 0xfe +++ o_byte 0x1b +++ enc_memarg memarg. (* 3718 *)
Definition sink_i64_atomic_store16 (memarg : e_memarg) : out := o_byte 0xfe +++ o_byte 0x1c +++ enc_memarg memarg. (* 3726 *)
Definition sink_i64_atomic_store32 (memarg : e_memarg) : out := o_byte 0xfe +++ o_byte 0x1d +++ enc_memarg memarg. (* 3734 *)
Definition sink_i32_atomic_rmw_add (memarg : e_memarg) : out := o_byte 0xfe +++ o_byte 0x1e +++ enc_memarg memarg. (* 3742 *)
Definition sink_i64_atomic_rmw_add (memarg : e_memarg) : out := o_byte 0xfe +++ o_byte 0x1f +++ enc_memarg memarg. (* 3750 *)
Definition sink_i32_atomic_rmw8_add_u (memarg : e_memarg) : out := o_byte 0xfe +++ o_byte 0x20 +++ enc_memarg memarg. (* 3758 *)
Definition sink_i32_atomic_rmw16_add_u (memarg : e_memarg) : out := o_byte 0xfe +++ o_byte 0x21 +++ enc_memarg memarg. (* 3766 *)
Definition sink_i64_atomic_rmw8_add_u (memarg : e_memarg) : out := o_byte 0xfe +++ o_byte 0x22 +++ enc_memarg memarg. (* 3774 *)
Definition sink_i64_atomic_rmw16_add_u (memarg : e_memarg) : out := o_byte 0xfe +++ o_byte 0x23 +++ enc_memarg memarg. (* 3782 *)
Definition sink_i64_atomic_rmw32_add_u (memarg : e_memarg) : out := o_byte 0xfe +++ o_byte 0x24 +++ enc_memarg memarg. (* 3790 *)
Definition sink_i32_atomic_rmw_sub (memarg : e_memarg) : out := o_byte 0xfe +++ o_byte 0x25 +++ enc_memarg memarg. (* 3798 *)
Definition sink_i64_atomic_rmw_sub (memarg : e_memarg) : out := o_byte 0xfe +++ o_byte 0x26 +++ enc_memarg memarg. (* 3806 *)
Definition sink_i32_atomic_rmw8_sub_u (memarg : e_memarg) : out := o_byte 0xfe +++ o_byte 0x27 +++ enc_memarg memarg. (* 3814 *)
Definition sink_i32_atomic_rmw16_sub_u (memarg : e_memarg) : out := o_byte 0xfe +++ o_byte 0x28 +++ enc_memarg memarg. (* 3822 *)
Definition sink_i64_atomic_rmw8_sub_u (memarg : e_memarg) : out := o_byte 0xfe +++ o_byte 0x29 +++ enc_memarg memarg. (* 3830 *)
Definition sink_i64_atomic_rmw16_sub_u (memarg : e_memarg) : out := o_byte 0xfe +++ o_byte 0x2a +++ enc_memarg memarg. (* 3838 *)
Definition sink_i64_atomic_rmw32_sub_u (memarg : e_memarg) : out := o_byte 0xfe +++ o_byte 0x2b +++ enc_memarg memarg. (* 3846 *)
Definition sink_i32_atomic_rmw_and (memarg : e_memarg) : out := o_byte 0xfe +++ o_byte 0x2c +++ enc_memarg memarg. (* 3854 *)
Definition sink_i64_atomic_rmw_and (memarg : e_memarg) : out := o_byte 0xfe +++ o_byte 0x2d +++ enc_memarg memarg. (* 3862 *)
Definition sink_i32_atomic_rmw8_and_u (memarg : e_memarg) : out := o_byte 0xfe +++ o_byte 0x2e +++ enc_memarg memarg. (* 3870 *)
Definition sink_i32_atomic_rmw16_and_u (memarg : e_memarg) : out := o_byte 0xfe +++ o_byte 0x2f +++ enc_memarg memarg. (* 3878 *)
Definition sink_i64_atomic_rmw8_and_u (memarg : e_memarg) : out := o_byte 0xfe +++ o_byte 0x30 +++ enc_memarg memarg. (* 3886 *)
Definition sink_i64_atomic_rmw16_and_u (memarg : e_memarg) : out := o_byte 0xfe +++ o_byte 0x31 +++ enc_memarg memarg. (* 3894 *)
Definition sink_i64_atomic_rmw32_and_u (memarg : e_memarg) : out := o_byte 0xfe +++ o_byte 0x32 +++ enc_memarg memarg. (* 3902 *)
Definition sink_i32_atomic_rmw_or (memarg : e_memarg) : out := o_byte 0xfe +++ o_byte 0x33 +++ enc_memarg memarg. (* 3910 *)
Definition sink_i64_atomic_rmw_or (memarg : e_memarg) : out := o_byte 0xfe +++ o_byte 0x34 +++ enc_memarg memarg. (* 3918 *)
Definition sink_i32_atomic_rmw8_or_u (memarg : e_memarg) : out := o_byte 0xfe +++ o_byte 0x35 +++ enc_memarg memarg. (* 3926 *)
Definition sink_i32_atomic_rmw16_or_u (memarg : e_memarg) : out := o_byte 0xfe +++ o_byte 0x36 +++ enc_memarg memarg. (* 3934 *)
Definition sink_i64_atomic_rmw8_or_u (memarg : e_memarg) : out := o_byte 0xfe +++ o_byte 0x37 +++ enc_memarg memarg. (* 3942 *)
Definition sink_i64_atomic_rmw16_or_u (memarg : e_memarg) : out := o_byte 0xfe +++ o_byte 0x38 +++ enc_memarg memarg. (* 3950 *)
Definition sink_i64_atomic_rmw32_or_u (memarg : e_memarg) : out := o_byte 0xfe +++ o_byte 0x39 +++ enc_memarg memarg. (* 3958 *)
Definition sink_i32_atomic_rmw_xor (memarg : e_memarg) : out := o_byte 0xfe +++ o_byte 0x3a +++ enc_memarg memarg. (* 3966 *)
Definition sink_i64_atomic_rmw_xor (memarg : e_memarg) : out := o_byte 0xfe +++ o_byte 0x3b +++ enc_memarg memarg. (* 3974 *)
Definition sink_i32_atomic_rmw8_xor_u (memarg : e_memarg) : out := o_byte 0xfe +++ o_byte 0x3c +++ enc_memarg memarg. (* 3982 *)
Definition sink_i32_atomic_rmw16_xor_u (memarg : e_memarg) : out := o_byte 0xfe +++ o_byte 0x3d +++ enc_memarg memarg. (* 3990 *)
Definition sink_i64_atomic_rmw8_xor_u (memarg : e_memarg) : out := o_byte 0xfe +++ o_byte 0x3e +++ enc_memarg memarg. (* 3998 *)
Definition sink_i64_atomic_rmw16_xor_u (memarg : e_memarg) : out := o_byte 0xfe +++ o_byte 0x3f +++ enc_memarg memarg. (* 4006 *)
Definition sink_i64_atomic_rmw32_xor_u (memarg : e_memarg) : out := o_byte 0xfe +++ o_byte 0x40 +++ enc_memarg memarg. (* 4014 *)
Definition sink_i32_atomic_rmw_xchg (memarg : e_memarg) : out := o_byte 0xfe +++ o_byte 0x41 +++ enc_memarg memarg. (* 4022 *)
Definition sink_i64_atomic_rmw_xchg (memarg : e_memarg) : out := o_byte 0xfe +++ o_byte 0x42 +++ enc_memarg memarg. (* 4030 *)
Definition sink_i32_atomic_rmw8_xchg_u (memarg : e_memarg) : out := o_byte 0xfe +++ o_byte 0x43 +++ enc_memarg memarg. (* 4038 *)
Definition sink_i32_atomic_rmw16_xchg_u (memarg : e_memarg) : out := o_byte 0xfe +++ o_byte 0x44 +++ enc_memarg memarg. (* 4046 *)
Definition sink_i64_atomic_rmw8_xchg_u (memarg : e_memarg) : out := o_byte 0xfe +++ o_byte 0x45 +++ enc_memarg memarg. (* 4054 *)
Definition sink_i64_atomic_rmw16_xchg_u (memarg : e_memarg) : out := o_byte 0xfe +++ o_byte 0x46 +++ enc_memarg memarg. (* 4062 *)
Definition sink_i64_atomic_rmw32_xchg_u (memarg : e_memarg) : out := o_byte 0xfe +++ o_byte 0x47 +++ enc_memarg memarg. (* 4070 *)
Definition sink_i32_atomic_rmw_cmpxchg (memarg : e_memarg) : out := o_byte 0xfe +++ o_byte 0x48 +++ enc_memarg memarg. (* 4078 *)
Definition sink_i64_atomic_rmw_cmpxchg (memarg : e_memarg) : out := o_byte 0xfe +++ o_byte 0x49 +++ enc_memarg memarg. (* 4086 *)
Definition sink_i32_atomic_rmw8_cmpxchg_u (memarg : e_memarg) : out := o_byte 0xfe +++ o_byte 0x4a +++ enc_memarg memarg. (* 4094 *)
Definition sink_i32_atomic_rmw16_cmpxchg_u (memarg : e_memarg) : out := o_byte 0xfe +++ o_byte 0x4b +++ enc_memarg memarg. (* 4102 *)
Definition sink_i64_atomic_rmw8_cmpxchg_u (memarg : e_memarg) : out := o_byte 0xfe +++ o_byte 0x4c +++ enc_memarg memarg. (* 4110 *)
Definition sink_i64_atomic_rmw16_cmpxchg_u (memarg : e_memarg) : out := o_byte 0xfe +++ o_byte 0x4d +++ enc_memarg memarg. (* 4118 *)
Definition sink_i64_atomic_rmw32_cmpxchg_u (memarg : e_memarg) : out := o_byte 0xfe +++ o_byte 0x4e +++ enc_memarg memarg. (* 4126 *)
Definition sink_global_atomic_get (ordering : ordering) (global_index : Z) : out := o_byte 0xfe +++ o_byte 0x4f +++ enc_ordering ordering +++ encode_u32 global_index. (* 4136 *)
Definition sink_global_atomic_set (ordering : ordering) (global_index : Z) : out := o_byte 0xfe +++ o_byte 0x50 +++ enc_ordering ordering +++ encode_u32 global_index. (* 4145 *)
Definition sink_global_atomic_rmw_add (ordering : ordering) (global_index : Z) : out := o_byte 0xfe +++ o_byte 0x51 +++ enc_ordering ordering +++ encode_u32 global_index. (* 4154 *)
Definition sink_global_atomic_rmw_sub (ordering : ordering) (global_index : Z) : out := o_byte 0xfe +++ o_byte 0x52 +++ enc_ordering ordering +++ encode_u32 global_index. (* 4163 *)
Definition sink_global_atomic_rmw_and (ordering : ordering) (global_index : Z) : out := o_byte 0xfe +++ o_byte 0x53 +++ enc_ordering ordering +++ encode_u32 global_index. (* 4172 *)
Definition sink_global_atomic_rmw_or (ordering : ordering) (global_index : Z) : out := o_byte 0xfe +++ o_byte 0x54 +++ enc_ordering ordering +++ encode_u32 global_index. (* 4181 *)
Definition sink_global_atomic_rmw_xor (ordering : ordering) (global_index : Z) : out := o_byte 0xfe +++ o_byte 0x55 +++ enc_ordering ordering +++ encode_u32 global_index. (* 4190 *)
Definition sink_global_atomic_rmw_xchg (ordering : ordering) (global_index : Z) : out := o_byte 0xfe +++ o_byte 0x56 +++ enc_ordering ordering +++ encode_u32 global_index. (* 4199 *)
Definition sink_global_atomic_rmw_cmpxchg (ordering : ordering) (global_index : Z) : out := o_byte 0xfe +++ o_byte 0x57 +++ enc_ordering ordering +++ encode_u32 global_index. (* 4208 *)
Definition sink_table_atomic_get (ordering : ordering) (table_index : Z) : out := o_byte 0xfe +++ o_byte 0x58 +++ enc_ordering ordering +++ encode_u32 table_index. (* 4221 *)
Definition sink_table_atomic_set (ordering : ordering) (table_index : Z) : out := o_byte 0xfe +++ o_byte 0x59 +++ enc_ordering ordering +++ encode_u32 table_index. (* 4230 *)
Definition sink_table_atomic_rmw_xchg (ordering : ordering) (table_index : Z) : out := o_byte 0xfe +++ o_byte 0x5a +++ enc_ordering ordering +++ encode_u32 table_index. (* 4239 *)
Definition sink_table_atomic_rmw_cmpxchg (ordering : ordering) (table_index : Z) : out := o_byte 0xfe +++ o_byte 0x5b +++ enc_ordering ordering +++ encode_u32 table_index. (* 4248 *)
Definition sink_struct_atomic_get (ordering : ordering) (struct_type_index : Z) (field_index : Z) : out := o_byte 0xfe +++ o_byte 0x5c +++ enc_ordering ordering +++ encode_u32 struct_type_index +++ encode_u32 field_index. (* 4257 *)
Definition sink_struct_atomic_get_s (ordering : ordering) (struct_type_index : Z) (field_index : Z) : out := o_byte 0xfe +++ o_byte 0x5d +++ enc_ordering ordering +++ encode_u32 struct_type_index +++ encode_u32 field_index. (* 4272 *)
Definition sink_struct_atomic_get_u (ordering : ordering) (struct_type_index : Z) (field_index : Z) : out := o_byte 0xfe +++ o_byte 0x5e +++ enc_ordering ordering +++ encode_u32 struct_type_index +++ encode_u32 field_index. (* 4287 *)
Definition sink_struct_atomic_set (ordering : ordering) (struct_type_index : Z) (field_index : Z) : out := o_byte 0xfe +++ o_byte 0x5f +++ enc_ordering ordering +++ encode_u32 struct_type_index +++ encode_u32 field_index. (* 4302 *)
Definition sink_struct_atomic_rmw_add (ordering : ordering) (struct_type_index : Z) (field_index : Z) : out := o_byte 0xfe +++ o_byte 0x60 +++ enc_ordering ordering +++ encode_u32 struct_type_index +++ encode_u32 field_index. (* 4317 *)
Definition sink_struct_atomic_rmw_sub (ordering : ordering) (struct_type_index : Z) (field_index : Z) : out := o_byte 0xfe +++ o_byte 0x61 +++ enc_ordering ordering +++ encode_u32 struct_type_index +++ encode_u32 field_index. (* 4332 *)
Definition sink_struct_atomic_rmw_and (ordering : ordering) (struct_type_index : Z) (field_index : Z) : out := o_byte 0xfe +++ o_byte 0x62 +++ enc_ordering ordering +++ encode_u32 struct_type_index +++ encode_u32 field_index. (* 4347 *)
Definition sink_struct_atomic_rmw_or (ordering : ordering) (struct_type_index : Z) (field_index : Z) : out := o_byte 0xfe +++ o_byte 0x63 +++ enc_ordering ordering +++ encode_u32 struct_type_index +++ encode_u32 field_index. (* 4362 *)
Definition sink_struct_atomic_rmw_xor (ordering : ordering) (struct_type_index : Z) (field_index : Z) : out := o_byte 0xfe +++ o_byte 0x64 +++ enc_ordering ordering +++ encode_u32 struct_type_index +++ encode_u32 field_index. (* 4377 *)
Definition sink_struct_atomic_rmw_xchg (ordering : ordering) (struct_type_index : Z) (field_index : Z) : out := o_byte 0xfe +++ o_byte 0x65 +++ enc_ordering ordering +++ encode_u32 struct_type_index +++ encode_u32 field_index. (* 4392 *)
Definition sink_struct_atomic_rmw_cmpxchg (ordering : ordering) (struct_type_index : Z) (field_index : Z) : out := o_byte 0xfe +++ o_byte 0x66 +++ enc_ordering ordering +++ encode_u32 struct_type_index +++ encode_u32 field_index. (* 4407 *)
Definition sink_array_atomic_get (ordering : ordering) (array_type_index : Z) : out := o_byte 0xfe +++ o_byte 0x67 +++ enc_ordering ordering +++ encode_u32 array_type_index. (* 4422 *)
Definition sink_array_atomic_get_s (ordering : ordering) (array_type_index : Z) : out := o_byte 0xfe +++ o_byte 0x68 +++ enc_ordering ordering +++ encode_u32 array_type_index. (* 4431 *)
Definition sink_array_atomic_get_u (ordering : ordering) (array_type_index : Z) : out := o_byte 0xfe +++ o_byte 0x69 +++ enc_ordering ordering +++ encode_u32 array_type_index. (* 4440 *)
Definition sink_array_atomic_set (ordering : ordering) (array_type_index : Z) : out := o_byte 0xfe +++ o_byte 0x6a +++ enc_ordering ordering +++ encode_u32 array_type_index. (* 4449 *)
Definition sink_array_atomic_rmw_add (ordering : ordering) (array_type_index : Z) : out := o_byte 0xfe +++ o_byte 0x6b +++ enc_ordering ordering +++ encode_u32 array_type_index. (* 4458 *)
Definition sink_array_atomic_rmw_sub (ordering : ordering) (array_type_index : Z) : out := o_byte 0xfe +++ o_byte 0x6c +++ enc_ordering ordering +++ encode_u32 array_type_index. (* 4467 *)
Definition sink_array_atomic_rmw_and (ordering : ordering) (array_type_index : Z) : out := o_byte 0xfe +++ o_byte 0x6d +++ enc_ordering ordering +++ encode_u32 array_type_index. (* 4476 *)
Definition sink_array_atomic_rmw_or (ordering : ordering) (array_type_index : Z) : out := o_byte 0xfe +++ o_byte 0x6e +++ enc_ordering ordering +++ encode_u32 array_type_index. (* 4485 *)
Definition sink_array_atomic_rmw_xor (ordering : ordering) (array_type_index : Z) : out := o_byte 0xfe +++ o_byte 0x6f +++ enc_ordering ordering +++ encode_u32 array_type_index. (* 4494 *)
Definition sink_array_atomic_rmw_xchg (ordering : ordering) (array_type_index : Z) : out := o_byte 0xfe +++ o_byte 0x70 +++ enc_ordering ordering +++ encode_u32 array_type_index. (* 4503 *)
Definition sink_array_atomic_rmw_cmpxchg (ordering : ordering) (array_type_index : Z) : out := o_byte 0xfe +++ o_byte 0x71 +++ enc_ordering ordering +++ encode_u32 array_type_index. (* 4516 *)
Definition sink_ref_i31_shared : out := o_byte 0xfe +++ o_byte 0x72. (* 4529 *)
Definition sink_cont_new (type_index : Z) : out := o_byte 0xe0 +++ encode_u32 type_index. (* 4538 *)
Definition sink_cont_bind (argument_index : Z) (result_index : Z) : out := o_byte 0xe1 +++ encode_u32 argument_index +++ encode_u32 result_index. (* 4545 *)
Definition sink_suspend (tag_index : Z) : out := o_byte 0xe2 +++ encode_u32 tag_index. (* 4553 *)
Definition sink_resume (cont_type_index : Z) (resume_table : list handle) : out := o_byte 0xe3 +++ encode_u32 cont_type_index +++ o_vec enc_handle resume_table. (* 4560 *)
Definition sink_resume_throw (cont_type_index : Z) (tag_index : Z) (resume_table : list handle) : out := o_byte 0xe4 +++ encode_u32 cont_type_index +++ encode_u32 tag_index +++ o_vec enc_handle resume_table. (* 4575 *)
Definition sink_resume_throw_ref (cont_type_index : Z) (resume_table : list handle) : out := o_byte 0xe5 +++ encode_u32 cont_type_index +++ o_vec enc_handle resume_table. (* 4592 *)
Definition sink_switch (cont_type_index : Z) (tag_index : Z) : out := o_byte 0xe6 +++ encode_u32 cont_type_index +++ encode_u32 tag_index. (* 4607 *)
Definition sink_i64_add128 : out := o_byte 0xfc +++ encode_u32 19. (* 4617 *)
Definition sink_i64_sub128 : out := o_byte 0xfc +++ encode_u32 20. (* 4624 *)
Definition sink_i64_mul_wide_s : out := o_byte 0xfc +++ encode_u32 21. (* 4631 *)
Definition sink_i64_mul_wide_u : out := o_byte 0xfc +++ encode_u32 22. (* 4638 *)
Definition sink_ref_get_desc (type_index : Z) : out := o_byte 0xfb +++ encode_u32 34 +++ encode_u32 type_index. (* 4645 *)
Definition sink_ref_cast_desc_eq_non_null (ht : e_heap) : out := o_byte 0xfb +++ encode_u32 35 +++ enc_heap ht. (* 4653 *)
Definition sink_ref_cast_desc_eq_nullable (ht : e_heap) : out := o_byte 0xfb +++ encode_u32 36 +++ enc_heap ht. (* 4661 *)
Definition sink_br_on_cast_desc_eq (relative_depth : Z) (from_ref_type : e_ref) (to_ref_type : e_ref) : out := o_byte 0xfb +++ encode_u32 37 +++ o_byte (cast_flags from_ref_type to_ref_type) +++ encode_u32 relative_depth +++ enc_heap (er_heap from_ref_type) +++ enc_heap (er_heap to_ref_type). (* 4669 *)
Definition sink_br_on_cast_desc_eq_fail (relative_depth : Z) (from_ref_type : e_ref) (to_ref_type : e_ref) : out := o_byte 0xfb +++ encode_u32 38 +++ o_byte (cast_flags from_ref_type to_ref_type) +++ encode_u32 relative_depth +++ enc_heap (er_heap from_ref_type) +++ enc_heap (er_heap to_ref_type). (* 4686 *)

(** [Encode for Instruction] (code.rs:1341-2190); lines on the right. *)
Definition enc_instr (i : instr) : out :=
  match i with
  | In_Unreachable => sink_unreachable (* 1346 *)
  | In_Nop => sink_nop (* 1347 *)
  | In_Block bt => sink_block bt (* 1348 *)
  | In_Loop bt => sink_loop_ bt (* 1349 *)
  | In_If bt => sink_if_ bt (* 1350 *)
  | In_Else => sink_else_ (* 1351 *)
  | In_End => sink_end (* 1357 *)
  | In_Br l => sink_br l (* 1358 *)
  | In_BrIf l => sink_br_if l (* 1359 *)
  | In_BrTable ls l => sink_br_table ls l (* 1360 *)
  | In_BrOnNull l => sink_br_on_null l (* 1361 *)
  | In_BrOnNonNull l => sink_br_on_non_null l (* 1362 *)
  | In_Return => sink_return_ (* 1363 *)
  | In_Call f => sink_call f (* 1364 *)
  | In_CallRef ty => sink_call_ref ty (* 1365 *)
  | In_CallIndirect type_index table_index => sink_call_indirect table_index type_index (* 1366 *)
  | In_ReturnCallRef ty => sink_return_call_ref ty (* 1370 *)
  | In_ReturnCall f => sink_return_call f (* 1372 *)
  | In_ReturnCallIndirect type_index table_index => sink_return_call_indirect table_index type_index (* 1373 *)
  | In_TryTable ty catches => sink_try_table ty catches (* 1386 *)
  | In_Throw t => sink_throw t (* 1354 *)
  | In_ThrowRef => sink_throw_ref (* 1356 *)
  | In_Try bt => sink_try_ bt (* 1352 *)
  | In_Delegate l => sink_delegate l (* 1377 *)
  | In_Catch t => sink_catch t (* 1353 *)
  | In_CatchAll => sink_catch_all (* 1378 *)
  | In_Rethrow l => sink_rethrow l (* 1355 *)
  | In_Drop => sink_drop (* 1381 *)
  | In_Select => sink_select (* 1382 *)
  | In_LocalGet l => sink_local_get l (* 1389 *)
  | In_LocalSet l => sink_local_set l (* 1390 *)
  | In_LocalTee l => sink_local_tee l (* 1391 *)
  | In_GlobalGet g => sink_global_get g (* 1392 *)
  | In_GlobalSet g => sink_global_set g (* 1393 *)
  | In_I32Load m => sink_i32_load m (* 1398 *)
  | In_I64Load m => sink_i64_load m (* 1399 *)
  | In_F32Load m => sink_f32_load m (* 1400 *)
  | In_F64Load m => sink_f64_load m (* 1401 *)
  | In_I32Load8S m => sink_i32_load8_s m (* 1402 *)
  | In_I32Load8U m => sink_i32_load8_u m (* 1403 *)
  | In_I32Load16S m => sink_i32_load16_s m (* 1404 *)
  | In_I32Load16U m => sink_i32_load16_u m (* 1405 *)
  | In_I64Load8S m => sink_i64_load8_s m (* 1406 *)
  | In_I64Load8U m => sink_i64_load8_u m (* 1407 *)
  | In_I64Load16S m => sink_i64_load16_s m (* 1408 *)
  | In_I64Load16U m => sink_i64_load16_u m (* 1409 *)
  | In_I64Load32S m => sink_i64_load32_s m (* 1410 *)
  | In_I64Load32U m => sink_i64_load32_u m (* 1411 *)
  | In_I32Store m => sink_i32_store m (* 1412 *)
  | In_I64Store m => sink_i64_store m (* 1413 *)
  | In_F32Store m => sink_f32_store m (* 1414 *)
  | In_F64Store m => sink_f64_store m (* 1415 *)
  | In_I32Store8 m => sink_i32_store8 m (* 1416 *)
  | In_I32Store16 m => sink_i32_store16 m (* 1417 *)
  | In_I64Store8 m => sink_i64_store8 m (* 1418 *)
  | In_I64Store16 m => sink_i64_store16 m (* 1419 *)
  | In_I64Store32 m => sink_i64_store32 m (* 1420 *)
  | In_MemorySize i => sink_memory_size i (* 1421 *)
  | In_MemoryGrow i => sink_memory_grow i (* 1422 *)
  | In_MemoryInit mem data_index => sink_memory_init mem data_index (* 1423 *)
  | In_DataDrop data => sink_data_drop data (* 1424 *)
  | In_MemoryCopy src_mem dst_mem => sink_memory_copy dst_mem src_mem (* 1425 *)
  | In_MemoryFill mem => sink_memory_fill mem (* 1426 *)
  | In_MemoryDiscard mem => sink_memory_discard mem (* 1427 *)
  | In_I32Const x => sink_i32_const x (* 1430 *)
  | In_I64Const x => sink_i64_const x (* 1431 *)
  | In_F32Const x => sink_f32_const x (* 1432 *)
  | In_F64Const x => sink_f64_const x (* 1433 *)
  | In_I32Eqz => sink_i32_eqz (* 1434 *)
  | In_I32Eq => sink_i32_eq (* 1435 *)
  | In_I32Ne => sink_i32_ne (* 1436 *)
  | In_I32LtS => sink_i32_lt_s (* 1437 *)
  | In_I32LtU => sink_i32_lt_u (* 1438 *)
  | In_I32GtS => sink_i32_gt_s (* 1439 *)
  | In_I32GtU => sink_i32_gt_u (* 1440 *)
  | In_I32LeS => sink_i32_le_s (* 1441 *)
  | In_I32LeU => sink_i32_le_u (* 1442 *)
  | In_I32GeS => sink_i32_ge_s (* 1443 *)
  | In_I32GeU => sink_i32_ge_u (* 1444 *)
  | In_I64Eqz => sink_i64_eqz (* 1445 *)
  | In_I64Eq => sink_i64_eq (* 1446 *)
  | In_I64Ne => sink_i64_ne (* 1447 *)
  | In_I64LtS => sink_i64_lt_s (* 1448 *)
  | In_I64LtU => sink_i64_lt_u (* 1449 *)
  | In_I64GtS => sink_i64_gt_s (* 1450 *)
  | In_I64GtU => sink_i64_gt_u (* 1451 *)
  | In_I64LeS => sink_i64_le_s (* 1452 *)
  | In_I64LeU => sink_i64_le_u (* 1453 *)
  | In_I64GeS => sink_i64_ge_s (* 1454 *)
  | In_I64GeU => sink_i64_ge_u (* 1455 *)
  | In_F32Eq => sink_f32_eq (* 1456 *)
  | In_F32Ne => sink_f32_ne (* 1457 *)
  | In_F32Lt => sink_f32_lt (* 1458 *)
  | In_F32Gt => sink_f32_gt (* 1459 *)
  | In_F32Le => sink_f32_le (* 1460 *)
  | In_F32Ge => sink_f32_ge (* 1461 *)
  | In_F64Eq => sink_f64_eq (* 1462 *)
  | In_F64Ne => sink_f64_ne (* 1463 *)
  | In_F64Lt => sink_f64_lt (* 1464 *)
  | In_F64Gt => sink_f64_gt (* 1465 *)
  | In_F64Le => sink_f64_le (* 1466 *)
  | In_F64Ge => sink_f64_ge (* 1467 *)
  | In_I32Clz => sink_i32_clz (* 1468 *)
  | In_I32Ctz => sink_i32_ctz (* 1469 *)
  | In_I32Popcnt => sink_i32_popcnt (* 1470 *)
  | In_I32Add => sink_i32_add (* 1471 *)
  | In_I32Sub => sink_i32_sub (* 1472 *)
  | In_I32Mul => sink_i32_mul (* 1473 *)
  | In_I32DivS => sink_i32_div_s (* 1474 *)
  | In_I32DivU => sink_i32_div_u (* 1475 *)
  | In_I32RemS => sink_i32_rem_s (* 1476 *)
  | In_I32RemU => sink_i32_rem_u (* 1477 *)
  | In_I32And => sink_i32_and (* 1478 *)
  | In_I32Or => sink_i32_or (* 1479 *)
  | In_I32Xor => sink_i32_xor (* 1480 *)
  | In_I32Shl => sink_i32_shl (* 1481 *)
  | In_I32ShrS => sink_i32_shr_s (* 1482 *)
  | In_I32ShrU => sink_i32_shr_u (* 1483 *)
  | In_I32Rotl => sink_i32_rotl (* 1484 *)
  | In_I32Rotr => sink_i32_rotr (* 1485 *)
  | In_I64Clz => sink_i64_clz (* 1486 *)
  | In_I64Ctz => sink_i64_ctz (* 1487 *)
  | In_I64Popcnt => sink_i64_popcnt (* 1488 *)
  | In_I64Add => sink_i64_add (* 1489 *)
  | In_I64Sub => sink_i64_sub (* 1490 *)
  | In_I64Mul => sink_i64_mul (* 1491 *)
  | In_I64DivS => sink_i64_div_s (* 1492 *)
  | In_I64DivU => sink_i64_div_u (* 1493 *)
  | In_I64RemS => sink_i64_rem_s (* 1494 *)
  | In_I64RemU => sink_i64_rem_u (* 1495 *)
  | In_I64And => sink_i64_and (* 1496 *)
  | In_I64Or => sink_i64_or (* 1497 *)
  | In_I64Xor => sink_i64_xor (* 1498 *)
  | In_I64Shl => sink_i64_shl (* 1499 *)
  | In_I64ShrS => sink_i64_shr_s (* 1500 *)
  | In_I64ShrU => sink_i64_shr_u (* 1501 *)
  | In_I64Rotl => sink_i64_rotl (* 1502 *)
  | In_I64Rotr => sink_i64_rotr (* 1503 *)
  | In_F32Abs => sink_f32_abs (* 1504 *)
  | In_F32Neg => sink_f32_neg (* 1505 *)
  | In_F32Ceil => sink_f32_ceil (* 1506 *)
  | In_F32Floor => sink_f32_floor (* 1507 *)
  | In_F32Trunc => sink_f32_trunc (* 1508 *)
  | In_F32Nearest => sink_f32_nearest (* 1509 *)
  | In_F32Sqrt => sink_f32_sqrt (* 1510 *)
  | In_F32Add => sink_f32_add (* 1511 *)
  | In_F32Sub => sink_f32_sub (* 1512 *)
  | In_F32Mul => sink_f32_mul (* 1513 *)
  | In_F32Div => sink_f32_div (* 1514 *)
  | In_F32Min => sink_f32_min (* 1515 *)
  | In_F32Max => sink_f32_max (* 1516 *)
  | In_F32Copysign => sink_f32_copysign (* 1517 *)
  | In_F64Abs => sink_f64_abs (* 1518 *)
  | In_F64Neg => sink_f64_neg (* 1519 *)
  | In_F64Ceil => sink_f64_ceil (* 1520 *)
  | In_F64Floor => sink_f64_floor (* 1521 *)
  | In_F64Trunc => sink_f64_trunc (* 1522 *)
  | In_F64Nearest => sink_f64_nearest (* 1523 *)
  | In_F64Sqrt => sink_f64_sqrt (* 1524 *)
  | In_F64Add => sink_f64_add (* 1525 *)
  | In_F64Sub => sink_f64_sub (* 1526 *)
  | In_F64Mul => sink_f64_mul (* 1527 *)
  | In_F64Div => sink_f64_div (* 1528 *)
  | In_F64Min => sink_f64_min (* 1529 *)
  | In_F64Max => sink_f64_max (* 1530 *)
  | In_F64Copysign => sink_f64_copysign (* 1531 *)
  | In_I32WrapI64 => sink_i32_wrap_i64 (* 1532 *)
  | In_I32TruncF32S => sink_i32_trunc_f32_s (* 1533 *)
  | In_I32TruncF32U => sink_i32_trunc_f32_u (* 1534 *)
  | In_I32TruncF64S => sink_i32_trunc_f64_s (* 1535 *)
  | In_I32TruncF64U => sink_i32_trunc_f64_u (* 1536 *)
  | In_I64ExtendI32S => sink_i64_extend_i32_s (* 1537 *)
  | In_I64ExtendI32U => sink_i64_extend_i32_u (* 1538 *)
  | In_I64TruncF32S => sink_i64_trunc_f32_s (* 1539 *)
  | In_I64TruncF32U => sink_i64_trunc_f32_u (* 1540 *)
  | In_I64TruncF64S => sink_i64_trunc_f64_s (* 1541 *)
  | In_I64TruncF64U => sink_i64_trunc_f64_u (* 1542 *)
  | In_F32ConvertI32S => sink_f32_convert_i32_s (* 1543 *)
  | In_F32ConvertI32U => sink_f32_convert_i32_u (* 1544 *)
  | In_F32ConvertI64S => sink_f32_convert_i64_s (* 1545 *)
  | In_F32ConvertI64U => sink_f32_convert_i64_u (* 1546 *)
  | In_F32DemoteF64 => sink_f32_demote_f64 (* 1547 *)
  | In_F64ConvertI32S => sink_f64_convert_i32_s (* 1548 *)
  | In_F64ConvertI32U => sink_f64_convert_i32_u (* 1549 *)
  | In_F64ConvertI64S => sink_f64_convert_i64_s (* 1550 *)
  | In_F64ConvertI64U => sink_f64_convert_i64_u (* 1551 *)
  | In_F64PromoteF32 => sink_f64_promote_f32 (* 1552 *)
  | In_I32ReinterpretF32 => sink_i32_reinterpret_f32 (* 1553 *)
  | In_I64ReinterpretF64 => sink_i64_reinterpret_f64 (* 1554 *)
  | In_F32ReinterpretI32 => sink_f32_reinterpret_i32 (* 1555 *)
  | In_F64ReinterpretI64 => sink_f64_reinterpret_i64 (* 1556 *)
  | In_I32Extend8S => sink_i32_extend8_s (* 1557 *)
  | In_I32Extend16S => sink_i32_extend16_s (* 1558 *)
  | In_I64Extend8S => sink_i64_extend8_s (* 1559 *)
  | In_I64Extend16S => sink_i64_extend16_s (* 1560 *)
  | In_I64Extend32S => sink_i64_extend32_s (* 1561 *)
  | In_I32TruncSatF32S => sink_i32_trunc_sat_f32_s (* 1563 *)
  | In_I32TruncSatF32U => sink_i32_trunc_sat_f32_u (* 1564 *)
  | In_I32TruncSatF64S => sink_i32_trunc_sat_f64_s (* 1565 *)
  | In_I32TruncSatF64U => sink_i32_trunc_sat_f64_u (* 1566 *)
  | In_I64TruncSatF32S => sink_i64_trunc_sat_f32_s (* 1567 *)
  | In_I64TruncSatF32U => sink_i64_trunc_sat_f32_u (* 1568 *)
  | In_I64TruncSatF64S => sink_i64_trunc_sat_f64_s (* 1569 *)
  | In_I64TruncSatF64U => sink_i64_trunc_sat_f64_u (* 1570 *)
  | In_TypedSelect ty => sink_typed_select ty (* 1383 *)
  | In_TypedSelectMulti tys => sink_typed_select_multi tys (* 1384 *)
  | In_RefNull ty => sink_ref_null ty (* 1573 *)
  | In_RefIsNull => sink_ref_is_null (* 1574 *)
  | In_RefFunc f => sink_ref_func f (* 1575 *)
  | In_RefEq => sink_ref_eq (* 1576 *)
  | In_RefAsNonNull => sink_ref_as_non_null (* 1577 *)
  | In_StructNew type_index => sink_struct_new type_index (* 1580 *)
  | In_StructNewDefault type_index => sink_struct_new_default type_index (* 1581 *)
  | In_StructGet struct_type_index field_index => sink_struct_get struct_type_index field_index (* 1582 *)
  | In_StructGetS struct_type_index field_index => sink_struct_get_s struct_type_index field_index (* 1586 *)
  | In_StructGetU struct_type_index field_index => sink_struct_get_u struct_type_index field_index (* 1590 *)
  | In_StructSet struct_type_index field_index => sink_struct_set struct_type_index field_index (* 1594 *)
  | In_StructNewDesc type_index => sink_struct_new_desc type_index (* 1598 *)
  | In_StructNewDefaultDesc type_index => sink_struct_new_default_desc type_index (* 1599 *)
  | In_ArrayNew type_index => sink_array_new type_index (* 1602 *)
  | In_ArrayNewDefault type_index => sink_array_new_default type_index (* 1603 *)
  | In_ArrayNewFixed array_type_index array_size => sink_array_new_fixed array_type_index array_size (* 1604 *)
  | In_ArrayNewData array_type_index array_data_index => sink_array_new_data array_type_index array_data_index (* 1608 *)
  | In_ArrayNewElem array_type_index array_elem_index => sink_array_new_elem array_type_index array_elem_index (* 1612 *)
  | In_ArrayGet type_index => sink_array_get type_index (* 1616 *)
  | In_ArrayGetS type_index => sink_array_get_s type_index (* 1617 *)
  | In_ArrayGetU type_index => sink_array_get_u type_index (* 1618 *)
  | In_ArraySet type_index => sink_array_set type_index (* 1619 *)
  | In_ArrayLen => sink_array_len (* 1620 *)
  | In_ArrayFill type_index => sink_array_fill type_index (* 1621 *)
  | In_ArrayCopy array_type_index_dst array_type_index_src => sink_array_copy array_type_index_dst array_type_index_src (* 1622 *)
  | In_ArrayInitData array_type_index array_data_index => sink_array_init_data array_type_index array_data_index (* 1626 *)
  | In_ArrayInitElem array_type_index array_elem_index => sink_array_init_elem array_type_index array_elem_index (* 1630 *)
  | In_RefTestNonNull heap_type => sink_ref_test_non_null heap_type (* 1634 *)
  | In_RefTestNullable heap_type => sink_ref_test_nullable heap_type (* 1635 *)
  | In_RefCastNonNull heap_type => sink_ref_cast_non_null heap_type (* 1636 *)
  | In_RefCastNullable heap_type => sink_ref_cast_nullable heap_type (* 1637 *)
  | In_BrOnCast relative_depth from_ref_type to_ref_type => sink_br_on_cast relative_depth from_ref_type to_ref_type (* 1638 *)
  | In_BrOnCastFail relative_depth from_ref_type to_ref_type => sink_br_on_cast_fail relative_depth from_ref_type to_ref_type (* 1643 *)
  | In_AnyConvertExtern => sink_any_convert_extern (* 1648 *)
  | In_ExternConvertAny => sink_extern_convert_any (* 1649 *)
  | In_RefI31 => sink_ref_i31 (* 1650 *)
  | In_I31GetS => sink_i31_get_s (* 1651 *)
  | In_I31GetU => sink_i31_get_u (* 1652 *)
  | In_TableInit elem_index table => sink_table_init table elem_index (* 1655 *)
  | In_ElemDrop segment => sink_elem_drop segment (* 1656 *)
  | In_TableFill table => sink_table_fill table (* 1663 *)
  | In_TableSet table => sink_table_set table (* 1395 *)
  | In_TableGet table => sink_table_get table (* 1394 *)
  | In_TableGrow table => sink_table_grow table (* 1661 *)
  | In_TableSize table => sink_table_size table (* 1662 *)
  | In_TableCopy src_table dst_table => sink_table_copy dst_table src_table (* 1657 *)
  | In_V128Load memarg => sink_v128_load memarg (* 1666 *)
  | In_V128Load8x8S memarg => sink_v128_load8x8_s memarg (* 1667 *)
  | In_V128Load8x8U memarg => sink_v128_load8x8_u memarg (* 1668 *)
  | In_V128Load16x4S memarg => sink_v128_load16x4_s memarg (* 1669 *)
  | In_V128Load16x4U memarg => sink_v128_load16x4_u memarg (* 1670 *)
  | In_V128Load32x2S memarg => sink_v128_load32x2_s memarg (* 1671 *)
  | In_V128Load32x2U memarg => sink_v128_load32x2_u memarg (* 1672 *)
  | In_V128Load8Splat memarg => sink_v128_load8_splat memarg (* 1673 *)
  | In_V128Load16Splat memarg => sink_v128_load16_splat memarg (* 1674 *)
  | In_V128Load32Splat memarg => sink_v128_load32_splat memarg (* 1675 *)
  | In_V128Load64Splat memarg => sink_v128_load64_splat memarg (* 1676 *)
  | In_V128Load32Zero memarg => sink_v128_load32_zero memarg (* 1887 *)
  | In_V128Load64Zero memarg => sink_v128_load64_zero memarg (* 1888 *)
  | In_V128Store memarg => sink_v128_store memarg (* 1677 *)
  | In_V128Load8Lane memarg lane => sink_v128_load8_lane memarg lane (* 1889 *)
  | In_V128Load16Lane memarg lane => sink_v128_load16_lane memarg lane (* 1890 *)
  | In_V128Load32Lane memarg lane => sink_v128_load32_lane memarg lane (* 1891 *)
  | In_V128Load64Lane memarg lane => sink_v128_load64_lane memarg lane (* 1892 *)
  | In_V128Store8Lane memarg lane => sink_v128_store8_lane memarg lane (* 1893 *)
  | In_V128Store16Lane memarg lane => sink_v128_store16_lane memarg lane (* 1894 *)
  | In_V128Store32Lane memarg lane => sink_v128_store32_lane memarg lane (* 1895 *)
  | In_V128Store64Lane memarg lane => sink_v128_store64_lane memarg lane (* 1896 *)
  | In_V128Const x => sink_v128_const x (* 1678 *)
  | In_I8x16Shuffle lanes => sink_i8x16_shuffle lanes (* 1679 *)
  | In_I8x16ExtractLaneS lane => sink_i8x16_extract_lane_s lane (* 1687 *)
  | In_I8x16ExtractLaneU lane => sink_i8x16_extract_lane_u lane (* 1688 *)
  | In_I8x16ReplaceLane lane => sink_i8x16_replace_lane lane (* 1689 *)
  | In_I16x8ExtractLaneS lane => sink_i16x8_extract_lane_s lane (* 1690 *)
  | In_I16x8ExtractLaneU lane => sink_i16x8_extract_lane_u lane (* 1691 *)
  | In_I16x8ReplaceLane lane => sink_i16x8_replace_lane lane (* 1692 *)
  | In_I32x4ExtractLane lane => sink_i32x4_extract_lane lane (* 1693 *)
  | In_I32x4ReplaceLane lane => sink_i32x4_replace_lane lane (* 1694 *)
  | In_I64x2ExtractLane lane => sink_i64x2_extract_lane lane (* 1695 *)
  | In_I64x2ReplaceLane lane => sink_i64x2_replace_lane lane (* 1696 *)
  | In_F32x4ExtractLane lane => sink_f32x4_extract_lane lane (* 1697 *)
  | In_F32x4ReplaceLane lane => sink_f32x4_replace_lane lane (* 1698 *)
  | In_F64x2ExtractLane lane => sink_f64x2_extract_lane lane (* 1699 *)
  | In_F64x2ReplaceLane lane => sink_f64x2_replace_lane lane (* 1700 *)
  | In_I8x16Swizzle => sink_i8x16_swizzle (* 1680 *)
  | In_I8x16Splat => sink_i8x16_splat (* 1681 *)
  | In_I16x8Splat => sink_i16x8_splat (* 1682 *)
  | In_I32x4Splat => sink_i32x4_splat (* 1683 *)
  | In_I64x2Splat => sink_i64x2_splat (* 1684 *)
  | In_F32x4Splat => sink_f32x4_splat (* 1685 *)
  | In_F64x2Splat => sink_f64x2_splat (* 1686 *)
  | In_I8x16Eq => sink_i8x16_eq (* 1702 *)
  | In_I8x16Ne => sink_i8x16_ne (* 1703 *)
  | In_I8x16LtS => sink_i8x16_lt_s (* 1704 *)
  | In_I8x16LtU => sink_i8x16_lt_u (* 1705 *)
  | In_I8x16GtS => sink_i8x16_gt_s (* 1706 *)
  | In_I8x16GtU => sink_i8x16_gt_u (* 1707 *)
  | In_I8x16LeS => sink_i8x16_le_s (* 1708 *)
  | In_I8x16LeU => sink_i8x16_le_u (* 1709 *)
  | In_I8x16GeS => sink_i8x16_ge_s (* 1710 *)
  | In_I8x16GeU => sink_i8x16_ge_u (* 1711 *)
  | In_I16x8Eq => sink_i16x8_eq (* 1712 *)
  | In_I16x8Ne => sink_i16x8_ne (* 1713 *)
  | In_I16x8LtS => sink_i16x8_lt_s (* 1714 *)
  | In_I16x8LtU => sink_i16x8_lt_u (* 1715 *)
  | In_I16x8GtS => sink_i16x8_gt_s (* 1716 *)
  | In_I16x8GtU => sink_i16x8_gt_u (* 1717 *)
  | In_I16x8LeS => sink_i16x8_le_s (* 1718 *)
  | In_I16x8LeU => sink_i16x8_le_u (* 1719 *)
  | In_I16x8GeS => sink_i16x8_ge_s (* 1720 *)
  | In_I16x8GeU => sink_i16x8_ge_u (* 1721 *)
  | In_I32x4Eq => sink_i32x4_eq (* 1722 *)
  | In_I32x4Ne => sink_i32x4_ne (* 1723 *)
  | In_I32x4LtS => sink_i32x4_lt_s (* 1724 *)
  | In_I32x4LtU => sink_i32x4_lt_u (* 1725 *)
  | In_I32x4GtS => sink_i32x4_gt_s (* 1726 *)
  | In_I32x4GtU => sink_i32x4_gt_u (* 1727 *)
  | In_I32x4LeS => sink_i32x4_le_s (* 1728 *)
  | In_I32x4LeU => sink_i32x4_le_u (* 1729 *)
  | In_I32x4GeS => sink_i32x4_ge_s (* 1730 *)
  | In_I32x4GeU => sink_i32x4_ge_u (* 1731 *)
  | In_I64x2Eq => sink_i64x2_eq (* 1897 *)
  | In_I64x2Ne => sink_i64x2_ne (* 1898 *)
  | In_I64x2LtS => sink_i64x2_lt_s (* 1899 *)
  | In_I64x2GtS => sink_i64x2_gt_s (* 1900 *)
  | In_I64x2LeS => sink_i64x2_le_s (* 1901 *)
  | In_I64x2GeS => sink_i64x2_ge_s (* 1902 *)
  | In_F32x4Eq => sink_f32x4_eq (* 1732 *)
  | In_F32x4Ne => sink_f32x4_ne (* 1733 *)
  | In_F32x4Lt => sink_f32x4_lt (* 1734 *)
  | In_F32x4Gt => sink_f32x4_gt (* 1735 *)
  | In_F32x4Le => sink_f32x4_le (* 1736 *)
  | In_F32x4Ge => sink_f32x4_ge (* 1737 *)
  | In_F64x2Eq => sink_f64x2_eq (* 1738 *)
  | In_F64x2Ne => sink_f64x2_ne (* 1739 *)
  | In_F64x2Lt => sink_f64x2_lt (* 1740 *)
  | In_F64x2Gt => sink_f64x2_gt (* 1741 *)
  | In_F64x2Le => sink_f64x2_le (* 1742 *)
  | In_F64x2Ge => sink_f64x2_ge (* 1743 *)
  | In_V128Not => sink_v128_not (* 1744 *)
  | In_V128And => sink_v128_and (* 1745 *)
  | In_V128AndNot => sink_v128_andnot (* 1746 *)
  | In_V128Or => sink_v128_or (* 1747 *)
  | In_V128Xor => sink_v128_xor (* 1748 *)
  | In_V128Bitselect => sink_v128_bitselect (* 1749 *)
  | In_V128AnyTrue => sink_v128_any_true (* 1750 *)
  | In_I8x16Abs => sink_i8x16_abs (* 1751 *)
  | In_I8x16Neg => sink_i8x16_neg (* 1752 *)
  | In_I8x16Popcnt => sink_i8x16_popcnt (* 1753 *)
  | In_I8x16AllTrue => sink_i8x16_all_true (* 1754 *)
  | In_I8x16Bitmask => sink_i8x16_bitmask (* 1755 *)
  | In_I8x16NarrowI16x8S => sink_i8x16_narrow_i16x8_s (* 1756 *)
  | In_I8x16NarrowI16x8U => sink_i8x16_narrow_i16x8_u (* 1757 *)
  | In_I8x16Shl => sink_i8x16_shl (* 1758 *)
  | In_I8x16ShrS => sink_i8x16_shr_s (* 1759 *)
  | In_I8x16ShrU => sink_i8x16_shr_u (* 1760 *)
  | In_I8x16Add => sink_i8x16_add (* 1761 *)
  | In_I8x16AddSatS => sink_i8x16_add_sat_s (* 1762 *)
  | In_I8x16AddSatU => sink_i8x16_add_sat_u (* 1763 *)
  | In_I8x16Sub => sink_i8x16_sub (* 1764 *)
  | In_I8x16SubSatS => sink_i8x16_sub_sat_s (* 1765 *)
  | In_I8x16SubSatU => sink_i8x16_sub_sat_u (* 1766 *)
  | In_I8x16MinS => sink_i8x16_min_s (* 1767 *)
  | In_I8x16MinU => sink_i8x16_min_u (* 1768 *)
  | In_I8x16MaxS => sink_i8x16_max_s (* 1769 *)
  | In_I8x16MaxU => sink_i8x16_max_u (* 1770 *)
  | In_I8x16AvgrU => sink_i8x16_avgr_u (* 1771 *)
  | In_I16x8ExtAddPairwiseI8x16S => sink_i16x8_extadd_pairwise_i8x16_s (* 1772 *)
  | In_I16x8ExtAddPairwiseI8x16U => sink_i16x8_extadd_pairwise_i8x16_u (* 1773 *)
  | In_I16x8Abs => sink_i16x8_abs (* 1776 *)
  | In_I16x8Neg => sink_i16x8_neg (* 1777 *)
  | In_I16x8Q15MulrSatS => sink_i16x8_q15mulr_sat_s (* 1778 *)
  | In_I16x8AllTrue => sink_i16x8_all_true (* 1779 *)
  | In_I16x8Bitmask => sink_i16x8_bitmask (* 1780 *)
  | In_I16x8NarrowI32x4S => sink_i16x8_narrow_i32x4_s (* 1781 *)
  | In_I16x8NarrowI32x4U => sink_i16x8_narrow_i32x4_u (* 1782 *)
  | In_I16x8ExtendLowI8x16S => sink_i16x8_extend_low_i8x16_s (* 1783 *)
  | In_I16x8ExtendHighI8x16S => sink_i16x8_extend_high_i8x16_s (* 1784 *)
  | In_I16x8ExtendLowI8x16U => sink_i16x8_extend_low_i8x16_u (* 1785 *)
  | In_I16x8ExtendHighI8x16U => sink_i16x8_extend_high_i8x16_u (* 1786 *)
  | In_I16x8Shl => sink_i16x8_shl (* 1787 *)
  | In_I16x8ShrS => sink_i16x8_shr_s (* 1788 *)
  | In_I16x8ShrU => sink_i16x8_shr_u (* 1789 *)
  | In_I16x8Add => sink_i16x8_add (* 1790 *)
  | In_I16x8AddSatS => sink_i16x8_add_sat_s (* 1791 *)
  | In_I16x8AddSatU => sink_i16x8_add_sat_u (* 1792 *)
  | In_I16x8Sub => sink_i16x8_sub (* 1793 *)
  | In_I16x8SubSatS => sink_i16x8_sub_sat_s (* 1794 *)
  | In_I16x8SubSatU => sink_i16x8_sub_sat_u (* 1795 *)
  | In_I16x8Mul => sink_i16x8_mul (* 1796 *)
  | In_I16x8MinS => sink_i16x8_min_s (* 1797 *)
  | In_I16x8MinU => sink_i16x8_min_u (* 1798 *)
  | In_I16x8MaxS => sink_i16x8_max_s (* 1799 *)
  | In_I16x8MaxU => sink_i16x8_max_u (* 1800 *)
  | In_I16x8AvgrU => sink_i16x8_avgr_u (* 1801 *)
  | In_I16x8ExtMulLowI8x16S => sink_i16x8_extmul_low_i8x16_s (* 1802 *)
  | In_I16x8ExtMulHighI8x16S => sink_i16x8_extmul_high_i8x16_s (* 1803 *)
  | In_I16x8ExtMulLowI8x16U => sink_i16x8_extmul_low_i8x16_u (* 1804 *)
  | In_I16x8ExtMulHighI8x16U => sink_i16x8_extmul_high_i8x16_u (* 1805 *)
  | In_I32x4ExtAddPairwiseI16x8S => sink_i32x4_extadd_pairwise_i16x8_s (* 1774 *)
  | In_I32x4ExtAddPairwiseI16x8U => sink_i32x4_extadd_pairwise_i16x8_u (* 1775 *)
  | In_I32x4Abs => sink_i32x4_abs (* 1806 *)
  | In_I32x4Neg => sink_i32x4_neg (* 1807 *)
  | In_I32x4AllTrue => sink_i32x4_all_true (* 1808 *)
  | In_I32x4Bitmask => sink_i32x4_bitmask (* 1809 *)
  | In_I32x4ExtendLowI16x8S => sink_i32x4_extend_low_i16x8_s (* 1810 *)
  | In_I32x4ExtendHighI16x8S => sink_i32x4_extend_high_i16x8_s (* 1811 *)
  | In_I32x4ExtendLowI16x8U => sink_i32x4_extend_low_i16x8_u (* 1812 *)
  | In_I32x4ExtendHighI16x8U => sink_i32x4_extend_high_i16x8_u (* 1813 *)
  | In_I32x4Shl => sink_i32x4_shl (* 1814 *)
  | In_I32x4ShrS => sink_i32x4_shr_s (* 1815 *)
  | In_I32x4ShrU => sink_i32x4_shr_u (* 1816 *)
  | In_I32x4Add => sink_i32x4_add (* 1817 *)
  | In_I32x4Sub => sink_i32x4_sub (* 1818 *)
  | In_I32x4Mul => sink_i32x4_mul (* 1819 *)
  | In_I32x4MinS => sink_i32x4_min_s (* 1820 *)
  | In_I32x4MinU => sink_i32x4_min_u (* 1821 *)
  | In_I32x4MaxS => sink_i32x4_max_s (* 1822 *)
  | In_I32x4MaxU => sink_i32x4_max_u (* 1823 *)
  | In_I32x4DotI16x8S => sink_i32x4_dot_i16x8_s (* 1824 *)
  | In_I32x4ExtMulLowI16x8S => sink_i32x4_extmul_low_i16x8_s (* 1825 *)
  | In_I32x4ExtMulHighI16x8S => sink_i32x4_extmul_high_i16x8_s (* 1826 *)
  | In_I32x4ExtMulLowI16x8U => sink_i32x4_extmul_low_i16x8_u (* 1827 *)
  | In_I32x4ExtMulHighI16x8U => sink_i32x4_extmul_high_i16x8_u (* 1828 *)
  | In_I64x2Abs => sink_i64x2_abs (* 1829 *)
  | In_I64x2Neg => sink_i64x2_neg (* 1830 *)
  | In_I64x2AllTrue => sink_i64x2_all_true (* 1831 *)
  | In_I64x2Bitmask => sink_i64x2_bitmask (* 1832 *)
  | In_I64x2ExtendLowI32x4S => sink_i64x2_extend_low_i32x4_s (* 1833 *)
  | In_I64x2ExtendHighI32x4S => sink_i64x2_extend_high_i32x4_s (* 1834 *)
  | In_I64x2ExtendLowI32x4U => sink_i64x2_extend_low_i32x4_u (* 1835 *)
  | In_I64x2ExtendHighI32x4U => sink_i64x2_extend_high_i32x4_u (* 1836 *)
  | In_I64x2Shl => sink_i64x2_shl (* 1837 *)
  | In_I64x2ShrS => sink_i64x2_shr_s (* 1838 *)
  | In_I64x2ShrU => sink_i64x2_shr_u (* 1839 *)
  | In_I64x2Add => sink_i64x2_add (* 1840 *)
  | In_I64x2Sub => sink_i64x2_sub (* 1841 *)
  | In_I64x2Mul => sink_i64x2_mul (* 1842 *)
  | In_I64x2ExtMulLowI32x4S => sink_i64x2_extmul_low_i32x4_s (* 1843 *)
  | In_I64x2ExtMulHighI32x4S => sink_i64x2_extmul_high_i32x4_s (* 1844 *)
  | In_I64x2ExtMulLowI32x4U => sink_i64x2_extmul_low_i32x4_u (* 1845 *)
  | In_I64x2ExtMulHighI32x4U => sink_i64x2_extmul_high_i32x4_u (* 1846 *)
  | In_F32x4Ceil => sink_f32x4_ceil (* 1847 *)
  | In_F32x4Floor => sink_f32x4_floor (* 1848 *)
  | In_F32x4Trunc => sink_f32x4_trunc (* 1849 *)
  | In_F32x4Nearest => sink_f32x4_nearest (* 1850 *)
  | In_F32x4Abs => sink_f32x4_abs (* 1851 *)
  | In_F32x4Neg => sink_f32x4_neg (* 1852 *)
  | In_F32x4Sqrt => sink_f32x4_sqrt (* 1853 *)
  | In_F32x4Add => sink_f32x4_add (* 1854 *)
  | In_F32x4Sub => sink_f32x4_sub (* 1855 *)
  | In_F32x4Mul => sink_f32x4_mul (* 1856 *)
  | In_F32x4Div => sink_f32x4_div (* 1857 *)
  | In_F32x4Min => sink_f32x4_min (* 1858 *)
  | In_F32x4Max => sink_f32x4_max (* 1859 *)
  | In_F32x4PMin => sink_f32x4_pmin (* 1860 *)
  | In_F32x4PMax => sink_f32x4_pmax (* 1861 *)
  | In_F64x2Ceil => sink_f64x2_ceil (* 1862 *)
  | In_F64x2Floor => sink_f64x2_floor (* 1863 *)
  | In_F64x2Trunc => sink_f64x2_trunc (* 1864 *)
  | In_F64x2Nearest => sink_f64x2_nearest (* 1865 *)
  | In_F64x2Abs => sink_f64x2_abs (* 1866 *)
  | In_F64x2Neg => sink_f64x2_neg (* 1867 *)
  | In_F64x2Sqrt => sink_f64x2_sqrt (* 1868 *)
  | In_F64x2Add => sink_f64x2_add (* 1869 *)
  | In_F64x2Sub => sink_f64x2_sub (* 1870 *)
  | In_F64x2Mul => sink_f64x2_mul (* 1871 *)
  | In_F64x2Div => sink_f64x2_div (* 1872 *)
  | In_F64x2Min => sink_f64x2_min (* 1873 *)
  | In_F64x2Max => sink_f64x2_max (* 1874 *)
  | In_F64x2PMin => sink_f64x2_pmin (* 1875 *)
  | In_F64x2PMax => sink_f64x2_pmax (* 1876 *)
  | In_I32x4TruncSatF32x4S => sink_i32x4_trunc_sat_f32x4_s (* 1877 *)
  | In_I32x4TruncSatF32x4U => sink_i32x4_trunc_sat_f32x4_u (* 1878 *)
  | In_F32x4ConvertI32x4S => sink_f32x4_convert_i32x4_s (* 1879 *)
  | In_F32x4ConvertI32x4U => sink_f32x4_convert_i32x4_u (* 1880 *)
  | In_I32x4TruncSatF64x2SZero => sink_i32x4_trunc_sat_f64x2_s_zero (* 1881 *)
  | In_I32x4TruncSatF64x2UZero => sink_i32x4_trunc_sat_f64x2_u_zero (* 1882 *)
  | In_F64x2ConvertLowI32x4S => sink_f64x2_convert_low_i32x4_s (* 1883 *)
  | In_F64x2ConvertLowI32x4U => sink_f64x2_convert_low_i32x4_u (* 1884 *)
  | In_F32x4DemoteF64x2Zero => sink_f32x4_demote_f64x2_zero (* 1885 *)
  | In_F64x2PromoteLowF32x4 => sink_f64x2_promote_low_f32x4 (* 1886 *)
  | In_I8x16RelaxedSwizzle => sink_i8x16_relaxed_swizzle (* 1903 *)
  | In_I32x4RelaxedTruncF32x4S => sink_i32x4_relaxed_trunc_f32x4_s (* 1904 *)
  | In_I32x4RelaxedTruncF32x4U => sink_i32x4_relaxed_trunc_f32x4_u (* 1905 *)
  | In_I32x4RelaxedTruncF64x2SZero => sink_i32x4_relaxed_trunc_f64x2_s_zero (* 1906 *)
  | In_I32x4RelaxedTruncF64x2UZero => sink_i32x4_relaxed_trunc_f64x2_u_zero (* 1907 *)
  | In_F32x4RelaxedMadd => sink_f32x4_relaxed_madd (* 1908 *)
  | In_F32x4RelaxedNmadd => sink_f32x4_relaxed_nmadd (* 1909 *)
  | In_F64x2RelaxedMadd => sink_f64x2_relaxed_madd (* 1910 *)
  | In_F64x2RelaxedNmadd => sink_f64x2_relaxed_nmadd (* 1911 *)
  | In_I8x16RelaxedLaneselect => sink_i8x16_relaxed_laneselect (* 1912 *)
  | In_I16x8RelaxedLaneselect => sink_i16x8_relaxed_laneselect (* 1913 *)
  | In_I32x4RelaxedLaneselect => sink_i32x4_relaxed_laneselect (* 1914 *)
  | In_I64x2RelaxedLaneselect => sink_i64x2_relaxed_laneselect (* 1915 *)
  | In_F32x4RelaxedMin => sink_f32x4_relaxed_min (* 1916 *)
  | In_F32x4RelaxedMax => sink_f32x4_relaxed_max (* 1917 *)
  | In_F64x2RelaxedMin => sink_f64x2_relaxed_min (* 1918 *)
  | In_F64x2RelaxedMax => sink_f64x2_relaxed_max (* 1919 *)
  | In_I16x8RelaxedQ15mulrS => sink_i16x8_relaxed_q15mulr_s (* 1920 *)
  | In_I16x8RelaxedDotI8x16I7x16S => sink_i16x8_relaxed_dot_i8x16_i7x16_s (* 1921 *)
  | In_I32x4RelaxedDotI8x16I7x16AddS => sink_i32x4_relaxed_dot_i8x16_i7x16_add_s (* 1922 *)
  | In_MemoryAtomicNotify memarg => sink_memory_atomic_notify memarg (* 1927 *)
  | In_MemoryAtomicWait32 memarg => sink_memory_atomic_wait32 memarg (* 1928 *)
  | In_MemoryAtomicWait64 memarg => sink_memory_atomic_wait64 memarg (* 1929 *)
  | In_AtomicFence => sink_atomic_fence (* 1930 *)
  | In_I32AtomicLoad memarg => sink_i32_atomic_load memarg (* 1931 *)
  | In_I64AtomicLoad memarg => sink_i64_atomic_load memarg (* 1932 *)
  | In_I32AtomicLoad8U memarg => sink_i32_atomic_load8_u memarg (* 1933 *)
  | In_I32AtomicLoad16U memarg => sink_i32_atomic_load16_u memarg (* 1934 *)
  | In_I64AtomicLoad8U memarg => sink_i64_atomic_load8_u memarg (* 1935 *)
  | In_I64AtomicLoad16U memarg => sink_i64_atomic_load16_u memarg (* 1936 *)
  | In_I64AtomicLoad32U memarg => sink_i64_atomic_load32_u memarg (* 1937 *)
  | In_I32AtomicStore memarg => sink_i32_atomic_store memarg (* 1938 *)
  | In_I64AtomicStore memarg => sink_i64_atomic_store memarg (* 1939 *)
  | In_I32AtomicStore8 memarg => sink_i32_atomic_store8 memarg (* 1940 *)
  | In_I32AtomicStore16 memarg => sink_i32_atomic_store16 memarg (* 1941 *)
  | In_I64AtomicStore8 memarg => sink_i64_atomic_store8 memarg (* 1942 *)
  | In_I64AtomicStore16 memarg => sink_i64_atomic_store16 memarg (* 1943 *)
  | In_I64AtomicStore32 memarg => sink_i64_atomic_store32 memarg (* 1944 *)
  | In_I32AtomicRmwAdd memarg => sink_i32_atomic_rmw_add memarg (* 1945 *)
  | In_I64AtomicRmwAdd memarg => sink_i64_atomic_rmw_add memarg (* 1946 *)
  | In_I32AtomicRmw8AddU memarg => sink_i32_atomic_rmw8_add_u memarg (* 1947 *)
  | In_I32AtomicRmw16AddU memarg => sink_i32_atomic_rmw16_add_u memarg (* 1948 *)
  | In_I64AtomicRmw8AddU memarg => sink_i64_atomic_rmw8_add_u memarg (* 1949 *)
  | In_I64AtomicRmw16AddU memarg => sink_i64_atomic_rmw16_add_u memarg (* 1950 *)
  | In_I64AtomicRmw32AddU memarg => sink_i64_atomic_rmw32_add_u memarg (* 1951 *)
  | In_I32AtomicRmwSub memarg => sink_i32_atomic_rmw_sub memarg (* 1952 *)
  | In_I64AtomicRmwSub memarg => sink_i64_atomic_rmw_sub memarg (* 1953 *)
  | In_I32AtomicRmw8SubU memarg => sink_i32_atomic_rmw8_sub_u memarg (* 1954 *)
  | In_I32AtomicRmw16SubU memarg => sink_i32_atomic_rmw16_sub_u memarg (* 1955 *)
  | In_I64AtomicRmw8SubU memarg => sink_i64_atomic_rmw8_sub_u memarg (* 1956 *)
  | In_I64AtomicRmw16SubU memarg => sink_i64_atomic_rmw16_sub_u memarg (* 1957 *)
  | In_I64AtomicRmw32SubU memarg => sink_i64_atomic_rmw32_sub_u memarg (* 1958 *)
  | In_I32AtomicRmwAnd memarg => sink_i32_atomic_rmw_and memarg (* 1959 *)
  | In_I64AtomicRmwAnd memarg => sink_i64_atomic_rmw_and memarg (* 1960 *)
  | In_I32AtomicRmw8AndU memarg => sink_i32_atomic_rmw8_and_u memarg (* 1961 *)
  | In_I32AtomicRmw16AndU memarg => sink_i32_atomic_rmw16_and_u memarg (* 1962 *)
  | In_I64AtomicRmw8AndU memarg => sink_i64_atomic_rmw8_and_u memarg (* 1963 *)
  | In_I64AtomicRmw16AndU memarg => sink_i64_atomic_rmw16_and_u memarg (* 1964 *)
  | In_I64AtomicRmw32AndU memarg => sink_i64_atomic_rmw32_and_u memarg (* 1965 *)
  | In_I32AtomicRmwOr memarg => sink_i32_atomic_rmw_or memarg (* 1966 *)
  | In_I64AtomicRmwOr memarg => sink_i64_atomic_rmw_or memarg (* 1967 *)
  | In_I32AtomicRmw8OrU memarg => sink_i32_atomic_rmw8_or_u memarg (* 1968 *)
  | In_I32AtomicRmw16OrU memarg => sink_i32_atomic_rmw16_or_u memarg (* 1969 *)
  | In_I64AtomicRmw8OrU memarg => sink_i64_atomic_rmw8_or_u memarg (* 1970 *)
  | In_I64AtomicRmw16OrU memarg => sink_i64_atomic_rmw16_or_u memarg (* 1971 *)
  | In_I64AtomicRmw32OrU memarg => sink_i64_atomic_rmw32_or_u memarg (* 1972 *)
  | In_I32AtomicRmwXor memarg => sink_i32_atomic_rmw_xor memarg (* 1973 *)
  | In_I64AtomicRmwXor memarg => sink_i64_atomic_rmw_xor memarg (* 1974 *)
  | In_I32AtomicRmw8XorU memarg => sink_i32_atomic_rmw8_xor_u memarg (* 1975 *)
  | In_I32AtomicRmw16XorU memarg => sink_i32_atomic_rmw16_xor_u memarg (* 1976 *)
  | In_I64AtomicRmw8XorU memarg => sink_i64_atomic_rmw8_xor_u memarg (* 1977 *)
  | In_I64AtomicRmw16XorU memarg => sink_i64_atomic_rmw16_xor_u memarg (* 1978 *)
  | In_I64AtomicRmw32XorU memarg => sink_i64_atomic_rmw32_xor_u memarg (* 1979 *)
  | In_I32AtomicRmwXchg memarg => sink_i32_atomic_rmw_xchg memarg (* 1980 *)
  | In_I64AtomicRmwXchg memarg => sink_i64_atomic_rmw_xchg memarg (* 1981 *)
  | In_I32AtomicRmw8XchgU memarg => sink_i32_atomic_rmw8_xchg_u memarg (* 1982 *)
  | In_I32AtomicRmw16XchgU memarg => sink_i32_atomic_rmw16_xchg_u memarg (* 1983 *)
  | In_I64AtomicRmw8XchgU memarg => sink_i64_atomic_rmw8_xchg_u memarg (* 1984 *)
  | In_I64AtomicRmw16XchgU memarg => sink_i64_atomic_rmw16_xchg_u memarg (* 1985 *)
  | In_I64AtomicRmw32XchgU memarg => sink_i64_atomic_rmw32_xchg_u memarg (* 1986 *)
  | In_I32AtomicRmwCmpxchg memarg => sink_i32_atomic_rmw_cmpxchg memarg (* 1987 *)
  | In_I64AtomicRmwCmpxchg memarg => sink_i64_atomic_rmw_cmpxchg memarg (* 1988 *)
  | In_I32AtomicRmw8CmpxchgU memarg => sink_i32_atomic_rmw8_cmpxchg_u memarg (* 1989 *)
  | In_I32AtomicRmw16CmpxchgU memarg => sink_i32_atomic_rmw16_cmpxchg_u memarg (* 1990 *)
  | In_I64AtomicRmw8CmpxchgU memarg => sink_i64_atomic_rmw8_cmpxchg_u memarg (* 1991 *)
  | In_I64AtomicRmw16CmpxchgU memarg => sink_i64_atomic_rmw16_cmpxchg_u memarg (* 1992 *)
  | In_I64AtomicRmw32CmpxchgU memarg => sink_i64_atomic_rmw32_cmpxchg_u memarg (* 1993 *)
  | In_GlobalAtomicGet ordering global_index => sink_global_atomic_get ordering global_index (* 1996 *)
  | In_GlobalAtomicSet ordering global_index => sink_global_atomic_set ordering global_index (* 2000 *)
  | In_GlobalAtomicRmwAdd ordering global_index => sink_global_atomic_rmw_add ordering global_index (* 2004 *)
  | In_GlobalAtomicRmwSub ordering global_index => sink_global_atomic_rmw_sub ordering global_index (* 2008 *)
  | In_GlobalAtomicRmwAnd ordering global_index => sink_global_atomic_rmw_and ordering global_index (* 2012 *)
  | In_GlobalAtomicRmwOr ordering global_index => sink_global_atomic_rmw_or ordering global_index (* 2016 *)
  | In_GlobalAtomicRmwXor ordering global_index => sink_global_atomic_rmw_xor ordering global_index (* 2020 *)
  | In_GlobalAtomicRmwXchg ordering global_index => sink_global_atomic_rmw_xchg ordering global_index (* 2024 *)
  | In_GlobalAtomicRmwCmpxchg ordering global_index => sink_global_atomic_rmw_cmpxchg ordering global_index (* 2028 *)
  | In_TableAtomicGet ordering table_index => sink_table_atomic_get ordering table_index (* 2032 *)
  | In_TableAtomicSet ordering table_index => sink_table_atomic_set ordering table_index (* 2036 *)
  | In_TableAtomicRmwXchg ordering table_index => sink_table_atomic_rmw_xchg ordering table_index (* 2040 *)
  | In_TableAtomicRmwCmpxchg ordering table_index => sink_table_atomic_rmw_cmpxchg ordering table_index (* 2044 *)
  | In_StructAtomicGet ordering struct_type_index field_index => sink_struct_atomic_get ordering struct_type_index field_index (* 2048 *)
  | In_StructAtomicGetS ordering struct_type_index field_index => sink_struct_atomic_get_s ordering struct_type_index field_index (* 2053 *)
  | In_StructAtomicGetU ordering struct_type_index field_index => sink_struct_atomic_get_u ordering struct_type_index field_index (* 2058 *)
  | In_StructAtomicSet ordering struct_type_index field_index => sink_struct_atomic_set ordering struct_type_index field_index (* 2063 *)
  | In_StructAtomicRmwAdd ordering struct_type_index field_index => sink_struct_atomic_rmw_add ordering struct_type_index field_index (* 2068 *)
  | In_StructAtomicRmwSub ordering struct_type_index field_index => sink_struct_atomic_rmw_sub ordering struct_type_index field_index (* 2073 *)
  | In_StructAtomicRmwAnd ordering struct_type_index field_index => sink_struct_atomic_rmw_and ordering struct_type_index field_index (* 2078 *)
  | In_StructAtomicRmwOr ordering struct_type_index field_index => sink_struct_atomic_rmw_or ordering struct_type_index field_index (* 2083 *)
  | In_StructAtomicRmwXor ordering struct_type_index field_index => sink_struct_atomic_rmw_xor ordering struct_type_index field_index (* 2088 *)
  | In_StructAtomicRmwXchg ordering struct_type_index field_index => sink_struct_atomic_rmw_xchg ordering struct_type_index field_index (* 2093 *)
  | In_StructAtomicRmwCmpxchg ordering struct_type_index field_index => sink_struct_atomic_rmw_cmpxchg ordering struct_type_index field_index (* 2098 *)
  | In_ArrayAtomicGet ordering array_type_index => sink_array_atomic_get ordering array_type_index (* 2103 *)
  | In_ArrayAtomicGetS ordering array_type_index => sink_array_atomic_get_s ordering array_type_index (* 2107 *)
  | In_ArrayAtomicGetU ordering array_type_index => sink_array_atomic_get_u ordering array_type_index (* 2111 *)
  | In_ArrayAtomicSet ordering array_type_index => sink_array_atomic_set ordering array_type_index (* 2115 *)
  | In_ArrayAtomicRmwAdd ordering array_type_index => sink_array_atomic_rmw_add ordering array_type_index (* 2119 *)
  | In_ArrayAtomicRmwSub ordering array_type_index => sink_array_atomic_rmw_sub ordering array_type_index (* 2123 *)
  | In_ArrayAtomicRmwAnd ordering array_type_index => sink_array_atomic_rmw_and ordering array_type_index (* 2127 *)
  | In_ArrayAtomicRmwOr ordering array_type_index => sink_array_atomic_rmw_or ordering array_type_index (* 2131 *)
  | In_ArrayAtomicRmwXor ordering array_type_index => sink_array_atomic_rmw_xor ordering array_type_index (* 2135 *)
  | In_ArrayAtomicRmwXchg ordering array_type_index => sink_array_atomic_rmw_xchg ordering array_type_index (* 2139 *)
  | In_ArrayAtomicRmwCmpxchg ordering array_type_index => sink_array_atomic_rmw_cmpxchg ordering array_type_index (* 2143 *)
  | In_RefI31Shared => sink_ref_i31_shared (* 2147 *)
  | In_ContNew type_index => sink_cont_new type_index (* 2148 *)
  | In_ContBind argument_index result_index => sink_cont_bind argument_index result_index (* 2149 *)
  | In_Suspend tag_index => sink_suspend tag_index (* 2153 *)
  | In_Resume cont_type_index resume_table => sink_resume cont_type_index resume_table (* 2154 *)
  | In_ResumeThrow cont_type_index tag_index resume_table => sink_resume_throw cont_type_index tag_index resume_table (* 2158 *)
  | In_ResumeThrowRef cont_type_index resume_table => sink_resume_throw_ref cont_type_index resume_table (* 2163 *)
  | In_Switch cont_type_index tag_index => sink_switch cont_type_index tag_index (* 2167 *)
  | In_I64Add128 => sink_i64_add128 (* 2171 *)
  | In_I64Sub128 => sink_i64_sub128 (* 2172 *)
  | In_I64MulWideS => sink_i64_mul_wide_s (* 2173 *)
  | In_I64MulWideU => sink_i64_mul_wide_u (* 2174 *)
  | In_RefGetDesc type_index => sink_ref_get_desc type_index (* 2175 *)
  | In_RefCastDescEqNonNull hty => sink_ref_cast_desc_eq_non_null hty (* 2176 *)
  | In_RefCastDescEqNullable hty => sink_ref_cast_desc_eq_nullable hty (* 2177 *)
  | In_BrOnCastDescEq relative_depth from_ref_type to_ref_type => sink_br_on_cast_desc_eq relative_depth from_ref_type to_ref_type (* 2178 *)
  | In_BrOnCastDescEqFail relative_depth from_ref_type to_ref_type => sink_br_on_cast_desc_eq_fail relative_depth from_ref_type to_ref_type (* 2183 *)
  end.
