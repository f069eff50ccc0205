(** GENERATED by tools/gen_valid.py from crates/wasmparser/src/validator/operators.rs, operators/simd.rs and lib.rs:
    527 uniform [visit_*] methods, the feature gates of [WasmProposalValidator] (operators.rs:1993-2082) and the dispatch.  *)
From Verif.Base Require Import Prelude.
From Verif.Types Require Import RefModel CodecModel CanonModel.
From Verif.Instr Require Import ImmModel Ops.
From Verif.Validator Require Import State Checks.

Section Env.
Variable E : env.
(* operators.rs:2096-2098 *) Definition visit_nop : V unit := vret tt.
(* operators.rs:2286-2289 *) Definition visit_return : V unit := check_return E.
(* operators.rs:2290-2294 *) Definition visit_call (a_function_index : Z) : V unit := let! a_ty := type_of_function E a_function_index in check_call_ty E a_ty.
(* operators.rs:2310-2314 *) Definition visit_call_indirect (a_type_index : Z) (a_table_index : Z) : V unit := let! a_ty := check_call_indirect_ty E a_type_index a_table_index in check_call_ty E a_ty.
(* operators.rs:2320-2323 *) Definition visit_drop : V unit := pop_operand E None ;; vret tt.
(* operators.rs:2531-2536 *) Definition visit_i32_load (a_memarg : p_memarg) : V unit := let! a_ty := check_memarg E a_memarg in pop E a_ty ;; push_operand VI32.
(* operators.rs:2537-2542 *) Definition visit_i64_load (a_memarg : p_memarg) : V unit := let! a_ty := check_memarg E a_memarg in pop E a_ty ;; push_operand VI64.
(* operators.rs:2543-2549 *) Definition visit_f32_load (a_memarg : p_memarg) : V unit := check_floats_enabled E ;; let! a_ty := check_memarg E a_memarg in pop E a_ty ;; push_operand VF32.
(* operators.rs:2550-2556 *) Definition visit_f64_load (a_memarg : p_memarg) : V unit := check_floats_enabled E ;; let! a_ty := check_memarg E a_memarg in pop E a_ty ;; push_operand VF64.
(* operators.rs:2557-2562 *) Definition visit_i32_load8_s (a_memarg : p_memarg) : V unit := let! a_ty := check_memarg E a_memarg in pop E a_ty ;; push_operand VI32.
(* operators.rs:2563-2565 *) Definition visit_i32_load8_u (a_memarg : p_memarg) : V unit := visit_i32_load8_s a_memarg.
(* operators.rs:2566-2571 *) Definition visit_i32_load16_s (a_memarg : p_memarg) : V unit := let! a_ty := check_memarg E a_memarg in pop E a_ty ;; push_operand VI32.
(* operators.rs:2572-2574 *) Definition visit_i32_load16_u (a_memarg : p_memarg) : V unit := visit_i32_load16_s a_memarg.
(* operators.rs:2575-2580 *) Definition visit_i64_load8_s (a_memarg : p_memarg) : V unit := let! a_ty := check_memarg E a_memarg in pop E a_ty ;; push_operand VI64.
(* operators.rs:2581-2583 *) Definition visit_i64_load8_u (a_memarg : p_memarg) : V unit := visit_i64_load8_s a_memarg.
(* operators.rs:2584-2589 *) Definition visit_i64_load16_s (a_memarg : p_memarg) : V unit := let! a_ty := check_memarg E a_memarg in pop E a_ty ;; push_operand VI64.
(* operators.rs:2590-2592 *) Definition visit_i64_load16_u (a_memarg : p_memarg) : V unit := visit_i64_load16_s a_memarg.
(* operators.rs:2593-2598 *) Definition visit_i64_load32_s (a_memarg : p_memarg) : V unit := let! a_ty := check_memarg E a_memarg in pop E a_ty ;; push_operand VI64.
(* operators.rs:2599-2601 *) Definition visit_i64_load32_u (a_memarg : p_memarg) : V unit := visit_i64_load32_s a_memarg.
(* operators.rs:2602-2607 *) Definition visit_i32_store (a_memarg : p_memarg) : V unit := let! a_ty := check_memarg E a_memarg in pop E VI32 ;; pop E a_ty.
(* operators.rs:2608-2613 *) Definition visit_i64_store (a_memarg : p_memarg) : V unit := let! a_ty := check_memarg E a_memarg in pop E VI64 ;; pop E a_ty.
(* operators.rs:2614-2620 *) Definition visit_f32_store (a_memarg : p_memarg) : V unit := check_floats_enabled E ;; let! a_ty := check_memarg E a_memarg in pop E VF32 ;; pop E a_ty.
(* operators.rs:2621-2627 *) Definition visit_f64_store (a_memarg : p_memarg) : V unit := check_floats_enabled E ;; let! a_ty := check_memarg E a_memarg in pop E VF64 ;; pop E a_ty.
(* operators.rs:2628-2633 *) Definition visit_i32_store8 (a_memarg : p_memarg) : V unit := let! a_ty := check_memarg E a_memarg in pop E VI32 ;; pop E a_ty.
(* operators.rs:2634-2639 *) Definition visit_i32_store16 (a_memarg : p_memarg) : V unit := let! a_ty := check_memarg E a_memarg in pop E VI32 ;; pop E a_ty.
(* operators.rs:2640-2645 *) Definition visit_i64_store8 (a_memarg : p_memarg) : V unit := let! a_ty := check_memarg E a_memarg in pop E VI64 ;; pop E a_ty.
(* operators.rs:2646-2651 *) Definition visit_i64_store16 (a_memarg : p_memarg) : V unit := let! a_ty := check_memarg E a_memarg in pop E VI64 ;; pop E a_ty.
(* operators.rs:2652-2657 *) Definition visit_i64_store32 (a_memarg : p_memarg) : V unit := let! a_ty := check_memarg E a_memarg in pop E VI64 ;; pop E a_ty.
(* operators.rs:2658-2662 *) Definition visit_memory_size (a_mem : Z) : V unit := let! a_index_ty := check_memory_index E a_mem in push_operand a_index_ty.
(* operators.rs:2663-2668 *) Definition visit_memory_grow (a_mem : Z) : V unit := let! a_index_ty := check_memory_index E a_mem in pop E a_index_ty ;; push_operand a_index_ty.
(* operators.rs:2669-2672 *) Definition visit_i32_const (a_value : Z) : V unit := push_operand VI32.
(* operators.rs:2673-2676 *) Definition visit_i64_const (a_value : Z) : V unit := push_operand VI64.
(* operators.rs:2677-2681 *) Definition visit_f32_const (a_value : Z) : V unit := check_floats_enabled E ;; push_operand VF32.
(* operators.rs:2682-2686 *) Definition visit_f64_const (a_value : Z) : V unit := check_floats_enabled E ;; push_operand VF64.
(* operators.rs:2687-2691 *) Definition visit_i32_eqz : V unit := pop E VI32 ;; push_operand VI32.
(* operators.rs:2692-2694 *) Definition visit_i32_eq : V unit := check_cmp_op E VI32.
(* operators.rs:2695-2697 *) Definition visit_i32_ne : V unit := check_cmp_op E VI32.
(* operators.rs:2698-2700 *) Definition visit_i32_lt_s : V unit := check_cmp_op E VI32.
(* operators.rs:2701-2703 *) Definition visit_i32_lt_u : V unit := check_cmp_op E VI32.
(* operators.rs:2704-2706 *) Definition visit_i32_gt_s : V unit := check_cmp_op E VI32.
(* operators.rs:2707-2709 *) Definition visit_i32_gt_u : V unit := check_cmp_op E VI32.
(* operators.rs:2710-2712 *) Definition visit_i32_le_s : V unit := check_cmp_op E VI32.
(* operators.rs:2713-2715 *) Definition visit_i32_le_u : V unit := check_cmp_op E VI32.
(* operators.rs:2716-2718 *) Definition visit_i32_ge_s : V unit := check_cmp_op E VI32.
(* operators.rs:2719-2721 *) Definition visit_i32_ge_u : V unit := check_cmp_op E VI32.
(* operators.rs:2722-2726 *) Definition visit_i64_eqz : V unit := pop E VI64 ;; push_operand VI32.
(* operators.rs:2727-2729 *) Definition visit_i64_eq : V unit := check_cmp_op E VI64.
(* operators.rs:2730-2732 *) Definition visit_i64_ne : V unit := check_cmp_op E VI64.
(* operators.rs:2733-2735 *) Definition visit_i64_lt_s : V unit := check_cmp_op E VI64.
(* operators.rs:2736-2738 *) Definition visit_i64_lt_u : V unit := check_cmp_op E VI64.
(* operators.rs:2739-2741 *) Definition visit_i64_gt_s : V unit := check_cmp_op E VI64.
(* operators.rs:2742-2744 *) Definition visit_i64_gt_u : V unit := check_cmp_op E VI64.
(* operators.rs:2745-2747 *) Definition visit_i64_le_s : V unit := check_cmp_op E VI64.
(* operators.rs:2748-2750 *) Definition visit_i64_le_u : V unit := check_cmp_op E VI64.
(* operators.rs:2751-2753 *) Definition visit_i64_ge_s : V unit := check_cmp_op E VI64.
(* operators.rs:2754-2756 *) Definition visit_i64_ge_u : V unit := check_cmp_op E VI64.
(* operators.rs:2757-2759 *) Definition visit_f32_eq : V unit := check_fcmp_op E VF32.
(* operators.rs:2760-2762 *) Definition visit_f32_ne : V unit := check_fcmp_op E VF32.
(* operators.rs:2763-2765 *) Definition visit_f32_lt : V unit := check_fcmp_op E VF32.
(* operators.rs:2766-2768 *) Definition visit_f32_gt : V unit := check_fcmp_op E VF32.
(* operators.rs:2769-2771 *) Definition visit_f32_le : V unit := check_fcmp_op E VF32.
(* operators.rs:2772-2774 *) Definition visit_f32_ge : V unit := check_fcmp_op E VF32.
(* operators.rs:2775-2777 *) Definition visit_f64_eq : V unit := check_fcmp_op E VF64.
(* operators.rs:2778-2780 *) Definition visit_f64_ne : V unit := check_fcmp_op E VF64.
(* operators.rs:2781-2783 *) Definition visit_f64_lt : V unit := check_fcmp_op E VF64.
(* operators.rs:2784-2786 *) Definition visit_f64_gt : V unit := check_fcmp_op E VF64.
(* operators.rs:2787-2789 *) Definition visit_f64_le : V unit := check_fcmp_op E VF64.
(* operators.rs:2790-2792 *) Definition visit_f64_ge : V unit := check_fcmp_op E VF64.
(* operators.rs:2793-2795 *) Definition visit_i32_clz : V unit := check_unary_op E VI32.
(* operators.rs:2796-2798 *) Definition visit_i32_ctz : V unit := check_unary_op E VI32.
(* operators.rs:2799-2801 *) Definition visit_i32_popcnt : V unit := check_unary_op E VI32.
(* operators.rs:2802-2804 *) Definition visit_i32_add : V unit := check_binary_op E VI32.
(* operators.rs:2805-2807 *) Definition visit_i32_sub : V unit := check_binary_op E VI32.
(* operators.rs:2808-2810 *) Definition visit_i32_mul : V unit := check_binary_op E VI32.
(* operators.rs:2811-2813 *) Definition visit_i32_div_s : V unit := check_binary_op E VI32.
(* operators.rs:2814-2816 *) Definition visit_i32_div_u : V unit := check_binary_op E VI32.
(* operators.rs:2817-2819 *) Definition visit_i32_rem_s : V unit := check_binary_op E VI32.
(* operators.rs:2820-2822 *) Definition visit_i32_rem_u : V unit := check_binary_op E VI32.
(* operators.rs:2823-2825 *) Definition visit_i32_and : V unit := check_binary_op E VI32.
(* operators.rs:2826-2828 *) Definition visit_i32_or : V unit := check_binary_op E VI32.
(* operators.rs:2829-2831 *) Definition visit_i32_xor : V unit := check_binary_op E VI32.
(* operators.rs:2832-2834 *) Definition visit_i32_shl : V unit := check_binary_op E VI32.
(* operators.rs:2835-2837 *) Definition visit_i32_shr_s : V unit := check_binary_op E VI32.
(* operators.rs:2838-2840 *) Definition visit_i32_shr_u : V unit := check_binary_op E VI32.
(* operators.rs:2841-2843 *) Definition visit_i32_rotl : V unit := check_binary_op E VI32.
(* operators.rs:2844-2846 *) Definition visit_i32_rotr : V unit := check_binary_op E VI32.
(* operators.rs:2847-2849 *) Definition visit_i64_clz : V unit := check_unary_op E VI64.
(* operators.rs:2850-2852 *) Definition visit_i64_ctz : V unit := check_unary_op E VI64.
(* operators.rs:2853-2855 *) Definition visit_i64_popcnt : V unit := check_unary_op E VI64.
(* operators.rs:2856-2858 *) Definition visit_i64_add : V unit := check_binary_op E VI64.
(* operators.rs:2859-2861 *) Definition visit_i64_sub : V unit := check_binary_op E VI64.
(* operators.rs:2862-2864 *) Definition visit_i64_mul : V unit := check_binary_op E VI64.
(* operators.rs:2865-2867 *) Definition visit_i64_div_s : V unit := check_binary_op E VI64.
(* operators.rs:2868-2870 *) Definition visit_i64_div_u : V unit := check_binary_op E VI64.
(* operators.rs:2871-2873 *) Definition visit_i64_rem_s : V unit := check_binary_op E VI64.
(* operators.rs:2874-2876 *) Definition visit_i64_rem_u : V unit := check_binary_op E VI64.
(* operators.rs:2877-2879 *) Definition visit_i64_and : V unit := check_binary_op E VI64.
(* operators.rs:2880-2882 *) Definition visit_i64_or : V unit := check_binary_op E VI64.
(* operators.rs:2883-2885 *) Definition visit_i64_xor : V unit := check_binary_op E VI64.
(* operators.rs:2886-2888 *) Definition visit_i64_shl : V unit := check_binary_op E VI64.
(* operators.rs:2889-2891 *) Definition visit_i64_shr_s : V unit := check_binary_op E VI64.
(* operators.rs:2892-2894 *) Definition visit_i64_shr_u : V unit := check_binary_op E VI64.
(* operators.rs:2895-2897 *) Definition visit_i64_rotl : V unit := check_binary_op E VI64.
(* operators.rs:2898-2900 *) Definition visit_i64_rotr : V unit := check_binary_op E VI64.
(* operators.rs:2901-2903 *) Definition visit_f32_abs : V unit := check_funary_op E VF32.
(* operators.rs:2904-2906 *) Definition visit_f32_neg : V unit := check_funary_op E VF32.
(* operators.rs:2907-2909 *) Definition visit_f32_ceil : V unit := check_funary_op E VF32.
(* operators.rs:2910-2912 *) Definition visit_f32_floor : V unit := check_funary_op E VF32.
(* operators.rs:2913-2915 *) Definition visit_f32_trunc : V unit := check_funary_op E VF32.
(* operators.rs:2916-2918 *) Definition visit_f32_nearest : V unit := check_funary_op E VF32.
(* operators.rs:2919-2921 *) Definition visit_f32_sqrt : V unit := check_funary_op E VF32.
(* operators.rs:2922-2924 *) Definition visit_f32_add : V unit := check_fbinary_op E VF32.
(* operators.rs:2925-2927 *) Definition visit_f32_sub : V unit := check_fbinary_op E VF32.
(* operators.rs:2928-2930 *) Definition visit_f32_mul : V unit := check_fbinary_op E VF32.
(* operators.rs:2931-2933 *) Definition visit_f32_div : V unit := check_fbinary_op E VF32.
(* operators.rs:2934-2936 *) Definition visit_f32_min : V unit := check_fbinary_op E VF32.
(* operators.rs:2937-2939 *) Definition visit_f32_max : V unit := check_fbinary_op E VF32.
(* operators.rs:2940-2942 *) Definition visit_f32_copysign : V unit := check_fbinary_op E VF32.
(* operators.rs:2943-2945 *) Definition visit_f64_abs : V unit := check_funary_op E VF64.
(* operators.rs:2946-2948 *) Definition visit_f64_neg : V unit := check_funary_op E VF64.
(* operators.rs:2949-2951 *) Definition visit_f64_ceil : V unit := check_funary_op E VF64.
(* operators.rs:2952-2954 *) Definition visit_f64_floor : V unit := check_funary_op E VF64.
(* operators.rs:2955-2957 *) Definition visit_f64_trunc : V unit := check_funary_op E VF64.
(* operators.rs:2958-2960 *) Definition visit_f64_nearest : V unit := check_funary_op E VF64.
(* operators.rs:2961-2963 *) Definition visit_f64_sqrt : V unit := check_funary_op E VF64.
(* operators.rs:2964-2966 *) Definition visit_f64_add : V unit := check_fbinary_op E VF64.
(* operators.rs:2967-2969 *) Definition visit_f64_sub : V unit := check_fbinary_op E VF64.
(* operators.rs:2970-2972 *) Definition visit_f64_mul : V unit := check_fbinary_op E VF64.
(* operators.rs:2973-2975 *) Definition visit_f64_div : V unit := check_fbinary_op E VF64.
(* operators.rs:2976-2978 *) Definition visit_f64_min : V unit := check_fbinary_op E VF64.
(* operators.rs:2979-2981 *) Definition visit_f64_max : V unit := check_fbinary_op E VF64.
(* operators.rs:2982-2984 *) Definition visit_f64_copysign : V unit := check_fbinary_op E VF64.
(* operators.rs:2985-2987 *) Definition visit_i32_wrap_i64 : V unit := check_conversion_op E VI32 VI64.
(* operators.rs:2988-2990 *) Definition visit_i32_trunc_f32_s : V unit := check_conversion_op E VI32 VF32.
(* operators.rs:2991-2993 *) Definition visit_i32_trunc_f32_u : V unit := check_conversion_op E VI32 VF32.
(* operators.rs:2994-2996 *) Definition visit_i32_trunc_f64_s : V unit := check_conversion_op E VI32 VF64.
(* operators.rs:2997-2999 *) Definition visit_i32_trunc_f64_u : V unit := check_conversion_op E VI32 VF64.
(* operators.rs:3000-3002 *) Definition visit_i64_extend_i32_s : V unit := check_conversion_op E VI64 VI32.
(* operators.rs:3003-3005 *) Definition visit_i64_extend_i32_u : V unit := check_conversion_op E VI64 VI32.
(* operators.rs:3006-3008 *) Definition visit_i64_trunc_f32_s : V unit := check_conversion_op E VI64 VF32.
(* operators.rs:3009-3011 *) Definition visit_i64_trunc_f32_u : V unit := check_conversion_op E VI64 VF32.
(* operators.rs:3012-3014 *) Definition visit_i64_trunc_f64_s : V unit := check_conversion_op E VI64 VF64.
(* operators.rs:3015-3017 *) Definition visit_i64_trunc_f64_u : V unit := check_conversion_op E VI64 VF64.
(* operators.rs:3018-3020 *) Definition visit_f32_convert_i32_s : V unit := check_fconversion_op E VF32 VI32.
(* operators.rs:3021-3023 *) Definition visit_f32_convert_i32_u : V unit := check_fconversion_op E VF32 VI32.
(* operators.rs:3024-3026 *) Definition visit_f32_convert_i64_s : V unit := check_fconversion_op E VF32 VI64.
(* operators.rs:3027-3029 *) Definition visit_f32_convert_i64_u : V unit := check_fconversion_op E VF32 VI64.
(* operators.rs:3030-3032 *) Definition visit_f32_demote_f64 : V unit := check_fconversion_op E VF32 VF64.
(* operators.rs:3033-3035 *) Definition visit_f64_convert_i32_s : V unit := check_fconversion_op E VF64 VI32.
(* operators.rs:3036-3038 *) Definition visit_f64_convert_i32_u : V unit := check_fconversion_op E VF64 VI32.
(* operators.rs:3039-3041 *) Definition visit_f64_convert_i64_s : V unit := check_fconversion_op E VF64 VI64.
(* operators.rs:3042-3044 *) Definition visit_f64_convert_i64_u : V unit := check_fconversion_op E VF64 VI64.
(* operators.rs:3045-3047 *) Definition visit_f64_promote_f32 : V unit := check_fconversion_op E VF64 VF32.
(* operators.rs:3048-3050 *) Definition visit_i32_reinterpret_f32 : V unit := check_conversion_op E VI32 VF32.
(* operators.rs:3051-3053 *) Definition visit_i64_reinterpret_f64 : V unit := check_conversion_op E VI64 VF64.
(* operators.rs:3054-3056 *) Definition visit_f32_reinterpret_i32 : V unit := check_fconversion_op E VF32 VI32.
(* operators.rs:3057-3059 *) Definition visit_f64_reinterpret_i64 : V unit := check_fconversion_op E VF64 VI64.
(* operators.rs:3084-3086 *) Definition visit_i32_extend8_s : V unit := check_unary_op E VI32.
(* operators.rs:3087-3089 *) Definition visit_i32_extend16_s : V unit := check_unary_op E VI32.
(* operators.rs:3090-3092 *) Definition visit_i64_extend8_s : V unit := check_unary_op E VI64.
(* operators.rs:3093-3095 *) Definition visit_i64_extend16_s : V unit := check_unary_op E VI64.
(* operators.rs:3096-3098 *) Definition visit_i64_extend32_s : V unit := check_unary_op E VI64.
(* operators.rs:4065-4068 *) Definition visit_array_len : V unit := pop_maybe_shared_ref E Array ;; push_operand VI32.
(* operators.rs:4262-4264 *) Definition visit_ref_test_non_null (a_heap_type : heap_type) : V unit := check_ref_test E false a_heap_type.
(* operators.rs:4265-4267 *) Definition visit_ref_test_nullable (a_heap_type : heap_type) : V unit := check_ref_test E true a_heap_type.
(* operators.rs:4268-4270 *) Definition visit_ref_cast_non_null (a_heap_type : heap_type) : V unit := check_ref_cast E false a_heap_type.
(* operators.rs:4271-4273 *) Definition visit_ref_cast_nullable (a_heap_type : heap_type) : V unit := check_ref_cast E true a_heap_type.
(* operators.rs:4355-4358 *) Definition visit_i31_get_s : V unit := pop_maybe_shared_ref E I31 ;; push_operand VI32.
(* operators.rs:4359-4362 *) Definition visit_i31_get_u : V unit := pop_maybe_shared_ref E I31 ;; push_operand VI32.
(* operators.rs:4600-4602 *) Definition visit_ref_cast_desc_eq_non_null (a_heap_type : heap_type) : V unit := check_ref_cast_desc_eq E false a_heap_type.
(* operators.rs:4603-4605 *) Definition visit_ref_cast_desc_eq_nullable (a_heap_type : heap_type) : V unit := check_ref_cast_desc_eq E true a_heap_type.
(* operators.rs:3060-3062 *) Definition visit_i32_trunc_sat_f32_s : V unit := check_conversion_op E VI32 VF32.
(* operators.rs:3063-3065 *) Definition visit_i32_trunc_sat_f32_u : V unit := check_conversion_op E VI32 VF32.
(* operators.rs:3066-3068 *) Definition visit_i32_trunc_sat_f64_s : V unit := check_conversion_op E VI32 VF64.
(* operators.rs:3069-3071 *) Definition visit_i32_trunc_sat_f64_u : V unit := check_conversion_op E VI32 VF64.
(* operators.rs:3072-3074 *) Definition visit_i64_trunc_sat_f32_s : V unit := check_conversion_op E VI64 VF32.
(* operators.rs:3075-3077 *) Definition visit_i64_trunc_sat_f32_u : V unit := check_conversion_op E VI64 VF32.
(* operators.rs:3078-3080 *) Definition visit_i64_trunc_sat_f64_s : V unit := check_conversion_op E VI64 VF64.
(* operators.rs:3081-3083 *) Definition visit_i64_trunc_sat_f64_u : V unit := check_conversion_op E VI64 VF64.
(* operators.rs:3409-3416 *) Definition visit_memory_init (a_segment : Z) (a_mem : Z) : V unit := let! a_ty := check_memory_index E a_mem in check_data_segment E a_segment ;; pop E VI32 ;; pop E VI32 ;; pop E a_ty.
(* operators.rs:3417-3420 *) Definition visit_data_drop (a_segment : Z) : V unit := check_data_segment E a_segment.
(* operators.rs:2295-2299 *) Definition visit_return_call (a_function_index : Z) : V unit := let! a_ty := type_of_function E a_function_index in check_return_call_ty E a_ty.
(* operators.rs:2315-2319 *) Definition visit_return_call_indirect (a_type_index : Z) (a_table_index : Z) : V unit := let! a_ty := check_call_indirect_ty E a_type_index a_table_index in check_return_call_ty E a_ty.
(* operators.rs:3455-3460 *) Definition visit_memory_discard (a_mem : Z) : V unit := let! a_ty := check_memory_index E a_mem in pop E a_ty ;; pop E a_ty.
(* operators.rs:3288-3290 *) Definition visit_memory_atomic_notify (a_memarg : p_memarg) : V unit := check_atomic_binary_memory_op E a_memarg VI32.
(* operators.rs:3291-3298 *) Definition visit_memory_atomic_wait32 (a_memarg : p_memarg) : V unit := let! a_ty := check_shared_memarg E a_memarg in pop E VI64 ;; pop E VI32 ;; pop E a_ty ;; push_operand VI32.
(* operators.rs:3299-3306 *) Definition visit_memory_atomic_wait64 (a_memarg : p_memarg) : V unit := let! a_ty := check_shared_memarg E a_memarg in pop E VI64 ;; pop E VI64 ;; pop E a_ty ;; push_operand VI32.
(* operators.rs:3307-3309 *) Definition visit_atomic_fence : V unit := vret tt.
(* operators.rs:3099-3101 *) Definition visit_i32_atomic_load (a_memarg : p_memarg) : V unit := check_atomic_load E a_memarg VI32.
(* operators.rs:3108-3110 *) Definition visit_i64_atomic_load (a_memarg : p_memarg) : V unit := check_atomic_load E a_memarg VI64.
(* operators.rs:3105-3107 *) Definition visit_i32_atomic_load8_u (a_memarg : p_memarg) : V unit := check_atomic_load E a_memarg VI32.
(* operators.rs:3102-3104 *) Definition visit_i32_atomic_load16_u (a_memarg : p_memarg) : V unit := check_atomic_load E a_memarg VI32.
(* operators.rs:3117-3119 *) Definition visit_i64_atomic_load8_u (a_memarg : p_memarg) : V unit := check_atomic_load E a_memarg VI64.
(* operators.rs:3114-3116 *) Definition visit_i64_atomic_load16_u (a_memarg : p_memarg) : V unit := check_atomic_load E a_memarg VI64.
(* operators.rs:3111-3113 *) Definition visit_i64_atomic_load32_u (a_memarg : p_memarg) : V unit := check_atomic_load E a_memarg VI64.
(* operators.rs:3120-3122 *) Definition visit_i32_atomic_store (a_memarg : p_memarg) : V unit := check_atomic_store E a_memarg VI32.
(* operators.rs:3129-3131 *) Definition visit_i64_atomic_store (a_memarg : p_memarg) : V unit := check_atomic_store E a_memarg VI64.
(* operators.rs:3126-3128 *) Definition visit_i32_atomic_store8 (a_memarg : p_memarg) : V unit := check_atomic_store E a_memarg VI32.
(* operators.rs:3123-3125 *) Definition visit_i32_atomic_store16 (a_memarg : p_memarg) : V unit := check_atomic_store E a_memarg VI32.
(* operators.rs:3138-3140 *) Definition visit_i64_atomic_store8 (a_memarg : p_memarg) : V unit := check_atomic_store E a_memarg VI64.
(* operators.rs:3135-3137 *) Definition visit_i64_atomic_store16 (a_memarg : p_memarg) : V unit := check_atomic_store E a_memarg VI64.
(* operators.rs:3132-3134 *) Definition visit_i64_atomic_store32 (a_memarg : p_memarg) : V unit := check_atomic_store E a_memarg VI64.
(* operators.rs:3141-3143 *) Definition visit_i32_atomic_rmw_add (a_memarg : p_memarg) : V unit := check_atomic_binary_memory_op E a_memarg VI32.
(* operators.rs:3186-3188 *) Definition visit_i64_atomic_rmw_add (a_memarg : p_memarg) : V unit := check_atomic_binary_memory_op E a_memarg VI64.
(* operators.rs:3171-3173 *) Definition visit_i32_atomic_rmw8_add_u (a_memarg : p_memarg) : V unit := check_atomic_binary_memory_op E a_memarg VI32.
(* operators.rs:3156-3158 *) Definition visit_i32_atomic_rmw16_add_u (a_memarg : p_memarg) : V unit := check_atomic_binary_memory_op E a_memarg VI32.
(* operators.rs:3231-3233 *) Definition visit_i64_atomic_rmw8_add_u (a_memarg : p_memarg) : V unit := check_atomic_binary_memory_op E a_memarg VI64.
(* operators.rs:3216-3218 *) Definition visit_i64_atomic_rmw16_add_u (a_memarg : p_memarg) : V unit := check_atomic_binary_memory_op E a_memarg VI64.
(* operators.rs:3201-3203 *) Definition visit_i64_atomic_rmw32_add_u (a_memarg : p_memarg) : V unit := check_atomic_binary_memory_op E a_memarg VI64.
(* operators.rs:3144-3146 *) Definition visit_i32_atomic_rmw_sub (a_memarg : p_memarg) : V unit := check_atomic_binary_memory_op E a_memarg VI32.
(* operators.rs:3189-3191 *) Definition visit_i64_atomic_rmw_sub (a_memarg : p_memarg) : V unit := check_atomic_binary_memory_op E a_memarg VI64.
(* operators.rs:3174-3176 *) Definition visit_i32_atomic_rmw8_sub_u (a_memarg : p_memarg) : V unit := check_atomic_binary_memory_op E a_memarg VI32.
(* operators.rs:3159-3161 *) Definition visit_i32_atomic_rmw16_sub_u (a_memarg : p_memarg) : V unit := check_atomic_binary_memory_op E a_memarg VI32.
(* operators.rs:3234-3236 *) Definition visit_i64_atomic_rmw8_sub_u (a_memarg : p_memarg) : V unit := check_atomic_binary_memory_op E a_memarg VI64.
(* operators.rs:3219-3221 *) Definition visit_i64_atomic_rmw16_sub_u (a_memarg : p_memarg) : V unit := check_atomic_binary_memory_op E a_memarg VI64.
(* operators.rs:3204-3206 *) Definition visit_i64_atomic_rmw32_sub_u (a_memarg : p_memarg) : V unit := check_atomic_binary_memory_op E a_memarg VI64.
(* operators.rs:3147-3149 *) Definition visit_i32_atomic_rmw_and (a_memarg : p_memarg) : V unit := check_atomic_binary_memory_op E a_memarg VI32.
(* operators.rs:3192-3194 *) Definition visit_i64_atomic_rmw_and (a_memarg : p_memarg) : V unit := check_atomic_binary_memory_op E a_memarg VI64.
(* operators.rs:3177-3179 *) Definition visit_i32_atomic_rmw8_and_u (a_memarg : p_memarg) : V unit := check_atomic_binary_memory_op E a_memarg VI32.
(* operators.rs:3162-3164 *) Definition visit_i32_atomic_rmw16_and_u (a_memarg : p_memarg) : V unit := check_atomic_binary_memory_op E a_memarg VI32.
(* operators.rs:3237-3239 *) Definition visit_i64_atomic_rmw8_and_u (a_memarg : p_memarg) : V unit := check_atomic_binary_memory_op E a_memarg VI64.
(* operators.rs:3222-3224 *) Definition visit_i64_atomic_rmw16_and_u (a_memarg : p_memarg) : V unit := check_atomic_binary_memory_op E a_memarg VI64.
(* operators.rs:3207-3209 *) Definition visit_i64_atomic_rmw32_and_u (a_memarg : p_memarg) : V unit := check_atomic_binary_memory_op E a_memarg VI64.
(* operators.rs:3150-3152 *) Definition visit_i32_atomic_rmw_or (a_memarg : p_memarg) : V unit := check_atomic_binary_memory_op E a_memarg VI32.
(* operators.rs:3195-3197 *) Definition visit_i64_atomic_rmw_or (a_memarg : p_memarg) : V unit := check_atomic_binary_memory_op E a_memarg VI64.
(* operators.rs:3180-3182 *) Definition visit_i32_atomic_rmw8_or_u (a_memarg : p_memarg) : V unit := check_atomic_binary_memory_op E a_memarg VI32.
(* operators.rs:3165-3167 *) Definition visit_i32_atomic_rmw16_or_u (a_memarg : p_memarg) : V unit := check_atomic_binary_memory_op E a_memarg VI32.
(* operators.rs:3240-3242 *) Definition visit_i64_atomic_rmw8_or_u (a_memarg : p_memarg) : V unit := check_atomic_binary_memory_op E a_memarg VI64.
(* operators.rs:3225-3227 *) Definition visit_i64_atomic_rmw16_or_u (a_memarg : p_memarg) : V unit := check_atomic_binary_memory_op E a_memarg VI64.
(* operators.rs:3210-3212 *) Definition visit_i64_atomic_rmw32_or_u (a_memarg : p_memarg) : V unit := check_atomic_binary_memory_op E a_memarg VI64.
(* operators.rs:3153-3155 *) Definition visit_i32_atomic_rmw_xor (a_memarg : p_memarg) : V unit := check_atomic_binary_memory_op E a_memarg VI32.
(* operators.rs:3198-3200 *) Definition visit_i64_atomic_rmw_xor (a_memarg : p_memarg) : V unit := check_atomic_binary_memory_op E a_memarg VI64.
(* operators.rs:3183-3185 *) Definition visit_i32_atomic_rmw8_xor_u (a_memarg : p_memarg) : V unit := check_atomic_binary_memory_op E a_memarg VI32.
(* operators.rs:3168-3170 *) Definition visit_i32_atomic_rmw16_xor_u (a_memarg : p_memarg) : V unit := check_atomic_binary_memory_op E a_memarg VI32.
(* operators.rs:3243-3245 *) Definition visit_i64_atomic_rmw8_xor_u (a_memarg : p_memarg) : V unit := check_atomic_binary_memory_op E a_memarg VI64.
(* operators.rs:3228-3230 *) Definition visit_i64_atomic_rmw16_xor_u (a_memarg : p_memarg) : V unit := check_atomic_binary_memory_op E a_memarg VI64.
(* operators.rs:3213-3215 *) Definition visit_i64_atomic_rmw32_xor_u (a_memarg : p_memarg) : V unit := check_atomic_binary_memory_op E a_memarg VI64.
(* operators.rs:3246-3248 *) Definition visit_i32_atomic_rmw_xchg (a_memarg : p_memarg) : V unit := check_atomic_binary_memory_op E a_memarg VI32.
(* operators.rs:3264-3266 *) Definition visit_i64_atomic_rmw_xchg (a_memarg : p_memarg) : V unit := check_atomic_binary_memory_op E a_memarg VI64.
(* operators.rs:3252-3254 *) Definition visit_i32_atomic_rmw8_xchg_u (a_memarg : p_memarg) : V unit := check_atomic_binary_memory_op E a_memarg VI32.
(* operators.rs:3249-3251 *) Definition visit_i32_atomic_rmw16_xchg_u (a_memarg : p_memarg) : V unit := check_atomic_binary_memory_op E a_memarg VI32.
(* operators.rs:3273-3275 *) Definition visit_i64_atomic_rmw8_xchg_u (a_memarg : p_memarg) : V unit := check_atomic_binary_memory_op E a_memarg VI64.
(* operators.rs:3270-3272 *) Definition visit_i64_atomic_rmw16_xchg_u (a_memarg : p_memarg) : V unit := check_atomic_binary_memory_op E a_memarg VI64.
(* operators.rs:3267-3269 *) Definition visit_i64_atomic_rmw32_xchg_u (a_memarg : p_memarg) : V unit := check_atomic_binary_memory_op E a_memarg VI64.
(* operators.rs:3255-3257 *) Definition visit_i32_atomic_rmw_cmpxchg (a_memarg : p_memarg) : V unit := check_atomic_binary_memory_cmpxchg E a_memarg VI32.
(* operators.rs:3276-3278 *) Definition visit_i64_atomic_rmw_cmpxchg (a_memarg : p_memarg) : V unit := check_atomic_binary_memory_cmpxchg E a_memarg VI64.
(* operators.rs:3261-3263 *) Definition visit_i32_atomic_rmw8_cmpxchg_u (a_memarg : p_memarg) : V unit := check_atomic_binary_memory_cmpxchg E a_memarg VI32.
(* operators.rs:3258-3260 *) Definition visit_i32_atomic_rmw16_cmpxchg_u (a_memarg : p_memarg) : V unit := check_atomic_binary_memory_cmpxchg E a_memarg VI32.
(* operators.rs:3285-3287 *) Definition visit_i64_atomic_rmw8_cmpxchg_u (a_memarg : p_memarg) : V unit := check_atomic_binary_memory_cmpxchg E a_memarg VI64.
(* operators.rs:3282-3284 *) Definition visit_i64_atomic_rmw16_cmpxchg_u (a_memarg : p_memarg) : V unit := check_atomic_binary_memory_cmpxchg E a_memarg VI64.
(* operators.rs:3279-3281 *) Definition visit_i64_atomic_rmw32_cmpxchg_u (a_memarg : p_memarg) : V unit := check_atomic_binary_memory_cmpxchg E a_memarg VI64.
(* operators/simd.rs:87-92 *) Definition visit_v128_load (a_memarg : p_memarg) : V unit := let! a_ty := check_memarg E a_memarg in pop E a_ty ;; push_operand VV128.
(* operators/simd.rs:893-895 *) Definition visit_v128_load8x8_s (a_memarg : p_memarg) : V unit := check_v128_load_op E a_memarg.
(* operators/simd.rs:896-898 *) Definition visit_v128_load8x8_u (a_memarg : p_memarg) : V unit := check_v128_load_op E a_memarg.
(* operators/simd.rs:899-901 *) Definition visit_v128_load16x4_s (a_memarg : p_memarg) : V unit := check_v128_load_op E a_memarg.
(* operators/simd.rs:902-904 *) Definition visit_v128_load16x4_u (a_memarg : p_memarg) : V unit := check_v128_load_op E a_memarg.
(* operators/simd.rs:905-907 *) Definition visit_v128_load32x2_s (a_memarg : p_memarg) : V unit := check_v128_load_op E a_memarg.
(* operators/simd.rs:908-910 *) Definition visit_v128_load32x2_u (a_memarg : p_memarg) : V unit := check_v128_load_op E a_memarg.
(* operators/simd.rs:866-871 *) Definition visit_v128_load8_splat (a_memarg : p_memarg) : V unit := let! a_ty := check_memarg E a_memarg in pop E a_ty ;; push_operand VV128.
(* operators/simd.rs:872-877 *) Definition visit_v128_load16_splat (a_memarg : p_memarg) : V unit := let! a_ty := check_memarg E a_memarg in pop E a_ty ;; push_operand VV128.
(* operators/simd.rs:878-883 *) Definition visit_v128_load32_splat (a_memarg : p_memarg) : V unit := let! a_ty := check_memarg E a_memarg in pop E a_ty ;; push_operand VV128.
(* operators/simd.rs:887-889 *) Definition visit_v128_load64_splat (a_memarg : p_memarg) : V unit := check_v128_load_op E a_memarg.
(* operators/simd.rs:884-886 *) Definition visit_v128_load32_zero (a_memarg : p_memarg) : V unit := visit_v128_load32_splat a_memarg.
(* operators/simd.rs:890-892 *) Definition visit_v128_load64_zero (a_memarg : p_memarg) : V unit := check_v128_load_op E a_memarg.
(* operators/simd.rs:93-98 *) Definition visit_v128_store (a_memarg : p_memarg) : V unit := let! a_ty := check_memarg E a_memarg in pop E VV128 ;; pop E a_ty.
(* operators/simd.rs:911-918 *) Definition visit_v128_load8_lane (a_memarg : p_memarg) (a_lane : Z) : V unit := let! a_idx := check_memarg E a_memarg in check_simd_lane_index E a_lane 16 ;; pop E VV128 ;; pop E a_idx ;; push_operand VV128.
(* operators/simd.rs:919-926 *) Definition visit_v128_load16_lane (a_memarg : p_memarg) (a_lane : Z) : V unit := let! a_idx := check_memarg E a_memarg in check_simd_lane_index E a_lane 8 ;; pop E VV128 ;; pop E a_idx ;; push_operand VV128.
(* operators/simd.rs:927-934 *) Definition visit_v128_load32_lane (a_memarg : p_memarg) (a_lane : Z) : V unit := let! a_idx := check_memarg E a_memarg in check_simd_lane_index E a_lane 4 ;; pop E VV128 ;; pop E a_idx ;; push_operand VV128.
(* operators/simd.rs:935-942 *) Definition visit_v128_load64_lane (a_memarg : p_memarg) (a_lane : Z) : V unit := let! a_idx := check_memarg E a_memarg in check_simd_lane_index E a_lane 2 ;; pop E VV128 ;; pop E a_idx ;; push_operand VV128.
(* operators/simd.rs:943-949 *) Definition visit_v128_store8_lane (a_memarg : p_memarg) (a_lane : Z) : V unit := let! a_idx := check_memarg E a_memarg in check_simd_lane_index E a_lane 16 ;; pop E VV128 ;; pop E a_idx.
(* operators/simd.rs:950-956 *) Definition visit_v128_store16_lane (a_memarg : p_memarg) (a_lane : Z) : V unit := let! a_idx := check_memarg E a_memarg in check_simd_lane_index E a_lane 8 ;; pop E VV128 ;; pop E a_idx.
(* operators/simd.rs:957-963 *) Definition visit_v128_store32_lane (a_memarg : p_memarg) (a_lane : Z) : V unit := let! a_idx := check_memarg E a_memarg in check_simd_lane_index E a_lane 4 ;; pop E VV128 ;; pop E a_idx.
(* operators/simd.rs:964-970 *) Definition visit_v128_store64_lane (a_memarg : p_memarg) (a_lane : Z) : V unit := let! a_idx := check_memarg E a_memarg in check_simd_lane_index E a_lane 2 ;; pop E VV128 ;; pop E a_idx.
(* operators/simd.rs:99-102 *) Definition visit_v128_const (a_value : list Z) : V unit := push_operand VV128.
(* operators/simd.rs:123-128 *) Definition visit_i8x16_extract_lane_s (a_lane : Z) : V unit := check_simd_lane_index E a_lane 16 ;; pop E VV128 ;; push_operand VI32.
(* operators/simd.rs:129-131 *) Definition visit_i8x16_extract_lane_u (a_lane : Z) : V unit := visit_i8x16_extract_lane_s a_lane.
(* operators/simd.rs:147-153 *) Definition visit_i8x16_replace_lane (a_lane : Z) : V unit := check_simd_lane_index E a_lane 16 ;; pop E VI32 ;; pop E VV128 ;; push_operand VV128.
(* operators/simd.rs:132-137 *) Definition visit_i16x8_extract_lane_s (a_lane : Z) : V unit := check_simd_lane_index E a_lane 8 ;; pop E VV128 ;; push_operand VI32.
(* operators/simd.rs:138-140 *) Definition visit_i16x8_extract_lane_u (a_lane : Z) : V unit := visit_i16x8_extract_lane_s a_lane.
(* operators/simd.rs:154-160 *) Definition visit_i16x8_replace_lane (a_lane : Z) : V unit := check_simd_lane_index E a_lane 8 ;; pop E VI32 ;; pop E VV128 ;; push_operand VV128.
(* operators/simd.rs:141-146 *) Definition visit_i32x4_extract_lane (a_lane : Z) : V unit := check_simd_lane_index E a_lane 4 ;; pop E VV128 ;; push_operand VI32.
(* operators/simd.rs:161-167 *) Definition visit_i32x4_replace_lane (a_lane : Z) : V unit := check_simd_lane_index E a_lane 4 ;; pop E VI32 ;; pop E VV128 ;; push_operand VV128.
(* operators/simd.rs:168-173 *) Definition visit_i64x2_extract_lane (a_lane : Z) : V unit := check_simd_lane_index E a_lane 2 ;; pop E VV128 ;; push_operand VI64.
(* operators/simd.rs:174-180 *) Definition visit_i64x2_replace_lane (a_lane : Z) : V unit := check_simd_lane_index E a_lane 2 ;; pop E VI64 ;; pop E VV128 ;; push_operand VV128.
(* operators/simd.rs:181-187 *) Definition visit_f32x4_extract_lane (a_lane : Z) : V unit := check_floats_enabled E ;; check_simd_lane_index E a_lane 4 ;; pop E VV128 ;; push_operand VF32.
(* operators/simd.rs:188-195 *) Definition visit_f32x4_replace_lane (a_lane : Z) : V unit := check_floats_enabled E ;; check_simd_lane_index E a_lane 4 ;; pop E VF32 ;; pop E VV128 ;; push_operand VV128.
(* operators/simd.rs:196-202 *) Definition visit_f64x2_extract_lane (a_lane : Z) : V unit := check_floats_enabled E ;; check_simd_lane_index E a_lane 2 ;; pop E VV128 ;; push_operand VF64.
(* operators/simd.rs:203-210 *) Definition visit_f64x2_replace_lane (a_lane : Z) : V unit := check_floats_enabled E ;; check_simd_lane_index E a_lane 2 ;; pop E VF64 ;; pop E VV128 ;; push_operand VV128.
(* operators/simd.rs:851-856 *) Definition visit_i8x16_swizzle : V unit := pop E VV128 ;; pop E VV128 ;; push_operand VV128.
(* operators/simd.rs:103-105 *) Definition visit_i8x16_splat : V unit := check_v128_splat E VI32.
(* operators/simd.rs:106-108 *) Definition visit_i16x8_splat : V unit := check_v128_splat E VI32.
(* operators/simd.rs:109-111 *) Definition visit_i32x4_splat : V unit := check_v128_splat E VI32.
(* operators/simd.rs:112-114 *) Definition visit_i64x2_splat : V unit := check_v128_splat E VI64.
(* operators/simd.rs:115-118 *) Definition visit_f32x4_splat : V unit := check_floats_enabled E ;; check_v128_splat E VF32.
(* operators/simd.rs:119-122 *) Definition visit_f64x2_splat : V unit := check_floats_enabled E ;; check_v128_splat E VF64.
(* operators/simd.rs:295-297 *) Definition visit_i8x16_eq : V unit := check_v128_binary_op E.
(* operators/simd.rs:298-300 *) Definition visit_i8x16_ne : V unit := check_v128_binary_op E.
(* operators/simd.rs:301-303 *) Definition visit_i8x16_lt_s : V unit := check_v128_binary_op E.
(* operators/simd.rs:304-306 *) Definition visit_i8x16_lt_u : V unit := check_v128_binary_op E.
(* operators/simd.rs:307-309 *) Definition visit_i8x16_gt_s : V unit := check_v128_binary_op E.
(* operators/simd.rs:310-312 *) Definition visit_i8x16_gt_u : V unit := check_v128_binary_op E.
(* operators/simd.rs:313-315 *) Definition visit_i8x16_le_s : V unit := check_v128_binary_op E.
(* operators/simd.rs:316-318 *) Definition visit_i8x16_le_u : V unit := check_v128_binary_op E.
(* operators/simd.rs:319-321 *) Definition visit_i8x16_ge_s : V unit := check_v128_binary_op E.
(* operators/simd.rs:322-324 *) Definition visit_i8x16_ge_u : V unit := check_v128_binary_op E.
(* operators/simd.rs:325-327 *) Definition visit_i16x8_eq : V unit := check_v128_binary_op E.
(* operators/simd.rs:328-330 *) Definition visit_i16x8_ne : V unit := check_v128_binary_op E.
(* operators/simd.rs:331-333 *) Definition visit_i16x8_lt_s : V unit := check_v128_binary_op E.
(* operators/simd.rs:334-336 *) Definition visit_i16x8_lt_u : V unit := check_v128_binary_op E.
(* operators/simd.rs:337-339 *) Definition visit_i16x8_gt_s : V unit := check_v128_binary_op E.
(* operators/simd.rs:340-342 *) Definition visit_i16x8_gt_u : V unit := check_v128_binary_op E.
(* operators/simd.rs:343-345 *) Definition visit_i16x8_le_s : V unit := check_v128_binary_op E.
(* operators/simd.rs:346-348 *) Definition visit_i16x8_le_u : V unit := check_v128_binary_op E.
(* operators/simd.rs:349-351 *) Definition visit_i16x8_ge_s : V unit := check_v128_binary_op E.
(* operators/simd.rs:352-354 *) Definition visit_i16x8_ge_u : V unit := check_v128_binary_op E.
(* operators/simd.rs:355-357 *) Definition visit_i32x4_eq : V unit := check_v128_binary_op E.
(* operators/simd.rs:358-360 *) Definition visit_i32x4_ne : V unit := check_v128_binary_op E.
(* operators/simd.rs:361-363 *) Definition visit_i32x4_lt_s : V unit := check_v128_binary_op E.
(* operators/simd.rs:364-366 *) Definition visit_i32x4_lt_u : V unit := check_v128_binary_op E.
(* operators/simd.rs:367-369 *) Definition visit_i32x4_gt_s : V unit := check_v128_binary_op E.
(* operators/simd.rs:370-372 *) Definition visit_i32x4_gt_u : V unit := check_v128_binary_op E.
(* operators/simd.rs:373-375 *) Definition visit_i32x4_le_s : V unit := check_v128_binary_op E.
(* operators/simd.rs:376-378 *) Definition visit_i32x4_le_u : V unit := check_v128_binary_op E.
(* operators/simd.rs:379-381 *) Definition visit_i32x4_ge_s : V unit := check_v128_binary_op E.
(* operators/simd.rs:382-384 *) Definition visit_i32x4_ge_u : V unit := check_v128_binary_op E.
(* operators/simd.rs:385-387 *) Definition visit_i64x2_eq : V unit := check_v128_binary_op E.
(* operators/simd.rs:388-390 *) Definition visit_i64x2_ne : V unit := check_v128_binary_op E.
(* operators/simd.rs:391-393 *) Definition visit_i64x2_lt_s : V unit := check_v128_binary_op E.
(* operators/simd.rs:394-396 *) Definition visit_i64x2_gt_s : V unit := check_v128_binary_op E.
(* operators/simd.rs:397-399 *) Definition visit_i64x2_le_s : V unit := check_v128_binary_op E.
(* operators/simd.rs:400-402 *) Definition visit_i64x2_ge_s : V unit := check_v128_binary_op E.
(* operators/simd.rs:211-213 *) Definition visit_f32x4_eq : V unit := check_v128_fbinary_op E.
(* operators/simd.rs:214-216 *) Definition visit_f32x4_ne : V unit := check_v128_fbinary_op E.
(* operators/simd.rs:217-219 *) Definition visit_f32x4_lt : V unit := check_v128_fbinary_op E.
(* operators/simd.rs:220-222 *) Definition visit_f32x4_gt : V unit := check_v128_fbinary_op E.
(* operators/simd.rs:223-225 *) Definition visit_f32x4_le : V unit := check_v128_fbinary_op E.
(* operators/simd.rs:226-228 *) Definition visit_f32x4_ge : V unit := check_v128_fbinary_op E.
(* operators/simd.rs:229-231 *) Definition visit_f64x2_eq : V unit := check_v128_fbinary_op E.
(* operators/simd.rs:232-234 *) Definition visit_f64x2_ne : V unit := check_v128_fbinary_op E.
(* operators/simd.rs:235-237 *) Definition visit_f64x2_lt : V unit := check_v128_fbinary_op E.
(* operators/simd.rs:238-240 *) Definition visit_f64x2_gt : V unit := check_v128_fbinary_op E.
(* operators/simd.rs:241-243 *) Definition visit_f64x2_le : V unit := check_v128_fbinary_op E.
(* operators/simd.rs:244-246 *) Definition visit_f64x2_ge : V unit := check_v128_fbinary_op E.
(* operators/simd.rs:640-642 *) Definition visit_v128_not : V unit := check_v128_unary_op E.
(* operators/simd.rs:403-405 *) Definition visit_v128_and : V unit := check_v128_binary_op E.
(* operators/simd.rs:406-408 *) Definition visit_v128_andnot : V unit := check_v128_binary_op E.
(* operators/simd.rs:409-411 *) Definition visit_v128_or : V unit := check_v128_binary_op E.
(* operators/simd.rs:412-414 *) Definition visit_v128_xor : V unit := check_v128_binary_op E.
(* operators/simd.rs:718-724 *) Definition visit_v128_bitselect : V unit := pop E VV128 ;; pop E VV128 ;; pop E VV128 ;; push_operand VV128.
(* operators/simd.rs:788-790 *) Definition visit_v128_any_true : V unit := check_v128_bitmask_op E.
(* operators/simd.rs:643-645 *) Definition visit_i8x16_abs : V unit := check_v128_unary_op E.
(* operators/simd.rs:646-648 *) Definition visit_i8x16_neg : V unit := check_v128_unary_op E.
(* operators/simd.rs:649-651 *) Definition visit_i8x16_popcnt : V unit := check_v128_unary_op E.
(* operators/simd.rs:791-793 *) Definition visit_i8x16_all_true : V unit := check_v128_bitmask_op E.
(* operators/simd.rs:794-796 *) Definition visit_i8x16_bitmask : V unit := check_v128_bitmask_op E.
(* operators/simd.rs:517-519 *) Definition visit_i8x16_narrow_i16x8_s : V unit := check_v128_binary_op E.
(* operators/simd.rs:520-522 *) Definition visit_i8x16_narrow_i16x8_u : V unit := check_v128_binary_op E.
(* operators/simd.rs:815-817 *) Definition visit_i8x16_shl : V unit := check_v128_shift_op E.
(* operators/simd.rs:818-820 *) Definition visit_i8x16_shr_s : V unit := check_v128_shift_op E.
(* operators/simd.rs:821-823 *) Definition visit_i8x16_shr_u : V unit := check_v128_shift_op E.
(* operators/simd.rs:415-417 *) Definition visit_i8x16_add : V unit := check_v128_binary_op E.
(* operators/simd.rs:418-420 *) Definition visit_i8x16_add_sat_s : V unit := check_v128_binary_op E.
(* operators/simd.rs:421-423 *) Definition visit_i8x16_add_sat_u : V unit := check_v128_binary_op E.
(* operators/simd.rs:424-426 *) Definition visit_i8x16_sub : V unit := check_v128_binary_op E.
(* operators/simd.rs:427-429 *) Definition visit_i8x16_sub_sat_s : V unit := check_v128_binary_op E.
(* operators/simd.rs:430-432 *) Definition visit_i8x16_sub_sat_u : V unit := check_v128_binary_op E.
(* operators/simd.rs:433-435 *) Definition visit_i8x16_min_s : V unit := check_v128_binary_op E.
(* operators/simd.rs:436-438 *) Definition visit_i8x16_min_u : V unit := check_v128_binary_op E.
(* operators/simd.rs:439-441 *) Definition visit_i8x16_max_s : V unit := check_v128_binary_op E.
(* operators/simd.rs:442-444 *) Definition visit_i8x16_max_u : V unit := check_v128_binary_op E.
(* operators/simd.rs:511-513 *) Definition visit_i8x16_avgr_u : V unit := check_v128_binary_op E.
(* operators/simd.rs:706-708 *) Definition visit_i16x8_extadd_pairwise_i8x16_s : V unit := check_v128_unary_op E.
(* operators/simd.rs:709-711 *) Definition visit_i16x8_extadd_pairwise_i8x16_u : V unit := check_v128_unary_op E.
(* operators/simd.rs:652-654 *) Definition visit_i16x8_abs : V unit := check_v128_unary_op E.
(* operators/simd.rs:655-657 *) Definition visit_i16x8_neg : V unit := check_v128_unary_op E.
(* operators/simd.rs:565-567 *) Definition visit_i16x8_q15mulr_sat_s : V unit := check_v128_binary_op E.
(* operators/simd.rs:797-799 *) Definition visit_i16x8_all_true : V unit := check_v128_bitmask_op E.
(* operators/simd.rs:800-802 *) Definition visit_i16x8_bitmask : V unit := check_v128_bitmask_op E.
(* operators/simd.rs:523-525 *) Definition visit_i16x8_narrow_i32x4_s : V unit := check_v128_binary_op E.
(* operators/simd.rs:526-528 *) Definition visit_i16x8_narrow_i32x4_u : V unit := check_v128_binary_op E.
(* operators/simd.rs:670-672 *) Definition visit_i16x8_extend_low_i8x16_s : V unit := check_v128_unary_op E.
(* operators/simd.rs:673-675 *) Definition visit_i16x8_extend_high_i8x16_s : V unit := check_v128_unary_op E.
(* operators/simd.rs:676-678 *) Definition visit_i16x8_extend_low_i8x16_u : V unit := check_v128_unary_op E.
(* operators/simd.rs:679-681 *) Definition visit_i16x8_extend_high_i8x16_u : V unit := check_v128_unary_op E.
(* operators/simd.rs:824-826 *) Definition visit_i16x8_shl : V unit := check_v128_shift_op E.
(* operators/simd.rs:827-829 *) Definition visit_i16x8_shr_s : V unit := check_v128_shift_op E.
(* operators/simd.rs:830-832 *) Definition visit_i16x8_shr_u : V unit := check_v128_shift_op E.
(* operators/simd.rs:445-447 *) Definition visit_i16x8_add : V unit := check_v128_binary_op E.
(* operators/simd.rs:448-450 *) Definition visit_i16x8_add_sat_s : V unit := check_v128_binary_op E.
(* operators/simd.rs:451-453 *) Definition visit_i16x8_add_sat_u : V unit := check_v128_binary_op E.
(* operators/simd.rs:454-456 *) Definition visit_i16x8_sub : V unit := check_v128_binary_op E.
(* operators/simd.rs:457-459 *) Definition visit_i16x8_sub_sat_s : V unit := check_v128_binary_op E.
(* operators/simd.rs:460-462 *) Definition visit_i16x8_sub_sat_u : V unit := check_v128_binary_op E.
(* operators/simd.rs:463-465 *) Definition visit_i16x8_mul : V unit := check_v128_binary_op E.
(* operators/simd.rs:466-468 *) Definition visit_i16x8_min_s : V unit := check_v128_binary_op E.
(* operators/simd.rs:469-471 *) Definition visit_i16x8_min_u : V unit := check_v128_binary_op E.
(* operators/simd.rs:472-474 *) Definition visit_i16x8_max_s : V unit := check_v128_binary_op E.
(* operators/simd.rs:475-477 *) Definition visit_i16x8_max_u : V unit := check_v128_binary_op E.
(* operators/simd.rs:514-516 *) Definition visit_i16x8_avgr_u : V unit := check_v128_binary_op E.
(* operators/simd.rs:529-531 *) Definition visit_i16x8_extmul_low_i8x16_s : V unit := check_v128_binary_op E.
(* operators/simd.rs:532-534 *) Definition visit_i16x8_extmul_high_i8x16_s : V unit := check_v128_binary_op E.
(* operators/simd.rs:535-537 *) Definition visit_i16x8_extmul_low_i8x16_u : V unit := check_v128_binary_op E.
(* operators/simd.rs:538-540 *) Definition visit_i16x8_extmul_high_i8x16_u : V unit := check_v128_binary_op E.
(* operators/simd.rs:712-714 *) Definition visit_i32x4_extadd_pairwise_i16x8_s : V unit := check_v128_unary_op E.
(* operators/simd.rs:715-717 *) Definition visit_i32x4_extadd_pairwise_i16x8_u : V unit := check_v128_unary_op E.
(* operators/simd.rs:658-660 *) Definition visit_i32x4_abs : V unit := check_v128_unary_op E.
(* operators/simd.rs:661-663 *) Definition visit_i32x4_neg : V unit := check_v128_unary_op E.
(* operators/simd.rs:803-805 *) Definition visit_i32x4_all_true : V unit := check_v128_bitmask_op E.
(* operators/simd.rs:806-808 *) Definition visit_i32x4_bitmask : V unit := check_v128_bitmask_op E.
(* operators/simd.rs:682-684 *) Definition visit_i32x4_extend_low_i16x8_s : V unit := check_v128_unary_op E.
(* operators/simd.rs:685-687 *) Definition visit_i32x4_extend_high_i16x8_s : V unit := check_v128_unary_op E.
(* operators/simd.rs:688-690 *) Definition visit_i32x4_extend_low_i16x8_u : V unit := check_v128_unary_op E.
(* operators/simd.rs:691-693 *) Definition visit_i32x4_extend_high_i16x8_u : V unit := check_v128_unary_op E.
(* operators/simd.rs:833-835 *) Definition visit_i32x4_shl : V unit := check_v128_shift_op E.
(* operators/simd.rs:836-838 *) Definition visit_i32x4_shr_s : V unit := check_v128_shift_op E.
(* operators/simd.rs:839-841 *) Definition visit_i32x4_shr_u : V unit := check_v128_shift_op E.
(* operators/simd.rs:478-480 *) Definition visit_i32x4_add : V unit := check_v128_binary_op E.
(* operators/simd.rs:481-483 *) Definition visit_i32x4_sub : V unit := check_v128_binary_op E.
(* operators/simd.rs:484-486 *) Definition visit_i32x4_mul : V unit := check_v128_binary_op E.
(* operators/simd.rs:487-489 *) Definition visit_i32x4_min_s : V unit := check_v128_binary_op E.
(* operators/simd.rs:490-492 *) Definition visit_i32x4_min_u : V unit := check_v128_binary_op E.
(* operators/simd.rs:493-495 *) Definition visit_i32x4_max_s : V unit := check_v128_binary_op E.
(* operators/simd.rs:496-498 *) Definition visit_i32x4_max_u : V unit := check_v128_binary_op E.
(* operators/simd.rs:499-501 *) Definition visit_i32x4_dot_i16x8_s : V unit := check_v128_binary_op E.
(* operators/simd.rs:541-543 *) Definition visit_i32x4_extmul_low_i16x8_s : V unit := check_v128_binary_op E.
(* operators/simd.rs:544-546 *) Definition visit_i32x4_extmul_high_i16x8_s : V unit := check_v128_binary_op E.
(* operators/simd.rs:547-549 *) Definition visit_i32x4_extmul_low_i16x8_u : V unit := check_v128_binary_op E.
(* operators/simd.rs:550-552 *) Definition visit_i32x4_extmul_high_i16x8_u : V unit := check_v128_binary_op E.
(* operators/simd.rs:664-666 *) Definition visit_i64x2_abs : V unit := check_v128_unary_op E.
(* operators/simd.rs:667-669 *) Definition visit_i64x2_neg : V unit := check_v128_unary_op E.
(* operators/simd.rs:809-811 *) Definition visit_i64x2_all_true : V unit := check_v128_bitmask_op E.
(* operators/simd.rs:812-814 *) Definition visit_i64x2_bitmask : V unit := check_v128_bitmask_op E.
(* operators/simd.rs:694-696 *) Definition visit_i64x2_extend_low_i32x4_s : V unit := check_v128_unary_op E.
(* operators/simd.rs:697-699 *) Definition visit_i64x2_extend_high_i32x4_s : V unit := check_v128_unary_op E.
(* operators/simd.rs:700-702 *) Definition visit_i64x2_extend_low_i32x4_u : V unit := check_v128_unary_op E.
(* operators/simd.rs:703-705 *) Definition visit_i64x2_extend_high_i32x4_u : V unit := check_v128_unary_op E.
(* operators/simd.rs:842-844 *) Definition visit_i64x2_shl : V unit := check_v128_shift_op E.
(* operators/simd.rs:845-847 *) Definition visit_i64x2_shr_s : V unit := check_v128_shift_op E.
(* operators/simd.rs:848-850 *) Definition visit_i64x2_shr_u : V unit := check_v128_shift_op E.
(* operators/simd.rs:502-504 *) Definition visit_i64x2_add : V unit := check_v128_binary_op E.
(* operators/simd.rs:505-507 *) Definition visit_i64x2_sub : V unit := check_v128_binary_op E.
(* operators/simd.rs:508-510 *) Definition visit_i64x2_mul : V unit := check_v128_binary_op E.
(* operators/simd.rs:553-555 *) Definition visit_i64x2_extmul_low_i32x4_s : V unit := check_v128_binary_op E.
(* operators/simd.rs:556-558 *) Definition visit_i64x2_extmul_high_i32x4_s : V unit := check_v128_binary_op E.
(* operators/simd.rs:559-561 *) Definition visit_i64x2_extmul_low_i32x4_u : V unit := check_v128_binary_op E.
(* operators/simd.rs:562-564 *) Definition visit_i64x2_extmul_high_i32x4_u : V unit := check_v128_binary_op E.
(* operators/simd.rs:568-570 *) Definition visit_f32x4_ceil : V unit := check_v128_funary_op E.
(* operators/simd.rs:571-573 *) Definition visit_f32x4_floor : V unit := check_v128_funary_op E.
(* operators/simd.rs:574-576 *) Definition visit_f32x4_trunc : V unit := check_v128_funary_op E.
(* operators/simd.rs:577-579 *) Definition visit_f32x4_nearest : V unit := check_v128_funary_op E.
(* operators/simd.rs:592-594 *) Definition visit_f32x4_abs : V unit := check_v128_funary_op E.
(* operators/simd.rs:595-597 *) Definition visit_f32x4_neg : V unit := check_v128_funary_op E.
(* operators/simd.rs:598-600 *) Definition visit_f32x4_sqrt : V unit := check_v128_funary_op E.
(* operators/simd.rs:247-249 *) Definition visit_f32x4_add : V unit := check_v128_fbinary_op E.
(* operators/simd.rs:250-252 *) Definition visit_f32x4_sub : V unit := check_v128_fbinary_op E.
(* operators/simd.rs:253-255 *) Definition visit_f32x4_mul : V unit := check_v128_fbinary_op E.
(* operators/simd.rs:256-258 *) Definition visit_f32x4_div : V unit := check_v128_fbinary_op E.
(* operators/simd.rs:259-261 *) Definition visit_f32x4_min : V unit := check_v128_fbinary_op E.
(* operators/simd.rs:262-264 *) Definition visit_f32x4_max : V unit := check_v128_fbinary_op E.
(* operators/simd.rs:265-267 *) Definition visit_f32x4_pmin : V unit := check_v128_fbinary_op E.
(* operators/simd.rs:268-270 *) Definition visit_f32x4_pmax : V unit := check_v128_fbinary_op E.
(* operators/simd.rs:580-582 *) Definition visit_f64x2_ceil : V unit := check_v128_funary_op E.
(* operators/simd.rs:583-585 *) Definition visit_f64x2_floor : V unit := check_v128_funary_op E.
(* operators/simd.rs:586-588 *) Definition visit_f64x2_trunc : V unit := check_v128_funary_op E.
(* operators/simd.rs:589-591 *) Definition visit_f64x2_nearest : V unit := check_v128_funary_op E.
(* operators/simd.rs:601-603 *) Definition visit_f64x2_abs : V unit := check_v128_funary_op E.
(* operators/simd.rs:604-606 *) Definition visit_f64x2_neg : V unit := check_v128_funary_op E.
(* operators/simd.rs:607-609 *) Definition visit_f64x2_sqrt : V unit := check_v128_funary_op E.
(* operators/simd.rs:271-273 *) Definition visit_f64x2_add : V unit := check_v128_fbinary_op E.
(* operators/simd.rs:274-276 *) Definition visit_f64x2_sub : V unit := check_v128_fbinary_op E.
(* operators/simd.rs:277-279 *) Definition visit_f64x2_mul : V unit := check_v128_fbinary_op E.
(* operators/simd.rs:280-282 *) Definition visit_f64x2_div : V unit := check_v128_fbinary_op E.
(* operators/simd.rs:283-285 *) Definition visit_f64x2_min : V unit := check_v128_fbinary_op E.
(* operators/simd.rs:286-288 *) Definition visit_f64x2_max : V unit := check_v128_fbinary_op E.
(* operators/simd.rs:289-291 *) Definition visit_f64x2_pmin : V unit := check_v128_fbinary_op E.
(* operators/simd.rs:292-294 *) Definition visit_f64x2_pmax : V unit := check_v128_fbinary_op E.
(* operators/simd.rs:622-624 *) Definition visit_i32x4_trunc_sat_f32x4_s : V unit := check_v128_funary_op E.
(* operators/simd.rs:625-627 *) Definition visit_i32x4_trunc_sat_f32x4_u : V unit := check_v128_funary_op E.
(* operators/simd.rs:634-636 *) Definition visit_f32x4_convert_i32x4_s : V unit := check_v128_funary_op E.
(* operators/simd.rs:637-639 *) Definition visit_f32x4_convert_i32x4_u : V unit := check_v128_funary_op E.
(* operators/simd.rs:628-630 *) Definition visit_i32x4_trunc_sat_f64x2_s_zero : V unit := check_v128_funary_op E.
(* operators/simd.rs:631-633 *) Definition visit_i32x4_trunc_sat_f64x2_u_zero : V unit := check_v128_funary_op E.
(* operators/simd.rs:616-618 *) Definition visit_f64x2_convert_low_i32x4_s : V unit := check_v128_funary_op E.
(* operators/simd.rs:619-621 *) Definition visit_f64x2_convert_low_i32x4_u : V unit := check_v128_funary_op E.
(* operators/simd.rs:610-612 *) Definition visit_f32x4_demote_f64x2_zero : V unit := check_v128_funary_op E.
(* operators/simd.rs:613-615 *) Definition visit_f64x2_promote_low_f32x4 : V unit := check_v128_funary_op E.
(* operators/simd.rs:725-730 *) Definition visit_i8x16_relaxed_swizzle : V unit := pop E VV128 ;; pop E VV128 ;; push_operand VV128.
(* operators/simd.rs:731-733 *) Definition visit_i32x4_relaxed_trunc_f32x4_s : V unit := check_v128_unary_op E.
(* operators/simd.rs:734-736 *) Definition visit_i32x4_relaxed_trunc_f32x4_u : V unit := check_v128_unary_op E.
(* operators/simd.rs:737-739 *) Definition visit_i32x4_relaxed_trunc_f64x2_s_zero : V unit := check_v128_unary_op E.
(* operators/simd.rs:740-742 *) Definition visit_i32x4_relaxed_trunc_f64x2_u_zero : V unit := check_v128_unary_op E.
(* operators/simd.rs:743-745 *) Definition visit_f32x4_relaxed_madd : V unit := check_v128_ternary_op E.
(* operators/simd.rs:746-748 *) Definition visit_f32x4_relaxed_nmadd : V unit := check_v128_ternary_op E.
(* operators/simd.rs:749-751 *) Definition visit_f64x2_relaxed_madd : V unit := check_v128_ternary_op E.
(* operators/simd.rs:752-754 *) Definition visit_f64x2_relaxed_nmadd : V unit := check_v128_ternary_op E.
(* operators/simd.rs:755-757 *) Definition visit_i8x16_relaxed_laneselect : V unit := check_v128_ternary_op E.
(* operators/simd.rs:758-760 *) Definition visit_i16x8_relaxed_laneselect : V unit := check_v128_ternary_op E.
(* operators/simd.rs:761-763 *) Definition visit_i32x4_relaxed_laneselect : V unit := check_v128_ternary_op E.
(* operators/simd.rs:764-766 *) Definition visit_i64x2_relaxed_laneselect : V unit := check_v128_ternary_op E.
(* operators/simd.rs:767-769 *) Definition visit_f32x4_relaxed_min : V unit := check_v128_binary_op E.
(* operators/simd.rs:770-772 *) Definition visit_f32x4_relaxed_max : V unit := check_v128_binary_op E.
(* operators/simd.rs:773-775 *) Definition visit_f64x2_relaxed_min : V unit := check_v128_binary_op E.
(* operators/simd.rs:776-778 *) Definition visit_f64x2_relaxed_max : V unit := check_v128_binary_op E.
(* operators/simd.rs:779-781 *) Definition visit_i16x8_relaxed_q15mulr_s : V unit := check_v128_binary_op E.
(* operators/simd.rs:782-784 *) Definition visit_i16x8_relaxed_dot_i8x16_i7x16_s : V unit := check_v128_binary_op E.
(* operators/simd.rs:785-787 *) Definition visit_i32x4_relaxed_dot_i8x16_i7x16_add_s : V unit := check_v128_ternary_op E.
(* operators.rs:2442-2449 *) Definition visit_global_atomic_rmw_add (a_ordering : ordering) (a_global_index : Z) : V unit := let! a_ty := check_atomic_global_rmw_ty E a_global_index in check_unary_op E a_ty.
(* operators.rs:2450-2457 *) Definition visit_global_atomic_rmw_sub (a_ordering : ordering) (a_global_index : Z) : V unit := let! a_ty := check_atomic_global_rmw_ty E a_global_index in check_unary_op E a_ty.
(* operators.rs:2458-2465 *) Definition visit_global_atomic_rmw_and (a_ordering : ordering) (a_global_index : Z) : V unit := let! a_ty := check_atomic_global_rmw_ty E a_global_index in check_unary_op E a_ty.
(* operators.rs:2466-2473 *) Definition visit_global_atomic_rmw_or (a_ordering : ordering) (a_global_index : Z) : V unit := let! a_ty := check_atomic_global_rmw_ty E a_global_index in check_unary_op E a_ty.
(* operators.rs:2474-2481 *) Definition visit_global_atomic_rmw_xor (a_ordering : ordering) (a_global_index : Z) : V unit := let! a_ty := check_atomic_global_rmw_ty E a_global_index in check_unary_op E a_ty.
(* operators.rs:3805-3812 *) Definition visit_struct_atomic_rmw_add (a_ordering : ordering) (a_struct_type_index : Z) (a_field_index : Z) : V unit := check_struct_atomic_rmw E "add"%string a_struct_type_index a_field_index.
(* operators.rs:3813-3820 *) Definition visit_struct_atomic_rmw_sub (a_ordering : ordering) (a_struct_type_index : Z) (a_field_index : Z) : V unit := check_struct_atomic_rmw E "sub"%string a_struct_type_index a_field_index.
(* operators.rs:3821-3828 *) Definition visit_struct_atomic_rmw_and (a_ordering : ordering) (a_struct_type_index : Z) (a_field_index : Z) : V unit := check_struct_atomic_rmw E "and"%string a_struct_type_index a_field_index.
(* operators.rs:3829-3836 *) Definition visit_struct_atomic_rmw_or (a_ordering : ordering) (a_struct_type_index : Z) (a_field_index : Z) : V unit := check_struct_atomic_rmw E "or"%string a_struct_type_index a_field_index.
(* operators.rs:3837-3844 *) Definition visit_struct_atomic_rmw_xor (a_ordering : ordering) (a_struct_type_index : Z) (a_field_index : Z) : V unit := check_struct_atomic_rmw E "xor"%string a_struct_type_index a_field_index.
(* operators.rs:4160-4162 *) Definition visit_array_atomic_rmw_add (a_ordering : ordering) (a_type_index : Z) : V unit := check_array_atomic_rmw E "add"%string a_type_index.
(* operators.rs:4163-4165 *) Definition visit_array_atomic_rmw_sub (a_ordering : ordering) (a_type_index : Z) : V unit := check_array_atomic_rmw E "sub"%string a_type_index.
(* operators.rs:4166-4168 *) Definition visit_array_atomic_rmw_and (a_ordering : ordering) (a_type_index : Z) : V unit := check_array_atomic_rmw E "and"%string a_type_index.
(* operators.rs:4169-4171 *) Definition visit_array_atomic_rmw_or (a_ordering : ordering) (a_type_index : Z) : V unit := check_array_atomic_rmw E "or"%string a_type_index.
(* operators.rs:4172-4174 *) Definition visit_array_atomic_rmw_xor (a_ordering : ordering) (a_type_index : Z) : V unit := check_array_atomic_rmw E "xor"%string a_type_index.
(* operators.rs:2300-2304 *) Definition visit_call_ref (a_type_index : Z) : V unit := let! a_ty := check_call_ref_ty E a_type_index in check_call_ty E a_ty.
(* operators.rs:2305-2309 *) Definition visit_return_call_ref (a_type_index : Z) : V unit := let! a_ty := check_call_ref_ty E a_type_index in check_return_call_ty E a_ty.
(* operators.rs:4572-4574 *) Definition visit_i64_add128 : V unit := check_binop128 E.
(* operators.rs:4575-4577 *) Definition visit_i64_sub128 : V unit := check_binop128 E.
(* operators.rs:4578-4580 *) Definition visit_i64_mul_wide_s : V unit := check_i64_mul_wide E.
(* operators.rs:4581-4583 *) Definition visit_i64_mul_wide_u : V unit := check_i64_mul_wide E.

(** The operator itself ([OperatorValidatorTemp]). *)
Definition visit_op (o : operator) : V unit :=
  match o with
  | Op_Unreachable => visit_unreachable
  | Op_Nop => visit_nop
  | Op_Block x0 => visit_block E x0
  | Op_Loop x0 => visit_loop E x0
  | Op_If x0 => visit_if E x0
  | Op_Else => visit_else E
  | Op_End => visit_end E
  | Op_Br x0 => visit_br E x0
  | Op_BrIf x0 => visit_br_if E x0
  | Op_BrTable x0 => visit_br_table E x0
  | Op_Return => visit_return
  | Op_Call x0 => visit_call x0
  | Op_CallIndirect x0 x1 => visit_call_indirect x0 x1
  | Op_Drop => visit_drop
  | Op_Select => visit_select E
  | Op_LocalGet x0 => visit_local_get E x0
  | Op_LocalSet x0 => visit_local_set E x0
  | Op_LocalTee x0 => visit_local_tee E x0
  | Op_GlobalGet x0 => visit_global_get E x0
  | Op_GlobalSet x0 => visit_global_set E x0
  | Op_I32Load x0 => visit_i32_load x0
  | Op_I64Load x0 => visit_i64_load x0
  | Op_F32Load x0 => visit_f32_load x0
  | Op_F64Load x0 => visit_f64_load x0
  | Op_I32Load8S x0 => visit_i32_load8_s x0
  | Op_I32Load8U x0 => visit_i32_load8_u x0
  | Op_I32Load16S x0 => visit_i32_load16_s x0
  | Op_I32Load16U x0 => visit_i32_load16_u x0
  | Op_I64Load8S x0 => visit_i64_load8_s x0
  | Op_I64Load8U x0 => visit_i64_load8_u x0
  | Op_I64Load16S x0 => visit_i64_load16_s x0
  | Op_I64Load16U x0 => visit_i64_load16_u x0
  | Op_I64Load32S x0 => visit_i64_load32_s x0
  | Op_I64Load32U x0 => visit_i64_load32_u x0
  | Op_I32Store x0 => visit_i32_store x0
  | Op_I64Store x0 => visit_i64_store x0
  | Op_F32Store x0 => visit_f32_store x0
  | Op_F64Store x0 => visit_f64_store x0
  | Op_I32Store8 x0 => visit_i32_store8 x0
  | Op_I32Store16 x0 => visit_i32_store16 x0
  | Op_I64Store8 x0 => visit_i64_store8 x0
  | Op_I64Store16 x0 => visit_i64_store16 x0
  | Op_I64Store32 x0 => visit_i64_store32 x0
  | Op_MemorySize x0 => visit_memory_size x0
  | Op_MemoryGrow x0 => visit_memory_grow x0
  | Op_I32Const x0 => visit_i32_const x0
  | Op_I64Const x0 => visit_i64_const x0
  | Op_F32Const x0 => visit_f32_const x0
  | Op_F64Const x0 => visit_f64_const x0
  | Op_I32Eqz => visit_i32_eqz
  | Op_I32Eq => visit_i32_eq
  | Op_I32Ne => visit_i32_ne
  | Op_I32LtS => visit_i32_lt_s
  | Op_I32LtU => visit_i32_lt_u
  | Op_I32GtS => visit_i32_gt_s
  | Op_I32GtU => visit_i32_gt_u
  | Op_I32LeS => visit_i32_le_s
  | Op_I32LeU => visit_i32_le_u
  | Op_I32GeS => visit_i32_ge_s
  | Op_I32GeU => visit_i32_ge_u
  | Op_I64Eqz => visit_i64_eqz
  | Op_I64Eq => visit_i64_eq
  | Op_I64Ne => visit_i64_ne
  | Op_I64LtS => visit_i64_lt_s
  | Op_I64LtU => visit_i64_lt_u
  | Op_I64GtS => visit_i64_gt_s
  | Op_I64GtU => visit_i64_gt_u
  | Op_I64LeS => visit_i64_le_s
  | Op_I64LeU => visit_i64_le_u
  | Op_I64GeS => visit_i64_ge_s
  | Op_I64GeU => visit_i64_ge_u
  | Op_F32Eq => visit_f32_eq
  | Op_F32Ne => visit_f32_ne
  | Op_F32Lt => visit_f32_lt
  | Op_F32Gt => visit_f32_gt
  | Op_F32Le => visit_f32_le
  | Op_F32Ge => visit_f32_ge
  | Op_F64Eq => visit_f64_eq
  | Op_F64Ne => visit_f64_ne
  | Op_F64Lt => visit_f64_lt
  | Op_F64Gt => visit_f64_gt
  | Op_F64Le => visit_f64_le
  | Op_F64Ge => visit_f64_ge
  | Op_I32Clz => visit_i32_clz
  | Op_I32Ctz => visit_i32_ctz
  | Op_I32Popcnt => visit_i32_popcnt
  | Op_I32Add => visit_i32_add
  | Op_I32Sub => visit_i32_sub
  | Op_I32Mul => visit_i32_mul
  | Op_I32DivS => visit_i32_div_s
  | Op_I32DivU => visit_i32_div_u
  | Op_I32RemS => visit_i32_rem_s
  | Op_I32RemU => visit_i32_rem_u
  | Op_I32And => visit_i32_and
  | Op_I32Or => visit_i32_or
  | Op_I32Xor => visit_i32_xor
  | Op_I32Shl => visit_i32_shl
  | Op_I32ShrS => visit_i32_shr_s
  | Op_I32ShrU => visit_i32_shr_u
  | Op_I32Rotl => visit_i32_rotl
  | Op_I32Rotr => visit_i32_rotr
  | Op_I64Clz => visit_i64_clz
  | Op_I64Ctz => visit_i64_ctz
  | Op_I64Popcnt => visit_i64_popcnt
  | Op_I64Add => visit_i64_add
  | Op_I64Sub => visit_i64_sub
  | Op_I64Mul => visit_i64_mul
  | Op_I64DivS => visit_i64_div_s
  | Op_I64DivU => visit_i64_div_u
  | Op_I64RemS => visit_i64_rem_s
  | Op_I64RemU => visit_i64_rem_u
  | Op_I64And => visit_i64_and
  | Op_I64Or => visit_i64_or
  | Op_I64Xor => visit_i64_xor
  | Op_I64Shl => visit_i64_shl
  | Op_I64ShrS => visit_i64_shr_s
  | Op_I64ShrU => visit_i64_shr_u
  | Op_I64Rotl => visit_i64_rotl
  | Op_I64Rotr => visit_i64_rotr
  | Op_F32Abs => visit_f32_abs
  | Op_F32Neg => visit_f32_neg
  | Op_F32Ceil => visit_f32_ceil
  | Op_F32Floor => visit_f32_floor
  | Op_F32Trunc => visit_f32_trunc
  | Op_F32Nearest => visit_f32_nearest
  | Op_F32Sqrt => visit_f32_sqrt
  | Op_F32Add => visit_f32_add
  | Op_F32Sub => visit_f32_sub
  | Op_F32Mul => visit_f32_mul
  | Op_F32Div => visit_f32_div
  | Op_F32Min => visit_f32_min
  | Op_F32Max => visit_f32_max
  | Op_F32Copysign => visit_f32_copysign
  | Op_F64Abs => visit_f64_abs
  | Op_F64Neg => visit_f64_neg
  | Op_F64Ceil => visit_f64_ceil
  | Op_F64Floor => visit_f64_floor
  | Op_F64Trunc => visit_f64_trunc
  | Op_F64Nearest => visit_f64_nearest
  | Op_F64Sqrt => visit_f64_sqrt
  | Op_F64Add => visit_f64_add
  | Op_F64Sub => visit_f64_sub
  | Op_F64Mul => visit_f64_mul
  | Op_F64Div => visit_f64_div
  | Op_F64Min => visit_f64_min
  | Op_F64Max => visit_f64_max
  | Op_F64Copysign => visit_f64_copysign
  | Op_I32WrapI64 => visit_i32_wrap_i64
  | Op_I32TruncF32S => visit_i32_trunc_f32_s
  | Op_I32TruncF32U => visit_i32_trunc_f32_u
  | Op_I32TruncF64S => visit_i32_trunc_f64_s
  | Op_I32TruncF64U => visit_i32_trunc_f64_u
  | Op_I64ExtendI32S => visit_i64_extend_i32_s
  | Op_I64ExtendI32U => visit_i64_extend_i32_u
  | Op_I64TruncF32S => visit_i64_trunc_f32_s
  | Op_I64TruncF32U => visit_i64_trunc_f32_u
  | Op_I64TruncF64S => visit_i64_trunc_f64_s
  | Op_I64TruncF64U => visit_i64_trunc_f64_u
  | Op_F32ConvertI32S => visit_f32_convert_i32_s
  | Op_F32ConvertI32U => visit_f32_convert_i32_u
  | Op_F32ConvertI64S => visit_f32_convert_i64_s
  | Op_F32ConvertI64U => visit_f32_convert_i64_u
  | Op_F32DemoteF64 => visit_f32_demote_f64
  | Op_F64ConvertI32S => visit_f64_convert_i32_s
  | Op_F64ConvertI32U => visit_f64_convert_i32_u
  | Op_F64ConvertI64S => visit_f64_convert_i64_s
  | Op_F64ConvertI64U => visit_f64_convert_i64_u
  | Op_F64PromoteF32 => visit_f64_promote_f32
  | Op_I32ReinterpretF32 => visit_i32_reinterpret_f32
  | Op_I64ReinterpretF64 => visit_i64_reinterpret_f64
  | Op_F32ReinterpretI32 => visit_f32_reinterpret_i32
  | Op_F64ReinterpretI64 => visit_f64_reinterpret_i64
  | Op_I32Extend8S => visit_i32_extend8_s
  | Op_I32Extend16S => visit_i32_extend16_s
  | Op_I64Extend8S => visit_i64_extend8_s
  | Op_I64Extend16S => visit_i64_extend16_s
  | Op_I64Extend32S => visit_i64_extend32_s
  | Op_RefEq => visit_ref_eq E
  | Op_StructNew x0 => visit_struct_new E x0
  | Op_StructNewDefault x0 => visit_struct_new_default E x0
  | Op_StructGet x0 x1 => visit_struct_get E x0 x1
  | Op_StructGetS x0 x1 => visit_struct_get_s E x0 x1
  | Op_StructGetU x0 x1 => visit_struct_get_u E x0 x1
  | Op_StructSet x0 x1 => visit_struct_set E x0 x1
  | Op_ArrayNew x0 => visit_array_new E x0
  | Op_ArrayNewDefault x0 => visit_array_new_default E x0
  | Op_ArrayNewFixed x0 x1 => visit_array_new_fixed E x0 x1
  | Op_ArrayNewData x0 x1 => visit_array_new_data E x0 x1
  | Op_ArrayNewElem x0 x1 => visit_array_new_elem E x0 x1
  | Op_ArrayGet x0 => visit_array_get E x0
  | Op_ArrayGetS x0 => visit_array_get_s E x0
  | Op_ArrayGetU x0 => visit_array_get_u E x0
  | Op_ArraySet x0 => visit_array_set E x0
  | Op_ArrayLen => visit_array_len
  | Op_ArrayFill x0 => visit_array_fill E x0
  | Op_ArrayCopy x0 x1 => visit_array_copy E x0 x1
  | Op_ArrayInitData x0 x1 => visit_array_init_data E x0 x1
  | Op_ArrayInitElem x0 x1 => visit_array_init_elem E x0 x1
  | Op_RefTestNonNull x0 => visit_ref_test_non_null x0
  | Op_RefTestNullable x0 => visit_ref_test_nullable x0
  | Op_RefCastNonNull x0 => visit_ref_cast_non_null x0
  | Op_RefCastNullable x0 => visit_ref_cast_nullable x0
  | Op_BrOnCast x0 x1 x2 => visit_br_on_cast E x0 x1 x2
  | Op_BrOnCastFail x0 x1 x2 => visit_br_on_cast_fail E x0 x1 x2
  | Op_AnyConvertExtern => visit_any_convert_extern E
  | Op_ExternConvertAny => visit_extern_convert_any E
  | Op_RefI31 => visit_ref_i31 E
  | Op_I31GetS => visit_i31_get_s
  | Op_I31GetU => visit_i31_get_u
  | Op_StructNewDesc x0 => visit_struct_new_desc E x0
  | Op_StructNewDefaultDesc x0 => visit_struct_new_default_desc E x0
  | Op_RefGetDesc x0 => visit_ref_get_desc E x0
  | Op_RefCastDescEqNonNull x0 => visit_ref_cast_desc_eq_non_null x0
  | Op_RefCastDescEqNullable x0 => visit_ref_cast_desc_eq_nullable x0
  | Op_BrOnCastDescEq x0 x1 x2 => visit_br_on_cast_desc_eq E x0 x1 x2
  | Op_BrOnCastDescEqFail x0 x1 x2 => visit_br_on_cast_desc_eq_fail E x0 x1 x2
  | Op_I32TruncSatF32S => visit_i32_trunc_sat_f32_s
  | Op_I32TruncSatF32U => visit_i32_trunc_sat_f32_u
  | Op_I32TruncSatF64S => visit_i32_trunc_sat_f64_s
  | Op_I32TruncSatF64U => visit_i32_trunc_sat_f64_u
  | Op_I64TruncSatF32S => visit_i64_trunc_sat_f32_s
  | Op_I64TruncSatF32U => visit_i64_trunc_sat_f32_u
  | Op_I64TruncSatF64S => visit_i64_trunc_sat_f64_s
  | Op_I64TruncSatF64U => visit_i64_trunc_sat_f64_u
  | Op_MemoryInit x0 x1 => visit_memory_init x0 x1
  | Op_DataDrop x0 => visit_data_drop x0
  | Op_MemoryCopy x0 x1 => visit_memory_copy E x0 x1
  | Op_MemoryFill x0 => visit_memory_fill E x0
  | Op_TableInit x0 x1 => visit_table_init E x0 x1
  | Op_ElemDrop x0 => visit_elem_drop E x0
  | Op_TableCopy x0 x1 => visit_table_copy E x0 x1
  | Op_TypedSelect x0 => visit_typed_select E x0
  | Op_TypedSelectMulti x0 => visit_typed_select_multi E x0
  | Op_RefNull x0 => visit_ref_null E x0
  | Op_RefIsNull => visit_ref_is_null E
  | Op_RefFunc x0 => visit_ref_func E x0
  | Op_TableFill x0 => visit_table_fill E x0
  | Op_TableGet x0 => visit_table_get E x0
  | Op_TableSet x0 => visit_table_set E x0
  | Op_TableGrow x0 => visit_table_grow E x0
  | Op_TableSize x0 => visit_table_size E x0
  | Op_ReturnCall x0 => visit_return_call x0
  | Op_ReturnCallIndirect x0 x1 => visit_return_call_indirect x0 x1
  | Op_MemoryDiscard x0 => visit_memory_discard x0
  | Op_MemoryAtomicNotify x0 => visit_memory_atomic_notify x0
  | Op_MemoryAtomicWait32 x0 => visit_memory_atomic_wait32 x0
  | Op_MemoryAtomicWait64 x0 => visit_memory_atomic_wait64 x0
  | Op_AtomicFence => visit_atomic_fence
  | Op_I32AtomicLoad x0 => visit_i32_atomic_load x0
  | Op_I64AtomicLoad x0 => visit_i64_atomic_load x0
  | Op_I32AtomicLoad8U x0 => visit_i32_atomic_load8_u x0
  | Op_I32AtomicLoad16U x0 => visit_i32_atomic_load16_u x0
  | Op_I64AtomicLoad8U x0 => visit_i64_atomic_load8_u x0
  | Op_I64AtomicLoad16U x0 => visit_i64_atomic_load16_u x0
  | Op_I64AtomicLoad32U x0 => visit_i64_atomic_load32_u x0
  | Op_I32AtomicStore x0 => visit_i32_atomic_store x0
  | Op_I64AtomicStore x0 => visit_i64_atomic_store x0
  | Op_I32AtomicStore8 x0 => visit_i32_atomic_store8 x0
  | Op_I32AtomicStore16 x0 => visit_i32_atomic_store16 x0
  | Op_I64AtomicStore8 x0 => visit_i64_atomic_store8 x0
  | Op_I64AtomicStore16 x0 => visit_i64_atomic_store16 x0
  | Op_I64AtomicStore32 x0 => visit_i64_atomic_store32 x0
  | Op_I32AtomicRmwAdd x0 => visit_i32_atomic_rmw_add x0
  | Op_I64AtomicRmwAdd x0 => visit_i64_atomic_rmw_add x0
  | Op_I32AtomicRmw8AddU x0 => visit_i32_atomic_rmw8_add_u x0
  | Op_I32AtomicRmw16AddU x0 => visit_i32_atomic_rmw16_add_u x0
  | Op_I64AtomicRmw8AddU x0 => visit_i64_atomic_rmw8_add_u x0
  | Op_I64AtomicRmw16AddU x0 => visit_i64_atomic_rmw16_add_u x0
  | Op_I64AtomicRmw32AddU x0 => visit_i64_atomic_rmw32_add_u x0
  | Op_I32AtomicRmwSub x0 => visit_i32_atomic_rmw_sub x0
  | Op_I64AtomicRmwSub x0 => visit_i64_atomic_rmw_sub x0
  | Op_I32AtomicRmw8SubU x0 => visit_i32_atomic_rmw8_sub_u x0
  | Op_I32AtomicRmw16SubU x0 => visit_i32_atomic_rmw16_sub_u x0
  | Op_I64AtomicRmw8SubU x0 => visit_i64_atomic_rmw8_sub_u x0
  | Op_I64AtomicRmw16SubU x0 => visit_i64_atomic_rmw16_sub_u x0
  | Op_I64AtomicRmw32SubU x0 => visit_i64_atomic_rmw32_sub_u x0
  | Op_I32AtomicRmwAnd x0 => visit_i32_atomic_rmw_and x0
  | Op_I64AtomicRmwAnd x0 => visit_i64_atomic_rmw_and x0
  | Op_I32AtomicRmw8AndU x0 => visit_i32_atomic_rmw8_and_u x0
  | Op_I32AtomicRmw16AndU x0 => visit_i32_atomic_rmw16_and_u x0
  | Op_I64AtomicRmw8AndU x0 => visit_i64_atomic_rmw8_and_u x0
  | Op_I64AtomicRmw16AndU x0 => visit_i64_atomic_rmw16_and_u x0
  | Op_I64AtomicRmw32AndU x0 => visit_i64_atomic_rmw32_and_u x0
  | Op_I32AtomicRmwOr x0 => visit_i32_atomic_rmw_or x0
  | Op_I64AtomicRmwOr x0 => visit_i64_atomic_rmw_or x0
  | Op_I32AtomicRmw8OrU x0 => visit_i32_atomic_rmw8_or_u x0
  | Op_I32AtomicRmw16OrU x0 => visit_i32_atomic_rmw16_or_u x0
  | Op_I64AtomicRmw8OrU x0 => visit_i64_atomic_rmw8_or_u x0
  | Op_I64AtomicRmw16OrU x0 => visit_i64_atomic_rmw16_or_u x0
  | Op_I64AtomicRmw32OrU x0 => visit_i64_atomic_rmw32_or_u x0
  | Op_I32AtomicRmwXor x0 => visit_i32_atomic_rmw_xor x0
  | Op_I64AtomicRmwXor x0 => visit_i64_atomic_rmw_xor x0
  | Op_I32AtomicRmw8XorU x0 => visit_i32_atomic_rmw8_xor_u x0
  | Op_I32AtomicRmw16XorU x0 => visit_i32_atomic_rmw16_xor_u x0
  | Op_I64AtomicRmw8XorU x0 => visit_i64_atomic_rmw8_xor_u x0
  | Op_I64AtomicRmw16XorU x0 => visit_i64_atomic_rmw16_xor_u x0
  | Op_I64AtomicRmw32XorU x0 => visit_i64_atomic_rmw32_xor_u x0
  | Op_I32AtomicRmwXchg x0 => visit_i32_atomic_rmw_xchg x0
  | Op_I64AtomicRmwXchg x0 => visit_i64_atomic_rmw_xchg x0
  | Op_I32AtomicRmw8XchgU x0 => visit_i32_atomic_rmw8_xchg_u x0
  | Op_I32AtomicRmw16XchgU x0 => visit_i32_atomic_rmw16_xchg_u x0
  | Op_I64AtomicRmw8XchgU x0 => visit_i64_atomic_rmw8_xchg_u x0
  | Op_I64AtomicRmw16XchgU x0 => visit_i64_atomic_rmw16_xchg_u x0
  | Op_I64AtomicRmw32XchgU x0 => visit_i64_atomic_rmw32_xchg_u x0
  | Op_I32AtomicRmwCmpxchg x0 => visit_i32_atomic_rmw_cmpxchg x0
  | Op_I64AtomicRmwCmpxchg x0 => visit_i64_atomic_rmw_cmpxchg x0
  | Op_I32AtomicRmw8CmpxchgU x0 => visit_i32_atomic_rmw8_cmpxchg_u x0
  | Op_I32AtomicRmw16CmpxchgU x0 => visit_i32_atomic_rmw16_cmpxchg_u x0
  | Op_I64AtomicRmw8CmpxchgU x0 => visit_i64_atomic_rmw8_cmpxchg_u x0
  | Op_I64AtomicRmw16CmpxchgU x0 => visit_i64_atomic_rmw16_cmpxchg_u x0
  | Op_I64AtomicRmw32CmpxchgU x0 => visit_i64_atomic_rmw32_cmpxchg_u x0
  | Op_V128Load x0 => visit_v128_load x0
  | Op_V128Load8x8S x0 => visit_v128_load8x8_s x0
  | Op_V128Load8x8U x0 => visit_v128_load8x8_u x0
  | Op_V128Load16x4S x0 => visit_v128_load16x4_s x0
  | Op_V128Load16x4U x0 => visit_v128_load16x4_u x0
  | Op_V128Load32x2S x0 => visit_v128_load32x2_s x0
  | Op_V128Load32x2U x0 => visit_v128_load32x2_u x0
  | Op_V128Load8Splat x0 => visit_v128_load8_splat x0
  | Op_V128Load16Splat x0 => visit_v128_load16_splat x0
  | Op_V128Load32Splat x0 => visit_v128_load32_splat x0
  | Op_V128Load64Splat x0 => visit_v128_load64_splat x0
  | Op_V128Load32Zero x0 => visit_v128_load32_zero x0
  | Op_V128Load64Zero x0 => visit_v128_load64_zero x0
  | Op_V128Store x0 => visit_v128_store x0
  | Op_V128Load8Lane x0 x1 => visit_v128_load8_lane x0 x1
  | Op_V128Load16Lane x0 x1 => visit_v128_load16_lane x0 x1
  | Op_V128Load32Lane x0 x1 => visit_v128_load32_lane x0 x1
  | Op_V128Load64Lane x0 x1 => visit_v128_load64_lane x0 x1
  | Op_V128Store8Lane x0 x1 => visit_v128_store8_lane x0 x1
  | Op_V128Store16Lane x0 x1 => visit_v128_store16_lane x0 x1
  | Op_V128Store32Lane x0 x1 => visit_v128_store32_lane x0 x1
  | Op_V128Store64Lane x0 x1 => visit_v128_store64_lane x0 x1
  | Op_V128Const x0 => visit_v128_const x0
  | Op_I8x16Shuffle x0 => visit_i8x16_shuffle E x0
  | Op_I8x16ExtractLaneS x0 => visit_i8x16_extract_lane_s x0
  | Op_I8x16ExtractLaneU x0 => visit_i8x16_extract_lane_u x0
  | Op_I8x16ReplaceLane x0 => visit_i8x16_replace_lane x0
  | Op_I16x8ExtractLaneS x0 => visit_i16x8_extract_lane_s x0
  | Op_I16x8ExtractLaneU x0 => visit_i16x8_extract_lane_u x0
  | Op_I16x8ReplaceLane x0 => visit_i16x8_replace_lane x0
  | Op_I32x4ExtractLane x0 => visit_i32x4_extract_lane x0
  | Op_I32x4ReplaceLane x0 => visit_i32x4_replace_lane x0
  | Op_I64x2ExtractLane x0 => visit_i64x2_extract_lane x0
  | Op_I64x2ReplaceLane x0 => visit_i64x2_replace_lane x0
  | Op_F32x4ExtractLane x0 => visit_f32x4_extract_lane x0
  | Op_F32x4ReplaceLane x0 => visit_f32x4_replace_lane x0
  | Op_F64x2ExtractLane x0 => visit_f64x2_extract_lane x0
  | Op_F64x2ReplaceLane x0 => visit_f64x2_replace_lane x0
  | Op_I8x16Swizzle => visit_i8x16_swizzle
  | Op_I8x16Splat => visit_i8x16_splat
  | Op_I16x8Splat => visit_i16x8_splat
  | Op_I32x4Splat => visit_i32x4_splat
  | Op_I64x2Splat => visit_i64x2_splat
  | Op_F32x4Splat => visit_f32x4_splat
  | Op_F64x2Splat => visit_f64x2_splat
  | Op_I8x16Eq => visit_i8x16_eq
  | Op_I8x16Ne => visit_i8x16_ne
  | Op_I8x16LtS => visit_i8x16_lt_s
  | Op_I8x16LtU => visit_i8x16_lt_u
  | Op_I8x16GtS => visit_i8x16_gt_s
  | Op_I8x16GtU => visit_i8x16_gt_u
  | Op_I8x16LeS => visit_i8x16_le_s
  | Op_I8x16LeU => visit_i8x16_le_u
  | Op_I8x16GeS => visit_i8x16_ge_s
  | Op_I8x16GeU => visit_i8x16_ge_u
  | Op_I16x8Eq => visit_i16x8_eq
  | Op_I16x8Ne => visit_i16x8_ne
  | Op_I16x8LtS => visit_i16x8_lt_s
  | Op_I16x8LtU => visit_i16x8_lt_u
  | Op_I16x8GtS => visit_i16x8_gt_s
  | Op_I16x8GtU => visit_i16x8_gt_u
  | Op_I16x8LeS => visit_i16x8_le_s
  | Op_I16x8LeU => visit_i16x8_le_u
  | Op_I16x8GeS => visit_i16x8_ge_s
  | Op_I16x8GeU => visit_i16x8_ge_u
  | Op_I32x4Eq => visit_i32x4_eq
  | Op_I32x4Ne => visit_i32x4_ne
  | Op_I32x4LtS => visit_i32x4_lt_s
  | Op_I32x4LtU => visit_i32x4_lt_u
  | Op_I32x4GtS => visit_i32x4_gt_s
  | Op_I32x4GtU => visit_i32x4_gt_u
  | Op_I32x4LeS => visit_i32x4_le_s
  | Op_I32x4LeU => visit_i32x4_le_u
  | Op_I32x4GeS => visit_i32x4_ge_s
  | Op_I32x4GeU => visit_i32x4_ge_u
  | Op_I64x2Eq => visit_i64x2_eq
  | Op_I64x2Ne => visit_i64x2_ne
  | Op_I64x2LtS => visit_i64x2_lt_s
  | Op_I64x2GtS => visit_i64x2_gt_s
  | Op_I64x2LeS => visit_i64x2_le_s
  | Op_I64x2GeS => visit_i64x2_ge_s
  | Op_F32x4Eq => visit_f32x4_eq
  | Op_F32x4Ne => visit_f32x4_ne
  | Op_F32x4Lt => visit_f32x4_lt
  | Op_F32x4Gt => visit_f32x4_gt
  | Op_F32x4Le => visit_f32x4_le
  | Op_F32x4Ge => visit_f32x4_ge
  | Op_F64x2Eq => visit_f64x2_eq
  | Op_F64x2Ne => visit_f64x2_ne
  | Op_F64x2Lt => visit_f64x2_lt
  | Op_F64x2Gt => visit_f64x2_gt
  | Op_F64x2Le => visit_f64x2_le
  | Op_F64x2Ge => visit_f64x2_ge
  | Op_V128Not => visit_v128_not
  | Op_V128And => visit_v128_and
  | Op_V128AndNot => visit_v128_andnot
  | Op_V128Or => visit_v128_or
  | Op_V128Xor => visit_v128_xor
  | Op_V128Bitselect => visit_v128_bitselect
  | Op_V128AnyTrue => visit_v128_any_true
  | Op_I8x16Abs => visit_i8x16_abs
  | Op_I8x16Neg => visit_i8x16_neg
  | Op_I8x16Popcnt => visit_i8x16_popcnt
  | Op_I8x16AllTrue => visit_i8x16_all_true
  | Op_I8x16Bitmask => visit_i8x16_bitmask
  | Op_I8x16NarrowI16x8S => visit_i8x16_narrow_i16x8_s
  | Op_I8x16NarrowI16x8U => visit_i8x16_narrow_i16x8_u
  | Op_I8x16Shl => visit_i8x16_shl
  | Op_I8x16ShrS => visit_i8x16_shr_s
  | Op_I8x16ShrU => visit_i8x16_shr_u
  | Op_I8x16Add => visit_i8x16_add
  | Op_I8x16AddSatS => visit_i8x16_add_sat_s
  | Op_I8x16AddSatU => visit_i8x16_add_sat_u
  | Op_I8x16Sub => visit_i8x16_sub
  | Op_I8x16SubSatS => visit_i8x16_sub_sat_s
  | Op_I8x16SubSatU => visit_i8x16_sub_sat_u
  | Op_I8x16MinS => visit_i8x16_min_s
  | Op_I8x16MinU => visit_i8x16_min_u
  | Op_I8x16MaxS => visit_i8x16_max_s
  | Op_I8x16MaxU => visit_i8x16_max_u
  | Op_I8x16AvgrU => visit_i8x16_avgr_u
  | Op_I16x8ExtAddPairwiseI8x16S => visit_i16x8_extadd_pairwise_i8x16_s
  | Op_I16x8ExtAddPairwiseI8x16U => visit_i16x8_extadd_pairwise_i8x16_u
  | Op_I16x8Abs => visit_i16x8_abs
  | Op_I16x8Neg => visit_i16x8_neg
  | Op_I16x8Q15MulrSatS => visit_i16x8_q15mulr_sat_s
  | Op_I16x8AllTrue => visit_i16x8_all_true
  | Op_I16x8Bitmask => visit_i16x8_bitmask
  | Op_I16x8NarrowI32x4S => visit_i16x8_narrow_i32x4_s
  | Op_I16x8NarrowI32x4U => visit_i16x8_narrow_i32x4_u
  | Op_I16x8ExtendLowI8x16S => visit_i16x8_extend_low_i8x16_s
  | Op_I16x8ExtendHighI8x16S => visit_i16x8_extend_high_i8x16_s
  | Op_I16x8ExtendLowI8x16U => visit_i16x8_extend_low_i8x16_u
  | Op_I16x8ExtendHighI8x16U => visit_i16x8_extend_high_i8x16_u
  | Op_I16x8Shl => visit_i16x8_shl
  | Op_I16x8ShrS => visit_i16x8_shr_s
  | Op_I16x8ShrU => visit_i16x8_shr_u
  | Op_I16x8Add => visit_i16x8_add
  | Op_I16x8AddSatS => visit_i16x8_add_sat_s
  | Op_I16x8AddSatU => visit_i16x8_add_sat_u
  | Op_I16x8Sub => visit_i16x8_sub
  | Op_I16x8SubSatS => visit_i16x8_sub_sat_s
  | Op_I16x8SubSatU => visit_i16x8_sub_sat_u
  | Op_I16x8Mul => visit_i16x8_mul
  | Op_I16x8MinS => visit_i16x8_min_s
  | Op_I16x8MinU => visit_i16x8_min_u
  | Op_I16x8MaxS => visit_i16x8_max_s
  | Op_I16x8MaxU => visit_i16x8_max_u
  | Op_I16x8AvgrU => visit_i16x8_avgr_u
  | Op_I16x8ExtMulLowI8x16S => visit_i16x8_extmul_low_i8x16_s
  | Op_I16x8ExtMulHighI8x16S => visit_i16x8_extmul_high_i8x16_s
  | Op_I16x8ExtMulLowI8x16U => visit_i16x8_extmul_low_i8x16_u
  | Op_I16x8ExtMulHighI8x16U => visit_i16x8_extmul_high_i8x16_u
  | Op_I32x4ExtAddPairwiseI16x8S => visit_i32x4_extadd_pairwise_i16x8_s
  | Op_I32x4ExtAddPairwiseI16x8U => visit_i32x4_extadd_pairwise_i16x8_u
  | Op_I32x4Abs => visit_i32x4_abs
  | Op_I32x4Neg => visit_i32x4_neg
  | Op_I32x4AllTrue => visit_i32x4_all_true
  | Op_I32x4Bitmask => visit_i32x4_bitmask
  | Op_I32x4ExtendLowI16x8S => visit_i32x4_extend_low_i16x8_s
  | Op_I32x4ExtendHighI16x8S => visit_i32x4_extend_high_i16x8_s
  | Op_I32x4ExtendLowI16x8U => visit_i32x4_extend_low_i16x8_u
  | Op_I32x4ExtendHighI16x8U => visit_i32x4_extend_high_i16x8_u
  | Op_I32x4Shl => visit_i32x4_shl
  | Op_I32x4ShrS => visit_i32x4_shr_s
  | Op_I32x4ShrU => visit_i32x4_shr_u
  | Op_I32x4Add => visit_i32x4_add
  | Op_I32x4Sub => visit_i32x4_sub
  | Op_I32x4Mul => visit_i32x4_mul
  | Op_I32x4MinS => visit_i32x4_min_s
  | Op_I32x4MinU => visit_i32x4_min_u
  | Op_I32x4MaxS => visit_i32x4_max_s
  | Op_I32x4MaxU => visit_i32x4_max_u
  | Op_I32x4DotI16x8S => visit_i32x4_dot_i16x8_s
  | Op_I32x4ExtMulLowI16x8S => visit_i32x4_extmul_low_i16x8_s
  | Op_I32x4ExtMulHighI16x8S => visit_i32x4_extmul_high_i16x8_s
  | Op_I32x4ExtMulLowI16x8U => visit_i32x4_extmul_low_i16x8_u
  | Op_I32x4ExtMulHighI16x8U => visit_i32x4_extmul_high_i16x8_u
  | Op_I64x2Abs => visit_i64x2_abs
  | Op_I64x2Neg => visit_i64x2_neg
  | Op_I64x2AllTrue => visit_i64x2_all_true
  | Op_I64x2Bitmask => visit_i64x2_bitmask
  | Op_I64x2ExtendLowI32x4S => visit_i64x2_extend_low_i32x4_s
  | Op_I64x2ExtendHighI32x4S => visit_i64x2_extend_high_i32x4_s
  | Op_I64x2ExtendLowI32x4U => visit_i64x2_extend_low_i32x4_u
  | Op_I64x2ExtendHighI32x4U => visit_i64x2_extend_high_i32x4_u
  | Op_I64x2Shl => visit_i64x2_shl
  | Op_I64x2ShrS => visit_i64x2_shr_s
  | Op_I64x2ShrU => visit_i64x2_shr_u
  | Op_I64x2Add => visit_i64x2_add
  | Op_I64x2Sub => visit_i64x2_sub
  | Op_I64x2Mul => visit_i64x2_mul
  | Op_I64x2ExtMulLowI32x4S => visit_i64x2_extmul_low_i32x4_s
  | Op_I64x2ExtMulHighI32x4S => visit_i64x2_extmul_high_i32x4_s
  | Op_I64x2ExtMulLowI32x4U => visit_i64x2_extmul_low_i32x4_u
  | Op_I64x2ExtMulHighI32x4U => visit_i64x2_extmul_high_i32x4_u
  | Op_F32x4Ceil => visit_f32x4_ceil
  | Op_F32x4Floor => visit_f32x4_floor
  | Op_F32x4Trunc => visit_f32x4_trunc
  | Op_F32x4Nearest => visit_f32x4_nearest
  | Op_F32x4Abs => visit_f32x4_abs
  | Op_F32x4Neg => visit_f32x4_neg
  | Op_F32x4Sqrt => visit_f32x4_sqrt
  | Op_F32x4Add => visit_f32x4_add
  | Op_F32x4Sub => visit_f32x4_sub
  | Op_F32x4Mul => visit_f32x4_mul
  | Op_F32x4Div => visit_f32x4_div
  | Op_F32x4Min => visit_f32x4_min
  | Op_F32x4Max => visit_f32x4_max
  | Op_F32x4PMin => visit_f32x4_pmin
  | Op_F32x4PMax => visit_f32x4_pmax
  | Op_F64x2Ceil => visit_f64x2_ceil
  | Op_F64x2Floor => visit_f64x2_floor
  | Op_F64x2Trunc => visit_f64x2_trunc
  | Op_F64x2Nearest => visit_f64x2_nearest
  | Op_F64x2Abs => visit_f64x2_abs
  | Op_F64x2Neg => visit_f64x2_neg
  | Op_F64x2Sqrt => visit_f64x2_sqrt
  | Op_F64x2Add => visit_f64x2_add
  | Op_F64x2Sub => visit_f64x2_sub
  | Op_F64x2Mul => visit_f64x2_mul
  | Op_F64x2Div => visit_f64x2_div
  | Op_F64x2Min => visit_f64x2_min
  | Op_F64x2Max => visit_f64x2_max
  | Op_F64x2PMin => visit_f64x2_pmin
  | Op_F64x2PMax => visit_f64x2_pmax
  | Op_I32x4TruncSatF32x4S => visit_i32x4_trunc_sat_f32x4_s
  | Op_I32x4TruncSatF32x4U => visit_i32x4_trunc_sat_f32x4_u
  | Op_F32x4ConvertI32x4S => visit_f32x4_convert_i32x4_s
  | Op_F32x4ConvertI32x4U => visit_f32x4_convert_i32x4_u
  | Op_I32x4TruncSatF64x2SZero => visit_i32x4_trunc_sat_f64x2_s_zero
  | Op_I32x4TruncSatF64x2UZero => visit_i32x4_trunc_sat_f64x2_u_zero
  | Op_F64x2ConvertLowI32x4S => visit_f64x2_convert_low_i32x4_s
  | Op_F64x2ConvertLowI32x4U => visit_f64x2_convert_low_i32x4_u
  | Op_F32x4DemoteF64x2Zero => visit_f32x4_demote_f64x2_zero
  | Op_F64x2PromoteLowF32x4 => visit_f64x2_promote_low_f32x4
  | Op_I8x16RelaxedSwizzle => visit_i8x16_relaxed_swizzle
  | Op_I32x4RelaxedTruncF32x4S => visit_i32x4_relaxed_trunc_f32x4_s
  | Op_I32x4RelaxedTruncF32x4U => visit_i32x4_relaxed_trunc_f32x4_u
  | Op_I32x4RelaxedTruncF64x2SZero => visit_i32x4_relaxed_trunc_f64x2_s_zero
  | Op_I32x4RelaxedTruncF64x2UZero => visit_i32x4_relaxed_trunc_f64x2_u_zero
  | Op_F32x4RelaxedMadd => visit_f32x4_relaxed_madd
  | Op_F32x4RelaxedNmadd => visit_f32x4_relaxed_nmadd
  | Op_F64x2RelaxedMadd => visit_f64x2_relaxed_madd
  | Op_F64x2RelaxedNmadd => visit_f64x2_relaxed_nmadd
  | Op_I8x16RelaxedLaneselect => visit_i8x16_relaxed_laneselect
  | Op_I16x8RelaxedLaneselect => visit_i16x8_relaxed_laneselect
  | Op_I32x4RelaxedLaneselect => visit_i32x4_relaxed_laneselect
  | Op_I64x2RelaxedLaneselect => visit_i64x2_relaxed_laneselect
  | Op_F32x4RelaxedMin => visit_f32x4_relaxed_min
  | Op_F32x4RelaxedMax => visit_f32x4_relaxed_max
  | Op_F64x2RelaxedMin => visit_f64x2_relaxed_min
  | Op_F64x2RelaxedMax => visit_f64x2_relaxed_max
  | Op_I16x8RelaxedQ15mulrS => visit_i16x8_relaxed_q15mulr_s
  | Op_I16x8RelaxedDotI8x16I7x16S => visit_i16x8_relaxed_dot_i8x16_i7x16_s
  | Op_I32x4RelaxedDotI8x16I7x16AddS => visit_i32x4_relaxed_dot_i8x16_i7x16_add_s
  | Op_TryTable x0 => visit_try_table E x0
  | Op_Throw x0 => visit_throw E x0
  | Op_ThrowRef => visit_throw_ref E
  | Op_Try x0 => visit_try E x0
  | Op_Catch x0 => visit_catch E x0
  | Op_Rethrow x0 => visit_rethrow E x0
  | Op_Delegate x0 => visit_delegate E x0
  | Op_CatchAll => visit_catch_all E
  | Op_GlobalAtomicGet x0 x1 => visit_global_atomic_get E x0 x1
  | Op_GlobalAtomicSet x0 x1 => visit_global_atomic_set E x0 x1
  | Op_GlobalAtomicRmwAdd x0 x1 => visit_global_atomic_rmw_add x0 x1
  | Op_GlobalAtomicRmwSub x0 x1 => visit_global_atomic_rmw_sub x0 x1
  | Op_GlobalAtomicRmwAnd x0 x1 => visit_global_atomic_rmw_and x0 x1
  | Op_GlobalAtomicRmwOr x0 x1 => visit_global_atomic_rmw_or x0 x1
  | Op_GlobalAtomicRmwXor x0 x1 => visit_global_atomic_rmw_xor x0 x1
  | Op_GlobalAtomicRmwXchg x0 x1 => visit_global_atomic_rmw_xchg E x0 x1
  | Op_GlobalAtomicRmwCmpxchg x0 x1 => visit_global_atomic_rmw_cmpxchg E x0 x1
  | Op_TableAtomicGet x0 x1 => visit_table_atomic_get E x0 x1
  | Op_TableAtomicSet x0 x1 => visit_table_atomic_set E x0 x1
  | Op_TableAtomicRmwXchg x0 x1 => visit_table_atomic_rmw_xchg E x0 x1
  | Op_TableAtomicRmwCmpxchg x0 x1 => visit_table_atomic_rmw_cmpxchg E x0 x1
  | Op_StructAtomicGet x0 x1 x2 => visit_struct_atomic_get E x0 x1 x2
  | Op_StructAtomicGetS x0 x1 x2 => visit_struct_atomic_get_s E x0 x1 x2
  | Op_StructAtomicGetU x0 x1 x2 => visit_struct_atomic_get_u E x0 x1 x2
  | Op_StructAtomicSet x0 x1 x2 => visit_struct_atomic_set E x0 x1 x2
  | Op_StructAtomicRmwAdd x0 x1 x2 => visit_struct_atomic_rmw_add x0 x1 x2
  | Op_StructAtomicRmwSub x0 x1 x2 => visit_struct_atomic_rmw_sub x0 x1 x2
  | Op_StructAtomicRmwAnd x0 x1 x2 => visit_struct_atomic_rmw_and x0 x1 x2
  | Op_StructAtomicRmwOr x0 x1 x2 => visit_struct_atomic_rmw_or x0 x1 x2
  | Op_StructAtomicRmwXor x0 x1 x2 => visit_struct_atomic_rmw_xor x0 x1 x2
  | Op_StructAtomicRmwXchg x0 x1 x2 => visit_struct_atomic_rmw_xchg E x0 x1 x2
  | Op_StructAtomicRmwCmpxchg x0 x1 x2 => visit_struct_atomic_rmw_cmpxchg E x0 x1 x2
  | Op_ArrayAtomicGet x0 x1 => visit_array_atomic_get E x0 x1
  | Op_ArrayAtomicGetS x0 x1 => visit_array_atomic_get_s E x0 x1
  | Op_ArrayAtomicGetU x0 x1 => visit_array_atomic_get_u E x0 x1
  | Op_ArrayAtomicSet x0 x1 => visit_array_atomic_set E x0 x1
  | Op_ArrayAtomicRmwAdd x0 x1 => visit_array_atomic_rmw_add x0 x1
  | Op_ArrayAtomicRmwSub x0 x1 => visit_array_atomic_rmw_sub x0 x1
  | Op_ArrayAtomicRmwAnd x0 x1 => visit_array_atomic_rmw_and x0 x1
  | Op_ArrayAtomicRmwOr x0 x1 => visit_array_atomic_rmw_or x0 x1
  | Op_ArrayAtomicRmwXor x0 x1 => visit_array_atomic_rmw_xor x0 x1
  | Op_ArrayAtomicRmwXchg x0 x1 => visit_array_atomic_rmw_xchg E x0 x1
  | Op_ArrayAtomicRmwCmpxchg x0 x1 => visit_array_atomic_rmw_cmpxchg E x0 x1
  | Op_RefI31Shared => visit_ref_i31_shared E
  | Op_CallRef x0 => visit_call_ref x0
  | Op_ReturnCallRef x0 => visit_return_call_ref x0
  | Op_RefAsNonNull => visit_ref_as_non_null E
  | Op_BrOnNull x0 => visit_br_on_null E x0
  | Op_BrOnNonNull x0 => visit_br_on_non_null E x0
  | Op_ContNew x0 => visit_cont_new E x0
  | Op_ContBind x0 x1 => visit_cont_bind E x0 x1
  | Op_Suspend x0 => visit_suspend E x0
  | Op_Resume x0 x1 => visit_resume E x0 x1
  | Op_ResumeThrow x0 x1 x2 => visit_resume_throw E x0 x1 x2
  | Op_ResumeThrowRef x0 x1 => visit_resume_throw_ref E x0 x1
  | Op_Switch x0 x1 => visit_switch E x0 x1
  | Op_I64Add128 => visit_i64_add128
  | Op_I64Sub128 => visit_i64_sub128
  | Op_I64MulWideS => visit_i64_mul_wide_s
  | Op_I64MulWideU => visit_i64_mul_wide_u
  end.

(** [validate_proposal!]: the feature an operator belongs to; [MemoryFill] and [MemoryCopy] are gated in their methods. *)
Definition gate (o : operator) : option (feature * string) :=
  match o with
  | Op_I32Extend8S | Op_I32Extend16S | Op_I64Extend8S | Op_I64Extend16S | Op_I64Extend32S
    => Some (f_sign_extension, "sign extension operations support is not enabled"%string)
  | Op_RefEq | Op_StructNew _ | Op_StructNewDefault _ | Op_StructGet _ _ | Op_StructGetS _ _ | Op_StructGetU _ _
  | Op_StructSet _ _ | Op_ArrayNew _ | Op_ArrayNewDefault _ | Op_ArrayNewFixed _ _ | Op_ArrayNewData _ _ | Op_ArrayNewElem _ _
  | Op_ArrayGet _ | Op_ArrayGetS _ | Op_ArrayGetU _ | Op_ArraySet _ | Op_ArrayLen | Op_ArrayFill _
  | Op_ArrayCopy _ _ | Op_ArrayInitData _ _ | Op_ArrayInitElem _ _ | Op_RefTestNonNull _ | Op_RefTestNullable _ | Op_RefCastNonNull _
  | Op_RefCastNullable _ | Op_BrOnCast _ _ _ | Op_BrOnCastFail _ _ _ | Op_AnyConvertExtern | Op_ExternConvertAny | Op_RefI31
  | Op_I31GetS | Op_I31GetU
    => Some (f_gc, "gc support is not enabled"%string)
  | Op_StructNewDesc _ | Op_StructNewDefaultDesc _ | Op_RefGetDesc _ | Op_RefCastDescEqNonNull _ | Op_RefCastDescEqNullable _ | Op_BrOnCastDescEq _ _ _
  | Op_BrOnCastDescEqFail _ _ _
    => Some (f_custom_descriptors, "custom descriptors operations support is not enabled"%string)
  | Op_I32TruncSatF32S | Op_I32TruncSatF32U | Op_I32TruncSatF64S | Op_I32TruncSatF64U | Op_I64TruncSatF32S | Op_I64TruncSatF32U
  | Op_I64TruncSatF64S | Op_I64TruncSatF64U
    => Some (f_saturating_float_to_int, "saturating float to int conversions support is not enabled"%string)
  | Op_MemoryInit _ _ | Op_DataDrop _ | Op_TableInit _ _ | Op_ElemDrop _ | Op_TableCopy _ _
    => Some (f_bulk_memory, "bulk memory support is not enabled"%string)
  | Op_TypedSelect _ | Op_TypedSelectMulti _ | Op_RefNull _ | Op_RefIsNull | Op_RefFunc _ | Op_TableFill _
  | Op_TableGet _ | Op_TableSet _ | Op_TableGrow _ | Op_TableSize _
    => Some (f_reference_types, "reference types support is not enabled"%string)
  | Op_ReturnCall _ | Op_ReturnCallIndirect _ _
    => Some (f_tail_call, "tail calls support is not enabled"%string)
  | Op_MemoryDiscard _
    => Some (f_memory_control, "memory control support is not enabled"%string)
  | Op_MemoryAtomicNotify _ | Op_MemoryAtomicWait32 _ | Op_MemoryAtomicWait64 _ | Op_AtomicFence | Op_I32AtomicLoad _ | Op_I64AtomicLoad _
  | Op_I32AtomicLoad8U _ | Op_I32AtomicLoad16U _ | Op_I64AtomicLoad8U _ | Op_I64AtomicLoad16U _ | Op_I64AtomicLoad32U _ | Op_I32AtomicStore _
  | Op_I64AtomicStore _ | Op_I32AtomicStore8 _ | Op_I32AtomicStore16 _ | Op_I64AtomicStore8 _ | Op_I64AtomicStore16 _ | Op_I64AtomicStore32 _
  | Op_I32AtomicRmwAdd _ | Op_I64AtomicRmwAdd _ | Op_I32AtomicRmw8AddU _ | Op_I32AtomicRmw16AddU _ | Op_I64AtomicRmw8AddU _ | Op_I64AtomicRmw16AddU _
  | Op_I64AtomicRmw32AddU _ | Op_I32AtomicRmwSub _ | Op_I64AtomicRmwSub _ | Op_I32AtomicRmw8SubU _ | Op_I32AtomicRmw16SubU _ | Op_I64AtomicRmw8SubU _
  | Op_I64AtomicRmw16SubU _ | Op_I64AtomicRmw32SubU _ | Op_I32AtomicRmwAnd _ | Op_I64AtomicRmwAnd _ | Op_I32AtomicRmw8AndU _ | Op_I32AtomicRmw16AndU _
  | Op_I64AtomicRmw8AndU _ | Op_I64AtomicRmw16AndU _ | Op_I64AtomicRmw32AndU _ | Op_I32AtomicRmwOr _ | Op_I64AtomicRmwOr _ | Op_I32AtomicRmw8OrU _
  | Op_I32AtomicRmw16OrU _ | Op_I64AtomicRmw8OrU _ | Op_I64AtomicRmw16OrU _ | Op_I64AtomicRmw32OrU _ | Op_I32AtomicRmwXor _ | Op_I64AtomicRmwXor _
  | Op_I32AtomicRmw8XorU _ | Op_I32AtomicRmw16XorU _ | Op_I64AtomicRmw8XorU _ | Op_I64AtomicRmw16XorU _ | Op_I64AtomicRmw32XorU _ | Op_I32AtomicRmwXchg _
  | Op_I64AtomicRmwXchg _ | Op_I32AtomicRmw8XchgU _ | Op_I32AtomicRmw16XchgU _ | Op_I64AtomicRmw8XchgU _ | Op_I64AtomicRmw16XchgU _ | Op_I64AtomicRmw32XchgU _
  | Op_I32AtomicRmwCmpxchg _ | Op_I64AtomicRmwCmpxchg _ | Op_I32AtomicRmw8CmpxchgU _ | Op_I32AtomicRmw16CmpxchgU _ | Op_I64AtomicRmw8CmpxchgU _ | Op_I64AtomicRmw16CmpxchgU _
  | Op_I64AtomicRmw32CmpxchgU _
    => Some (f_threads, "threads support is not enabled"%string)
  | Op_V128Load _ | Op_V128Load8x8S _ | Op_V128Load8x8U _ | Op_V128Load16x4S _ | Op_V128Load16x4U _ | Op_V128Load32x2S _
  | Op_V128Load32x2U _ | Op_V128Load8Splat _ | Op_V128Load16Splat _ | Op_V128Load32Splat _ | Op_V128Load64Splat _ | Op_V128Load32Zero _
  | Op_V128Load64Zero _ | Op_V128Store _ | Op_V128Load8Lane _ _ | Op_V128Load16Lane _ _ | Op_V128Load32Lane _ _ | Op_V128Load64Lane _ _
  | Op_V128Store8Lane _ _ | Op_V128Store16Lane _ _ | Op_V128Store32Lane _ _ | Op_V128Store64Lane _ _ | Op_V128Const _ | Op_I8x16Shuffle _
  | Op_I8x16ExtractLaneS _ | Op_I8x16ExtractLaneU _ | Op_I8x16ReplaceLane _ | Op_I16x8ExtractLaneS _ | Op_I16x8ExtractLaneU _ | Op_I16x8ReplaceLane _
  | Op_I32x4ExtractLane _ | Op_I32x4ReplaceLane _ | Op_I64x2ExtractLane _ | Op_I64x2ReplaceLane _ | Op_F32x4ExtractLane _ | Op_F32x4ReplaceLane _
  | Op_F64x2ExtractLane _ | Op_F64x2ReplaceLane _ | Op_I8x16Swizzle | Op_I8x16Splat | Op_I16x8Splat | Op_I32x4Splat
  | Op_I64x2Splat | Op_F32x4Splat | Op_F64x2Splat | Op_I8x16Eq | Op_I8x16Ne | Op_I8x16LtS
  | Op_I8x16LtU | Op_I8x16GtS | Op_I8x16GtU | Op_I8x16LeS | Op_I8x16LeU | Op_I8x16GeS
  | Op_I8x16GeU | Op_I16x8Eq | Op_I16x8Ne | Op_I16x8LtS | Op_I16x8LtU | Op_I16x8GtS
  | Op_I16x8GtU | Op_I16x8LeS | Op_I16x8LeU | Op_I16x8GeS | Op_I16x8GeU | Op_I32x4Eq
  | Op_I32x4Ne | Op_I32x4LtS | Op_I32x4LtU | Op_I32x4GtS | Op_I32x4GtU | Op_I32x4LeS
  | Op_I32x4LeU | Op_I32x4GeS | Op_I32x4GeU | Op_I64x2Eq | Op_I64x2Ne | Op_I64x2LtS
  | Op_I64x2GtS | Op_I64x2LeS | Op_I64x2GeS | Op_F32x4Eq | Op_F32x4Ne | Op_F32x4Lt
  | Op_F32x4Gt | Op_F32x4Le | Op_F32x4Ge | Op_F64x2Eq | Op_F64x2Ne | Op_F64x2Lt
  | Op_F64x2Gt | Op_F64x2Le | Op_F64x2Ge | Op_V128Not | Op_V128And | Op_V128AndNot
  | Op_V128Or | Op_V128Xor | Op_V128Bitselect | Op_V128AnyTrue | Op_I8x16Abs | Op_I8x16Neg
  | Op_I8x16Popcnt | Op_I8x16AllTrue | Op_I8x16Bitmask | Op_I8x16NarrowI16x8S | Op_I8x16NarrowI16x8U | Op_I8x16Shl
  | Op_I8x16ShrS | Op_I8x16ShrU | Op_I8x16Add | Op_I8x16AddSatS | Op_I8x16AddSatU | Op_I8x16Sub
  | Op_I8x16SubSatS | Op_I8x16SubSatU | Op_I8x16MinS | Op_I8x16MinU | Op_I8x16MaxS | Op_I8x16MaxU
  | Op_I8x16AvgrU | Op_I16x8ExtAddPairwiseI8x16S | Op_I16x8ExtAddPairwiseI8x16U | Op_I16x8Abs | Op_I16x8Neg | Op_I16x8Q15MulrSatS
  | Op_I16x8AllTrue | Op_I16x8Bitmask | Op_I16x8NarrowI32x4S | Op_I16x8NarrowI32x4U | Op_I16x8ExtendLowI8x16S | Op_I16x8ExtendHighI8x16S
  | Op_I16x8ExtendLowI8x16U | Op_I16x8ExtendHighI8x16U | Op_I16x8Shl | Op_I16x8ShrS | Op_I16x8ShrU | Op_I16x8Add
  | Op_I16x8AddSatS | Op_I16x8AddSatU | Op_I16x8Sub | Op_I16x8SubSatS | Op_I16x8SubSatU | Op_I16x8Mul
  | Op_I16x8MinS | Op_I16x8MinU | Op_I16x8MaxS | Op_I16x8MaxU | Op_I16x8AvgrU | Op_I16x8ExtMulLowI8x16S
  | Op_I16x8ExtMulHighI8x16S | Op_I16x8ExtMulLowI8x16U | Op_I16x8ExtMulHighI8x16U | Op_I32x4ExtAddPairwiseI16x8S | Op_I32x4ExtAddPairwiseI16x8U | Op_I32x4Abs
  | Op_I32x4Neg | Op_I32x4AllTrue | Op_I32x4Bitmask | Op_I32x4ExtendLowI16x8S | Op_I32x4ExtendHighI16x8S | Op_I32x4ExtendLowI16x8U
  | Op_I32x4ExtendHighI16x8U | Op_I32x4Shl | Op_I32x4ShrS | Op_I32x4ShrU | Op_I32x4Add | Op_I32x4Sub
  | Op_I32x4Mul | Op_I32x4MinS | Op_I32x4MinU | Op_I32x4MaxS | Op_I32x4MaxU | Op_I32x4DotI16x8S
  | Op_I32x4ExtMulLowI16x8S | Op_I32x4ExtMulHighI16x8S | Op_I32x4ExtMulLowI16x8U | Op_I32x4ExtMulHighI16x8U | Op_I64x2Abs | Op_I64x2Neg
  | Op_I64x2AllTrue | Op_I64x2Bitmask | Op_I64x2ExtendLowI32x4S | Op_I64x2ExtendHighI32x4S | Op_I64x2ExtendLowI32x4U | Op_I64x2ExtendHighI32x4U
  | Op_I64x2Shl | Op_I64x2ShrS | Op_I64x2ShrU | Op_I64x2Add | Op_I64x2Sub | Op_I64x2Mul
  | Op_I64x2ExtMulLowI32x4S | Op_I64x2ExtMulHighI32x4S | Op_I64x2ExtMulLowI32x4U | Op_I64x2ExtMulHighI32x4U | Op_F32x4Ceil | Op_F32x4Floor
  | Op_F32x4Trunc | Op_F32x4Nearest | Op_F32x4Abs | Op_F32x4Neg | Op_F32x4Sqrt | Op_F32x4Add
  | Op_F32x4Sub | Op_F32x4Mul | Op_F32x4Div | Op_F32x4Min | Op_F32x4Max | Op_F32x4PMin
  | Op_F32x4PMax | Op_F64x2Ceil | Op_F64x2Floor | Op_F64x2Trunc | Op_F64x2Nearest | Op_F64x2Abs
  | Op_F64x2Neg | Op_F64x2Sqrt | Op_F64x2Add | Op_F64x2Sub | Op_F64x2Mul | Op_F64x2Div
  | Op_F64x2Min | Op_F64x2Max | Op_F64x2PMin | Op_F64x2PMax | Op_I32x4TruncSatF32x4S | Op_I32x4TruncSatF32x4U
  | Op_F32x4ConvertI32x4S | Op_F32x4ConvertI32x4U | Op_I32x4TruncSatF64x2SZero | Op_I32x4TruncSatF64x2UZero | Op_F64x2ConvertLowI32x4S | Op_F64x2ConvertLowI32x4U
  | Op_F32x4DemoteF64x2Zero | Op_F64x2PromoteLowF32x4
    => Some (f_simd, "SIMD support is not enabled"%string)
  | Op_I8x16RelaxedSwizzle | Op_I32x4RelaxedTruncF32x4S | Op_I32x4RelaxedTruncF32x4U | Op_I32x4RelaxedTruncF64x2SZero | Op_I32x4RelaxedTruncF64x2UZero | Op_F32x4RelaxedMadd
  | Op_F32x4RelaxedNmadd | Op_F64x2RelaxedMadd | Op_F64x2RelaxedNmadd | Op_I8x16RelaxedLaneselect | Op_I16x8RelaxedLaneselect | Op_I32x4RelaxedLaneselect
  | Op_I64x2RelaxedLaneselect | Op_F32x4RelaxedMin | Op_F32x4RelaxedMax | Op_F64x2RelaxedMin | Op_F64x2RelaxedMax | Op_I16x8RelaxedQ15mulrS
  | Op_I16x8RelaxedDotI8x16I7x16S | Op_I32x4RelaxedDotI8x16I7x16AddS
    => Some (f_relaxed_simd, "relaxed SIMD support is not enabled"%string)
  | Op_TryTable _ | Op_Throw _ | Op_ThrowRef
    => Some (f_exceptions, "exceptions support is not enabled"%string)
  | Op_Try _ | Op_Catch _ | Op_Rethrow _ | Op_Delegate _ | Op_CatchAll
    => Some (f_legacy_exceptions, "legacy exceptions support is not enabled"%string)
  | Op_GlobalAtomicGet _ _ | Op_GlobalAtomicSet _ _ | Op_GlobalAtomicRmwAdd _ _ | Op_GlobalAtomicRmwSub _ _ | Op_GlobalAtomicRmwAnd _ _ | Op_GlobalAtomicRmwOr _ _
  | Op_GlobalAtomicRmwXor _ _ | Op_GlobalAtomicRmwXchg _ _ | Op_GlobalAtomicRmwCmpxchg _ _ | Op_TableAtomicGet _ _ | Op_TableAtomicSet _ _ | Op_TableAtomicRmwXchg _ _
  | Op_TableAtomicRmwCmpxchg _ _ | Op_StructAtomicGet _ _ _ | Op_StructAtomicGetS _ _ _ | Op_StructAtomicGetU _ _ _ | Op_StructAtomicSet _ _ _ | Op_StructAtomicRmwAdd _ _ _
  | Op_StructAtomicRmwSub _ _ _ | Op_StructAtomicRmwAnd _ _ _ | Op_StructAtomicRmwOr _ _ _ | Op_StructAtomicRmwXor _ _ _ | Op_StructAtomicRmwXchg _ _ _ | Op_StructAtomicRmwCmpxchg _ _ _
  | Op_ArrayAtomicGet _ _ | Op_ArrayAtomicGetS _ _ | Op_ArrayAtomicGetU _ _ | Op_ArrayAtomicSet _ _ | Op_ArrayAtomicRmwAdd _ _ | Op_ArrayAtomicRmwSub _ _
  | Op_ArrayAtomicRmwAnd _ _ | Op_ArrayAtomicRmwOr _ _ | Op_ArrayAtomicRmwXor _ _ | Op_ArrayAtomicRmwXchg _ _ | Op_ArrayAtomicRmwCmpxchg _ _ | Op_RefI31Shared
    => Some (f_shared_everything_threads, "shared-everything-threads support is not enabled"%string)
  | Op_CallRef _ | Op_ReturnCallRef _ | Op_RefAsNonNull | Op_BrOnNull _ | Op_BrOnNonNull _
    => Some (f_function_references, "function references support is not enabled"%string)
  | Op_ContNew _ | Op_ContBind _ _ | Op_Suspend _ | Op_Resume _ _ | Op_ResumeThrow _ _ _ | Op_ResumeThrowRef _ _
  | Op_Switch _ _
    => Some (f_stack_switching, "stack switching support is not enabled"%string)
  | Op_I64Add128 | Op_I64Sub128 | Op_I64MulWideS | Op_I64MulWideU
    => Some (f_wide_arithmetic, "wide arithmetic support is not enabled"%string)
  | _ => None
  end.
Definition visit (o : operator) : V unit :=
  match gate o with Some (f, msg) => require E f msg | None => vret tt end ;; visit_op o.
End Env.
