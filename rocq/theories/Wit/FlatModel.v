(** Model of crates/wit-parser/src/abi.rs. *)
From Verif.Base Require Import Prelude.
From Verif.Wit Require Import LayoutModel.

(** [enum WasmType] (abi.rs:30-60). *)
Inductive wt := WI32 | WI64 | WF32 | WF64 | WPointer | WPointerOrI64 | WLength.

(** [join] (abi.rs:62-103). *)
Definition join (a b : wt) : wt :=
  match a, b with
  | WI32, WI32 | WI64, WI64 | WF32, WF32 | WF64, WF64 | WPointer, WPointer
  | WPointerOrI64, WPointerOrI64 | WLength, WLength => a
  | WI32, WF32 | WF32, WI32 => WI32
  | WLength, (WI32 | WF32) => WLength
  | (WI32 | WF32), WLength => WLength
  | WLength, (WI64 | WF64) => WI64
  | (WI64 | WF64), WLength => WI64
  | WPointer, (WI32 | WF32 | WLength) => WPointer
  | (WI32 | WF32 | WLength), WPointer => WPointer
  | WPointer, (WI64 | WF64) => WPointerOrI64
  | (WI64 | WF64), WPointer => WPointerOrI64
  | WPointerOrI64, _ => WPointerOrI64
  | _, WPointerOrI64 => WPointerOrI64
  | _, (WI64 | WF64) | (WI64 | WF64), _ => WI64
  end.

(** [From<Int> for WasmType] (abi.rs:105-112). *)
Definition wt_of_int (i : int_t) : wt := match i with IU64 => WI64 | _ => WI32 end.

(** [enum AbiVariant] (abi.rs:126-134). *)
Inductive variant := GuestImport | GuestExport | GuestImportAsync | GuestExportAsync | GuestExportAsyncStackful.

(** [struct FlatTypes] (abi.rs:147-151): the storage has a fixed length. *)
Record flat := mkFlat { f_types : list wt; f_cur : nat; f_overflow : bool }.

Fixpoint set_nth {A} (l : list A) (i : nat) (x : A) : list A :=
  match l, i with
  | [], _ => []
  | _ :: l, O => x :: l
  | y :: l, S i => y :: set_nth l i x
  end.

(** [FlatTypes::new], [push], [to_vec] (abi.rs:154-178). *)
Definition flat_new (types : list wt) : flat := mkFlat types 0 false.
Definition push (t : wt) (f : flat) : bool * flat :=
  match nth_error (f_types f) (f_cur f) with
  | Some _ => (true, mkFlat (set_nth (f_types f) (f_cur f) t) (S (f_cur f)) (f_overflow f))
  | None => (false, mkFlat (f_types f) (f_cur f) true)
  end.
Definition to_vec (f : flat) : list wt := firstn (f_cur f) (f_types f).

(** Sequencing with [&&]: go on only after [true]; [None] is a panic. *)
Definition and_then (x : option (bool * flat)) (k : flat -> option (bool * flat)) : option (bool * flat) :=
  match x with Some (true, f) => k f | x => x end.

(** [push_flat_list] (abi.rs:289-295). *)
Fixpoint push_list {A} (pf : A -> flat -> option (bool * flat)) (l : list A) (f : flat) : option (bool * flat) :=
  match l with
  | [] => Some (true, f)
  | t :: l => and_then (pf t f) (push_list pf l)
  end.

(** The inner loop of [push_flat_variants] (abi.rs:393-404). *)
Fixpoint merge_into (start i : nat) (l : list wt) (r : flat) : option (bool * flat) :=
  match l with
  | [] => Some (true, r)
  | t :: l =>
      let ix := (i + start)%nat in
      if (ix <? f_cur r)%nat then
        match nth_error (f_types r) ix with
        | Some old => merge_into start (S i) l (mkFlat (set_nth (f_types r) ix (join old t)) (f_cur r) (f_overflow r))
        | None => None
        end
      else if (f_cur r =? List.length (f_types r))%nat then Some (false, mkFlat (f_types r) (f_cur r) true)
      else match nth_error (f_types r) ix with
           | Some _ => merge_into start (S i) l (mkFlat (set_nth (f_types r) ix t) (S (f_cur r)) (f_overflow r))
           | None => None
           end
  end.

(** The outer loop of [push_flat_variants] (abi.rs:386-410). *)
Fixpoint push_cases (pf : ty -> flat -> option (bool * flat)) (start : nat) (cases : list (option ty)) (temp r : flat)
  : option (bool * flat) :=
  match cases with
  | [] => Some (true, r)
  | None :: cases => push_cases pf start cases temp r
  | Some t :: cases =>
      match pf t temp with
      | None => None
      | Some (false, _) => Some (false, mkFlat (f_types r) (f_cur r) true)
      | Some (true, temp) =>
          and_then (merge_into start 0 (firstn (f_cur temp) (f_types temp)) r)
            (push_cases pf start cases (mkFlat (f_types temp) 0 (f_overflow temp)))
      end
  end.
(** [push_flat_variants] (abi.rs:371-412). *)
Definition push_variants (pf : ty -> flat -> option (bool * flat)) (cases : list (option ty)) (r : flat) : option (bool * flat) :=
  push_cases pf (f_cur r) cases (flat_new (skipn (f_cur r) (f_types r))) r.

Definition repr_count (r : flags_repr) : Z := match r with FU8 | FU16 => 1 | FU32 n => n end.

(** [push_flat] (abi.rs:299-369); the fuel bounds the depth of type definitions
    followed, and running out of it is reported as a panic. *)
Definition push_prim (p : prim) (r : flat) : option (bool * flat) :=
  match p with
  | PBool | PS8 | PU8 | PS16 | PU16 | PS32 | PU32 | PChar | PErrorContext => Some (push WI32 r)
  | PU64 | PS64 => Some (push WI64 r)
  | PF32 => Some (push WF32 r)
  | PF64 => Some (push WF64 r)
  | PString => and_then (Some (push WPointer r)) (fun r => Some (push WLength r))
  end.
Fixpoint push_flat (fuel : nat) (defs : list kind) (t : ty) (r : flat) : option (bool * flat) :=
  match t with
  | TPrim p => push_prim p r
  | TId i =>
      match fuel, nth_error defs i with
      | S fuel, Some k =>
          let pf := push_flat fuel defs in
          match k with
          | KType t => pf t r
          | KHandle | KFuture _ | KStream _ => Some (push WI32 r)
          | KResource => None
          | KRecord l | KTuple l => push_list pf l r
          | KFlags n => push_list (fun _ => push_prim PU32) (repeat tt (Z.to_nat (repr_count (repr n)))) r
          | KList _ | KMap _ _ => and_then (Some (push WPointer r)) (fun r => Some (push WLength r))
          | KFixed t n => push_list pf (repeat t (Z.to_nat n)) r
          | KVariant cs =>
              match discriminant_type (zlen cs) with
              | Some tag => and_then (Some (push (wt_of_int tag) r)) (push_variants pf cs)
              | None => None
              end
          | KEnum n => omap (fun tag => push (wt_of_int tag) r) (discriminant_type n)
          | KOption t => and_then (Some (push WI32 r)) (push_variants pf [None; Some t])
          | KResult a b => and_then (Some (push WI32 r)) (push_variants pf [a; b])
          | KUnknown => None
          end
      | _, _ => None
      end
  end.

(** [struct Function] (lib.rs:937-950), as far as [wasm_signature] looks at it:
    whether the kind is [Method] or [AsyncMethod], parameters and result. *)
Record func := mkFunc { fn_method : bool; fn_params : list ty; fn_result : option ty }.

(** [struct WasmSignature] (abi.rs:6-26). *)
Record signature := mkSig
  { sg_params : list wt; sg_results : list wt; sg_indirect : bool; sg_retptr : bool }.

(** [MAX_FLAT_PARAMS], [MAX_FLAT_ASYNC_PARAMS], [MAX_FLAT_RESULTS] (abi.rs:182-184). *)
Definition MAX_FLAT_PARAMS : nat := 16.
Definition MAX_FLAT_ASYNC_PARAMS : nat := 4.
Definition MAX_FLAT_RESULTS : nat := 1.

(** [assert!(x.push(..))]. *)
Definition push_assert (t : wt) (r : flat) : option flat :=
  match push t r with (true, r) => Some r | (false, _) => None end.

Definition is_export (v : variant) : bool :=
  match v with GuestExport | GuestExportAsync | GuestExportAsyncStackful => true | _ => false end.

(** [wasm_signature] (abi.rs:190-287). *)
Definition wasm_signature (fuel : nat) (defs : list kind) (v : variant) (f : func) : option signature :=
  match push_list (push_flat fuel defs) (fn_params f) (flat_new (repeat WI32 (MAX_FLAT_PARAMS + 1))) with
  | None => None
  | Some (ok, params) =>
      if negb (Bool.eqb ok (negb (f_overflow params))) then None  (* assert_eq! *)
      else
        let max := match v with GuestImportAsync => MAX_FLAT_ASYNC_PARAMS | _ => MAX_FLAT_PARAMS end in
        let indirect := negb ok || (max <? f_cur params)%nat in
        let params :=
          if indirect then Some (mkFlat (set_nth (f_types params) 0 WPointer) 1 (f_overflow params))
          else if fn_method f && is_export v then
            match nth_error (f_types params) 0 with
            | Some WI32 => Some (mkFlat (set_nth (f_types params) 0 WPointer) (f_cur params) (f_overflow params))
            | _ => None                                            (* assert! *)
            end
          else Some params in
        match params with
        | None => None
        | Some params =>
            let results := flat_new (repeat WI32 MAX_FLAT_RESULTS) in
            match v with
            | GuestImport | GuestExport =>
                match match fn_result f with
                      | Some t => omap snd (push_flat fuel defs t results)
                      | None => Some results
                      end with
                | None => None
                | Some results =>
                    let retptr := f_overflow results in
                    if retptr then
                      let results := mkFlat (f_types results) 0 (f_overflow results) in
                      match v with
                      | GuestImport =>
                          match push_assert WPointer params with
                          | Some params => Some (mkSig (to_vec params) (to_vec results) indirect true)
                          | None => None
                          end
                      | _ =>
                          match push_assert WPointer results with
                          | Some results => Some (mkSig (to_vec params) (to_vec results) indirect true)
                          | None => None
                          end
                      end
                    else Some (mkSig (to_vec params) (to_vec results) indirect false)
                end
            | GuestImportAsync =>
                match match fn_result f with
                      | Some _ => omap (fun p => (p, true)) (push_assert WPointer params)
                      | None => Some (params, false)
                      end, push_assert WI32 results with
                | Some (params, retptr), Some results => Some (mkSig (to_vec params) (to_vec results) indirect retptr)
                | _, _ => None
                end
            | GuestExportAsync =>
                match push_assert WI32 results with
                | Some results => Some (mkSig (to_vec params) (to_vec results) indirect false)
                | None => None
                end
            | GuestExportAsyncStackful => Some (mkSig (to_vec params) (to_vec results) indirect false)
            end
        end
  end.
