(** Property C55: the verdict on a module does not depend on what the same validator has validated before. *)
From Verif.Base Require Import Prelude.
From Verif.Reader Require Import Model.
From Verif.Types Require Import RefModel CodecModel EntityModel CanonModel.
From Verif.Instr Require Import ImmModel Ops BodyModel.
From Verif.Sections Require Import SegModel.
From Verif.Validator Require Import State Checks Visit Api Body Module.
From Verif.Modval Require Import Model Again PropertiesModule.

(** After the sections of a module the validator, which held the types [s], holds [s']: [Validator::reset] (validator.rs:447-479) keeps them. *)
Definition leaves F G ft pos (s : store) (secs : list sec) (s' : store) : Prop :=
  exists st fs, each (section F G ft pos) (new_mstate s, []) secs = Done (st, fs) /\ ms_store st = s'.

(** Proved for a module validated twice in a row: the verdict is the same, for every body of every function, and the types held stay the same.  The type section is
    the first, as the parser demands.  Missing: other modules in between. *)
Theorem C55_again_partial : forall F G ft pos s s' types rest, (forall l, ~ In (STypes l) rest) ->
  leaves F G ft pos s (STypes types :: rest) s' -> zlen (st_ranges s') < 2 ^ 32 ->
  validate_module F G ft pos s' (STypes types :: rest) = validate_module F G ft pos s (STypes types :: rest) /\
  leaves F G ft pos s' (STypes types :: rest) s'.
Proof.
  intros F G ft pos s s' types rest HR (st & fs & H & <-) L.
  assert (HR' : Forall (fun d => is_types d = false) rest). { apply Forall_forall. intros d Hd. destruct d; try reflexivity. exfalso. exact (HR _ Hd). }
  pose proof (module_again F G ft pos s types rest st fs HR' H L) as H2. split; [|exists st, fs; auto]. unfold validate_module. rewrite H, H2. reflexivity.
Qed.
Print Assumptions C55_again_partial.
Example C55_case : exists s', leaves (fun _ => true) (fun _ => true) all_features 1 empty_store good s' /\ zlen (st_ranges s') = 2 /\
  (exists types rest, good = STypes types :: rest /\ forall l, ~ In (STypes l) rest) /\
  validate_module (fun _ => true) (fun _ => true) all_features 1 s' good = Done tt.
Proof.
  eexists. split; [eexists _, _; split; [vm_compute; reflexivity|reflexivity]|]. split; [reflexivity|]. split.
  - eexists _, _. split; [reflexivity|]. intros l [H|H]; [discriminate|]. repeat (destruct H as [H|H]; [discriminate|]). destruct H.
  - vm_compute. reflexivity.
Qed.

(** C55 does not hold.  [check_descriptor] (operators.rs:1493-1511) takes the number a type has among all the types of the validator for one of the types of the module.
    A module with a type, its descriptor and a cast with [ref.cast_desc_eq] is accepted, but not by a validator that has seen a module with
    one type before. *)
Definition one_struct : list sec := [STypes (rd read_rec [1; 0x5f;0])].
Definition cast_module : list sec :=
  [STypes (rd read_rec [2; 0x4e;2; 0x4d;1;0x5f;0; 0x4c;0;0x5f;0;      (* rec: 0 = struct with descriptor 1; 1 = struct that describes 0 *)
                        0x60;2;0x63;0;0x63;1;0]);                     (* 2 = func, parameters (ref null 0), (ref null 1) *)
   SFunctions [2];
   SCode [[0; 0x20;0; 0x20;1; 0xfb;0x24;0; 0x1a; 0x0b]]].              (* local.get 0; local.get 1; ref.cast_desc_eq (ref null 0); drop; end *)
Theorem C55_refuted : exists s',
  leaves (fun _ => true) (fun _ => true) all_features 1 empty_store one_struct s' /\
  validate_module (fun _ => true) (fun _ => true) all_features 1 empty_store one_struct = Done tt /\
  validate_module (fun _ => true) (fun _ => true) all_features 1 empty_store cast_module = Done tt /\
  exists e, validate_module (fun _ => true) (fun _ => true) all_features 1 s' cast_module = Rejected e.
Proof.
  eexists. split; [eexists _, _; split; [vm_compute; reflexivity|reflexivity]|]. split; [vm_compute; reflexivity|]. split; [vm_compute; reflexivity|]. eexists. vm_compute. reflexivity.
Qed.
Print Assumptions C55_refuted.

(** For the same reason C16 fails for the operators with descriptors, in a validator that has seen nothing else: two types of the module that are equal have
    one number.  In [twins] the types 0 and 1 are equal, 3 is the descriptor of 2, and [ref.cast_desc_eq (ref null 2)] is
    applied to a reference to 2 and one more operand.  With a reference to the descriptor, 3, as the rules of the proposal demand, the body is rejected;
    with another reference to 2, which is no subtype of one to 3, it is accepted. *)
Definition twins (operand : Z) : list sec :=
  [STypes (rd read_rec [4; 0x5f;0; 0x5f;0; 0x4e;2; 0x4d;3;0x5f;0; 0x4c;2;0x5f;0; 0x60;2;0x63;2;0x63;operand;0]); SFunctions [4];
   SCode [[0; 0x20;0; 0x20;1; 0xfb;0x24;2; 0x1a; 0x0b]]].
Theorem C16_descriptor_refuted : exists st fs,
  each (section (fun _ => true) (fun _ => true) all_features 1) (new_mstate empty_store, []) (twins 2) = Done (st, fs) /\
  let M := module_resources (ms_store st) (ms_mod st) in
  (exists a d t, md_types (ms_mod st) = [0; 0; a; d; 3] /\ r_sub_type_at M 2 = Some t /\ c_descriptor (s_comp t) = Some (UId d) /\
     r_is_subtype M (VRef (mkR true (HC (UId a)))) (VRef (mkR true (HC (UId d)))) = false) /\
  validate_module (fun _ => true) (fun _ => true) all_features 1 empty_store (twins 2) = Done tt /\
  exists e, validate_module (fun _ => true) (fun _ => true) all_features 1 empty_store (twins 3) = Rejected e.
Proof.
  eexists _, _. split; [vm_compute; reflexivity|]. cbv zeta. split; [|split].
  - eexists _, _, _. split; [reflexivity|]. split; [vm_compute; reflexivity|]. split; [reflexivity|]. vm_compute. reflexivity.
  - vm_compute. reflexivity.
  - eexists. vm_compute. reflexivity.
Qed.
Print Assumptions C16_descriptor_refuted.
