(** What it means for a reader operation to have consumed some bytes. *)
From Verif.Base Require Import Prelude.
From Verif.Reader Require Import Model.

(** [r'] is [r] after the bytes [bs] have been taken off its front. *)
Definition consumes (r : reader) (bs : list Z) (r' : reader) : Prop :=
  r_rem r = bs ++ r_rem r' /\ r_pos r' = r_pos r + zlen bs /\
  r_off r' = r_off r /\ r_feat r' = r_feat r.

(** [r] with more bytes available after those it already has. *)
Definition extend (r : reader) (ext : list Z) : reader :=
  mkReader (r_rem r ++ ext) (r_pos r) (r_off r) (r_feat r).

(** The error says the input ended too early. *)
Definition is_eof (e : error) : Prop := exists h, e_hint e = Some h.
