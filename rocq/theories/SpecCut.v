(** Specification for the whole analysis aligned with a cut-off radius (C103). *)
From Flocq Require Import Core.
From Verif Require Import Py Num RX Np Data Spec SpecR SpecChain.
Local Open Scope R_scope.

(** The stars within the distance [c] of the origin. *)
Definition within_cut (c : R) (l : list particle) : list particle := filter (fun q => Rlt_bool (rad q) c) l.
(** No particle lies on the cut-off radius, up to 30000 units of rounding. *)
Definition off_edge (u c : R) (l : list particle) : Prop := forall q, In q l -> 30000 * u * rad q < Rabs (rad q - c).
