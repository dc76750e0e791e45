(** Specification of the reference programs (C89). *)
From Verif Require Import Py Num Np Data Spec SpecR SpecPot Potential Resource.

Section SpecResource.
Context {S : Num}.

(** Position and mass of a body. *)
Definition source_of (b : body S) : source := (b_x b, b_y b, (b_z b, b_m b)).
(** The output file [out] lists the particles [rows], which are those of [all] from position
    [off] on: their IDs, each with G times the sum of mass over distance to all the others. *)
Definition lists_potentials (G : S) (all : list (row S)) (off : nat) (rows : list (row S)) (out : list (S * S)) : Prop :=
  length out = length rows /\
  forall j r, nth_error rows j = Some r ->
    nth_error out j = Some (r_id r, (pair_sum n0 (map (fun r => source_of (r_body r)) all) (off + j) (source_of (r_body r)) * G)%num).

End SpecResource.
