(** Specification vocabulary for splits of one set of stars and of a larger one (C120). *)
From Verif Require Import Py.

(** How many stars carry a label. *)
Definition having (z : Z) (labels : list Z) : nat := length (filter (Z.eqb z) labels).
