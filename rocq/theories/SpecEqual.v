(** Specification of comparisons (C88). *)
From Verif Require Import Py Num Data Base Spec Equal.

Section SpecEqual.
Context {N : Num}.

(** Two ParticleSet objects made separately: no array in common (softenings, position 9, are
    plain floats and may be one object). *)
Definition apart_sets (s t : sobj N) : Prop :=
  so_id s <> so_id t /\ forall i, i <> 9%nat -> so_ids s i <> so_ids t i.
Definition apart (o o' : gobj N) : Prop :=
  apart_sets (go_stars o) (go_stars o') /\ apart_sets (go_dm o) (go_dm o') /\ apart_sets (go_gas o) (go_gas o').

(** Arrays with one entry each, numerically equal (so neither is NaN). *)
Definition one_equal (a b : list N) : Prop := exists x y, a = [x] /\ b = [y] /\ neqb x y = true.
Definition one_equal_opt (a b : option (list N)) : Prop :=
  match a, b with Some a, Some b => one_equal a b | None, None => True | _, _ => False end.
(** One particle each, with equal numbers. *)
Definition single_equal (s t : sobj N) : Prop :=
  let p := so_set s in let q := so_set t in
  one_equal (p_m p) (p_m q) /\ one_equal (p_x p) (p_x q) /\ one_equal (p_y p) (p_y q) /\ one_equal (p_z p) (p_z q) /\
  one_equal (p_vx p) (p_vx q) /\ one_equal (p_vy p) (p_vy q) /\ one_equal (p_vz p) (p_vz q) /\
  one_equal_opt (p_pot p) (p_pot q) /\ (so_ids s 9 = so_ids t 9 \/ neqb (p_soft p) (p_soft q) = true) /\
  one_equal (p_ke p) (p_ke q) /\ one_equal_opt (p_te p) (p_te q) /\
  one_equal (p_Jx p) (p_Jx q) /\ one_equal (p_Jy p) (p_Jy q) /\ one_equal (p_Jz p) (p_Jz q).

End SpecEqual.
