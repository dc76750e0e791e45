(** Specification vocabulary for the independence of jcirc from the order of the particles. *)
From Verif Require Import Py Num RX Np Data Spec SpecCirc.

(** No ties between the bound particles of [g]: in the units of the galaxy all |Jz| are numbers,
    those of equal |Jz| have equal energy, and those of least energy have equal |Jz|. *)
Definition untied {N : Num} (g : galaxy N) : Prop :=
  forall ue uz up, units g ue uz up ->
  let all := filter bound (all_orbits g) in
  let E o := (o_e o / ue)%num in
  let J o := nabs (o_jz o / uz)%num in
  (forall o, In o all -> nisnan (J o) = false) /\
  (forall o o', In o all -> In o' all -> neqb (J o) (J o') = true -> E o = E o') /\
  (forall o o', In o all -> In o' all ->
     (forall p, In p all -> nlt (E p) (E o) = false /\ nlt (E p) (E o') = false) -> neqb (J o) (J o') = true).

(** The same bound particles, in any order and in any of the three sets. *)
Definition same_bound {N : Num} (g g' : galaxy N) : Prop :=
  Permutation (filter bound (all_orbits g)) (filter bound (all_orbits g')).
