(** Specification vocabulary: particles that are not stars, with another division into dark matter and gas (C112). *)
From Verif Require Import Py Num Np Data Align Base.

Section SpecRegroup.
Context {N : Num}.

(** A column of the particles that are not stars. *)
Definition others {A} (f : pset N -> list A) (g : galaxy N) : list A := f (g_dm g) ++ f (g_gas g).
(** The same stars and the same other particles in the same order; which of these are dark matter and which gas may
    differ. *)
Record regrouped (g g' : galaxy N) : Prop := {
  rg_stars : g_stars g' = g_stars g;
  rg_m : others p_m g' = others p_m g;
  rg_x : others p_x g' = others p_x g; rg_y : others p_y g' = others p_y g; rg_z : others p_z g' = others p_z g;
  rg_vx : others p_vx g' = others p_vx g; rg_vy : others p_vy g' = others p_vy g; rg_vz : others p_vz g' = others p_vz g;
  rg_soft : others (fun p => repeat (p_soft p) (length (p_m p))) g' = others (fun p => repeat (p_soft p) (length (p_m p))) g;
  rg_pot : others (fun p => match p_pot p with Some l => l | None => [] end) g' =
           others (fun p => match p_pot p with Some l => l | None => [] end) g }.

(** A matrix product that treats every column alike, in every call. *)
Definition column_by_column (mm : nat -> mat3 N -> list N -> list N -> list N -> list N * list N * list N) : Prop :=
  exists fx fy fz : mat3 N -> N -> N -> N -> N, forall k A x y z,
    mm k A x y z = (map3 (fx A) x y z, map3 (fy A) x y z, map3 (fz A) x y z).

(** What a decomposition says about the particles, whatever their types are called. *)
Definition findings {St} (r : components N * St) : list N * option (probs N) * St :=
  (c_labels (fst r), c_probs (fst r), snd r).
End SpecRegroup.
