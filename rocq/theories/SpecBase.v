(** Specification vocabulary for the decomposition base class. *)
From Verif Require Import Py Num Np Df Data Circ Spec SpecCirc.

Section SpecBase.
Context {N : Num}.

(** [located g i p k]: in the order stars, dark matter, gas, particle [i] of the galaxy is
    particle [k] of its set [p]. *)
Inductive located (g : galaxy N) : nat -> pset N -> nat -> Prop :=
| located_intro before p after k : sets g = before ++ p :: after -> (k < plen p)%nat ->
    located g (list_sum (map plen before) + k) p k.

(** The circularity attributes and their values for star [k]. *)
Definition circ_attr (a : string) : Prop :=
  In a ["normalized_star_energy"; "normalized_star_Jz"; "eps"; "eps_r"]%string.
Definition circ_col (j : jcirc_t N) (a : string) : list N :=
  if (a =? "normalized_star_energy")%string then jc_E j
  else if (a =? "normalized_star_Jz")%string then jc_Jz j
  else if (a =? "eps")%string then jc_eps j
  else jc_eps_r j.

(** Attribute [a] of particle [k] of the set [p]: the circularity ones come from [j] for stars
    and are NaN for the rest. *)
Definition attribute (j : jcirc_t N) (p : pset N) (k : nat) (a : string) (c : cell N) : Prop :=
  (circ_attr a /\ p_type p = STARS /\ exists w, nth_error (circ_col j a) k = Some w /\ c = CNum w) \/
  (circ_attr a /\ p_type p <> STARS /\ c = CNum nnan) \/
  (~ circ_attr a /\ attr_value p a k = Some c).

(** Number of selected rows before row [i]. *)
Definition rank (mask : list bool) (i : nat) : nat := length (filter (fun b => b) (firstn i mask)).
Definition selected_rows (mask : list bool) : nat := length (filter (fun b => b) mask).

(** The selected entries of [l]. *)
Definition select {A} (mask : list bool) (l : list A) : list A := map snd (filter fst (combine mask l)).

(** A finite number. *)
Definition finite_cell (c : cell N) : Prop :=
  match c with CNum x => nfin x = true | CInt _ => True | CStr _ => False end.

(** The star attribute normalized_star_Jz has one value per bound star only.  Rows and
    particles correspond when it is not used, used beside another circularity attribute, or
    every star is bound. *)
Definition one_row_each (g : galaxy N) (attributes : list string) : Prop :=
  In "normalized_star_Jz"%string attributes ->
  (exists a, circ_attr a /\ a <> "normalized_star_Jz"%string /\ In a attributes) \/
  (forall o, In o (star_orbits g) -> bound o = true).

(** A name the attribute matrix knows. *)
Definition matrix_attr (a : string) : Prop := circ_attr a \/ known_attr a.

(** Types of the particles of the galaxy, in order. *)
Definition type_names (g : galaxy N) : list string :=
  flat_map (fun p => repeat (humanize (p_type p)) (plen p)) (sets g).

End SpecBase.
