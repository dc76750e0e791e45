(** Specification vocabulary for reading and writing. *)
From Verif Require Import Py Num Np Df Data Spec Io.

Section SpecIo.
Context {N : Num}.

(** The values of one particle set that a file keeps. *)
Definition saved_values (p : pset N) : list N :=
  p_m p ++ p_x p ++ p_y p ++ p_z p ++ p_vx p ++ p_vy p ++ p_vz p ++ match p_pot p with Some l => l | None => [] end.
(** None of them is NaN. *)
Definition no_nan (g : galaxy N) : Prop := forall p v, In p (sets g) -> In v (saved_values p) -> nisnan v = false.

(** The same particles with softening [s]. *)
Definition same_but_softening (s : N) (p q : pset N) : Prop :=
  p_type q = p_type p /\ p_m q = p_m p /\ p_x q = p_x p /\ p_y q = p_y p /\ p_z q = p_z p /\
  p_vx q = p_vx p /\ p_vy q = p_vy p /\ p_vz q = p_vz p /\ p_pot q = p_pot p /\ p_haspot q = p_haspot p /\
  p_ke q = p_ke p /\ p_te q = p_te p /\ p_Jx q = p_Jx p /\ p_Jy q = p_Jy p /\ p_Jz q = p_Jz p /\ p_soft q = s.
(** [g'] is [g] with these softenings. *)
Definition read_back (ss sd sg : N) (g g' : galaxy N) : Prop :=
  same_but_softening ss (g_stars g) (g_stars g') /\ same_but_softening sd (g_dm g) (g_dm g') /\
  same_but_softening sg (g_gas g) (g_gas g') /\ g_haspot g' = g_haspot g.

(** The three objects of a galaxy, in the order they are written. *)
Definition names3 : list string := ["stars"; "dark_matter"; "gas"]%string.

(** The first [n] particle sets of [g1], the others of [g0]. *)
Definition mixed_set (n k : nat) (g0 g1 : galaxy N) : option (pset N) := nth_error (sets (if (k <? n)%nat then g1 else g0)) k.

(** One call of to_hdf5 in the history of a file: how it is disturbed, its arguments. *)
Definition event (M : Type) : Type := ((nat -> option exn) * dict M * M * galaxy N * option (dict M) * option bool * option bool)%type.
Definition after {M : Type} (f : h5 N M) (e : event M) : h5 N M :=
  let '(fault, defaults, now, g, metadata, append, overwrite) := e in fst (to_hdf5 fault defaults now f g metadata append overwrite).

(** No operation fails. *)
Definition quiet : nat -> option exn := fun _ => None.

(** Column [name] of a matrix whose columns have the given names. *)
Definition named (a : ndarray2 N) (columns : list string) (name : string) (l : list N) : Prop :=
  exists i, nth_error columns i = Some name /\ l = map (fun row => nth i row nnan) (nd_rows a).
(** The names read_npy knows. *)
Definition known_column (a : string) : Prop :=
  In a ["id"; "m"; "x"; "y"; "z"; "vx"; "vy"; "vz"; "softening"; "potential"]%string.
Definition needed_columns : list string := ["m"; "x"; "y"; "z"; "vx"; "vy"; "vz"]%string.
(** The names fit the matrix. *)
Definition fits (a : ndarray2 N) (columns : list string) : Prop := length columns = nd_width a /\ NoDup columns.
(** A potential file for a matrix: one value for each row, or one for all of them. *)
Definition potential_for (a : ndarray2 N) (file : list N) (l : list N) : Prop :=
  length l = length (nd_rows a) /\ (l = file \/ nd_rows a <> [] /\ exists v, file = [v] /\ l = repeat v (length (nd_rows a))).
(** No potential file, or one that can be added to these columns. *)
Definition potential_ok (a : ndarray2 N) (columns : list string) (file : option (list N)) : Prop :=
  forall p, file = Some p -> ~ In "potential"%string columns /\ exists l, potential_for a p l.
(** A potential is given, in one way or the other. *)
Definition gives_potential (columns : list string) (file : option (list N)) : Prop := In "potential"%string columns \/ file <> None.
(** [p] is what the matrix [a] with these column names, this potential file and this softening says. *)
Definition loaded (a : ndarray2 N) (columns : list string) (file : option (list N)) (soft : N) (p : pset N) : Prop :=
  named a columns "m" (p_m p) /\ named a columns "x" (p_x p) /\ named a columns "y" (p_y p) /\ named a columns "z" (p_z p) /\
  named a columns "vx" (p_vx p) /\ named a columns "vy" (p_vy p) /\ named a columns "vz" (p_vz p) /\
  match file with
  | Some v => exists l, potential_for a v l /\ p_pot p = Some l
  | None => match p_pot p with Some l => named a columns "potential" l | None => ~ In "potential"%string columns end
  end /\
  ((~ In "softening"%string columns /\ p_soft p = soft) \/ named a columns "softening" [p_soft p]).
(** The columns in another order. *)
Definition reorder (order : list nat) (a : ndarray2 N) : ndarray2 N :=
  Nd2 (nd_width a) (map (fun row => map (fun j => nth j row nnan) order) (nd_rows a)).
(** Equal in every column but the one called id. *)
Definition same_but_id (columns : list string) (a b : ndarray2 N) : Prop :=
  nd_width a = nd_width b /\ length (nd_rows a) = length (nd_rows b) /\
  forall k i name, nth_error columns i = Some name -> name <> "id"%string ->
    nth i (nth k (nd_rows a) []) nnan = nth i (nth k (nd_rows b) []) nnan.

End SpecIo.
