(** Specification vocabulary for the whole analysis with other numbers of bins (C107). *)
From Verif Require Import Py Num RX F64 Np Data Base Spec SpecR SpecCirc SpecBins.
Local Open Scope R_scope.

(** As [settled] of C99 for the [n] bins of [-1, 1] whose edges have [digits] decimals: the circularity of a
    bound star is not near an edge, by the margin [t]; or the star is one of the points of the curve, not near
    zero; or it is [central] and has no angular momentum. *)
Definition settled_in (n digits : Z) (t : R) (cv : list (R * R)) (ue uz : R) (central : Prop) (b : R * R) : Prop :=
  fst b < 0 ->
    (forall c i, interpolates cv (fst b / ue) c -> (0 <= i <= n)%Z -> 2 * t < Rabs (snd b / uz - decimal_edge n digits i * c)) \/
    (In (fst b / ue, Rabs (snd b) / uz) cv /\ t < Rabs (snd b) / uz) \/
    (central /\ snd b = 0 /\ (In (fst b / ue, 0) cv \/ forall c, interpolates cv (fst b / ue) c -> t < c)).
(** The normalised energy of a bound star is at least [m] from the inner edges of [n] bins of [-1, 0]. *)
Definition clear_energy (n : Z) (m ue : R) (b : R * R) : Prop :=
  fst b < 0 -> forall i, (0 < i < n)%Z -> m <= Rabs (fst b / ue - (IZR i / IZR n - 1)).
