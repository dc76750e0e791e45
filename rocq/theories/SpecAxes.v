(** Specification of the whole analysis of a galaxy given in other axes (C110). *)
From Flocq Require Import Core.
From Verif Require Import Py Num RX F64 Np Data Center Align Circ Base Threshold Hist Potential Dgemm Spec SpecR SpecAlAcc SpecCirc SpecCurve SpecChain SpecAcc SpecPot SpecFma SpecDgemm SpecNpAcc SpecPotAcc SpecWhole SpecAgain.
Local Open Scope R_scope.

(** What the sizes of the coordinates, and so the axes and the origin, decide of [clear_galaxy]: the coordinates are
    in range, the spin of the stars seen from [o] and its part in the plane of these axes stand out, and
    energies and angular momenta are resolved. *)
Record fits_axes (kG s R0 D k : R) (o : particle) (d ue uz : R) (ls ld lg : list particle) : Prop := {
  fa_range : forall q a, In q (ls ++ ld ++ lg) -> In a [px q; py q; pz q] -> ordinary a /\ Rabs a <= R0;
  fa_spin : strong_spin (/ IZR (2 ^ 53)) k (map (seen_from o) ls);
  fa_within : forall q, In q (map (seen_from o) (ld ++ lg)) -> SpecChain.within q;
  fa_resolved : forall q x, In (q, x) (combine (map (seen_from o) (ls ++ ld ++ lg)) (exact_pots kG s (ls ++ ld ++ lg))) ->
    resolved (/ IZR (2 ^ 53)) k (pot_error (length (ls ++ ld ++ lg)) R0 D) (map (seen_from o) ls) d ue uz q x }.
