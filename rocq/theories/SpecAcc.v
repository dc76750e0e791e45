(** Specification vocabulary for the accuracy of rounded arithmetic. *)
From Verif Require Import Py Num RX Np Data Spec SpecR SpecPot.
Local Open Scope R_scope.

(** The standard model of rounding: on real numbers of size between 2^-126 and 2^127 the relative
    error is at most [u]. *)
Definition standard {S : Num} (RS : Rounded S) (u : R) : Prop :=
  forall r, / IZR (2 ^ 126) <= Rabs r <= IZR (2 ^ 127) ->
    exists r', rnd RS (XR r) = XR r' /\ Rabs (r' - r) <= u * Rabs r.

(** The numbers of [p] are position and mass of [q]. *)
Definition reads {S : Num} (RS : Rounded S) (p : source (S:=S)) (q : particle) : Prop :=
  let '(x, y, (z, m)) := p in
  val RS x = XR (px q) /\ val RS y = XR (py q) /\ val RS z = XR (pz q) /\ val RS m = XR (pm q).

(** Zero, or neither tiny nor huge. *)
Definition moderate (a : R) : Prop := a = 0 \/ / IZR (2 ^ 40) <= Rabs a <= IZR (2 ^ 40).
(** Softening, masses and separations are moderate, masses are positive, no two particles are
    at zero softened distance, and there are at most four million. *)
Definition tame (s : R) (l : list particle) : Prop :=
  moderate s /\ apart s l /\ (forall q, In q l -> 0 < pm q /\ moderate (pm q)) /\
  (forall i j p q, i <> j -> nth_error l i = Some p -> nth_error l j = Some q ->
     moderate (px p - px q) /\ moderate (py p - py q) /\ moderate (pz p - pz q)) /\
  INR (length l) <= IZR (2 ^ 22).
