(** Specification for the accuracy of centring and aligning together (C93). *)
From Flocq Require Import Core.
From Verif Require Import Py Num RX Np Data Spec SpecR SpecAlAcc SpecCirc.
Local Open Scope R_scope.

(** Particle [q] seen from the place of [o]. *)
Definition seen_from (o q : particle) : particle :=
  Part (pm q) (px q - px o) (py q - py o) (pz q - pz o) (pvx q) (pvy q) (pvz q).
(** Part of the angular momentum of [q] along the total angular momentum of [l] ... *)
Definition axis_part (l : list particle) (q : particle) : R :=
  (LX None l * lx q + LY None l * ly q + LZ None l * lz q) / Lnorm None l.
(** ... and length of the part at right angles to it. *)
Definition plane_part (l : list particle) (q : particle) : R :=
  sqrt (lx q * lx q + ly q * ly q + lz q * lz q - axis_part l q * axis_part l q).
(** Position times velocity. *)
Definition reach (q : particle) : R := span (px q) (py q) (pz q) * span (pvx q) (pvy q) (pvz q).

(** No number is larger than 2^99. *)
Definition within (q : particle) : Prop :=
  Rabs (pm q) <= bpow radix2 99 /\ span (px q) (py q) (pz q) <= bpow radix2 99 /\ span (pvx q) (pvy q) (pvz q) <= bpow radix2 99.
(** At most a million particles whose total angular momentum, and its part in the plane, stand out
    from the errors ([k]: factor of the summation, see [clear_spin]). *)
Definition strong_spin (u k : R) (l : list particle) : Prop :=
  (forall q, In q l -> within q) /\ INR (length l) <= bpow radix2 20 /\ 0 <= k <= bpow radix2 21 /\
  300000 * (k + 1000) * u * weights l <= Lnorm None l /\
  bpow radix2 (-389) + 300 * (k + 1000) * u * weights l <= Lplane l.

(** Error of the angular momentum of [q] relative to its [reach]: the cancellation in the total angular
    momentum of [l] matters. *)
Definition spin_error (u k : R) (l : list particle) (q : particle) : R :=
  (k + 1000) * u * (weights l / Lnorm None l) * reach q.

(** The stored angular momentum of a particle is, along the axis of [l] and at right angles to it,
    that of [q]. *)
Definition orbit_near {S : Num} (RS : Rounded S) (u k : R) (l : list particle) (o : orbit S) (q : particle) : Prop :=
  exists jz jp, val RS (o_jz o) = XR jz /\ val RS (o_jp o) = XR jp /\
    Rabs (jz - axis_part l q) <= 3500 * spin_error u k l q /\ Rabs (jp - plane_part l q) <= 9000 * spin_error u k l q.
(** The stored kinetic energy is that of [q]. *)
Definition kinetic_near {S : Num} (RS : Rounded S) (u : R) (x : S) (q : particle) : Prop :=
  exists v, val RS x = XR v /\
    Rabs (v - kinr q) <= 60000 * u * (span (pvx q) (pvy q) (pvz q) * span (pvx q) (pvy q) (pvz q)).
(** Both for all particles of a set. *)
Definition set_near {S : Num} (RS : Rounded S) (u k : R) (l : list particle) (p : pset S) (lq : list particle) : Prop :=
  Forall2 (orbit_near RS u k l) (orbits p) lq /\ Forall2 (kinetic_near RS u) (p_ke p) lq.
