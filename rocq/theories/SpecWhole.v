(** Specification of the whole analysis over the real numbers (C97): from the positions,
    velocities and potentials of the input to energies and angular momenta. *)
From Flocq Require Import Core.
From Verif Require Import Py Num RX F64 Np Data Spec SpecR SpecAlAcc SpecCirc SpecChain SpecAcc SpecPot SpecNpAcc Potential Fma.
Local Open Scope R_scope.

(** The stored potential [x] is [p] up to a relative error [t]. *)
Definition pot_near {N : Num} (RN : Rounded N) (t : R) (x : N) (p : R) : Prop :=
  exists r, val RN x = XR r /\ Rabs (r - p) <= t * Rabs p.

(** Specific energy, and angular momentum along the axis of the stars [l], of particle [q] with
    potential [p]. *)
Definition whole_body (l : list particle) (q : particle) (p : R) : R * R := (kinr q + p, axis_part l q).

(** The errors of the energy and, for a bound particle, of the angular momentum are at most [d]
    in the units [ue] and [uz]. *)
Definition resolved (u k t : R) (l : list particle) (d ue uz : R) (q : particle) (p : R) : Prop :=
  61000 * u * (span (pvx q) (pvy q) (pvz q) * span (pvx q) (pvy q) (pvz q)) + (t + 2 * u) * Rabs p <= d * ue /\
  (kinr q + p < 0 -> 3500 * spin_error u k l q <= d * uz).

(** The potential number [i] is lower than all others by more than the errors. *)
Definition clearly_lowest (t : R) (ps : list R) (i : nat) : Prop :=
  exists p, nth_error ps i = Some p /\
  forall j p', j <> i -> nth_error ps j = Some p' -> p + t * Rabs p < p' - t * Rabs p'.

(** The label [w] of a star with energy and angular momentum [b] is that of the exact rule with the
    curve [cv] and the cut [rt], as far as this is clear by the margin [t]: NaN for an unbound star
    or one above the curve, 1 above the cut, 0 below it. *)
Definition labelled {N : Num} (t rt : R) (cv : list (R * R)) (ue uz : R) (b : R * R) (w : N) : Prop :=
  exists c, interpolates cv (fst b / ue) c /\ (0 < fst b -> w = nnan) /\
    (fst b < 0 -> c + t < Rabs (snd b / uz) -> w = nnan) /\
    (fst b < 0 -> Rabs (snd b / uz) < c - t -> rt * c + (1 + Rabs rt) * t < snd b / uz -> w = nofZ 1) /\
    (fst b < 0 -> Rabs (snd b / uz) < c - t -> snd b / uz < rt * c - (1 + Rabs rt) * t -> w = nofZ 0).

(** No unbound particle precedes a bound one among the first [n]. *)
Definition bound_first (n : nat) (bodies : list (R * R)) : Prop :=
  forall i j bi bj, (i < j < n)%nat -> nth_error bodies i = Some bi -> nth_error bodies j = Some bj -> fst bj < 0 -> fst bi < 0.

(** Exact softened potentials of all particles: minus [k] times the sum of mass over distance. *)
Definition exact_pots (k s : R) (l : list particle) : list R :=
  map (fun i => match nth_error l i with Some p => - (k * phi s p (others l i)) | None => 0 end) (seq 0 (length l)).
(** Relative error of the potentials in single precision, coordinates at most [R0], distances at least [D]. *)
Definition pot_error (n : nat) (R0 D : R) : R := (INR n + 8) / IZR (2 ^ 23) + 3 * (R0 / (IZR (2 ^ 22) * D)).

(** The backends of the potential: the Fortran module as written or with products fused by the compiler in
    any way, and numpy with any order of adding, if the memory that becomes the diagonal holds zeros. *)
Inductive backend_of {sm} (G : F32s sm) : dict (backend (F32s sm)) -> string -> Prop :=
| by_fortran junk : backend_of G (backend_table G true junk) "fortran"
| by_fused plan junk : backend_of G (contracted_table (S:=F32s sm) G fma32 plan junk) "fortran"
| by_numpy have junk : (forall l, added (N:=F32s sm) l (nsum l)) -> (forall i, val (F32_rounded sm) (junk i i) = XR 0) ->
    backend_of G (backend_table G have junk) "numpy".
