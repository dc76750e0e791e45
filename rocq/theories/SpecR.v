(** Specification of particles and rotations over the real numbers. *)
From Verif Require Import Py Num RX Np Data Spec.
Local Open Scope R_scope.

Record particle : Type := Part { pm : R; px : R; py : R; pz : R; pvx : R; pvy : R; pvz : R }.

(** [p] holds exactly the finite particles [l]. *)
Definition holds (p : pset RX) (l : list particle) : Prop :=
  p_m p = map (fun q => XR (pm q)) l /\
  p_x p = map (fun q => XR (px q)) l /\ p_y p = map (fun q => XR (py q)) l /\
  p_z p = map (fun q => XR (pz q)) l /\
  p_vx p = map (fun q => XR (pvx q)) l /\ p_vy p = map (fun q => XR (pvy q)) l /\
  p_vz p = map (fun q => XR (pvz q)) l.

(** Angular momentum per unit mass, radius, kinetic energy. *)
Definition lx (q : particle) : R := py q * pvz q - pz q * pvy q.
Definition ly (q : particle) : R := pz q * pvx q - px q * pvz q.
Definition lz (q : particle) : R := px q * pvy q - py q * pvx q.
Definition rad (q : particle) : R := sqrt (px q * px q + py q * py q + pz q * pz q).
Definition kinr (q : particle) : R := (pvx q * pvx q + pvy q * pvy q + pvz q * pvz q) / 2.

(** Particles inside the cut-off radius (all of them when there is none). *)
Definition inside (c : option xr) (q : particle) : bool :=
  match c with None => true | Some c => nlt (N:=RX) (XR (rad q)) c end.

Definition sumR (f : particle -> R) (l : list particle) : R :=
  fold_right (fun q s => f q + s) 0 l.
(** Total angular momentum of the particles inside the cut-off. *)
Definition LX c l := sumR (fun q => pm q * lx q) (filter (inside c) l).
Definition LY c l := sumR (fun q => pm q * ly q) (filter (inside c) l).
Definition LZ c l := sumR (fun q => pm q * lz q) (filter (inside c) l).
Definition Lnorm c l := sqrt (LX c l * LX c l + LY c l * LY c l + LZ c l * LZ c l).

(** 3x3 real matrices by rows. *)
Record matR : Type := MatR {
  m11 : R; m12 : R; m13 : R; m21 : R; m22 : R; m23 : R; m31 : R; m32 : R; m33 : R }.

Definition rotate (M : matR) (q : particle) : particle :=
  Part (pm q)
    (m11 M * px q + m12 M * py q + m13 M * pz q)
    (m21 M * px q + m22 M * py q + m23 M * pz q)
    (m31 M * px q + m32 M * py q + m33 M * pz q)
    (m11 M * pvx q + m12 M * pvy q + m13 M * pvz q)
    (m21 M * pvx q + m22 M * pvy q + m23 M * pvz q)
    (m31 M * pvx q + m32 M * pvy q + m33 M * pvz q).

(** [M] is orthogonal (rows and columns orthonormal) with determinant +1. *)
Definition rotation (M : matR) : Prop :=
  m11 M * m11 M + m12 M * m12 M + m13 M * m13 M = 1 /\
  m21 M * m21 M + m22 M * m22 M + m23 M * m23 M = 1 /\
  m31 M * m31 M + m32 M * m32 M + m33 M * m33 M = 1 /\
  m11 M * m21 M + m12 M * m22 M + m13 M * m23 M = 0 /\
  m11 M * m31 M + m12 M * m32 M + m13 M * m33 M = 0 /\
  m21 M * m31 M + m22 M * m32 M + m23 M * m33 M = 0 /\
  m11 M * m11 M + m21 M * m21 M + m31 M * m31 M = 1 /\
  m12 M * m12 M + m22 M * m22 M + m32 M * m32 M = 1 /\
  m13 M * m13 M + m23 M * m23 M + m33 M * m33 M = 1 /\
  m11 M * m12 M + m21 M * m22 M + m31 M * m32 M = 0 /\
  m11 M * m13 M + m21 M * m23 M + m31 M * m33 M = 0 /\
  m12 M * m13 M + m22 M * m23 M + m32 M * m33 M = 0 /\
  m11 M * (m22 M * m33 M - m23 M * m32 M) - m12 M * (m21 M * m33 M - m23 M * m31 M)
    + m13 M * (m21 M * m32 M - m22 M * m31 M) = 1.

Definition dist (p q : particle) : R :=
  sqrt ((px p - px q) * (px p - px q) + (py p - py q) * (py p - py q) + (pz p - pz q) * (pz p - pz q)).

(** Hypotheses shared by the exact statements: a finite galaxy, given by its real
    particles, whose stars inside the cut-off have in-plane angular momentum. *)
Definition alignable (g : galaxy RX) (c : option xr) (ls ld lg : list particle) : Prop :=
  constructible g /\ (forall v, c = Some v -> nle (N:=RX) v n0 = false) /\
  holds (g_stars g) ls /\ holds (g_dm g) ld /\ holds (g_gas g) lg /\
  (LX c ls <> 0 \/ LY c ls <> 0)%R.
