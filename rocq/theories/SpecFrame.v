(** Specification of one galaxy seen from two frames of reference. *)
From Verif Require Import Py Num RX Np Data Spec SpecR SpecPipe.
Local Open Scope R_scope.

(** The columns of [M] are orthonormal: [M] is a rotation or a rotation and a reflection. *)
Definition orthogonal (M : matR) : Prop :=
  m11 M * m11 M + m21 M * m21 M + m31 M * m31 M = 1 /\
  m12 M * m12 M + m22 M * m22 M + m32 M * m32 M = 1 /\
  m13 M * m13 M + m23 M * m23 M + m33 M * m33 M = 1 /\
  m11 M * m12 M + m21 M * m22 M + m31 M * m32 M = 0 /\
  m11 M * m13 M + m21 M * m23 M + m31 M * m33 M = 0 /\
  m12 M * m13 M + m22 M * m23 M + m32 M * m33 M = 0.

(** [g'] is the finite galaxy [g] in axes turned by [A], with its origin elsewhere. *)
Definition seen_from (A : matR) (a b c : R) (g g' : galaxy RX) : Prop :=
  map (@p_pot RX) (sets g') = map (@p_pot RX) (sets g) /\
  exists ls ld lg, holds (g_stars g) ls /\ holds (g_dm g) ld /\ holds (g_gas g) lg /\
    holds (g_stars g') (map (rigid A a b c) ls) /\ holds (g_dm g') (map (rigid A a b c) ld) /\
    holds (g_gas g') (map (rigid A a b c) lg).
