(** Specification vocabulary: potentials in units changed by powers of two. *)
From Verif Require Import Py Num F64 Np Data Spec SpecShift.
From Flocq Require Import Core BinarySingleNaN.
From Coq Require Import Reals ZArith List.
Local Open Scope R_scope.

(** Zero, not finite, or of size between 2^-n and 2^u. *)
Definition sized {prec emax} (n u : Z) (x : binary_float prec emax) : Prop :=
  is_finite x = true -> B2R x <> 0 -> bpow radix2 (- n) <= Rabs (B2R x) <= bpow radix2 u.
(** Every set has its masses multiplied by 2^c and its softening by 2^a. *)
Definition weights_in {sm} (a c : Z) (g g' : galaxy (F64s sm)) : Prop :=
  Forall2 (fun p q : pset (F64s sm) => Forall2 (shifted c) (p_m p) (p_m q) /\ shifted a (p_soft p) (p_soft q)) (sets g) (sets g').
(** Sizes well inside the range of binary32. *)
Definition in_range {sm} (g : galaxy (F64s sm)) : Prop :=
  Forall (fun p : pset (F64s sm) =>
     Forall (sized 16 20) (p_x p) /\ Forall (sized 16 20) (p_y p) /\ Forall (sized 16 20) (p_z p) /\
     Forall (sized 10 40) (p_m p) /\ sized 16 20 (p_soft p)) (sets g).
(** As [fixed_order], in binary32. *)
Definition fixed_order32 (sm : list f32 -> f32) : Prop :=
  exists shape : nat -> tree, forall l, sm l = eval p24 e128 (shape (length l)) l /\
    (leaves (shape (length l)) <= 2 * Z.of_nat (length l) + 8)%Z.
