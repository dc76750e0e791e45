(** Specification vocabulary: binary numbers multiplied by powers of two. *)
From Flocq Require Import Core BinarySingleNaN.
From Coq Require Import Reals ZArith List.
Local Open Scope R_scope.

Section SpecShift.
Context {prec emax : Z}.
(** [y] is [x] times 2^k, exactly, with the same sign (that of a zero included); NaN and infinities are kept. *)
Definition shifted (k : Z) (x y : binary_float prec emax) : Prop :=
  (x = y /\ is_finite x = false) \/
  (is_finite x = true /\ is_finite y = true /\ B2R y = B2R x * bpow radix2 k /\ Bsign y = Bsign x).

(** A way of adding the entries of an array: constants zero, entries, sums of two. *)
Inductive tree : Type := Zero | Leaf (i : nat) | Node (l r : tree).
Fixpoint leaves (t : tree) : Z := match t with Node l r => leaves l + leaves r | _ => 1 end.
Fixpoint eval (Hp : (0 < prec)%Z) (Hm : (prec < emax)%Z) (t : tree) (l : list (binary_float prec emax)) : binary_float prec emax :=
  match t with
  | Zero => B754_zero false
  | Leaf i => nth i l (B754_zero false)
  | Node t1 t2 => @Bplus prec emax Hp Hm mode_NE (eval Hp Hm t1 l) (eval Hp Hm t2 l)
  end.
End SpecShift.

From Verif Require Import Py Num F64 Np Data Spec.

(** The order in which arrays are added depends on their length only, with at most 2n + 8 terms. *)
Definition fixed_order (sm : list f64 -> f64) : Prop :=
  exists shape : nat -> tree, forall l, sm l = eval p53 e1024 (shape (length l)) l /\
    (leaves (shape (length l)) <= 2 * Z.of_nat (length l) + 8)%Z.

(** [g'] is [g] in other units: positions multiplied by 2^a, velocities by 2^b, potentials by 2^(2b); any
    masses and softenings. *)
Definition in_units {sm} (a b : Z) (g g' : galaxy (F64s sm)) : Prop :=
  Forall2 (fun p q : pset (F64s sm) =>
     Forall2 (shifted a) (p_x p) (p_x q) /\ Forall2 (shifted a) (p_y p) (p_y q) /\ Forall2 (shifted a) (p_z p) (p_z q) /\
     Forall2 (shifted b) (p_vx p) (p_vx q) /\ Forall2 (shifted b) (p_vy p) (p_vy q) /\ Forall2 (shifted b) (p_vz p) (p_vz q) /\
     match p_pot p, p_pot q with
     | Some l, Some l' => Forall2 (shifted (2 * b)) l l'
     | None, None => True
     | _, _ => False
     end) (sets g) (sets g').
(** If finite, a multiple of 2^-n and at most 2^n in size. *)
Definition within2 {prec emax} (n : Z) (x : binary_float prec emax) : Prop :=
  is_finite x = true -> (exists m : Z, B2R x = IZR m * bpow radix2 (- n)) /\ Rabs (B2R x) <= bpow radix2 n.
(** Positions and velocities within [n], potentials within [2n]. *)
Definition tame {sm} (n : Z) (g : galaxy (F64s sm)) : Prop :=
  Forall (fun p : pset (F64s sm) =>
     Forall (within2 n) (p_x p) /\ Forall (within2 n) (p_y p) /\ Forall (within2 n) (p_z p) /\
     Forall (within2 n) (p_vx p) /\ Forall (within2 n) (p_vy p) /\ Forall (within2 n) (p_vz p) /\
     match p_pot p with Some l => Forall (within2 (2 * n)) l | None => True end) (sets g).
(** The cut-off radius in units of length multiplied by 2^a. *)
Definition cut_in {sm} (a : Z) (r r' : option (F64s sm)) : Prop :=
  match r, r' with Some x, Some y => shifted a x y | None, None => True | _, _ => False end.
(** The same error, or results related by [R]. *)
Definition same_error_or {A B} (R : A -> B -> Prop) (r : res A) (r' : res B) : Prop :=
  (exists e, r = Raise e /\ r' = Raise e) \/ (exists h h', r = Ok h /\ r' = Ok h' /\ R h h').
