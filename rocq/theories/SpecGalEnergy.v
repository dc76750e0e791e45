(** Specification for the energies of a whole galaxy (C92). *)
From Verif Require Import Py Num RX Np Data Spec SpecR SpecPot.
Open Scope R_scope.

(** A Python triple as a list. *)
Definition listed {A : Type} (t : A * A * A) : list A := let '(a, b, c) := t in [a; b; c].

(** Sum over all pairs of particles, each pair once, of the product of the masses over the
    softened distance. *)
Fixpoint pair_energy (s : R) (l : list particle) : R :=
  match l with
  | [] => 0
  | p :: l' => sumR (fun q => pm p * pm q / sdist s p q) l' + pair_energy s l'
  end.

(** Masses times values. *)
Fixpoint weighted (l : list particle) (vs : list R) : R :=
  match l, vs with
  | p :: l', v :: vs' => pm p * v + weighted l' vs'
  | _, _ => 0
  end.
