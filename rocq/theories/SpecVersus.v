(** Specification vocabulary for comparing the decomposers on one galaxy (C114). *)
From Verif Require Import Py Num Np Df Data Base Spec SpecCirc.

(** The particle has a label. *)
Definition classified {N : Num} (cs : components N) (i : nat) : Prop :=
  exists w, nth_error (c_labels cs) i = Some w /\ nisnan w = false.
(** How many stars with a circularity as asked have the label [z]; star number [k] is particle number [k]. *)
Definition tally {N : Num} (P : N -> bool) (z : Z) (eps : list N) (cs : components N) : nat :=
  length (filter (fun k => match nth_error eps k, nth_error (c_labels cs) k with
                           | Some e, Some w => P e && neqb w (nofZ z)
                           | _, _ => false
                           end) (seq 0 (length eps))).
(** How many circularities are as asked. *)
Definition having {N : Num} (P : N -> bool) (eps : list N) : nat := length (filter P eps).
(** Rotating against, and with, the galaxy. *)
Definition backward {N : Num} (e : N) : bool := nlt e n0.
Definition forward {N : Num} (e : N) : bool := nle n0 e.
(** Some bound particle has an energy other than zero. *)
Definition some_depth {N : Num} (g : galaxy N) : Prop :=
  exists o, In o (all_orbits g) /\ bound o = true /\ neqb (o_e o) n0 = false.
