(** Specification of the particle in the centre (C95). *)
From Verif Require Import Py Num Data Spec.

(** A missing potential counts as infinitely high. *)
Definition height {N : Num} (v : N) : N := if nisnan v then npinf else v.
(** Particle [i] is the first one of lowest potential; the last of all when no potential is known. *)
Definition centre {N : Num} (g : galaxy N) (i : nat) : Prop :=
  exists v, nth_error (all_pots g) i = Some v /\
  ((forall w, In w (all_pots g) -> nisnan w = true) -> S i = length (all_pots g)) /\
  ((exists w, In w (all_pots g) /\ nisnan w = false) ->
   forall j w, nth_error (all_pots g) j = Some w ->
     nlt (height w) (height v) = false /\ ((j < i)%nat -> nlt (height v) (height w) = true)).
