(** Specification vocabulary for the accuracy of the potential of the galaxy as given. *)
From Coq Require Import Reals.
Local Open Scope R_scope.

(** A coordinate in kpc: zero, or not so small that single precision has steps below 2^-39,
    and not huge. *)
Definition ordinary (a : R) : Prop := a = 0 \/ / IZR (2 ^ 16) <= Rabs a <= IZR (2 ^ 39).
(** Zero, or neither tiny nor huge. *)
Definition usual (a : R) : Prop := a = 0 \/ / IZR (2 ^ 39) <= Rabs a <= IZR (2 ^ 39).
