(** Specification vocabulary for the printed labels (C77). *)
From Verif Require Import Py Num Np.
From Coq Require Import Permutation.

Section SpecUnique.
Context {N : Num}.
(** Sorting: the same entries, each not above the next ones, NaNs at the end. *)
Definition sorted_copy (l s : list N) : Prop :=
  Permutation l s /\
  forall a b x y, (a < b)%nat -> nth_error s a = Some x -> nth_error s b = Some y -> nisnan y = true \/ nle x y = true.
(** Strictly increasing, NaNs at the end. *)
Definition increasing (u : list N) : Prop :=
  forall a b x y, (a < b)%nat -> nth_error u a = Some x -> nth_error u b = Some y -> nisnan y = true \/ nlt x y = true.
Definition nans (l : list N) : nat := length (filter nisnan l).
End SpecUnique.
