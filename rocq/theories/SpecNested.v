(** Specification vocabulary for histograms with finer and coarser bins (C115). *)
From Verif Require Import Py Num.

Section SpecNested.
Context {N : Num}.
(** Each of the [n] coarse bins is [k] of the fine ones: every [k]-th fine edge is a coarse edge. *)
Definition nested (k n : nat) (fine coarse : list N) : Prop :=
  forall i, (i <= n)%nat -> neqb (nth (k * i) fine nnan) (nth i coarse nnan) = true.
(** No two edges are zero. *)
Definition one_zero (edges : list N) : Prop :=
  forall a b, (a < length edges)%nat -> (b < length edges)%nat ->
    neqb (nth a edges nnan) n0 = true -> neqb (nth b edges nnan) n0 = true -> a = b.
End SpecNested.
