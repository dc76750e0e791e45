(** Specification vocabulary for the symmetry of the histogram decompositions. *)
From Coq Require Import Reals.
From Verif Require Import Py Num Np SpecPot.

(** Edge [2 * bin0 - k] is the reflection of edge [k] around zero, wherever both exist. *)
Definition reflects {N : Num} (edges : list N) (bin0 : nat) : Prop :=
  forall k, (k <= 2 * bin0)%nat -> (k < length edges)%nat -> (2 * bin0 - k < length edges)%nat ->
    neqb (nth (2 * bin0 - k) edges nnan) (nopp (nth k edges nnan)) = true.

(** The circularities of the spheroid: those with label 0. *)
Definition spheroid {A} (eps : list A) (labels : list Z) : list A :=
  map fst (filter (fun p => (snd p =? 0)%Z) (combine eps labels)).
(** How many circularities are negative, and how many are not. *)
Definition counter {N : Num} (eps : list N) : nat := length (filter (fun e => nlt e n0) eps).
Definition corot {N : Num} (eps : list N) : nat := length (filter (fun e => nle n0 e) eps).
(** Sum of real numbers. *)
Definition sum_of (l : list R) : R := total (fun r => r) l.

(** The circularities of the stars labelled 0, for the labels of all particles (those of the
    stars come first) and the circularities of the stars. *)
Definition bulge {N : Num} (labels eps : list N) : list N := map snd (filter (fun p => neqb (fst p) n0) (combine labels eps)).
