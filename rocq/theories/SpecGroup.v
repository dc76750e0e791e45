(** Specification vocabulary for the accuracy of the grouping of Gaussians. *)
From Coq Require Import Reals.
From Verif Require Import Py Num SpecMix SpecAlAcc.

(** The probability of a structure: the exact sum of the probabilities [qs] of the Gaussians
    whose centres lie in its region. *)
Definition share {N : Num} (k : kind) (n : nat) (means : list (list N)) (qs : list R) : R :=
  Rsum (map (fun i => nth i qs 0%R) (filter (fun i => belongs k (coord means i 0) (coord means i 1)) (seq 0 n))).
(** How far the value for [m] Gaussians is above the mean of the last five. *)
Definition excess (bs : list R) (m : nat) : R := (nth (m - 2) bs 0 - Rsum (skipn 9 bs) / 5)%R.
