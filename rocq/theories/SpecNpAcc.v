(** Specification vocabulary for the accuracy of sums in any order. *)
From Verif Require Import Py Num.
From Coq Require Import Permutation.

(** [x] is a result of adding the numbers of [l] two at a time, in some order and with some
    placing of the brackets. *)
Inductive added {N : Num} : list N -> N -> Prop :=
| added_none : added [] n0
| added_one x : added [x] x
| added_two l l' x y : added l x -> added l' y -> added (l ++ l') (nadd x y)
| added_order l l' x : Permutation l l' -> added l x -> added l' x.
