(** Specification of matrix products (C94). *)
From Verif Require Import Py Num RX Np Data Align.

Section SpecDgemm.
Context {S : Num}.
Variable fma : S -> S -> S -> S.

(** What a library may return as the sum of the products of the pairs of a list: the products in any
    order and grouping, each rounded or fused into a sum, sums with zero and factors one included. *)
Inductive sum_of_products : list (S * S) -> S -> Prop :=
| sp_zero : sum_of_products [] n0
| sp_product a b : sum_of_products [(a, b)] (a * b)%num
| sp_swapped a b : sum_of_products [(a, b)] (b * a)%num
| sp_sum l m s t : sum_of_products l s -> sum_of_products m t -> sum_of_products (l ++ m) (s + t)%num
| sp_fused a b l s : sum_of_products l s -> sum_of_products ((a, b) :: l) (fma a b s)
| sp_once l s : sum_of_products l s -> sum_of_products l (n1 * s)%num
| sp_order l m s : Permutation l m -> sum_of_products l s -> sum_of_products m s.

(** Entry [i] of a row of the product of (a b c) with the rows [x], [y], [z]. *)
Definition row_of (a b c : S) (x y z r : list S) : Prop :=
  length r = length x /\
  forall i x0 y0 z0 v, nth_error x i = Some x0 -> nth_error y i = Some y0 -> nth_error z i = Some z0 -> nth_error r i = Some v ->
    sum_of_products [(a, x0); (b, y0); (c, z0)] v.
(** Every call returns such rows; equal calls need not agree. *)
Definition is_matmul (matmul : nat -> mat3 S -> list S -> list S -> list S -> list S * list S * list S) : Prop :=
  forall k A x y z, length y = length x -> length z = length x ->
  exists rx ry rz, matmul k A x y z = (rx, ry, rz) /\
    row_of (a11 A) (a12 A) (a13 A) x y z rx /\ row_of (a21 A) (a22 A) (a23 A) x y z ry /\ row_of (a31 A) (a32 A) (a33 A) x y z rz.
End SpecDgemm.
