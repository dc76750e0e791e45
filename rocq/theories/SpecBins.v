(** Specification vocabulary for the histogram decompositions with other numbers of bins (C105). *)
From Flocq Require Import Core.
From Verif Require Import Py Num RX F64.
Local Open Scope R_scope.

(** The exact edge [i] of [n] bins of [-1, 1]: the point -1 + 2 i / n rounded to [digits] decimals. *)
Definition decimal_edge (n digits i : Z) : R :=
  IZR (ZnearestE ((-1 + 2 * IZR i / IZR n) * IZR (10 ^ digits))) / IZR (10 ^ digits).
(** No point -1 + 2 i / n is halfway between two decimals, and the numbers are not too large for the format. *)
Definition no_ties (n digits : Z) : Prop :=
  (0 <= digits)%Z /\ (n * 10 ^ digits <= 2 ^ 48)%Z /\ ~ (2 ^ (digits + 2) | n)%Z.
(** Not the double nearest to an edge that is not a double itself. *)
Definition off_decimals (sm : list f64 -> f64) (n digits : Z) (x : xr) : Prop :=
  forall i, (0 <= i <= n)%Z -> let t := XR (decimal_edge n digits i) in
    rnd (F64_rounded sm) t <> t -> x <> rnd (F64_rounded sm) t.
(** Not within 2^-50 of an inner edge of [n] bins of [-1, 0]. *)
Definition off_parts (n : Z) (x : xr) : Prop :=
  forall r i, x = XR r -> (0 < i < n)%Z -> / IZR (2 ^ 50) < Rabs (r - (IZR i / IZR n - 1)).
