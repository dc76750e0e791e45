(** Specification of fused multiply-add (C91). *)
From Verif Require Import Py Num RX.
Local Open Scope R_scope.

(** One rounding of a b + c. *)
Definition fused {S : Num} (RS : Rounded S) (fma : S -> S -> S -> S) : Prop :=
  forall a b c x y z, val RS a = XR x -> val RS b = XR y -> val RS c = XR z ->
    val RS (fma a b c) = rnd RS (XR (x * y + z)).
