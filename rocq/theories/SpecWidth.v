(** Widths of the energy bins (specification of C98). *)
From Verif Require Import Py Num RX.
From Flocq Require Import Core.Raux Core.Zaux.
Local Open Scope R_scope.

(** Kinds of bin widths. *)
Inductive width : Type := WZero | WNaN | WTiny | WNegative | WPositive.
Definition has_width (v : xr) (k : width) : Prop :=
  match k with
  | WZero => v = XR 0
  | WNaN => v = XNaN
  | WTiny => exists r, v = XR r /\ 0 < Rabs r <= bpow radix2 (-67)
  | WNegative => v = XNInf \/ exists r, v = XR r /\ r <= - bpow radix2 (-59)
  | WPositive => v = XPInf \/ exists r, v = XR r /\ bpow radix2 (-59) <= r
  end.
(** The exception for the two widths, if there is one. *)
Definition refused (k0 k1 : width) : option exn :=
  match k0, k1 with
  | WZero, _ => Some ZeroDivisionError
  | WNaN, _ | WTiny, _ => Some ValueError
  | _, WZero => Some ZeroDivisionError
  | _, WNaN | _, WTiny => Some ValueError
  | WNegative, WNegative => Some IndexError
  | _, _ => None
  end.
