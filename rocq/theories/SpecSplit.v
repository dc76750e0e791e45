(** Specification vocabulary for the comparison of a split in floating point with exact arithmetic. *)
From Verif Require Import Py Num RX F64 Np Df Data Base.
Local Open Scope R_scope.

(** The same matrix with exact values. *)
Definition exact_cell {sm} (c : cell (F64s sm)) : cell RX :=
  match c with CNum x => CNum (N:=RX) (val (F64_rounded sm) x) | CInt z => CInt z | CStr s => CStr s end.
Definition exact_matrix {sm} (X : matrix (F64s sm)) : matrix RX := map (map exact_cell) X.
(** Labels and generator, whatever the probabilities. *)
Definition outcome {N : Num} {St} (r : res (list Z * option (probs N) * St)) : res (list Z * St) :=
  rmap (fun t => (fst (fst t), snd t)) r.

(** Not the double nearest to one of the edges -0.98, -0.96, ... that have none of their own
    (all but -1, -0.5, 0, 0.5 and 1). *)
Definition off_edges (sm : list f64 -> f64) (x : xr) : Prop :=
  forall k, (-50 <= k <= 50)%Z -> (k mod 25 <> 0)%Z -> x <> rnd (F64_rounded sm) (XR (IZR k / 50)).
(** Not within 2^-52 of one of the inner energy edges -0.95, -0.9, ..., -0.05. *)
Definition off_energies (x : xr) : Prop :=
  forall r i, x = XR r -> (0 < i < 20)%Z -> / IZR (2 ^ 52) < Rabs (r - (IZR i / 20 - 1)).
