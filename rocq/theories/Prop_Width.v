(** Property theorems. Bin widths that the circular curve accepts (C98). Proofs are in WidthThms.v. *)
From Verif Require Import Py Num RX F64 Np Df Data DataFacts DfFacts RebuildFacts Center CenterFacts Align Spec SpecR SpecCirc SpecAlAcc Ex DataThms CenterThms AlignFacts AlignThms Circ CircFacts CurveFacts CircThms OrderThms AlAccFacts CtrAccThms EpsAccFacts EpsAccThms SpecWidth WidthThms.
From Flocq Require Import Core.
From Coq Require Import Lra Lia Sorted Floats.SpecFloat.
Local Open Scope R_scope.

(** What jcirc does with every pair of widths (but those between 2^-67 and 2^-59 in size): the
    exception, and otherwise the rule of C30. *)
Theorem C98_widths : forall sm argsort (g : galaxy (F64s sm)) (b0 b1 : F64s sm) k0 k1,
  constructible g -> sorting argsort -> (exists o, In o (all_orbits g) /\ bound o = true) ->
  has_width (val (F64_rounded sm) b0) k0 -> has_width (val (F64_rounded sm) b1) k1 ->
  match refused k0 k1 with
  | Some e => jcirc argsort g b0 b1 = Raise e
  | None => (exists j, jcirc argsort g b0 b1 = Ok j) <->
      (forall i k oi ok, (i < k)%nat -> nth_error (star_orbits g) i = Some oi ->
         nth_error (star_orbits g) k = Some ok -> bound ok = true -> bound oi = true)
  end.
Proof. exact c98_widths. Qed.
Print Assumptions C98_widths.

(** With a negative first width no particle with energy of -0.1 and less is looked at, except
    the most bound one: every point of the curve after the first lies above -0.1. *)
Theorem C98_negative : forall sm argsort (g : galaxy (F64s sm)) (b0 b1 : F64s sm) j k x,
  constructible g -> sorting argsort -> jcirc argsort g b0 b1 = Ok j ->
  has_width (val (F64_rounded sm) b0) WNegative -> has_width (val (F64_rounded sm) b1) WPositive ->
  nth_error (jc_x j) (S k) = Some x -> nlt (nlit (-1) 10) x = true.
Proof. exact c98_negative. Qed.
Print Assumptions C98_negative.

(** With infinite widths there are two edges, -1 and -0.1, and so three points at most. *)
Theorem C98_infinite : forall sm argsort (g : galaxy (F64s sm)) (b0 b1 : F64s sm) j,
  constructible g -> sorting argsort -> jcirc argsort g b0 b1 = Ok j ->
  val (F64_rounded sm) b0 = XPInf -> val (F64_rounded sm) b1 = XPInf ->
  (length (jc_x j) <= 3)%nat /\ (forall k x, nth_error (jc_x j) (S k) = Some x -> nlt nm1 x = true).
Proof. exact c98_infinite. Qed.
Print Assumptions C98_infinite.

(** A star and dark matter, one third as deep: the widths 0, NaN, tiny and negative, a negative
    first width, infinite widths. *)
Example EX_C98 :
  let run b0 b1 := do g <- lineG (zl [(1,1,0,(-2,1))])%Z (zl [(2,1,0,(-1,1)); (-3,1,0,(-51,100))])%Z []; jcirc asort g b0 b1 in
  exn_of (run (fZ 0) (nlit 1 10)) = Some ZeroDivisionError /\ exn_of (run nnan (fZ 0)) = Some ValueError /\
  exn_of (run (nlit 1 (2 ^ 80)) (nlit 1 10)) = Some ValueError /\ exn_of (run (fZ 1) (fZ 0)) = Some ZeroDivisionError /\
  exn_of (run (fZ (-1)) (fZ (-1))) = Some IndexError /\
  rmap (fun j => length (jc_x j)) (run (fZ (-1)) (fZ 1)) = Ok 2%nat /\
  rmap (fun j => length (jc_x j)) (run npinf npinf) = Ok 3%nat /\ exn_of (run npinf nninf) = None.
Proof. exact ex_c98. Qed.
