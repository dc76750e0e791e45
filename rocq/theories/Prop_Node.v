(** Property theorems. Circularity of the stars that make the circular curve (C74). Proofs are in NodeThms.v. *)
From Verif Require Import Py Num RX F64 Np Df Data DataFacts DfFacts RebuildFacts Center CenterFacts Align Spec SpecR SpecCirc Ex DataThms CenterThms AlignFacts AlignThms Circ CircFacts CurveFacts CircThms OrderThms NodeThms.
From Flocq Require Import Core.Raux IEEE754.BinarySingleNaN.
From Coq Require Import Lra Lia Sorted Floats.SpecFloat.

(** C74: at the energy of a point of the curve the circular angular momentum is exactly that of the point, in any
    arithmetic; a star with that energy and that |Jz|, neither zero nor NaN, has circularity exactly 1 or -1, with the sign
    of its Jz. *)
Theorem C74_node : forall (N : Num) (RN : Rounded N) argsort (g : galaxy N) b0 b1 l0 l1 j,
  constructible g -> sorting argsort ->
  arange nm1 (nlit (-1) 10) b0 = Ok l0 -> arange (nlit (-1) 10) n0 b1 = Ok l1 ->
  nth_error (l0 ++ l1) 0 = Some nm1 ->
  (forall i k a b, (i < k)%nat -> nth_error (l0 ++ l1) i = Some a -> nth_error (l0 ++ l1) k = Some b -> nle a b = true) ->
  jcirc argsort g b0 b1 = Ok j ->
  exists ue uz up, units g ue uz up /\
    forall k o i x y, nth_error (star_orbits g) k = Some o -> bound o = true ->
      nth_error (jc_x j) i = Some x -> nth_error (jc_y j) i = Some y -> neqb x (o_e o / ue)%num = true ->
      let raw := (o_jz o / uz / y)%num in
      nth_error (jc_eps j) k = Some (if nlt n1 raw || nlt raw nm1 then nnan else raw) /\
      (y = nabs (o_jz o / uz)%num -> nisnan y = false -> neqb y n0 = false ->
       exists e, nth_error (jc_eps j) k = Some e /\
         if nlt n0 (o_jz o / uz)%num then neqb e n1 = true else neqb e nm1 = true).
Proof. exact c74_node. Qed.
Print Assumptions C74_node.

(** C74: the same in terms of the outputs, in binary64 with the default bins. *)
Theorem C74_default : forall sm argsort (g : galaxy (F64s sm)) j k i e z x y,
  constructible g -> sorting argsort -> jcirc argsort g default_bin0 default_bin1 = Ok j ->
  nth_error (jc_E j) k = Some e -> nth_error (jc_Jz j) k = Some z ->
  nth_error (jc_x j) i = Some x -> nth_error (jc_y j) i = Some y -> neqb x e = true ->
  nth_error (jc_eps j) k = Some (z / y)%num /\
  (y = nabs z -> nisnan y = false -> neqb y n0 = false ->
   if nlt n0 z then neqb (z / y)%num n1 = true else neqb (z / y)%num nm1 = true).
Proof. exact c74_default. Qed.
Print Assumptions C74_default.

(** The third star makes the second point of the curve and moves backwards. *)
Example EX_C74 : edges_check (N:=F64) default_bin0 default_bin1 = true /\ sorting (@asort F64) /\
  exists (g : galaxy F64) j e z x y, constructible g /\ jcirc asort g default_bin0 default_bin1 = Ok j /\
  nth_error (jc_E j) 2 = Some e /\ nth_error (jc_Jz j) 2 = Some z /\
  nth_error (jc_x j) 1 = Some x /\ nth_error (jc_y j) 1 = Some y /\ neqb x e = true /\
  y = nabs z /\ nisnan y = false /\ neqb y n0 = false /\ nlt n0 z = false /\ fshow (z / y)%num = sZ (-1).
Proof. exact ex_c74. Qed.
