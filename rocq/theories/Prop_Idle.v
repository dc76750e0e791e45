(** Property theorems. Bound particles that decide nothing in jcirc (C106). Proofs are in IdleThms.v. *)
From Verif Require Import Py Num RX F64 Np Df Data DataFacts DfFacts RebuildFacts Center CenterFacts Align Spec SpecR SpecCirc SpecOrder SpecIdle Ex DataThms CenterThms AlignFacts AlignThms Circ CircFacts CurveFacts CircThms OrderThms IdleThms.
From Flocq Require Import IEEE754.BinarySingleNaN.
From Coq Require Import Lra Lia Floats.SpecFloat.

(** C106: particles that decide nothing change nothing.  Adding to a galaxy without ties any unbound particles, and any
    bound ones that are not the most bound, have neither the largest |Jz| nor the largest projected angular
    momentum and are outdone in their energy bin by two particles (by one in the last bin), leaves the curve
    as it was, and every star keeps its four values to the bit. *)
Theorem C106_idle : forall (N : Num) (RN : Rounded N) as1 as2 (g g' : galaxy N) b0 b1 l0 l1 j j',
  constructible g -> constructible g' -> sorting as1 -> sorting as2 -> untied g ->
  arange nm1 (nlit (-1) 10) b0 = Ok l0 -> arange (nlit (-1) 10) n0 b1 = Ok l1 -> padded (l0 ++ l1) g g' ->
  jcirc as1 g b0 b1 = Ok j -> jcirc as2 g' b0 b1 = Ok j' ->
  jc_x j = jc_x j' /\ jc_y j = jc_y j' /\
  forall k k' o, nth_error (star_orbits g) k = Some o -> nth_error (star_orbits g') k' = Some o ->
    nth_error (jc_E j) k = nth_error (jc_E j') k' /\
    (bound o = true -> nth_error (jc_Jz j) k = nth_error (jc_Jz j') k') /\
    nth_error (jc_eps j) k = nth_error (jc_eps j') k' /\
    nth_error (jc_eps_r j) k = nth_error (jc_eps_r j') k'.
Proof. exact c106_idle. Qed.
Print Assumptions C106_idle.

(** C106: in particular such particles among the dark matter and the gas do not change the result at all. *)
Theorem C106_dark : forall (N : Num) (RN : Rounded N) as1 as2 (g g' : galaxy N) b0 b1 l0 l1 j,
  constructible g -> constructible g' -> sorting as1 -> sorting as2 -> untied g ->
  arange nm1 (nlit (-1) 10) b0 = Ok l0 -> arange (nlit (-1) 10) n0 b1 = Ok l1 -> padded (l0 ++ l1) g g' ->
  star_orbits g' = star_orbits g -> jcirc as1 g b0 b1 = Ok j -> jcirc as2 g' b0 b1 = Ok j.
Proof. exact c106_dark. Qed.
Print Assumptions C106_dark.

(** The particles added in [more] decide nothing: all three circularities are the same. *)
Example EX_C106 : exists (g g' : galaxy F64) l0 l1 j j', constructible g /\ constructible g' /\ sorting (@asort F64) /\ untied g /\
  arange nm1 (nlit (-1) 10) (default_bin0 : F64) = Ok l0 /\ arange (nlit (-1) 10) n0 (default_bin1 : F64) = Ok l1 /\
  padded (l0 ++ l1) g g' /\ star_orbits g' = star_orbits g /\
  jcirc asort g default_bin0 default_bin1 = Ok j /\ jcirc asort g' default_bin0 default_bin1 = Ok j' /\
  length (filter bound (all_orbits g)) = 7%nat /\ length (filter bound (all_orbits g')) = 9%nat /\ length (all_orbits g') = 10%nat /\
  existsb (fun x => nlt n0 x && nlt x n1) (jc_eps j) = true.
Proof. exact ex_c106. Qed.

(** C106: being outdone by one particle of the bin is not enough: adding a gas particle that is more loosely bound
    than others, has neither the largest |Jz| nor the largest projected angular momentum and has a smaller |Jz|
    than the only other particle of its energy bin changes the circularity of a star, because the curve
    then takes the second particle of the bin. *)
Theorem C106_second_refuted : exists (g g' : galaxy F64) l0 l1 j j' d i a ue uz,
  constructible g /\ constructible g' /\ sorting (@asort F64) /\ untied g /\
  arange nm1 (nlit (-1) 10) (default_bin0 : F64) = Ok l0 /\ arange (nlit (-1) 10) n0 (default_bin1 : F64) = Ok l1 /\
  star_orbits g' = star_orbits g /\ (exists up, units g ue uz up) /\
  filter bound (all_orbits g') = filter bound (all_orbits g) ++ [d] /\
  In a (filter bound (all_orbits g)) /\ nlt (o_e d) n0 = true /\ nlt (o_e a / ue)%num (o_e d / ue)%num = true /\
  nlt (nabs (o_jz d)) (nabs (o_jz a)) = true /\ nle (nabs (o_jp d)) (nabs (o_jp a)) = true /\
  ebin (l0 ++ l1) i (o_e d / ue)%num = true /\ ebin (l0 ++ l1) i (o_e a / ue)%num = true /\
  jcirc asort g default_bin0 default_bin1 = Ok j /\ jcirc asort g' default_bin0 default_bin1 = Ok j' /\
  exists k x y, nth_error (jc_eps j) k = Some x /\ nth_error (jc_eps j') k = Some y /\
    nfin x = true /\ nfin y = true /\ neqb x y = false.
Proof. exact c106_second_refuted. Qed.
Print Assumptions C106_second_refuted.
