(** Property theorems. The circularity does not depend on the order of the particles (C72). Proofs are in OrderThms.v. *)
From Verif Require Import Py Num RX F64 Np Df Data DataFacts DfFacts RebuildFacts Center CenterFacts Align Spec SpecR SpecCirc SpecOrder Ex DataThms CenterThms AlignFacts AlignThms Circ CircFacts CurveFacts CircThms OrderThms.
From Flocq Require Import IEEE754.BinarySingleNaN.
From Coq Require Import Lra Lia Floats.SpecFloat.

(** C72: without ties, what [jcirc] returns depends on the bound particles only, not on their order nor
    on which of the sets holds them, nor on how the sort orders equal keys: the curve is the same, and
    a star gets the same four values wherever it stands. *)
Theorem C72_order : forall (N : Num) (RN : Rounded N) as1 as2 (g g' : galaxy N) b0 b1 j j',
  constructible g -> constructible g' -> sorting as1 -> sorting as2 ->
  untied g -> same_bound g g' -> jcirc as1 g b0 b1 = Ok j -> jcirc as2 g' b0 b1 = Ok j' ->
  jc_x j = jc_x j' /\ jc_y j = jc_y j' /\
  forall k k' o, nth_error (star_orbits g) k = Some o -> nth_error (star_orbits g') k' = Some o ->
    nth_error (jc_E j) k = nth_error (jc_E j') k' /\
    (bound o = true -> nth_error (jc_Jz j) k = nth_error (jc_Jz j') k') /\
    nth_error (jc_eps j) k = nth_error (jc_eps j') k' /\
    nth_error (jc_eps_r j) k = nth_error (jc_eps_r j') k'.
Proof. exact c72_order. Qed.
Print Assumptions C72_order.

(** C72: in particular, without ties, all sorting algorithms give the same result. *)
Theorem C72_sort : forall (N : Num) (RN : Rounded N) as1 as2 (g : galaxy N) b0 b1 j,
  constructible g -> sorting as1 -> sorting as2 -> untied g ->
  jcirc as1 g b0 b1 = Ok j -> jcirc as2 g b0 b1 = Ok j.
Proof. exact c72_sort. Qed.
Print Assumptions C72_sort.

Example EX_C72 : exists (g g' : galaxy F64) j j' o, constructible g /\ constructible g' /\ sorting (@asort F64) /\
  untied g /\ same_bound g g' /\ (1 < length (filter bound (all_orbits g)))%nat /\
  jcirc asort g default_bin0 default_bin1 = Ok j /\ jcirc asort g' default_bin0 default_bin1 = Ok j' /\
  nth_error (star_orbits g) 2 = Some o /\ nth_error (star_orbits g') 2 = Some o /\
  shows (jc_eps j) = [sZ 1; sZ 1; sZ (-1)] /\ shows (jc_eps j') = [sZ 1; S754_nan; sZ (-1)].
Proof. exact ex_c72. Qed.

(** C72: with ties the order matters: exchanging two dark matter particles of equal |Jz| changes the circularity
    of a star. *)
Theorem C72_ties_refuted : exists (g g' : galaxy F64) j j' o a b, constructible g /\ constructible g' /\ sorting (@asort F64) /\
  same_bound g g' /\
  jcirc asort g default_bin0 default_bin1 = Ok j /\ jcirc asort g' default_bin0 default_bin1 = Ok j' /\
  nth_error (star_orbits g) 2 = Some o /\ nth_error (star_orbits g') 2 = Some o /\
  nth_error (jc_eps j) 2 = Some a /\ nth_error (jc_eps j') 2 = Some b /\
  nfin a = true /\ nfin b = true /\ neqb a b = false.
Proof. exact c72_ties_refuted. Qed.
Print Assumptions C72_ties_refuted.
