(** Property theorems. Symmetries of the circularity (C73). Proofs are in SymThms.v. *)
From Verif Require Import Py Num RX F64 Np Df Data DataFacts DfFacts RebuildFacts Center CenterFacts Align Spec SpecR SpecCirc SpecSym Ex DataThms CenterThms AlignFacts AlignThms Circ CircFacts CurveFacts CircThms OrderThms SymFacts ScaleFacts SymThms.
From Flocq Require Import IEEE754.BinarySingleNaN.
From Coq Require Import Lra Lia Floats.SpecFloat.

(** C73: reversing axes of position and velocity so that each component of the angular momentum is kept or
    reversed (half turns, mirror images, reversed motion) changes nothing but the sign of Jz and eps, when
    the z component is reversed; bit for bit but for the sign of zeros. *)
Theorem C73_mirror : forall (N : Num) (RN : Rounded N) argsort w (g g' : galaxy N) b0 b1,
  constructible g -> constructible g' -> symmetric w -> reflected w g g' ->
  (forall e, jcirc argsort g b0 b1 = Raise e -> jcirc argsort g' b0 b1 = Raise e) /\
  (forall j, jcirc argsort g b0 b1 = Ok j -> exists j', jcirc argsort g' b0 b1 = Ok j' /\ same_up_to (flips w) j j').
Proof. exact c73_mirror. Qed.
Print Assumptions C73_mirror.

(** C73: particles that are not bound, stars aside, have no influence. *)
Theorem C73_unbound : forall (N : Num) (RN : Rounded N) argsort (g g' : galaxy N) b0 b1,
  constructible g -> constructible g' -> star_orbits g' = star_orbits g ->
  filter bound (all_orbits g') = filter bound (all_orbits g) ->
  jcirc argsort g' b0 b1 = jcirc argsort g b0 b1.
Proof. exact c73_unbound. Qed.
Print Assumptions C73_unbound.

(** C73: in exact arithmetic the units of position and velocity do not matter, provided the potentials are in
    the units of the square of the velocities. *)
Theorem C73_scale : forall argsort (a b : R) (g g' : galaxy RX) b0 b1,
  constructible g -> constructible g' -> (0 < a)%R -> (0 < b)%R -> rescaled a b g g' ->
  jcirc argsort g' b0 b1 = jcirc argsort g b0 b1.
Proof. exact c73_scale. Qed.
Print Assumptions C73_scale.

Example EX_C73 : symmetric back /\ flips back = true /\ symmetric mirror /\ flips mirror = false /\
  (exists (g g' : galaxy F64) j j', constructible g /\ constructible g' /\ reflected back g g' /\
    jcirc asort g default_bin0 default_bin1 = Ok j /\ jcirc asort g' default_bin0 default_bin1 = Ok j' /\
    shows (jc_eps j) = [sZ 1; sZ 1; sZ (-1); S754_nan; S754_nan] /\
    shows (jc_eps j') = [sZ (-1); sZ (-1); sZ 1; S754_nan; S754_nan]) /\
  (exists (g g' : galaxy F64) j j', constructible g /\ constructible g' /\ reflected mirror g g' /\
    jcirc asort g default_bin0 default_bin1 = Ok j /\ jcirc asort g' default_bin0 default_bin1 = Ok j' /\
    shows (jc_eps j') = [sZ 1; sZ 1; sZ (-1); S754_nan; S754_nan]).
Proof. exact ex_c73. Qed.

Example EX_C73_unbound : exists (g g' : galaxy F64) j, constructible g /\ constructible g' /\
  star_orbits g' = star_orbits g /\ filter bound (all_orbits g') = filter bound (all_orbits g) /\
  length (all_orbits g') = S (length (all_orbits g)) /\
  jcirc asort g default_bin0 default_bin1 = Ok j /\ shows (jc_eps j) = [sZ 1; sZ 1; sZ (-1); S754_nan; S754_nan].
Proof. exact ex_c73_unbound. Qed.

(** Lengths twice, velocities three times as large: the circularity of the star is still 1. *)
Example EX_C73_scale : let g := galRP [(Part 1 1 0 0 0 1 1, -2)%R] in let g' := galRP [(Part 5 2 0 0 0 3 3, -18)%R] in
  constructible g /\ constructible g' /\ rescaled 2 3 g g' /\
  exists j, jcirc asort g' n1 n1 = Ok j /\ nth_error (jc_eps j) 0 = Some (XR 1).
Proof. exact ex_c73_scale. Qed.
