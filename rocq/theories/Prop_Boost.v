(** Property theorems. What a uniform velocity added to all particles does to the analysis (C102). Proofs are in BoostThms.v. *)
From Verif Require Import Py Num RX F64 Np Df Data DataFacts DfFacts RebuildFacts Center CenterFacts Align Spec SpecR SpecCirc SpecPot SpecPipe SpecBase SpecFrame SpecBoost Ex DataThms CenterThms AlignFacts AlignThms Circ CircFacts CurveFacts CircThms Base BaseFacts BaseThms Threshold EpsFacts ThresholdThms OrderThms SymFacts SymThms InvThms Potential PotThms PipeThms FrameThms BoostThms.
From Coq Require Import Lra Lia.
Local Open Scope R_scope.

(** C102: the kinetic energy of a particle grows by the product of its velocity with the added one and half the square of the
    latter, its angular momentum by the product of its position with the added velocity. *)
Theorem C102_columns : forall a b c (g g' : galaxy RX), constructible g -> constructible g' -> moving a b c g g' ->
  Forall2 (fun p p' : pset RX => exists l, holds p l /\
    p_ke p = map (fun q => XR (kinr q)) l /\
    p_ke p' = map (fun q => XR (kinr q + (pvx q * a + pvy q * b + pvz q * c) + (a * a + b * b + c * c) / 2)) l /\
    p_Jx p' = map (fun q => XR (lx q + (py q * c - pz q * b))) l /\
    p_Jy p' = map (fun q => XR (ly q + (pz q * a - px q * c))) l /\
    p_Jz p' = map (fun q => XR (lz q + (px q * b - py q * a))) l) (sets g) (sets g').
Proof. exact c102_columns. Qed.
Print Assumptions C102_columns.

(** C102: centring goes through unchanged: the same error, or the centred galaxies differ by the same velocity. *)
Theorem C102_center : forall a b c (g g' : galaxy RX), constructible g -> constructible g' -> moving a b c g g' ->
  (forall e, center g = Raise e -> center g' = Raise e) /\
  (forall g1, center g = Ok g1 -> exists g1', center g' = Ok g1' /\ constructible g1' /\ moving a b c g1 g1').
Proof. exact c102_center. Qed.
Print Assumptions C102_center.

(** C102: if the centre of mass of the stars inside the cut-off is at the origin, both galaxies are turned by the same rotation,
    and the aligned galaxies differ by the turned velocity. *)
Theorem C102_align : forall a b c r (g g' : galaxy RX) ls ld lg, alignable g r ls ld lg -> balanced r ls ->
  constructible g' -> moving a b c g g' ->
  exists M h h', rotation M /\ star_align g r = Ok h /\ star_align g' r = Ok h' /\
    holds (g_stars h) (map (rotate M) ls) /\ holds (g_stars h') (map (rotate M) (map (boosted a b c) ls)) /\
    moving (m11 M * a + m12 M * b + m13 M * c) (m21 M * a + m22 M * b + m23 M * c) (m31 M * a + m32 M * b + m33 M * c) h h'.
Proof. exact c102_align. Qed.
Print Assumptions C102_align.

(** C102: the library never takes the motion of the galaxy out, and a fast one makes it useless: for every finite galaxy there is
    a speed beyond which no particle counts as bound, so that computing circularities and every decomposition on them raise
    ValueError. *)
Theorem C102_fast : forall (g : galaxy RX) ls ld lg, constructible g ->
  holds (g_stars g) ls -> holds (g_dm g) ld -> holds (g_gas g) lg ->
  exists V, forall argsort a b c (g' : galaxy RX), constructible g' -> moving a b c g g' -> V < a * a + b * b + c * c ->
    (forall o, In o (all_orbits g') -> bound o = false) /\
    (forall b0 b1, jcirc argsort g' b0 b1 = Raise ValueError) /\
    (forall cb at_, at_ <> [] -> (forall x, In x at_ -> matrix_attr x) -> (exists x, In x at_ /\ circ_attr x) ->
       attributes_matrix argsort cb g' at_ = Raise ValueError).
Proof. exact c102_fast. Qed.
Print Assumptions C102_fast.

Example EX_C102 : let ls := [Part 1 1 0 0 0 1 1; Part 1 (-1) 0 0 0 (-1) (-1)] in
  constructible (pairR 0 3 4) /\ moving 0 3 4 (pairR 0 0 0) (pairR 0 3 4) /\
  alignable (pairR 0 0 0) None ls [] [] /\ balanced None ls /\ (exists g1, center (pairR 0 0 0) = Ok g1) /\
  (forall o, In o (all_orbits (pairR 0 0 0)) -> bound o = true) /\ (exists o, In o (all_orbits (pairR 0 3 4)) /\ bound o = false).
Proof. exact ex_c102. Qed.
