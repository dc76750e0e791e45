(** Property theorems. Decomposing a centred and aligned galaxy does not depend on the frame of reference (C76). Proofs are in FrameThms.v. *)
From Verif Require Import Py Num RX F64 Np Df Data DataFacts DfFacts RebuildFacts Center CenterFacts Align Spec SpecR SpecCirc SpecPot SpecPipe SpecBase SpecFrame Ex DataThms CenterThms AlignFacts AlignThms Circ CircFacts CurveFacts CircThms Base BaseFacts BaseThms Threshold EpsFacts ThresholdThms OrderThms SymFacts SymThms InvThms Potential PotConcFacts PotThms PipeThms FrameThms.
From Flocq Require Import IEEE754.BinarySingleNaN.
From Coq Require Import Lra Lia Floats.SpecFloat.
Local Open Scope R_scope.

(** C76: aligning a galaxy and its image under a rotation or reflection gives galaxies with the same result of
    [jcirc]. *)
Theorem C76_align : forall argsort A r (g g' h h' : galaxy RX) b0 b1 ls ld lg,
  orthogonal A -> alignable g r ls ld lg -> alignable g' r (map (rotate A) ls) (map (rotate A) ld) (map (rotate A) lg) ->
  map (@p_pot RX) (sets g') = map (@p_pot RX) (sets g) ->
  star_align g r = Ok h -> star_align g' r = Ok h' ->
  jcirc argsort h' b0 b1 = jcirc argsort h b0 b1.
Proof. exact c76_align. Qed.
Print Assumptions C76_align.

(** C76: centring, aligning and decomposing by circularities gives the same result, state of the generator
    included, whatever the axes (a left-handed system included) and the origin the galaxy was given in. *)
Theorem C76_frame : forall argsort St (D : decomposer RX St) st A a b c r (g g' g1 g1' : galaxy RX) ls ld lg ls' ld' lg',
  orthogonal A -> constructible g -> constructible g' -> seen_from A a b c g g' ->
  (forall a, In a (d_attributes D) -> circ_attr a) ->
  center g = Ok g1 -> center g' = Ok g1' -> alignable g1 r ls ld lg -> alignable g1' r ls' ld' lg' ->
  exists h h', star_align g1 r = Ok h /\ star_align g1' r = Ok h' /\ decompose argsort D st h' = decompose argsort D st h.
Proof. exact c76_frame. Qed.
Print Assumptions C76_frame.

(** C76: nor does it matter when the potential is computed by the library: it is the same in both frames. *)
Theorem C76_potential : forall G junk junk' A a b c s (g g' : galaxy RX) ls ld lg,
  orthogonal A -> constructible g -> constructible g' -> g_haspot g = false -> g_haspot g' = false ->
  holds (g_stars g) ls -> holds (g_dm g) ld -> holds (g_gas g) lg ->
  holds (g_stars g') (map (rigid A a b c) ls) -> holds (g_dm g') (map (rigid A a b c) ld) -> holds (g_gas g') (map (rigid A a b c) lg) ->
  largest_softening g (XR s) -> largest_softening g' (XR s) -> apart s (ls ++ ld ++ lg) ->
  exists k k', exact_potential G junk "fortran" g = Ok k /\ exact_potential G junk' "fortran" g' = Ok k' /\
    constructible k /\ constructible k' /\ seen_from A a b c k k'.
Proof. exact c76_potential. Qed.
Print Assumptions C76_potential.

Example EX_C76 : let g := galRP [(Part 1 5 5 5 0 0 0, -9); (Part 1 6 5 5 0 1 2, -3)] in
  let g' := galRP [(Part 1 6 5 5 0 0 0, -9); (Part 1 7 5 5 0 2 1, -3)] in
  orthogonal swap /\ ~ rotation swap /\ constructible g /\ constructible g' /\ seen_from swap 1 0 0 g g' /\
  exists g1 g1' ls ls', center g = Ok g1 /\ center g' = Ok g1' /\ alignable g1 None ls [] [] /\ alignable g1' None ls' [] [].
Proof. exact ex_c76. Qed.

Example EX_C76_potential : let ls := exA_stars in let ld := [Part 1 1 2 3 4 5 6] in
  let g := galR ls ld [] in let g' := galR (map (rigid turned_axes 7 8 9) ls) (map (rigid turned_axes 7 8 9) ld) [] in
  orthogonal turned_axes /\ constructible g /\ constructible g' /\ g_haspot g = false /\ g_haspot g' = false /\
  holds (g_stars g) ls /\ holds (g_dm g) ld /\ holds (g_gas g) [] /\
  holds (g_stars g') (map (rigid turned_axes 7 8 9) ls) /\ holds (g_dm g') (map (rigid turned_axes 7 8 9) ld) /\
  holds (g_gas g') (map (rigid turned_axes 7 8 9) []) /\
  largest_softening g (XR 0) /\ largest_softening g' (XR 0) /\ apart 0 (ls ++ ld ++ []).
Proof. exact ex_c76_potential. Qed.

(** C76: it does depend on the motion of the frame: [center] moves the origin of the positions only, so that a galaxy
    whose particles all move faster by (0, 1, 0) is decomposed differently. *)
Theorem C76_motion_refuted : exists (g g' g1 g1' h h' : galaxy F64) c c', constructible g /\ constructible g' /\
  Forall2 (fun p q : pset F64 => p_m q = p_m p /\ p_x q = p_x p /\ p_y q = p_y p /\ p_z q = p_z p /\ p_vx q = p_vx p /\
     p_vy q = map (nadd (nofZ 1)) (p_vy p) /\ p_vz q = p_vz p /\ p_pot q = p_pot p) (sets g) (sets g') /\
  center g = Ok g1 /\ center g' = Ok g1' /\ star_align g1 None = Ok h /\ star_align g1' None = Ok h' /\
  decompose asort thr tt h = Ok (c, tt) /\ decompose asort thr tt h' = Ok (c', tt) /\
  option_map fshow (nth_error (c_labels c) 2) = Some (sZ 1) /\ option_map fshow (nth_error (c_labels c') 2) = Some (sZ 0).
Proof. exact c76_motion_refuted. Qed.
Print Assumptions C76_motion_refuted.
