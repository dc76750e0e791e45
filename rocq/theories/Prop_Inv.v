(** Property theorems. What the labels of a decomposition do not depend on (C75). Proofs are in InvThms.v. *)
From Verif Require Import Py Num RX F64 Np Df Data DataFacts DfFacts RebuildFacts Center CenterFacts Align Spec SpecR SpecCirc SpecOrder SpecSym SpecBase Ex DataThms CenterThms AlignFacts AlignThms Circ CircFacts CurveFacts CircThms Base BaseFacts BaseThms Threshold EpsFacts ThresholdThms OrderThms SymFacts SymThms InvThms.
From Flocq Require Import IEEE754.BinarySingleNaN.
From Coq Require Import Lra Lia Floats.SpecFloat.

(** C75: a decomposer whose attributes are circularities sees of a galaxy what [jcirc] returns and the sizes of
    its sets: when they are the same, so is everything it returns, state of the generator included. *)
Theorem C75_factor : forall (N : Num) argsort St (D : decomposer N St) st (g g' : galaxy N),
  (forall a, In a (d_attributes D) -> circ_attr a) ->
  map plen (sets g') = map plen (sets g) ->
  jcirc argsort g' (fst (d_cbins D)) (snd (d_cbins D)) = jcirc argsort g (fst (d_cbins D)) (snd (d_cbins D)) ->
  decompose argsort D st g' = decompose argsort D st g.
Proof. exact c75_factor. Qed.
Print Assumptions C75_factor.

(** C75: so the labels do not change with the masses and softenings, *)
Theorem C75_mass : forall (N : Num) (RN : Rounded N) argsort St (D : decomposer N St) st (g g' : galaxy N),
  constructible g -> constructible g' -> (forall a, In a (d_attributes D) -> circ_attr a) ->
  Forall2 (fun p q => p_x p = p_x q /\ p_y p = p_y q /\ p_z p = p_z q /\ p_vx p = p_vx q /\ p_vy p = p_vy q /\
     p_vz p = p_vz q /\ p_pot p = p_pot q) (sets g') (sets g) ->
  decompose argsort D st g' = decompose argsort D st g.
Proof. exact c75_mass. Qed.
Print Assumptions C75_mass.

(** C75: nor, in exact arithmetic, with the units, *)
Theorem C75_scale : forall argsort St (D : decomposer RX St) st (a b : R) (g g' : galaxy RX),
  constructible g -> constructible g' -> (forall a, In a (d_attributes D) -> circ_attr a) ->
  (0 < a)%R -> (0 < b)%R -> rescaled a b g g' ->
  decompose argsort D st g' = decompose argsort D st g.
Proof. exact c75_scale. Qed.
Print Assumptions C75_scale.

(** C75: nor, for JThreshold in any arithmetic, when axes are reversed so that Jz is kept: half turns about the z
    axis and reflections in the plane z = 0 leave every label the same, and every error. *)
Theorem C75_mirror : forall (N : Num) (RN : Rounded N) argsort junk cb (cut : N) w (g g' : galaxy N),
  constructible g -> constructible g' -> nisnan cut = false -> symmetric w -> flips w = false -> reflected w g g' ->
  decompose argsort (jthreshold junk cb cut) tt g' = decompose argsort (jthreshold junk cb cut) tt g.
Proof. exact c75_mirror. Qed.
Print Assumptions C75_mirror.

(** C75: nor, for JThreshold without ties, with the order of the particles, the set a bound particle that is not a
    star is in, and the sorting algorithm: a star gets the same label wherever it stands. *)
Theorem C75_order : forall (N : Num) (RN : Rounded N) as1 as2 junk1 junk2 cb (cut : N) (g g' : galaxy N) c c' k k' o,
  constructible g -> constructible g' -> sorting as1 -> sorting as2 -> nisnan cut = false ->
  untied g -> same_bound g g' ->
  decompose as1 (jthreshold junk1 cb cut) tt g = Ok (c, tt) -> decompose as2 (jthreshold junk2 cb cut) tt g' = Ok (c', tt) ->
  nth_error (star_orbits g) k = Some o -> nth_error (star_orbits g') k' = Some o ->
  exists w, nth_error (c_labels c) k = Some w /\ nth_error (c_labels c') k' = Some w.
Proof. exact c75_order. Qed.
Print Assumptions C75_order.

Example EX_C75 : (forall a, In a (d_attributes thr) -> circ_attr a) /\
  nisnan (nlit 3 5 : F64) = false /\ symmetric mirror /\ flips mirror = false /\
  exists (g g' g'' : galaxy F64) c, constructible g /\ constructible g' /\ constructible g'' /\ reflected mirror g g' /\
    Forall2 (fun p q => p_x p = p_x q /\ p_y p = p_y q /\ p_z p = p_z q /\ p_vx p = p_vx q /\ p_vy p = p_vy q /\
      p_vz p = p_vz q /\ p_pot p = p_pot q) (sets g'') (sets g) /\
    map (fun p => shows (p_m p)) (sets g'') <> map (fun p => shows (p_m p)) (sets g) /\
    decompose asort thr tt g = Ok (c, tt) /\ decompose asort thr tt g' = Ok (c, tt) /\ decompose asort thr tt g'' = Ok (c, tt) /\
    shows (c_labels c) = [sZ 1; sZ 1; sZ 0; S754_nan; S754_nan; S754_nan; S754_nan; S754_nan].
Proof. exact ex_c75. Qed.

(** Stars and dark matter in the opposite order: the third star keeps its label. *)
Example EX_C75_order : exists (g g' : galaxy F64) c c' o, constructible g /\ constructible g' /\ sorting (@asort F64) /\
  untied g /\ same_bound g g' /\ (1 < length (filter bound (all_orbits g)))%nat /\
  nth_error (star_orbits g) 2 = Some o /\ nth_error (star_orbits g') 2 = Some o /\
  decompose asort thr tt g = Ok (c, tt) /\ decompose asort thr tt g' = Ok (c', tt) /\
  firstn 3 (shows (c_labels c)) = [sZ 1; sZ 1; sZ 0] /\ firstn 3 (shows (c_labels c')) = [sZ 1; S754_nan; sZ 0].
Proof. exact ex_c75_order. Qed.

(** Lengths twice, velocities three times as large: the star is still in the disc. *)
Example EX_C75_scale : let g := galRP [(Part 1 1 0 0 0 1 1, -2)%R] in let g' := galRP [(Part 5 2 0 0 0 3 3, -18)%R] in
  let D := jthreshold (fun _ => 77%Z) (n1, n1) (XR (1/2) : RX) in
  constructible g /\ constructible g' /\ (forall a, In a (d_attributes D) -> circ_attr a) /\ rescaled 2 3 g g' /\
  exists c, decompose asort D tt g = Ok (c, tt) /\ decompose asort D tt g' = Ok (c, tt) /\
    nth_error (c_labels c) 0 = Some (XR 1).
Proof. exact ex_c75_scale. Qed.

(** C75: in binary64 the labels do change with the units: measuring the same positions in a unit of a third the
    size moves a star from the spheroid to the disc, its circularity having gone up by one unit in the last place. *)
Theorem C75_units_refuted : exists (g g' : galaxy F64) (cut : F64) c c',
  constructible g /\ constructible g' /\ nisnan cut = false /\
  Forall2 (fun p q : pset F64 => p_x q = map (nmul (nofZ 3)) (p_x p) /\ p_y q = map (nmul (nofZ 3)) (p_y p) /\
     p_z q = map (nmul (nofZ 3)) (p_z p) /\ p_vx q = p_vx p /\ p_vy q = p_vy p /\ p_vz q = p_vz p /\ p_pot q = p_pot p)
    (sets g) (sets g') /\
  decompose asort (jthreshold (fun _ => 77%Z) (default_bin0, default_bin1) cut) tt g = Ok (c, tt) /\
  decompose asort (jthreshold (fun _ => 77%Z) (default_bin0, default_bin1) cut) tt g' = Ok (c', tt) /\
  option_map fshow (nth_error (c_labels c) 4) = Some (sZ 0) /\ option_map fshow (nth_error (c_labels c') 4) = Some (sZ 1).
Proof. exact c75_units_refuted. Qed.
Print Assumptions C75_units_refuted.
