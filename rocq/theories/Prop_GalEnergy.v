(** Property theorems. Energies of a whole galaxy (C92). Proofs are in GalEnergyThms.v. *)
From Verif Require Import Py Num RX F64 Np Df Data DataFacts DfFacts Center CenterFacts Align Spec SpecR SpecPot Ex DataThms CenterThms AlignFacts AlignThms Potential RebuildFacts PotFacts PotThms SpecGalEnergy GalEnergyThms.

(** [kinetic_energy_], [potential_energy_] and [total_energy_] of a galaxy: one array per particle
    set, in the order stars, dark matter, gas, with one entry per particle; the last two exist
    exactly when the galaxy has a potential. *)
Theorem C92_tuples : forall (N : Num) (g : galaxy N), constructible g ->
  (forall k p, nth_error (sets g) k = Some p -> exists ke, nth_error (listed (kinetic_energy_ g)) k = Some ke /\
     length ke = plen p /\
     forall i vx vy vz, nth_error (p_vx p) i = Some vx -> nth_error (p_vy p) i = Some vy -> nth_error (p_vz p) i = Some vz ->
       nth_error ke i = Some (nlit 1 2 * (vx * vx + vy * vy + vz * vz))%num) /\
  (g_haspot g = false -> potential_energy_ g = None /\ total_energy_ g = None) /\
  (g_haspot g = true -> exists P T, potential_energy_ g = Some P /\ total_energy_ g = Some T /\
     forall k p, nth_error (sets g) k = Some p -> exists ke pot te,
       nth_error (listed (kinetic_energy_ g)) k = Some ke /\
       nth_error (listed P) k = Some (Some pot) /\ nth_error (listed T) k = Some (Some te) /\ p_pot p = Some pot /\
       length pot = plen p /\ length te = plen p /\
       forall i e u, nth_error ke i = Some e -> nth_error pot i = Some u -> nth_error te i = Some (e + u)%num).
Proof. exact c92_tuples. Qed.
Print Assumptions C92_tuples.

(** The columns of the data frame of the whole galaxy are these arrays one after the other. *)
Theorem C92_frame : forall (N : Num) (g : galaxy N) a d, constructible g -> to_df g PTNone a = Ok d ->
  (In "kinetic_energy"%string (requested a) ->
     dget (cols d) "kinetic_energy" = Some (map CNum (concat (listed (kinetic_energy_ g))))) /\
  (In "total_energy"%string (requested a) -> forall t1 t2 t3, total_energy_ g = Some (Some t1, Some t2, Some t3) ->
     dget (cols d) "total_energy" = Some (map CNum (t1 ++ t2 ++ t3))) /\
  (In "total_energy"%string (requested a) -> total_energy_ g = None ->
     dget (cols d) "total_energy" = Some (repeat (CNum nnan) (glen g))).
Proof. exact c92_frame. Qed.
Print Assumptions C92_frame.

(** Centring leaves all of them as they are, bit for bit. *)
Theorem C92_center : forall (N : Num) (RN : Rounded N) (g h : galaxy N), constructible g -> center g = Ok h ->
  kinetic_energy_ h = kinetic_energy_ g /\ potential_energy_ h = potential_energy_ g /\ total_energy_ h = total_energy_ g.
Proof. exact c92_center. Qed.
Print Assumptions C92_center.

(** Computing the potential keeps the kinetic energies ... *)
Theorem C92_potential : forall (W S : Num), Rounded W -> forall (cast : W -> S) (lift : S -> W) table name (g h : galaxy W),
  constructible g -> potential cast lift table name g = Ok h ->
  kinetic_energy_ h = kinetic_energy_ g /\ potential_energy_ g = None /\ exists P, potential_energy_ h = Some P.
Proof. exact c92_potential. Qed.
Print Assumptions C92_potential.

(** ... and in exact arithmetic the potentials, weighted with the masses, add up to minus twice
    G times the sum over all pairs of particles. *)
Theorem C92_pairs : forall G junk (g : galaxy RX) l s, bare g l -> largest_softening g (XR s) -> apart s l ->
  exists h vs, exact_potential G junk "fortran" g = Ok h /\ all_pots h = map XR vs /\ length vs = length l /\
    weighted l vs = (- 2 * G * pair_energy s l)%R.
Proof. exact c92_pairs. Qed.
Print Assumptions C92_pairs.

Example EX_C92 : (exists g, gal3 (Some (-5)%Z) (Some (-9)%Z) (Some (-3)%Z) = Ok g /\
    map shows (listed (kinetic_energy_ g)) = [[sZ 31]; [sQ 65 2]; [sZ 35]] /\
    option_map (fun t => map (option_map shows) (listed t)) (potential_energy_ g) = Some [Some [sZ (-5)]; Some [sZ (-9)]; Some [sZ (-3)]] /\
    option_map (fun t => map (option_map shows) (listed t)) (total_energy_ g) = Some [Some [sZ 26]; Some [sQ 47 2]; Some [sZ 32]]) /\
  (exists h vs, exact_potential 1 (fun _ _ => XNaN) "fortran" galP3 = Ok h /\ all_pots h = map XR vs /\
    weighted exP vs = (- (98 / 15))%R).
Proof. exact ex_c92. Qed.
