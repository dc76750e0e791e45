(** Property theorems. Physical units of the arguments and of what a galaxy stores (C69, C70). Proofs are in UnitsThms.v. *)
From Verif Require Import Py Num Np Df Data Center Align Potential RX F64 Ex DataFacts Units SpecUnits UnitsFacts UnitsThms.

(** C69: a galaxy can be built exactly from arguments whose units convert to the documented ones, and
    then building it with units and from the converted plain numbers is the same, errors included. *)
Theorem C69_values : forall (N : Num) (S : system N) (kw : dict (uval N (sy_unit S))),
  (S_good S kw -> mirrors S (S_mkgalaxy S kw) (mkgalaxy (S_numbers S kw)))
  /\ (~ S_good S kw -> exists e, S_mkgalaxy S kw = Raise e).
Proof. exact c69_values. Qed.
Print Assumptions C69_values.

(** C69: centring does not depend on the units the galaxy is stored in. *)
Theorem C69_center : forall (N : Num) (S : system N) g v,
  S_values S g = Ok v -> mirrors S (S_center S g) (center v).
Proof. exact c69_center. Qed.
Print Assumptions C69_center.

(** C69: nor does the alignment. *)
Theorem C69_align : forall (N : Num) (S : system N) g v r_cut,
  S_values S g = Ok v -> mirrors S (S_star_align S g r_cut) (star_align v r_cut).
Proof. exact c69_align. Qed.
Print Assumptions C69_align.

(** C69: nor does the potential. *)
Theorem C69_potential : forall (N P : Num) (S : system N) (cast : N -> P) (lift : P -> N) table name g v,
  S_values S g = Ok v -> mirrors S (S_potential S cast lift table name g) (potential cast lift table name v).
Proof. exact c69_potential. Qed.
Print Assumptions C69_potential.

(** The galaxy reads in kpc, km/s and (km/s)^2, and centring it moves the origin to the first star. *)
Example EX_C69 :
  uviews gU = Some (map sZ [0; 5]%Z, map sZ [2; 0]%Z, Some [sQ (-13) 2; sZ (-1)], map sZ [1]%Z)
  /\ uviews (do g <- gU; S_center (toy F64) g) = Some (map sZ [0; 5]%Z, map sZ [2; 0]%Z, Some [sQ (-13) 2; sZ (-1)], map sZ [-2]%Z)
  /\ exn_of (S_mkgalaxy (toy F64) (dset kwU "y_s" (UQty (Qty (fZs [0; 5]%Z) (2, 1%Z))))) = Some ValueError.
Proof. exact ex_c69. Qed.

(** C70: what is given with a unit is stored with that unit, what is given without gets the documented one. *)
Theorem C70_stored : forall (N : Num) (S : system N) kw g,
  S_mkgalaxy S kw = Ok g ->
  forall k c, doc_unit (sy_Msun S) (sy_kpc S) (sy_kms S) (sy_kms2 S) k = Some c ->
  dget (stored g) k = stored_as c (dget kw k).
Proof. exact c70_stored. Qed.
Print Assumptions C70_stored.

(** C70: the derived attributes are in the default units, whatever the arguments are in. *)
Theorem C70_derived : forall (N : Num) (S : system N) kw g,
  S_mkgalaxy S kw = Ok g -> every (derived_in (sy_kms2 S) (sy_kpckms S)) g.
Proof. exact c70_derived. Qed.
Print Assumptions C70_derived.

(** C70: the energies and angular momenta of the galaxy are those of stars, dark matter and gas, in
    this order, of the galaxy made from the converted numbers, in (km/s)^2 and kpc km/s. *)
Theorem C70_kinetic_energy : forall (N : Num) (S : system N) kw g,
  S_mkgalaxy S kw = Ok g ->
  exists v, mkgalaxy (S_numbers S kw) = Ok v
  /\ u_kinetic_energy_ g = [Qty (p_ke (g_stars v)) (sy_kms2 S); Qty (p_ke (g_dm v)) (sy_kms2 S); Qty (p_ke (g_gas v)) (sy_kms2 S)]
  /\ (g_haspot v = false -> u_total_energy_ g = None)
  /\ (forall s d q, p_te (g_stars v) = Some s -> p_te (g_dm v) = Some d -> p_te (g_gas v) = Some q ->
       g_haspot v = true ->
       u_total_energy_ g = Some [Some (Qty s (sy_kms2 S)); Some (Qty d (sy_kms2 S)); Some (Qty q (sy_kms2 S))])
  /\ u_angular_momentum_ g
     = [[Qty (p_Jx (g_stars v)) (sy_kpckms S); Qty (p_Jy (g_stars v)) (sy_kpckms S); Qty (p_Jz (g_stars v)) (sy_kpckms S)];
        [Qty (p_Jx (g_dm v)) (sy_kpckms S); Qty (p_Jy (g_dm v)) (sy_kpckms S); Qty (p_Jz (g_dm v)) (sy_kpckms S)];
        [Qty (p_Jx (g_gas v)) (sy_kpckms S); Qty (p_Jy (g_gas v)) (sy_kpckms S); Qty (p_Jz (g_gas v)) (sy_kpckms S)]].
Proof. exact c70_kinetic_energy. Qed.
Print Assumptions C70_kinetic_energy.

(** C70: taking a galaxy apart and building it again gives the same galaxy, units included. *)
Theorem C70_round_trip : forall (N : Num) (S : system N) kw g,
  S_mkgalaxy S kw = Ok g -> S_mkgalaxy S (u_as_kwargs g) = Ok g.
Proof. exact c70_round_trip. Qed.
Print Assumptions C70_round_trip.

(** C70: centring leaves everything but the positions as stored; the new positions are in kpc. *)
Theorem C70_center : forall (N : Num) (S : system N) g h,
  S_center S g = Ok h ->
  each same_mass g h /\ each same_motion g h /\ each same_potential g h /\ each same_soft g h
  /\ every (place_in (sy_kpc S)) h.
Proof. exact c70_center. Qed.
Print Assumptions C70_center.

(** C70: aligning leaves the masses and potentials as stored; positions are in kpc and velocities in km/s. *)
Theorem C70_align : forall (N : Num) (S : system N) g h r_cut,
  S_star_align S g r_cut = Ok h ->
  each same_mass g h /\ each same_potential g h /\ each same_soft g h
  /\ every (place_in (sy_kpc S)) h /\ every (motion_in (sy_kms S)) h.
Proof. exact c70_align. Qed.
Print Assumptions C70_align.

(** C70: computing the potential leaves the matter as stored; the potential is in (km/s)^2. *)
Theorem C70_potential : forall (N P : Num) (S : system N) (cast : N -> P) (lift : P -> N) table name g h,
  S_potential S cast lift table name g = Ok h ->
  each same_mass g h /\ each same_place g h /\ each same_motion g h /\ each same_soft g h
  /\ every (potential_in (sy_kms2 S)) h.
Proof. exact c70_potential. Qed.
Print Assumptions C70_potential.

(** The galaxy above keeps its (m/s)^2 and m/s when it is centred; its y positions are then in kpc. *)
Example EX_C70 :
  match gU with
  | Ok g => match S_center (toy F64) g with
            | Ok h => (q_unit (us_y (ug_stars g)), q_unit (us_y (ug_stars h)), q_unit (us_vx (ug_stars h)),
                       option_map q_unit (us_pot (ug_stars h)))
                      = ((1, 1%Z), (1, 1000%Z), (2, 1%Z), Some (3, 1%Z))
            | Raise _ => False
            end
  | Raise _ => False
  end.
Proof. exact ex_c70. Qed.

(** C70: not vacuous. The kinetic and total energies of the same galaxy, in (km/s)^2. *)
Example EX_C70_energies :
  match gU with
  | Ok g => (map (fun q => (shows (q_val q), q_unit q)) (u_kinetic_energy_ g),
             option_map (map (option_map (fun q => (shows (q_val q), q_unit q)))) (u_total_energy_ g))
            = ([([sQ 5 2; sZ 0]%Z, (3, 1000000%Z)); ([], (3, 1000000%Z)); ([sZ 0]%Z, (3, 1000000%Z))],
               Some [Some ([sQ (-13) 2; sZ (-1)]%Z, (3, 1000000%Z)); Some ([], (3, 1000000%Z)); Some ([sZ (-2)]%Z, (3, 1000000%Z))])
  | Raise _ => False
  end.
Proof. exact ex_c70_energies. Qed.

(** C70: the documentation of [potential_energy_] says (km/s)^2; it is in the unit the potential was
    given in. *)
Theorem C70_potential_energy_refuted : exists (kw : dict (uval F64 (nat * Z))) g q l,
  S_mkgalaxy (toy F64) kw = Ok g /\ u_potential_energy_ g = Some (Some q :: l) /\ q_unit q <> sy_kms2 (toy F64).
Proof. exact c70_potential_energy_refuted. Qed.
Print Assumptions C70_potential_energy_refuted.

(** C70: the documentation lists [softening] as a Quantity in kpc; given as one it is refused, although
    the number alone is taken. *)
Theorem C70_softening_refuted : exists (kw : dict (uval F64 (nat * Z))) x,
  S_mkgalaxy (toy F64) (dset kw "softening_s" (UNumQ x (sy_kpc (toy F64)))) = Raise TypeError
  /\ exists g, S_mkgalaxy (toy F64) (dset kw "softening_s" (UNum x)) = Ok g.
Proof. exact c70_softening_refuted. Qed.
Print Assumptions C70_softening_refuted.
