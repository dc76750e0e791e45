(** Property theorems. Property lemmas about utils/_circ.py: C24 - C34. Proofs are in CircThms.v. *)
From Verif Require Import Py Num RX F64 Np Df Data DataFacts DfFacts RebuildFacts Center CenterFacts Align
  Spec SpecR SpecCirc Ex DataThms CenterThms AlignFacts AlignThms Circ CircFacts CurveFacts CircThms.
From Coq Require Import Sorted.
From Flocq Require Import Core.Raux.
From Coq Require Import Floats.SpecFloat.
Local Open Scope R_scope.
Local Open Scope R_scope.
Local Open Scope R_scope.
Local Open Scope R_scope.

(** Every circularity is NaN or in [-1,1]; a bound star keeps its normalised energy, Jz,
    Jz/Jcirc and Jp/Jcirc when Jz/Jcirc is not out of [-1,1], and gets NaN for all four
    otherwise. *)
Theorem C24_eps : forall (N : Num) (RN : Rounded N) argsort (g : galaxy N) b0 b1 j,
  constructible g -> jcirc argsort g b0 b1 = Ok j ->
  (forall w, In w (jc_eps j) -> nisnan w = true \/ (nle nm1 w = true /\ nle w n1 = true)) /\
  exists ue uz up, units g ue uz up /\
    forall k o, nth_error (star_orbits g) k = Some o -> bound o = true ->
      let jc := interp1 (combine (jc_x j) (jc_y j)) (o_e o / ue)%num in
      let raw := (o_jz o / uz / jc)%num in
      let out a := if nlt n1 raw || nlt raw nm1 then Some nnan else Some a in
      nth_error (jc_E j) k = out (o_e o / ue)%num /\
      nth_error (jc_Jz j) k = out (o_jz o / uz)%num /\
      nth_error (jc_eps j) k = out raw /\
      nth_error (jc_eps_r j) k = out (o_jp o / up / jc)%num.
Proof. exact c24_eps. Qed.
Print Assumptions C24_eps.

(** Normalised energies are NaN or in [-1,0], normalised angular momenta NaN or in [-1,1],
    rounding included. *)
Theorem C25_bounded : forall (N : Num) (RN : Rounded N) argsort (g : galaxy N) b0 b1 j,
  constructible g -> jcirc argsort g b0 b1 = Ok j ->
  (forall w, In w (jc_E j) -> nisnan w = true \/ (nle nm1 w = true /\ nle w n0 = true)) /\
  (forall w, In w (jc_Jz j) -> nisnan w = true \/ (nle nm1 w = true /\ nle w n1 = true)).
Proof. exact c25_bounded. Qed.
Print Assumptions C25_bounded.

(** A star with positive, NaN or -inf energy gets NaN energy, eps and eps_r. *)
Theorem C26_unbound : forall (N : Num) (RN : Rounded N) argsort (g : galaxy N) b0 b1 j k o,
  constructible g -> jcirc argsort g b0 b1 = Ok j -> nth_error (star_orbits g) k = Some o ->
  (nlt n0 (o_e o) = true \/ nisnan (o_e o) = true \/ neqb (o_e o) nninf = true) ->
  nth_error (jc_E j) k = Some nnan /\ nth_error (jc_eps j) k = Some nnan /\ nth_error (jc_eps_r j) k = Some nnan.
Proof. exact c26_unbound. Qed.
Print Assumptions C26_unbound.

(** Without potential, and without a bound particle, ValueError. *)
Theorem C29_errors : forall (N : Num) (RN : Rounded N) argsort (g : galaxy N) b0 b1, constructible g ->
  (g_haspot g = false -> jcirc argsort g b0 b1 = Raise ValueError) /\
  ((forall o, In o (all_orbits g) -> bound o = false) -> jcirc argsort g b0 b1 = Raise ValueError).
Proof. exact c29_errors. Qed.
Print Assumptions C29_errors.

(** When jcirc returns, the bound stars come before all the unbound ones. *)
Theorem C30_prefix : forall (N : Num) (RN : Rounded N) argsort (g : galaxy N) b0 b1 j i k oi ok,
  constructible g -> jcirc argsort g b0 b1 = Ok j -> (i <= k)%nat ->
  nth_error (star_orbits g) i = Some oi -> nth_error (star_orbits g) k = Some ok ->
  bound ok = true -> bound oi = true.
Proof. exact c30_prefix. Qed.
Print Assumptions C30_prefix.

(** With valid bins, an unbound star before a bound one makes it fail with IndexError. *)
Theorem C30_fails : forall (N : Num) (RN : Rounded N) argsort (g : galaxy N) b0 b1 l0 l1 i k oi ok,
  constructible g -> sorting argsort ->
  arange nm1 (nlit (-1) 10) b0 = Ok l0 -> arange (nlit (-1) 10) n0 b1 = Ok l1 -> l0 ++ l1 <> [] ->
  (i < k)%nat -> nth_error (star_orbits g) i = Some oi -> nth_error (star_orbits g) k = Some ok ->
  bound oi = false -> bound ok = true ->
  jcirc argsort g b0 b1 = Raise IndexError.
Proof. exact c30_fails. Qed.
Print Assumptions C30_fails.

(** With valid bins, jcirc returns exactly when there is a bound particle and no unbound
    star comes before a bound one. *)
Theorem C30_returns : forall (N : Num) (RN : Rounded N) argsort (g : galaxy N) b0 b1 l0 l1,
  constructible g -> sorting argsort ->
  arange nm1 (nlit (-1) 10) b0 = Ok l0 -> arange (nlit (-1) 10) n0 b1 = Ok l1 -> l0 ++ l1 <> [] ->
  ((exists j, jcirc argsort g b0 b1 = Ok j) <->
   (exists o, In o (all_orbits g) /\ bound o = true) /\
   (forall i k oi ok, (i < k)%nat -> nth_error (star_orbits g) i = Some oi ->
      nth_error (star_orbits g) k = Some ok -> bound ok = true -> bound oi = true)).
Proof. exact c30_returns. Qed.
Print Assumptions C30_returns.

(** One energy, eps and eps_r per star, but one Jz per bound star, so that the finiteness
    mask can be formed exactly when all stars are bound. *)
Theorem C31_lengths : forall (N : Num) (RN : Rounded N) argsort (g : galaxy N) b0 b1 j,
  constructible g -> jcirc argsort g b0 b1 = Ok j ->
  length (jc_E j) = plen (g_stars g) /\ length (jc_eps j) = plen (g_stars g) /\
  length (jc_eps_r j) = plen (g_stars g) /\
  length (jc_Jz j) = length (filter bound (star_orbits g)) /\
  (length (jc_Jz j) = length (jc_E j) <-> forall o, In o (star_orbits g) -> bound o = true) /\
  ((forall o, In o (star_orbits g) -> bound o = true) <-> exists m, jc_isfinite j = Ok m) /\
  ((exists o, In o (star_orbits g) /\ bound o = false) <-> jc_isfinite j = Raise ValueError).
Proof. exact c31_lengths. Qed.
Print Assumptions C31_lengths.

(** For any bins whose edges do not decrease and start at -1, x and y have equal non-zero
    lengths, x starts at -1, increases strictly and stays below 0. *)
Theorem C27_edges : forall (N : Num) (RN : Rounded N) argsort (g : galaxy N) b0 b1 l0 l1 j,
  constructible g -> sorting argsort ->
  arange nm1 (nlit (-1) 10) b0 = Ok l0 -> arange (nlit (-1) 10) n0 b1 = Ok l1 ->
  nth_error (l0 ++ l1) 0 = Some nm1 ->
  (forall i k a b, (i < k)%nat -> nth_error (l0 ++ l1) i = Some a -> nth_error (l0 ++ l1) k = Some b -> nle a b = true) ->
  jcirc argsort g b0 b1 = Ok j ->
  length (jc_x j) = length (jc_y j) /\ nth_error (jc_x j) 0 = Some nm1 /\
  (forall i k a b, (i < k)%nat -> nth_error (jc_x j) i = Some a -> nth_error (jc_x j) k = Some b -> nlt a b = true) /\
  (forall a, In a (jc_x j) -> nlt a n0 = true).
Proof. exact c27_edges. Qed.
Print Assumptions C27_edges.

(** In exact arithmetic this holds for every pair of positive bins, infinite ones included. *)
Theorem C27_exact : forall argsort (g : galaxy RX) (b0 b1 : RX) j,
  constructible g -> sorting argsort -> nlt n0 b0 = true -> nlt n0 b1 = true ->
  jcirc argsort g b0 b1 = Ok j ->
  length (jc_x j) = length (jc_y j) /\ nth_error (jc_x j) 0 = Some (XR (-1)) /\
  (forall i k a b, (i < k)%nat -> nth_error (jc_x j) i = Some a -> nth_error (jc_x j) k = Some b -> nlt (N:=RX) a b = true) /\
  (forall a, In a (jc_x j) -> nlt (N:=RX) a (XR 0) = true).
Proof. exact c27_exact. Qed.
Print Assumptions C27_exact.

(** In binary64 it holds for the default bins. *)
Theorem C27_default : forall sm argsort (g : galaxy (F64s sm)) j,
  constructible g -> sorting argsort -> jcirc argsort g default_bin0 default_bin1 = Ok j ->
  length (jc_x j) = length (jc_y j) /\ nth_error (jc_x j) 0 = Some nm1 /\
  (forall i k a b, (i < k)%nat -> nth_error (jc_x j) i = Some a -> nth_error (jc_x j) k = Some b -> nlt a b = true) /\
  (forall a, In a (jc_x j) -> nlt a n0 = true).
Proof. exact c27_default. Qed.
Print Assumptions C27_default.

(** The first point is (-1, |Jz|) of a particle of lowest energy.  Every other point is the
    energy and |Jz| of a bound particle of some energy bin: in the last bin one with largest
    |Jz|, in the others the one with largest |Jz| unless the next lower |Jz| is at least one
    per cent lower, in which case that one; so at most one has more. *)
Theorem C28_points : forall (N : Num) (RN : Rounded N) argsort (g : galaxy N) b0 b1 j,
  constructible g -> sorting argsort -> jcirc argsort g b0 b1 = Ok j ->
  exists ue uz up l0 l1, units g ue uz up /\
    arange nm1 (nlit (-1) 10) b0 = Ok l0 /\ arange (nlit (-1) 10) n0 b1 = Ok l1 /\
    let edges := l0 ++ l1 in
    let all := filter bound (all_orbits g) in
    let E o := (o_e o / ue)%num in
    let J o := nabs (o_jz o / uz)%num in
    (exists o, In o all /\ (forall o', In o' all -> nlt (E o') (E o) = false) /\
       nth_error (jc_x j) 0 = Some nm1 /\ nth_error (jc_y j) 0 = Some (J o)) /\
    forall k x y, nth_error (jc_x j) (S k) = Some x -> nth_error (jc_y j) (S k) = Some y ->
      exists i o, let same_bin := filter (fun o' => ebin edges i (E o')) all in
        (1 <= i <= length edges)%nat /\ In o same_bin /\ x = E o /\ y = J o /\
        (if (i <? length edges)%nat then picked J same_bin o
         else forall o', In o' same_bin -> nlt (J o) (J o') = false) /\
        (length (filter (fun o' => nlt (J o) (J o')) same_bin) <= 1)%nat.
Proof. exact c28_points. Qed.
Print Assumptions C28_points.

(** When a bound particle lies above the last edge, every populated bin contributes a point
    (unless a particle of the bin has energy exactly 0). *)
Theorem C32_full : forall (N : Num) (RN : Rounded N) argsort (g : galaxy N) b0 b1 j,
  constructible g -> sorting argsort -> jcirc argsort g b0 b1 = Ok j ->
  exists ue uz up l0 l1, units g ue uz up /\
    arange nm1 (nlit (-1) 10) b0 = Ok l0 /\ arange (nlit (-1) 10) n0 b1 = Ok l1 /\
    let edges := l0 ++ l1 in
    let all := filter bound (all_orbits g) in
    let E o := (o_e o / ue)%num in
    (exists o, In o all /\ ebin edges (length edges) (E o) = true) ->
    forall i o, (1 <= i <= length edges)%nat -> In o all -> ebin edges i (E o) = true ->
      (forall o', In o' all -> ebin edges i (E o') = true -> neqb (E o') n0 = false) ->
      exists x, In x (jc_x j) /\ ebin edges i x = true.
Proof. exact c32_full. Qed.
Print Assumptions C32_full.

(** When no bound particle lies above the last edge, with [e] empty bins below it: no point
    after the first comes from one of the last [e - 1] bins below it, populated or not; and
    if no bound particle has Jz = 0 all the other populated bins contribute. *)
Theorem C32_dropped : forall (N : Num) (RN : Rounded N) argsort (g : galaxy N) b0 b1 j,
  constructible g -> sorting argsort -> jcirc argsort g b0 b1 = Ok j ->
  exists ue uz up l0 l1, units g ue uz up /\
    arange nm1 (nlit (-1) 10) b0 = Ok l0 /\ arange (nlit (-1) 10) n0 b1 = Ok l1 /\
    let edges := l0 ++ l1 in
    let all := filter bound (all_orbits g) in
    let E o := (o_e o / ue)%num in
    let e := length (filter (fun i => negb (existsb (ebin edges i) (map E all))) (seq 1 (length edges - 1))) in
    (forall o, In o all -> ebin edges (length edges) (E o) = false) ->
    (forall k x, nth_error (jc_x j) (S k) = Some x ->
       exists i, (1 <= i)%nat /\ (i + e <= length edges)%nat /\ ebin edges i x = true) /\
    ((forall o, In o all -> neqb (nabs (o_jz o / uz)%num) n0 = false) ->
     forall i o, (1 <= i < length edges)%nat -> (i + e <= length edges)%nat -> In o all -> ebin edges i (E o) = true ->
       (forall o', In o' all -> ebin edges i (E o') = true -> neqb (E o') n0 = false) ->
       exists x, In x (jc_x j) /\ ebin edges i x = true).
Proof. exact c32_dropped. Qed.
Print Assumptions C32_dropped.

(** jcirc depends on a galaxy only through the specific energies and angular momenta of its
    particles, in order, and on which of them are stars. *)
Theorem C33_orbits : forall (N : Num) (RN : Rounded N) argsort (g g' : galaxy N) b0 b1,
  constructible g -> constructible g' ->
  star_orbits g' = star_orbits g -> all_orbits g' = all_orbits g ->
  jcirc argsort g' b0 b1 = jcirc argsort g b0 b1.
Proof. exact c33_orbits. Qed.
Print Assumptions C33_orbits.

(** jcirc does not depend on masses and softenings. *)
Theorem C33_mass : forall (N : Num) (RN : Rounded N) argsort (g g' : galaxy N) b0 b1,
  constructible g -> constructible g' ->
  Forall2 (fun p q => p_x p = p_x q /\ p_y p = p_y q /\ p_z p = p_z q /\ p_vx p = p_vx q /\ p_vy p = p_vy q /\
     p_vz p = p_vz q /\ p_pot p = p_pot q) (sets g) (sets g') ->
  jcirc argsort g b0 b1 = jcirc argsort g' b0 b1.
Proof. exact c33_mass. Qed.
Print Assumptions C33_mass.

(** In exact arithmetic a rotation about the z axis changes nothing in the result. *)
Theorem C33_rotation : forall argsort (g g' : galaxy RX) b0 b1 c s ls ld lg,
  c * c + s * s = 1 -> constructible g -> constructible g' ->
  holds (g_stars g) ls -> holds (g_dm g) ld -> holds (g_gas g) lg ->
  holds (g_stars g') (map (rotate (Rz c s)) ls) -> holds (g_dm g') (map (rotate (Rz c s)) ld) ->
  holds (g_gas g') (map (rotate (Rz c s)) lg) ->
  map (@p_pot RX) (sets g') = map (@p_pot RX) (sets g) ->
  jcirc argsort g' b0 b1 = jcirc argsort g b0 b1.
Proof. exact c33_rotation. Qed.
Print Assumptions C33_rotation.

(** For a star with finite eps = r, Jcirc = uz * jc is the interpolated curve at the star's
    energy in units of the largest |Jz| of bound particles, and r * Jcirc = Jz; eps_r is
    Jp/Jcirc times (largest |Jz|) / (largest Jp), which is Jp/Jcirc only if both largest values
    agree or Jp = 0. *)
Theorem C34_value : forall argsort (g : galaxy RX) (b0 b1 : RX) j k r,
  constructible g -> sorting argsort -> nlt n0 b0 = true -> nlt n0 b1 = true -> regular g ->
  jcirc argsort g b0 b1 = Ok j -> nth_error (jc_eps j) k = Some (XR r) ->
  exists ue uz up e jz jp jc pts o,
    units g (XR ue) (XR uz) (XR up) /\ 0 < ue /\ 0 < uz /\
    nth_error (star_orbits g) k = Some o /\ o_e o = XR e /\ o_jz o = XR jz /\ o_jp o = XR jp /\
    jc_x j = map (fun p => XR (fst p)) pts /\ jc_y j = map (fun p => XR (snd p)) pts /\
    interpolates pts (e / ue) jc /\ jc <> 0 /\
    r * (uz * jc) = jz /\ -1 <= r <= 1 /\
    (0 < up -> nth_error (jc_eps_r j) k = Some (XR (jp / (uz * jc) * (uz / up))) /\
       (jp / (uz * jc) * (uz / up) = jp / (uz * jc) <-> jp = 0 \/ uz = up)).
Proof. exact c34_value. Qed.
Print Assumptions C34_value.

(** The fourth star has Jz/Jcirc = -3/2 and the fifth is unbound: both get NaN, and Jz has
    one entry less than the rest. *)
Example EX_C24 :
  rmap jshow (do g <- sampleG; jcirc asort g default_bin0 default_bin1) =
  Ok ([sZ (-1); sQ (-1) 2; sQ (-1) 2; S754_nan; S754_nan],
      [sQ 1 5; sQ 2 5; sQ (-2) 5; S754_nan],
      [sZ 1; sZ 1; sZ (-1); S754_nan; S754_nan],
      [sQ 5 2; sZ 0; sQ 5 2; S754_nan; S754_nan],
      [sZ (-1); sQ (-1) 2; sQ (-1) 4; fshow (nlit (-501) 1000 + nlit 1 2)%num],
      [sQ 1 5; sQ 2 5; sQ 1 5; sZ 1]).
Proof. exact ex_c24. Qed.

(** All the hypotheses of C24-C28, C31 and the ones of C32 are met by this galaxy: its stars
    are bound but the last, and there is a particle in the last bin. *)
Example EX_C25 : exists (g : galaxy F64) j, constructible g /\ jcirc asort g default_bin0 default_bin1 = Ok j /\
  existsb (fun w => nlt w n0 && nlt nm1 w) (jc_E j) = true /\ existsb (fun w => nlt w n0) (jc_Jz j) = true /\
  (length (jc_Jz j) < length (jc_E j))%nat.
Proof. exact ex_c25. Qed.

Example EX_C26 : exists (g : galaxy F64) j o, constructible g /\ jcirc asort g default_bin0 default_bin1 = Ok j /\
  nth_error (star_orbits g) 4 = Some o /\ nlt n0 (o_e o) = true.
Proof. exact ex_c26. Qed.

(** With the default bins the curve of the sample has four points. *)
Example EX_C27 : sorting (@asort F64) /\ exists (g : galaxy F64) j, constructible g /\
  jcirc asort g default_bin0 default_bin1 = Ok j /\ length (jc_x j) = 4%nat.
Proof. exact ex_c27. Qed.

(** With bin0 = 0.03 the binary64 edges decrease where the two ranges meet; a particle there
    falls into two bins and the abscissae of the curve repeat. *)
Theorem C27_bins_refuted : exists (g : galaxy F64) j a b, constructible g /\ sorting (@asort F64) /\
  jcirc asort g (nlit 3 100) default_bin1 = Ok j /\
  nth_error (jc_x j) 1 = Some a /\ nth_error (jc_x j) 2 = Some b /\ neqb a b = true /\ nlt a b = false.
Proof. exact c27_bins_refuted. Qed.
Print Assumptions C27_bins_refuted.

(** In the sample the dark matter particles share the bin (-0.3, -0.25] and the one with
    |Jz| = 1 is chosen: 1 is lower than 4 by more than one per cent. *)
Example EX_C28 : let l := [XR 4; XR 1] in picked (N:=RX) (fun x => x) l (XR 1).
Proof. exact ex_c28. Qed.

(** No potential; no bound particle. *)
Example EX_C29 :
  exn_of (do s <- (zset STARS [1] [1] [0] [0] [0] [1] [0] None 0)%Z;
          do d <- (zset DARK_MATTER [] [] [] [] [] [] [] None 0)%Z;
          do q <- (zset GAS [] [] [] [] [] [] [] None 0)%Z;
          do g <- mk_galaxy s d q; jcirc asort g default_bin0 default_bin1) = Some ValueError /\
  exn_of (do g <- lineG (zl [(1,2,0,(-1,1))])%Z [] []; jcirc asort g default_bin0 default_bin1) = Some ValueError.
Proof. exact ex_c29. Qed.

(** The same two stars in both orders. *)
Example EX_C30 :
  exn_of (do g <- lineG (zl [(1,1,0,(-2,1)); (1,2,0,(-1,1))])%Z [] []; jcirc asort g default_bin0 default_bin1) = None /\
  exn_of (do g <- lineG (zl [(1,2,0,(-1,1)); (1,1,0,(-2,1))])%Z [] []; jcirc asort g default_bin0 default_bin1) = Some IndexError.
Proof. exact ex_c30. Qed.

(** A galaxy all of whose stars are bound, so that the mask exists, and one where it does not. *)
Example EX_C31 :
  rmap (fun b => b) (do g <- lineG (zl [(1,1,1,(-2,1)); (2,1,0,(-1,1)); (-3,1,0,(-1,1))])%Z [] (zl [(5,1,0,(-501,1000))])%Z;
    do j <- jcirc asort g default_bin0 default_bin1; jc_isfinite j) = Ok [true; true; false] /\
  exn_of (do g <- sampleG; do j <- jcirc asort g default_bin0 default_bin1; jc_isfinite j) = Some ValueError.
Proof. exact ex_c31. Qed.

(** Two stars on circular orbits with energies -1 and -1/2 in the units of the galaxy: the bin
    of the second one has no point on the curve, which is reduced to its first point, and the
    circularity of the second star, which is the largest possible at its energy, is NaN. *)
Theorem C32_populated_refuted : exists (g : galaxy F64) j ue uz up o l0 l1 i w, constructible g /\ sorting (@asort F64) /\
  jcirc asort g default_bin0 default_bin1 = Ok j /\ units g ue uz up /\
  arange nm1 (nlit (-1) 10) default_bin0 = Ok l0 /\ arange (nlit (-1) 10) n0 default_bin1 = Ok l1 /\
  In o (filter bound (all_orbits g)) /\ (1 <= i < length (l0 ++ l1))%nat /\ ebin (l0 ++ l1) i (o_e o / ue)%num = true /\
  (forall x, In x (jc_x j) -> ebin (l0 ++ l1) i x = false) /\
  nth_error (star_orbits g) 1 = Some o /\ nth_error (jc_eps j) 1 = Some w /\ nisnan w = true.
Proof. exact c32_populated_refuted. Qed.
Print Assumptions C32_populated_refuted.

(** Same orbits with different masses; a turn by the angle of the 3-4-5 triangle. *)
Example EX_C33 :
  let q m := Part m 1 0 0 0 1 1 in
  let r := Part 2 (3/5) (4/5) 0 (-4/5) (3/5) 1 in
  constructible (galRP [(q 2, -2)]) /\ constructible (galRP [(q 7, -2)]) /\ constructible (galRP [(r, -2)]) /\
  holds (g_stars (galRP [(q 2, -2)])) [q 2] /\ holds (g_stars (galRP [(r, -2)])) (map (rotate (Rz (3/5) (4/5))) [q 2]).
Proof. exact ex_c33. Qed.

(** Another place and another velocity, the same energy and angular momentum: (2, 0, 0) with
    velocity (0, 2, 0), and (4, 0, 0) with velocity (0, 1, 0) and a higher potential. *)
Example EX_C33_orbits :
  let g := galRP [(Part 1 2 0 0 0 2 0, -3)] in
  let g' := galRP [(Part 1 4 0 0 0 1 0, -(3/2))] in
  constructible g /\ constructible g' /\ star_orbits g' = star_orbits g /\ all_orbits g' = all_orbits g /\
  p_x (g_stars g') <> p_x (g_stars g).
Proof. exact ex_c33_orbits. Qed.

(** One star of energy -1 with Jz = Jp = 1: its circularity is 1. *)
Example EX_C34 : let g := galRP [(Part 1 1 0 0 0 1 1, -2)] in
  constructible g /\ sorting (@asort RX) /\ nlt (N:=RX) n0 n1 = true /\ regular g /\
  exists j, jcirc asort g n1 n1 = Ok j /\ nth_error (jc_eps j) 0 = Some (XR 1).
Proof. exact ex_c34. Qed.
