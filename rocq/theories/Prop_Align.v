(** Property theorems. Property lemmas about utils/_align.py: C13 - C18. Proofs are in AlignThms.v. *)
From Verif Require Import Py Num RX F64 Np Df Data DataFacts DfFacts RebuildFacts Center CenterFacts Align
  Spec SpecR Ex DataThms CenterThms AlignFacts AlignThms.
From Flocq Require Import Core.Raux.
From Coq Require Import Floats.SpecFloat.
Local Open Scope R_scope.
Local Open Scope R_scope.

(** A cut-off that is given and not positive (compares [<= 0]) is a ValueError; in every
    other case, NaN included, a galaxy is returned. *)
Theorem C13_guard : forall (N : Num) (g : galaxy N) c, constructible g ->
  (star_align g c = Raise ValueError <-> exists v, c = Some v /\ nle v n0 = true) /\
  ((exists h, star_align g c = Ok h) <-> forall v, c = Some v -> nle v n0 = false).
Proof. exact c13_guard. Qed.
Print Assumptions C13_guard.

(** One common matrix turns the positions and velocities of all three sets, nothing else
    changes, and the matrix depends only on the stars inside the cut-off: two galaxies
    that agree on those are turned by the same matrix. *)
Theorem C13_frame : forall (N : Num) (g1 g2 h1 h2 : galaxy N) c,
  constructible g1 -> constructible g2 -> near c (g_stars g1) = near c (g_stars g2) ->
  star_align g1 c = Ok h1 -> star_align g2 c = Ok h2 ->
  exists a11 a12 a13 a21 a22 a23 a31 a32 a33 : N,
    Forall2 (turned a11 a12 a13 a21 a22 a23 a31 a32 a33) (sets g1) (sets h1) /\
    Forall2 (turned a11 a12 a13 a21 a22 a23 a31 a32 a33) (sets g2) (sets h2) /\
    constructible h1 /\ g_haspot h1 = g_haspot g1.
Proof. exact c13_frame. Qed.
Print Assumptions C13_frame.

Example EX_C13 :
  exn_of (do g <- galA; star_align g (Some (fZ 0))) = Some ValueError /\
  rmap (fun h => (shows (all_x h), shows (all_y h), shows (all_z h))) (do g <- galA; star_align g (Some (fZ 5))) =
    Ok ([sZ (-1); sZ (-9); sZ (-2); sZ 0], [sZ 0; sZ (-9); sZ (-3); sZ 0], [sZ 0; sZ 9; sZ 1; sZ 1]).
Proof. exact ex_c13. Qed.

(** [star_align] succeeds and applies one proper rotation (orthogonal, determinant 1) to
    all particles of all three sets. *)
Theorem C14_rotation : forall (g : galaxy RX) c ls ld lg, alignable g c ls ld lg ->
  exists h M, star_align g c = Ok h /\ rotation M /\
    holds (g_stars h) (map (rotate M) ls) /\ holds (g_dm h) (map (rotate M) ld) /\
    holds (g_gas h) (map (rotate M) lg).
Proof. exact c14_rotation. Qed.
Print Assumptions C14_rotation.

(** Afterwards the stars inside the cut-off carry angular momentum (0, 0, |J|), they are
    the images of the stars inside before, and [is_star_aligned] says True. *)
Theorem C15_aligned : forall (g h : galaxy RX) c ls ld lg, alignable g c ls ld lg ->
  star_align g c = Ok h ->
  exists ls', holds (g_stars h) ls' /\ length ls' = length ls /\
    (forall i q q', nth_error ls i = Some q -> nth_error ls' i = Some q' -> inside c q' = inside c q) /\
    LX c ls' = 0%R /\ LY c ls' = 0%R /\ LZ c ls' = Lnorm c ls /\ (0 < LZ c ls')%R /\
    forall rtol atol, xle (XR 0) rtol -> xle (XR 0) atol -> is_star_aligned h c rtol atol = Ok true.
Proof. exact c15_aligned. Qed.
Print Assumptions C15_aligned.

(** Distances, radii, kinetic and total energies are preserved, angular momenta rotate. *)
Theorem C16_isometry : forall (g h : galaxy RX) c ls ld lg, alignable g c ls ld lg ->
  star_align g c = Ok h ->
  exists M ls' ld' lg', rotation M /\
    holds (g_stars h) ls' /\ holds (g_dm h) ld' /\ holds (g_gas h) lg' /\
    Forall2 (fun p q => p_ke p = p_ke q /\ p_te p = p_te q /\ p_pot p = p_pot q) (sets g) (sets h) /\
    let all := ls ++ ld ++ lg in let all' := ls' ++ ld' ++ lg' in
    length all' = length all /\
    (forall i j p q p' q', nth_error all i = Some p -> nth_error all j = Some q ->
       nth_error all' i = Some p' -> nth_error all' j = Some q' -> dist p' q' = dist p q) /\
    (forall i q q', nth_error all i = Some q -> nth_error all' i = Some q' ->
       rad q' = rad q /\ kinr q' = kinr q /\ pm q' = pm q /\
       lx q' = (m11 M * lx q + m12 M * ly q + m13 M * lz q)%R /\
       ly q' = (m21 M * lx q + m22 M * ly q + m23 M * lz q)%R /\
       lz q' = (m31 M * lx q + m32 M * ly q + m33 M * lz q)%R).
Proof. exact c16_isometry. Qed.
Print Assumptions C16_isometry.

Example EX_C14 : alignable (galR exA_stars [Part 1 1 2 3 4 5 6]%R []) (Some (XR 5)) exA_stars [Part 1 1 2 3 4 5 6]%R [].
Proof. exact ex_c14. Qed.

(** Whenever the x and y angular momenta of the stars inside the cut-off compare equal to
    zero -- in particular for a galaxy that is already aligned, and when there is no star
    inside -- the x and y components of all positions and velocities of all particles
    become NaN.  (For every rounded number system.) *)
Theorem C17_nan : forall (N : Num), Rounded N -> forall (g h : galaxy N) c, constructible g ->
  neqb (nsum (map (fun s => s_m s * s_jx s)%num (near c (g_stars g)))) n0 = true ->
  neqb (nsum (map (fun s => s_m s * s_jy s)%num (near c (g_stars g)))) n0 = true ->
  star_align g c = Ok h ->
  Forall (fun p => (forall v, In v (p_x p) -> v = nnan) /\ (forall v, In v (p_y p) -> v = nnan) /\
                   (forall v, In v (p_vx p) -> v = nnan) /\ (forall v, In v (p_vy p) -> v = nnan)) (sets h).
Proof. exact c17_nan. Qed.
Print Assumptions C17_nan.

(** In exact arithmetic aligning twice always destroys the x and y components: the galaxy
    returned by a successful alignment is one that the next alignment turns into NaN. *)
Theorem C17_twice : forall (g h k : galaxy RX) c ls ld lg, alignable g c ls ld lg ->
  star_align g c = Ok h -> star_align h c = Ok k ->
  is_star_aligned h c (XR 0) (XR 0) = Ok true /\
  Forall (fun p : pset RX => (forall v, In v (p_x p) -> v = XNaN) /\ (forall v, In v (p_y p) -> v = XNaN) /\
                   (forall v, In v (p_vx p) -> v = XNaN) /\ (forall v, In v (p_vy p) -> v = XNaN)) (sets k).
Proof. exact c17_twice. Qed.
Print Assumptions C17_twice.

(** Corollary in binary64 (any summation order that sums nothing to zero): no star inside
    the cut-off, e.g. a NaN cut-off or a galaxy without stars. *)
Theorem C17_no_star : forall sm : list f64 -> f64, sm [] = nofZ (N:=F64) 0 ->
  forall (g h : galaxy (F64s sm)) c, constructible g -> near c (g_stars g) = [] ->
  star_align g c = Ok h ->
  Forall (fun p => (forall v, In v (p_x p) -> v = nnan) /\ (forall v, In v (p_y p) -> v = nnan) /\
                   (forall v, In v (p_vx p) -> v = nnan) /\ (forall v, In v (p_vy p) -> v = nnan)) (sets h).
Proof. exact c17_no_star. Qed.
Print Assumptions C17_no_star.

(** A NaN cut-off passes the guard and selects no star. *)
Example EX_C17_nan_cut :
  rmap (fun h => (shows (all_x h), shows (all_y h))) (do g <- galA; star_align g (Some nnan)) =
    Ok (repeat S754_nan 4, repeat S754_nan 4) /\
  rmap (fun g => length (near (Some nnan) (g_stars g))) galA = Ok 0%nat.
Proof. exact ex_c17_nan_cut. Qed.

(** Aligning the aligned galaxy of [ex_c13] once more. *)
Example EX_C17_twice :
  (do g <- galA; do h <- star_align g (Some (fZ 5)); is_star_aligned h (Some (fZ 5)) (fZ 0) (fZ 0)) = Ok true /\
  rmap (fun h => (shows (all_x h), shows (all_y h), shows (all_z h)))
    (do g <- galA; do h <- star_align g (Some (fZ 5)); star_align h (Some (fZ 5))) =
    Ok (repeat S754_nan 4, repeat S754_nan 4, [sZ 0; sZ 9; sZ 1; sZ 1]).
Proof. exact ex_c17_twice. Qed.

(** Over the reals [is_star_aligned] compares Jz with |J| as [np.isclose] does. *)
Theorem C18_meaning : forall (g : galaxy RX) c ls (rtol atol : R), constructible g ->
  holds (g_stars g) ls ->
  exists b, is_star_aligned g c (XR rtol) (XR atol) = Ok b /\
    (b = true <-> (Rabs (LZ c ls - Lnorm c ls) <= atol + rtol * Lnorm c ls)%R).
Proof. exact c18_meaning. Qed.
Print Assumptions C18_meaning.

(** With zero tolerances: J points along +z (or vanishes). *)
Theorem C18_exact : forall (g : galaxy RX) c ls, constructible g -> holds (g_stars g) ls ->
  is_star_aligned g c (XR 0) (XR 0) = Ok true <->
  (LX c ls = 0 /\ LY c ls = 0 /\ 0 <= LZ c ls)%R.
Proof. exact c18_exact. Qed.
Print Assumptions C18_exact.

(** A galaxy whose J has no positive z component is accepted only if |J| itself is within
    the tolerance. *)
Theorem C18_no_negative : forall (g : galaxy RX) c ls (rtol atol : R), constructible g ->
  holds (g_stars g) ls -> (LZ c ls <= 0)%R ->
  is_star_aligned g c (XR rtol) (XR atol) = Ok true ->
  (Lnorm c ls + Rabs (LZ c ls) <= atol + rtol * Lnorm c ls)%R.
Proof. exact c18_no_negative. Qed.
Print Assumptions C18_no_negative.

(** Both answers occur. *)
Example EX_C18 :
  (do g <- galA; is_star_aligned g None (nlit 1 100000) (nlit 1 100000000)) = Ok false /\
  (do g <- galA; do h <- star_align g None; is_star_aligned h None (nlit 1 100000) (nlit 1 100000000)) = Ok true.
Proof. exact ex_c18. Qed.

Example EX_C18_exact :
  constructible (galR [Part 1 1 0 0 0 1 0]%R [] []) /\
  holds (g_stars (galR [Part 1 1 0 0 0 1 0]%R [] [])) [Part 1 1 0 0 0 1 0]%R /\
  (LX None [Part 1 1 0 0 0 1 0] = 0 /\ LY None [Part 1 1 0 0 0 1 0] = 0 /\ LZ None [Part 1 1 0 0 0 1 0] = 1)%R.
Proof. exact ex_c18_exact. Qed.
