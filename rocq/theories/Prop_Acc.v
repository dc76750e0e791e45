(** Property theorems. Accuracy of the single-precision potential (C63). Proofs are in AccThms.v. *)
From Verif Require Import Py Num RX F64 Np Data Spec SpecR SpecPot Potential DataFacts DataThms PotConcFacts PotFacts CenterFacts CenterThms AlignThms PotThms Ex SpecAcc AccFacts AccThms.
From Coq Require Import Lra Lia.
Local Open Scope R_scope.

(** In any arithmetic that rounds with relative error at most [u], for tame inputs, the value
    the Fortran loop computes for a particle, times G, has a relative error of at
    most 2 (n + 5) u, where n is the number of particles. *)
Theorem C63_pair_sum : forall (S : Num) (RS : Rounded S) u, standard RS u -> 0 <= u <= / IZR (2 ^ 24) ->
  forall soft s G g (l : list source) lr i p pr, val RS soft = XR s -> val RS G = XR g ->
  / IZR (2 ^ 40) <= g <= IZR (2 ^ 20) -> Forall2 (reads RS) l lr -> tame s lr ->
  nth_error l i = Some p -> nth_error lr i = Some pr ->
  exists v, val RS (nmul (pair_sum soft l i p) G) = XR v /\
    Rabs (v - g * phi s pr (others lr i)) <= 2 * (INR (length l) + 5) * u * (g * phi s pr (others lr i)).
Proof. exact c63_pair_sum. Qed.
Print Assumptions C63_pair_sum.

(** The conversions between float64 and float32: to float32 is rounding to nearest, to
    float64 keeps the value. *)
Theorem C63_casts : forall sm sm' (x : F64s sm) (y : F32s sm'),
  val (F32_rounded sm') (to32 x) = rnd (F32_rounded sm') (val (F64_rounded sm) x) /\
  val (F64_rounded sm) (to64 y) = val (F32_rounded sm') y.
Proof. exact c63_casts. Qed.
Print Assumptions C63_casts.

(** The float64 galaxy, the Fortran backend in float32: when the float32 positions, masses
    and softening are tame, [potential] succeeds and each potential is within a relative
    error of (n + 5) 2^-23 of the exact one of the float32 inputs. *)
Theorem C63_potential : forall sm sm' (g : galaxy (F64s sm)) (G : F32s sm') junk k s lr,
  constructible g -> g_haspot g = false ->
  val (F32_rounded sm') G = XR k -> / IZR (2 ^ 40) <= k <= IZR (2 ^ 20) ->
  (forall so, largest_softening g so -> val (F32_rounded sm') (to32 so) = XR s) ->
  Forall2 (reads (F32_rounded sm'))
    (sources (S:=F32s sm') (map to32 (all_x g)) (map to32 (all_y g)) (map to32 (all_z g)) (map to32 (all_m g))) lr ->
  tame s lr ->
  exists h, potential (W:=F64s sm) (S:=F32s sm') to32 to64 (backend_table G true junk) "fortran" g = Ok h /\
    length (all_pots h) = length lr /\
    forall i p, nth_error lr i = Some p -> exists w v, nth_error (all_pots h) i = Some w /\
      val (F64_rounded sm) w = XR v /\
      Rabs (v + k * phi s p (others lr i)) <= (INR (length lr) + 5) * / IZR (2 ^ 23) * (k * phi s p (others lr i)).
Proof. exact c63_potential. Qed.
Print Assumptions C63_potential.

(** That galaxy in float64, its potential in float32 with G = 1. *)
Example EX_C63 : exists g h, galP = Ok g /\
  potential (W:=F64) (S:=F32) to32 to64 (backend_table n1 true junk0) "fortran" g = Ok h /\
  length (all_pots h) = 3%nat /\
  forall i p, nth_error partsP i = Some p -> exists w v, nth_error (all_pots h) i = Some w /\
    val (F64_rounded (seqsum 53 1024 p53 e1024)) w = XR v /\
    Rabs (v + 1 * phi 0 p (others partsP i)) <= (3 + 5) * / IZR (2 ^ 23) * (1 * phi 0 p (others partsP i)).
Proof. exact ex_c63. Qed.

(** Kinetic energy, angular momentum and total energy of a particle, in any arithmetic with
    relative error at most [u], for moderate positions and velocities. The energy of motion
    is accurate relative to itself; the components of the angular momentum and the total
    energy, where terms may cancel, relative to the size of the terms. *)
Theorem C64_derived : forall (S : Num) (RS : Rounded S) u, standard RS u -> 0 <= u <= / IZR (2 ^ 24) ->
  forall (p : pset S) i x y z vx vy vz q, constructible_set p ->
  nth_error (p_x p) i = Some x -> nth_error (p_y p) i = Some y -> nth_error (p_z p) i = Some z ->
  nth_error (p_vx p) i = Some vx -> nth_error (p_vy p) i = Some vy -> nth_error (p_vz p) i = Some vz ->
  val RS x = XR (px q) -> val RS y = XR (py q) -> val RS z = XR (pz q) ->
  val RS vx = XR (pvx q) -> val RS vy = XR (pvy q) -> val RS vz = XR (pvz q) ->
  Forall moderate [px q; py q; pz q; pvx q; pvy q; pvz q] ->
  let speed2 := pvx q * pvx q + pvy q * pvy q + pvz q * pvz q in
  let shown l r e := exists v r', nth_error l i = Some v /\ val RS v = XR r' /\ Rabs (r' - r) <= e in
  let cross a d b c := 4 * u * (Rabs (a * d) + Rabs (b * c)) + / IZR (2 ^ 124) in
  shown (p_ke p) (/ 2 * speed2) (10 * u * (/ 2 * speed2)) /\
  shown (p_Jx p) (py q * pvz q - pz q * pvy q) (cross (py q) (pvz q) (pz q) (pvy q)) /\
  shown (p_Jy p) (pz q * pvx q - px q * pvz q) (cross (pz q) (pvx q) (px q) (pvz q)) /\
  shown (p_Jz p) (px q * pvy q - py q * pvx q) (cross (px q) (pvy q) (py q) (pvx q)) /\
  (forall pot w r, p_pot p = Some pot -> nth_error pot i = Some w -> val RS w = XR r -> Rabs r <= IZR (2 ^ 100) ->
    exists te, p_te p = Some te /\
      shown te (/ 2 * speed2 + r) (12 * u * (/ 2 * speed2 + Rabs r) + / IZR (2 ^ 124))).
Proof. exact c64_derived. Qed.
Print Assumptions C64_derived.

(** float32 and float64 have relative errors of at most 2^-24 and 2^-53, whatever the order
    in which np.sum adds. *)
Theorem C64_formats : forall sm sm',
  standard (F32_rounded sm) (/ IZR (2 ^ 24)) /\ standard (F64_rounded sm') (/ IZR (2 ^ 53)) /\
  0 <= / IZR (2 ^ 53) <= / IZR (2 ^ 24).
Proof. exact c64_formats. Qed.
Print Assumptions C64_formats.

(** One star at (1, 2, 3) with velocity (4, 5, 6) and potential -7. *)
Example EX_C64 : exists p, zset STARS [1]%Z [1]%Z [2]%Z [3]%Z [4]%Z [5]%Z [6]%Z (Some [-7])%Z 0 = Ok p /\
  let shown l r e := exists v r', nth_error l 0 = Some v /\ val (F64_rounded (seqsum 53 1024 p53 e1024)) v = XR r' /\ Rabs (r' - r) <= e in
  shown (p_ke p) (77 / 2) (/ IZR (2 ^ 44)) /\ shown (p_Jz p) (-3) (/ IZR (2 ^ 44)) /\
  exists te, p_te p = Some te /\ shown te (63 / 2) (/ IZR (2 ^ 43)).
Proof. exact ex_c64. Qed.
