(** Property theorems. Accuracy of the potential of the galaxy as given (C84). Proofs are in PotAccThms.v. *)
From Verif Require Import Py Num RX F64 Np Data Spec SpecR SpecPot Potential DataFacts DataThms PotConcFacts PotFacts CenterFacts CenterThms AlignThms PotThms Ex SpecAcc AccFacts AccThms SpecPotAcc PotAccThms.
From Flocq Require Import Core Relative.
From Coq Require Import Lra Lia Psatz Floats.SpecFloat.
Local Open Scope R_scope.

(** The float64 galaxy, the Fortran backend in float32: if no two particles are closer (in
    softened distance) than [D], no coordinate is greater than [R0] <= 2^19 D, and all is
    neither tiny nor huge, each potential is within a relative error of
    (n + 8) 2^-23 + 3 R0 / (2^22 D) of the exact softened sum of the galaxy as given. *)
Theorem C84_potential : forall sm sm' (g : galaxy (F64s sm)) (G : F32s sm') junk k s lr R0 D,
  constructible g -> g_haspot g = false ->
  val (F32_rounded sm') G = XR k -> / IZR (2 ^ 40) <= k <= IZR (2 ^ 20) ->
  (forall so, largest_softening g so -> val (F64_rounded sm) so = XR s) -> usual s ->
  Forall2 (reads (F64_rounded sm)) (sources (all_x g) (all_y g) (all_z g) (all_m g)) lr ->
  (forall q, In q lr -> 0 < pm q /\ usual (pm q) /\ forall a, In a [px q; py q; pz q] -> ordinary a /\ Rabs a <= R0) ->
  (forall i j p q, i <> j -> nth_error lr i = Some p -> nth_error lr j = Some q -> D <= sdist s p q) ->
  0 < D -> 0 <= R0 <= IZR (2 ^ 19) * D -> INR (length lr) <= IZR (2 ^ 22) ->
  exists h, potential (W:=F64s sm) (S:=F32s sm') to32 to64 (backend_table G true junk) "fortran" g = Ok h /\
    length (all_pots h) = length lr /\
    forall i p, nth_error lr i = Some p -> exists w v, nth_error (all_pots h) i = Some w /\
      val (F64_rounded sm) w = XR v /\
      Rabs (v + k * phi s p (others lr i)) <= ((INR (length lr) + 8) / IZR (2 ^ 23) + 3 * (R0 / (IZR (2 ^ 22) * D))) * (k * phi s p (others lr i)).
Proof. exact c84_potential. Qed.
Print Assumptions C84_potential.

(** Three particles at 0, 1 and 2 without softening. *)
Example EX_C84 : exists g h, galP = Ok g /\
  (forall q, In q partsP -> 0 < pm q /\ usual (pm q) /\ forall a, In a [px q; py q; pz q] -> ordinary a /\ Rabs a <= 2) /\
  (forall i j p q, i <> j -> nth_error partsP i = Some p -> nth_error partsP j = Some q -> 1 <= sdist 0 p q) /\
  potential (W:=F64) (S:=F32) to32 to64 (backend_table n1 true junk0) "fortran" g = Ok h /\ length (all_pots h) = 3%nat /\
  forall i p, nth_error partsP i = Some p -> exists w v, nth_error (all_pots h) i = Some w /\
    val (F64_rounded (seqsum 53 1024 p53 e1024)) w = XR v /\
    Rabs (v + 1 * phi 0 p (others partsP i)) <= ((3 + 8) / IZR (2 ^ 23) + 3 * (2 / (IZR (2 ^ 22) * 1))) * (1 * phi 0 p (others partsP i)).
Proof. exact ex_c84. Qed.

(** Far from the origin the conversion to single precision merges particles: two stars at
    distance 1 have the potential -1, and minus infinity when both are shifted by 2^25. *)
Theorem C84_shift_refuted : exists (t : Z) (g g' h h' : galaxy F64), constructible g /\ constructible g' /\
  shows (all_x g') = map (fun z => sZ (z + t)) [0; 1]%Z /\ shows (all_x g) = map sZ [0; 1]%Z /\
  shows (all_y g') = shows (all_y g) /\ shows (all_z g') = shows (all_z g) /\ shows (all_m g') = shows (all_m g) /\
  potential (W:=F64) (S:=F32) to32 to64 (backend_table n1 true junk0) "fortran" g = Ok h /\
  potential (W:=F64) (S:=F32) to32 to64 (backend_table n1 true junk0) "fortran" g' = Ok h' /\
  shows (all_pots h) = [sZ (-1); sZ (-1)] /\ shows (all_pots h') = [S754_infinity true; S754_infinity true].
Proof. exact c84_shift_refuted. Qed.
Print Assumptions C84_shift_refuted.
