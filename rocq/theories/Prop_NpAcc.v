(** Property theorems. Accuracy of the potential by the numpy backend (C86). Proofs are in NpAccThms.v. *)
From Verif Require Import Py Num RX F64 Np Data Spec SpecR SpecPot Potential DataFacts DataThms PotConcFacts PotFacts CenterFacts CenterThms AlignThms PotThms Ex SpecAcc AccFacts AccThms SpecPotAcc PotAccThms SpecNpAcc NpAccThms.
From Flocq Require Import Core.
From Coq Require Import Lra Lia Psatz Permutation Floats.SpecFloat.
Local Open Scope R_scope.

(** The numpy backend, when the fresh memory of the diagonal holds zeros, is as accurate as
    the Fortran one (C84), in whatever order np.sum adds. *)
Theorem C86_numpy : forall sm sm' (g : galaxy (F64s sm)) (G : F32s sm') have junk k s lr R0 D,
  (forall l, added (N:=F32s sm') l (nsum l)) -> (forall i, val (F32_rounded sm') (junk i i) = XR 0) ->
  constructible g -> g_haspot g = false ->
  val (F32_rounded sm') G = XR k -> / IZR (2 ^ 40) <= k <= IZR (2 ^ 20) ->
  (forall so, largest_softening g so -> val (F64_rounded sm) so = XR s) -> usual s ->
  Forall2 (reads (F64_rounded sm)) (sources (all_x g) (all_y g) (all_z g) (all_m g)) lr ->
  (forall q, In q lr -> 0 < pm q /\ usual (pm q) /\ forall a, In a [px q; py q; pz q] -> ordinary a /\ Rabs a <= R0) ->
  (forall i j p q, i <> j -> nth_error lr i = Some p -> nth_error lr j = Some q -> D <= sdist s p q) ->
  0 < D -> 0 <= R0 <= IZR (2 ^ 19) * D -> INR (length lr) <= IZR (2 ^ 22) ->
  exists h, potential (W:=F64s sm) (S:=F32s sm') to32 to64 (backend_table G have junk) "numpy" g = Ok h /\
    length (all_pots h) = length lr /\
    forall i p, nth_error lr i = Some p -> exists w v, nth_error (all_pots h) i = Some w /\
      val (F64_rounded sm) w = XR v /\
      Rabs (v + k * phi s p (others lr i)) <= ((INR (length lr) + 8) / IZR (2 ^ 23) + 3 * (R0 / (IZR (2 ^ 22) * D))) * (k * phi s p (others lr i)).
Proof. exact c86_numpy. Qed.
Print Assumptions C86_numpy.

(** So the two backends agree within twice that bound, and with that the potential hardly
    depends on whether the compiled module could be imported. *)
Theorem C86_backends : forall sm sm' (g : galaxy (F64s sm)) (G : F32s sm') junk k s lr R0 D,
  (forall l, added (N:=F32s sm') l (nsum l)) -> (forall i, val (F32_rounded sm') (junk i i) = XR 0) ->
  constructible g -> g_haspot g = false ->
  val (F32_rounded sm') G = XR k -> / IZR (2 ^ 40) <= k <= IZR (2 ^ 20) ->
  (forall so, largest_softening g so -> val (F64_rounded sm) so = XR s) -> usual s ->
  Forall2 (reads (F64_rounded sm)) (sources (all_x g) (all_y g) (all_z g) (all_m g)) lr ->
  (forall q, In q lr -> 0 < pm q /\ usual (pm q) /\ forall a, In a [px q; py q; pz q] -> ordinary a /\ Rabs a <= R0) ->
  (forall i j p q, i <> j -> nth_error lr i = Some p -> nth_error lr j = Some q -> D <= sdist s p q) ->
  0 < D -> 0 <= R0 <= IZR (2 ^ 19) * D -> INR (length lr) <= IZR (2 ^ 22) ->
  exists h h', potential (W:=F64s sm) (S:=F32s sm') to32 to64 (backend_table G true junk) "numpy" g = Ok h /\
    potential (W:=F64s sm) (S:=F32s sm') to32 to64 (backend_table G true junk) "fortran" g = Ok h' /\
    forall i p, nth_error lr i = Some p -> exists w w' v v', nth_error (all_pots h) i = Some w /\ nth_error (all_pots h') i = Some w' /\
      val (F64_rounded sm) w = XR v /\ val (F64_rounded sm) w' = XR v' /\
      Rabs (v - v') <= 2 * ((INR (length lr) + 8) / IZR (2 ^ 23) + 3 * (R0 / (IZR (2 ^ 22) * D))) * (k * phi s p (others lr i)).
Proof. exact c86_backends. Qed.
Print Assumptions C86_backends.

(** Three particles at 0, 1 and 2 without softening. *)
Example EX_C86 : exists g h, galP = Ok g /\ (forall l, added (N:=F32) l (nsum l)) /\ (forall i, val (F32_rounded (seqsum 24 128 p24 e128)) (junk0 i i) = XR 0) /\
  (forall q, In q partsP -> 0 < pm q /\ usual (pm q) /\ forall a, In a [px q; py q; pz q] -> ordinary a /\ Rabs a <= 2) /\
  (forall i j p q, i <> j -> nth_error partsP i = Some p -> nth_error partsP j = Some q -> 1 <= sdist 0 p q) /\
  potential (W:=F64) (S:=F32) to32 to64 (backend_table n1 false junk0) "numpy" g = Ok h /\
  length (all_pots h) = 3%nat /\
  forall i p, nth_error partsP i = Some p -> exists w v, nth_error (all_pots h) i = Some w /\
    val (F64_rounded (seqsum 53 1024 p53 e1024)) w = XR v /\
    Rabs (v + 1 * phi 0 p (others partsP i)) <= ((3 + 8) / IZR (2 ^ 23) + 3 * (2 / (IZR (2 ^ 22) * 1))) * (1 * phi 0 p (others partsP i)).
Proof. exact ex_c86. Qed.

(** Not bit for bit: the last digit depends on the order in which np.sum adds. *)
Theorem C86_order_refuted : exists (g h h' : galaxy F64), constructible g /\
  (forall l, added (N:=F32) l (nsum l)) /\ (forall l, added (N:=F32s backsum) l (nsum l)) /\
  potential (W:=F64) (S:=F32) to32 to64 (backend_table n1 true (fun _ _ => n0)) "numpy" g = Ok h /\
  potential (W:=F64) (S:=F32s backsum) to32 to64 (backend_table n1 true (fun _ _ => n0)) "numpy" g = Ok h' /\
  option_map fshow (nth_error (all_pots h) 0) = Some (sZ (- 2 ^ 24)) /\ option_map fshow (nth_error (all_pots h') 0) = Some (sZ (- (2 ^ 24 + 2))).
Proof. exact c86_order_refuted. Qed.
Print Assumptions C86_order_refuted.
