(** Property theorems. Accuracy of the Fortran backend with fused multiply-adds (C91). Proofs are in FmaThms.v. *)
From Verif Require Import Py Num RX F64 Np Data Spec SpecR SpecPot Potential DataFacts DataThms PotConcFacts PotFacts CenterFacts CenterThms AlignThms PotThms Ex SpecAcc SpecPotAcc AccFacts AccThms PotAccThms Fma SpecFma FmaThms.
From Flocq Require Import Core BinarySingleNaN.
From Coq Require Import Lra Lia.
Local Open Scope R_scope.

(** In any arithmetic that rounds with relative error at most [u] and any way to contract: the
    value for a particle, times G, has a relative error of at most 2 (n + 5) u. *)
Theorem C91_kernel : forall (S : Num) (RS : Rounded S) u fma, standard RS u -> 0 <= u <= / IZR (2 ^ 24) -> fused RS fma ->
  forall plan soft s G g (x y z m : list S) lr i pr, val RS soft = XR s -> val RS G = XR g ->
  / IZR (2 ^ 40) <= g <= IZR (2 ^ 20) -> Forall2 (reads RS) (sources x y z m) lr -> tame s lr -> nth_error lr i = Some pr ->
  exists t v, nth_error (contracted_kernel fma plan x y z m soft) i = Some t /\ val RS (nmul t G) = XR v /\
    Rabs (v - g * phi s pr (others lr i)) <= 2 * (INR (length lr) + 5) * u * (g * phi s pr (others lr i)).
Proof. exact c91_kernel. Qed.
Print Assumptions C91_kernel.

(** The instruction of the processor is fused in this sense. *)
Theorem C91_fma32 : forall sm, fused (F32_rounded sm) fma32.
Proof. exact c91_fma32. Qed.
Print Assumptions C91_fma32.

(** Without contractions this is the kernel of the other claims. *)
Theorem C91_plain : forall (S : Num) (G : S) fma x y z m soft,
  contracted_potential G fma (fun _ _ => Contr Plain false false) x y z m soft = fortran_potential G true x y z m soft.
Proof. exact c91_plain. Qed.
Print Assumptions C91_plain.

(** The contraction does not change what the numpy backend computes, nor the error for an unknown
    backend. *)
Theorem C91_others : forall (W S : Num) (cast : W -> S) (lift : S -> W) (G : S) fma plan junk name (g : galaxy W), name <> "fortran"%string ->
  potential cast lift (contracted_table G fma plan junk) name g = potential cast lift (backend_table G true junk) name g /\
  (name <> "numpy"%string -> g_haspot g = false -> potential cast lift (contracted_table G fma plan junk) name g = Raise KeyError).
Proof. exact c91_others. Qed.
Print Assumptions C91_others.

(** The float64 galaxy with the contracted Fortran backend in float32: as in C63, each
    potential is within a relative error of (n + 5) 2^-23 of the exact one of the float32 inputs,
    whatever products the compiler fuses. *)
Theorem C91_potential : forall sm sm' (g : galaxy (F64s sm)) (G : F32s sm') plan junk k s lr,
  constructible g -> g_haspot g = false ->
  val (F32_rounded sm') G = XR k -> / IZR (2 ^ 40) <= k <= IZR (2 ^ 20) ->
  (forall so, largest_softening g so -> val (F32_rounded sm') (to32 so) = XR s) ->
  Forall2 (reads (F32_rounded sm'))
    (sources (S:=F32s sm') (map to32 (all_x g)) (map to32 (all_y g)) (map to32 (all_z g)) (map to32 (all_m g))) lr ->
  tame s lr ->
  exists h, potential (W:=F64s sm) (S:=F32s sm') to32 to64 (contracted_table (S:=F32s sm') G fma32 plan junk) "fortran" g = Ok h /\
    length (all_pots h) = length lr /\
    forall i p, nth_error lr i = Some p -> exists w v, nth_error (all_pots h) i = Some w /\
      val (F64_rounded sm) w = XR v /\
      Rabs (v + k * phi s p (others lr i)) <= (INR (length lr) + 5) * / IZR (2 ^ 23) * (k * phi s p (others lr i)).
Proof. exact c91_potential. Qed.
Print Assumptions C91_potential.

(** ... and of the galaxy as given, in double precision, under the conditions of C84. *)
Theorem C91_given : forall sm sm' (g : galaxy (F64s sm)) (G : F32s sm') plan junk k s lr R0 D,
  constructible g -> g_haspot g = false ->
  val (F32_rounded sm') G = XR k -> / IZR (2 ^ 40) <= k <= IZR (2 ^ 20) ->
  (forall so, largest_softening g so -> val (F64_rounded sm) so = XR s) -> usual s ->
  Forall2 (reads (F64_rounded sm)) (sources (all_x g) (all_y g) (all_z g) (all_m g)) lr ->
  (forall q, In q lr -> 0 < pm q /\ usual (pm q) /\ forall a, In a [px q; py q; pz q] -> ordinary a /\ Rabs a <= R0) ->
  (forall i j p q, i <> j -> nth_error lr i = Some p -> nth_error lr j = Some q -> D <= sdist s p q) ->
  0 < D -> 0 <= R0 <= IZR (2 ^ 19) * D -> INR (length lr) <= IZR (2 ^ 22) ->
  exists h, potential (W:=F64s sm) (S:=F32s sm') to32 to64 (contracted_table (S:=F32s sm') G fma32 plan junk) "fortran" g = Ok h /\
    length (all_pots h) = length lr /\
    forall i p, nth_error lr i = Some p -> exists w v, nth_error (all_pots h) i = Some w /\
      val (F64_rounded sm) w = XR v /\
      Rabs (v + k * phi s p (others lr i)) <= ((INR (length lr) + 8) / IZR (2 ^ 23) + 3 * (R0 / (IZR (2 ^ 22) * D))) * (k * phi s p (others lr i)).
Proof. exact c91_given. Qed.
Print Assumptions C91_given.

(** Fusing does change the bits: the distance between (5725, 8910, 8826) and the origin. *)
Theorem C91_bits_refuted : exists (c : contraction) (p q : body F32),
  B2SF (cdist (S:=F32) fma32 c n0 p q) <> B2SF (cdist (S:=F32) fma32 (Contr Plain false false) n0 p q).
Proof. exact c91_bits_refuted. Qed.
Print Assumptions C91_bits_refuted.

Example EX_C91 : exists g h, galP = Ok g /\
  potential (W:=F64) (S:=F32) to32 to64 (contracted_table (S:=F32) n1 fma32 mixed junk0) "fortran" g = Ok h /\
  length (all_pots h) = 3%nat /\
  forall i p, nth_error partsP i = Some p -> exists w v, nth_error (all_pots h) i = Some w /\
    val (F64_rounded (seqsum 53 1024 p53 e1024)) w = XR v /\
    Rabs (v + 1 * phi 0 p (others partsP i)) <= (INR 3 + 5) * / IZR (2 ^ 23) * (1 * phi 0 p (others partsP i)).
Proof. exact ex_c91. Qed.
