(** Property theorems. The reference programs under resource/ (C89). Proofs are in ResourceThms.v. *)
From Verif Require Import Py Num RX F64 Np Df Data DataFacts Spec SpecR SpecPot SpecAcc SpecPotAcc Ex DataThms CenterFacts CenterThms AlignThms Potential PotConc PotConcFacts PotFacts PotThms AccFacts AccThms PotAccThms Resource SpecResource ResourceFacts ResourceThms.
From Coq Require Import Lia Lra Reals Permutation.
Local Open Scope R_scope.

(** What potential_test.f90 writes: for every particle, in order, G times the softened sum over
    the others. *)
Theorem C89_test : forall (S : Num) (G eps : S) bs,
  length (test_program G eps bs) = length bs /\
  forall i b, nth_error bs i = Some b ->
    nth_error (test_program G eps bs) i = Some (pair_sum eps (map source_of bs) i (source_of b) * G)%num.
Proof. exact c89_test. Qed.
Print Assumptions C89_test.

(** potential.f90, which knows no softening, computes bit for bit the same as with softening
    zero, in single and in double precision. *)
Theorem C89_unsoftened : 
  (forall sm (G : F32s sm) bs, old_program G bs = test_program G n0 bs) /\
  (forall sm (G : F64s sm) bs, old_program G bs = test_program G n0 bs).
Proof. exact c89_unsoftened. Qed.
Print Assumptions C89_unsoftened.

(** The parallel loop of potential.f90 and potential_TNG.f90, under every interleaving of the
    reads and writes of the shared array and whatever that held before: when all iterations are
    finished it holds the results of the sequential loop; as long as not all are finished some
    iteration can go on; and no execution has more than n (3 n + 4) steps. *)
Theorem C89_schedule : forall (S : Num) (G : S) (bs : list (body S)) (ep0 : list S) k s,
  length ep0 = length bs -> rsteps G rdist bs k (rinit bs ep0) s ->
  (rfinished s -> ep s = old_program G bs) /\
  (~ rfinished s -> exists t, rstep G rdist bs s t) /\
  (k <= length bs * (3 * length bs + 4))%nat.
Proof. exact c89_schedule. Qed.
Print Assumptions C89_schedule.

(** potential_TNG.f90: with enough lines in the files, every type gets its own particles with
    their IDs and the sums over the particles of all types; with a file too short it fails. *)
Theorem C89_tng : forall sm (G : F64s sm) n_gas n_dark n_star gas dark star,
  let enough := (n_gas = 0 \/ n_gas <= length gas)%nat /\ (n_dark <= length dark)%nat /\ (n_star <= length star)%nat in
  (enough -> exists og od os, tng_program G n_gas n_dark n_star gas dark star = Ok (og, od, os) /\
    let all := firstn n_gas gas ++ firstn n_dark dark ++ firstn n_star star in
    (og = None <-> n_gas = 0%nat) /\ (forall o, og = Some o -> lists_potentials G all 0 (firstn n_gas gas) o) /\
    lists_potentials G all n_gas (firstn n_dark dark) od /\
    lists_potentials G all (n_gas + n_dark) (firstn n_star star) os) /\
  (~ enough -> tng_program G n_gas n_dark n_star gas dark star = Raise OSError).
Proof. exact c89_tng. Qed.
Print Assumptions C89_tng.

(** The package (single precision, Fortran backend) and potential_test.f90 (double precision)
    agree, up to the constants of gravitation k and k', whatever the order of the particles. *)
Theorem C89_agree : forall sm sm' (g : galaxy (F64s sm)) (G : F32s sm') (G' eps : F64s sm) junk k k' s lr R0 D bs lr',
  constructible g -> g_haspot g = false ->
  val (F32_rounded sm') G = XR k -> / IZR (2 ^ 40) <= k <= IZR (2 ^ 20) ->
  val (F64_rounded sm) G' = XR k' -> / IZR (2 ^ 40) <= k' <= IZR (2 ^ 20) ->
  (forall so, largest_softening g so -> val (F64_rounded sm) so = XR s) -> usual s -> val (F64_rounded sm) eps = XR s ->
  Forall2 (reads (F64_rounded sm)) (sources (all_x g) (all_y g) (all_z g) (all_m g)) lr ->
  (forall q, In q lr -> 0 < pm q /\ usual (pm q) /\ forall a, In a [px q; py q; pz q] -> ordinary a /\ Rabs a <= R0) ->
  (forall i j p q, i <> j -> nth_error lr i = Some p -> nth_error lr j = Some q -> D <= sdist s p q) ->
  0 < D -> 0 <= R0 <= IZR (2 ^ 19) * D -> INR (length lr) <= IZR (2 ^ 22) ->
  Forall2 (reads (F64_rounded sm)) (map source_of bs) lr' -> tame s lr' -> Permutation lr lr' ->
  exists h, potential (W:=F64s sm) (S:=F32s sm') to32 to64 (backend_table G true junk) "fortran" g = Ok h /\
    forall i i' p, nth_error lr i = Some p -> nth_error lr' i' = Some p ->
    exists w v t y, nth_error (all_pots h) i = Some w /\ val (F64_rounded sm) w = XR v /\
      nth_error (test_program G' eps bs) i' = Some t /\ val (F64_rounded sm) t = XR y /\
      Rabs (v / k + y / k') <= ((INR (length lr) + 9) / IZR (2 ^ 23) + 3 * (R0 / (IZR (2 ^ 22) * D))) * phi s p (others lr i).
Proof. exact c89_agree. Qed.
Print Assumptions C89_agree.

Example EX_C89 : exists g h, galP = Ok g /\ Permutation partsP refP /\ tame 0 refP /\
  potential (W:=F64) (S:=F32) to32 to64 (backend_table n1 true junk0) "fortran" g = Ok h /\
  forall i i' p, nth_error partsP i = Some p -> nth_error refP i' = Some p ->
    exists w v t y, nth_error (all_pots h) i = Some w /\ val (F64_rounded (seqsum 53 1024 p53 e1024)) w = XR v /\
      nth_error (test_program n1 n0 refB) i' = Some t /\ val (F64_rounded (seqsum 53 1024 p53 e1024)) t = XR y /\
      Rabs (v / 1 + y / 1) <= ((INR 3 + 9) / IZR (2 ^ 23) + 3 * (2 / (IZR (2 ^ 22) * 1))) * phi 0 p (others partsP i).
Proof. exact ex_c89. Qed.

(** The same three particles, without dark matter, in the files of potential_TNG.f90 (IDs 7, 8
    and 9; one more star in the file than is read). *)
Example EX_C89_tng : rmap (fun r => let '(og, od, os) := r in
    (option_map (map (fun v => (fshow (fst v), fshow (snd v)))) og, map (fun v => (fshow (fst v), fshow (snd v))) od, map (fun v => (fshow (fst v), fshow (snd v))) os))
    (tng_program (n1 : F64) 1 0 2 [Row (fZ 7) (zbody 4 2)] [] [Row (fZ 8) (zbody 1 0); Row (fZ 9) (zbody 2 1); Row (fZ 6) (zbody 9 9)])
  = Ok (Some [(sZ 7, sQ 5 2)], [], [(sZ 8, sZ 4); (sZ 9, sZ 5)]) /\
  tng_program (n1 : F64) 0 1 0 [] [] [] = Raise OSError.
Proof. exact ex_c89_tng. Qed.

Example EX_C89_schedule : exists s, rsteps (n1 : F64) rdist two 16 (rinit two [fZ 77; fZ 88]) s /\ rfinished s /\ map fshow (ep s) = [sZ 2; sZ 1].
Proof. exact ex_c89_schedule. Qed.
