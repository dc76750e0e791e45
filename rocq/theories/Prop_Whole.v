(** Property theorems. Property lemmas about the whole analysis in floating point: C97. Proofs are in WholeThms.v. *)
From Verif Require Import Py Num RX F64 Np Df Data DataFacts DfFacts RebuildFacts Center CenterFacts Align Spec SpecR SpecCirc SpecAlAcc SpecBase SpecCurve SpecChain SpecFma Dgemm SpecDgemm SpecAcc SpecWhole Ex DataThms CenterThms AlignFacts AlignThms Circ CircFacts CurveFacts CircThms OrderThms AlAccFacts AlAccRot AlAccSum AlAccThms ChainFacts ChainThms DgemmThms CtrAccThms EpsAccFacts EpsAccThms EpsCutThms Base Threshold ThresholdThms PolyFacts ChoiceFacts CurveAccFacts CurveAccThms SpecPot Potential PotConcFacts PotFacts PotThms SpecPotAcc AccThms PotAccThms SpecNpAcc NpAccThms Fma FmaThms PipeThms WholeThms.
From Flocq Require Import Core BinarySingleNaN.
From Coq Require Import Lra Lia Permutation Sorted Floats.SpecFloat.
Local Open Scope R_scope.

(** A galaxy with potentials known up to a relative error [t] is centred, aligned with any matrix product
    and decomposed with JThreshold, all in double precision.  The particle of lowest potential
    becomes the centre.  Let [bodies] be the exact energies and exact angular momenta about that
    particle along the total angular momentum of the stars.  If the rounding errors are at most [d] in
    the units of the exact curve, and the exact curve is clear by a margin [m] and nowhere steeper than 1/[a], then the
    decomposition succeeds exactly if no unbound star precedes a bound one, and every star gets the
    label of the exact rule unless it is within (12 d + 2^-47)/a of a limit. *)
Theorem C97_labels : forall sm K argsort junk (cut : F64s sm) rt fma mm (g h1 : galaxy (F64s sm)) ls ld lg t ps,
  sums_well (F64_rounded sm) (/ IZR (2 ^ 53)) K -> fused (F64_rounded sm) fma -> is_matmul fma mm -> sorting argsort ->
  constructible g -> reads_set (F64_rounded sm) (g_stars g) ls -> reads_set (F64_rounded sm) (g_dm g) ld -> reads_set (F64_rounded sm) (g_gas g) lg ->
  Forall2 (pot_near (F64_rounded sm) t) (all_pots g) ps -> 0 <= t <= 1 -> (forall x, In x ps -> Rabs x <= bpow radix2 200) ->
  val (F64_rounded sm) cut = XR rt -> center g = Ok h1 ->
  exists i o, lowest g i /\ (forall i0, clearly_lowest t ps i0 -> i = i0) /\ nth_error (ls ++ ld ++ lg) i = Some o /\
    (let seen := map (seen_from o) in let u := / IZR (2 ^ 53) in let k := K (length ls) in
     let bodies := map2 (whole_body (seen ls)) (seen (ls ++ ld ++ lg)) ps in
     strong_spin u k (seen ls) -> (forall q, In q (seen ld) \/ In q (seen lg) -> SpecChain.within q) ->
     exists h2, star_align_with mm h1 None = Ok h2 /\
       forall m a d ue uz cv, 0 <= d -> 16 * d + / IZR (2 ^ 44) <= m ->
         (forall q x, In (q, x) (combine (seen (ls ++ ld ++ lg)) ps) -> resolved u k t (seen ls) d ue uz q x) ->
         exact_curve m edgesR bodies ue uz cv -> 0 < a <= 1 -> gentle a cv ->
         ((exists cs, decompose argsort (jthreshold junk (default_bin0, default_bin1) cut) tt h2 = Ok (cs, tt)) <-> bound_first (length ls) bodies) /\
         forall cs st', decompose argsort (jthreshold junk (default_bin0, default_bin1) cut) tt h2 = Ok (cs, st') ->
           forall j b, (j < length ls)%nat -> nth_error bodies j = Some b ->
           exists w, nth_error (c_labels cs) j = Some w /\ labelled ((12 * d + / IZR (2 ^ 47)) / a) rt cv ue uz b w).
Proof. exact c97_labels. Qed.
Print Assumptions C97_labels.

(** In particular with [star_align] as it is. *)
Theorem C97_plain : forall sm K argsort junk (cut : F64s sm) rt (g h1 : galaxy (F64s sm)) ls ld lg t ps,
  sums_well (F64_rounded sm) (/ IZR (2 ^ 53)) K -> sorting argsort ->
  constructible g -> reads_set (F64_rounded sm) (g_stars g) ls -> reads_set (F64_rounded sm) (g_dm g) ld -> reads_set (F64_rounded sm) (g_gas g) lg ->
  Forall2 (pot_near (F64_rounded sm) t) (all_pots g) ps -> 0 <= t <= 1 -> (forall x, In x ps -> Rabs x <= bpow radix2 200) ->
  val (F64_rounded sm) cut = XR rt -> center g = Ok h1 ->
  exists i o, lowest g i /\ (forall i0, clearly_lowest t ps i0 -> i = i0) /\ nth_error (ls ++ ld ++ lg) i = Some o /\
    (let seen := map (seen_from o) in let u := / IZR (2 ^ 53) in let k := K (length ls) in
     let bodies := map2 (whole_body (seen ls)) (seen (ls ++ ld ++ lg)) ps in
     strong_spin u k (seen ls) -> (forall q, In q (seen ld) \/ In q (seen lg) -> SpecChain.within q) ->
     exists h2, star_align h1 None = Ok h2 /\
       forall m a d ue uz cv, 0 <= d -> 16 * d + / IZR (2 ^ 44) <= m ->
         (forall q x, In (q, x) (combine (seen (ls ++ ld ++ lg)) ps) -> resolved u k t (seen ls) d ue uz q x) ->
         exact_curve m edgesR bodies ue uz cv -> 0 < a <= 1 -> gentle a cv ->
         ((exists cs, decompose argsort (jthreshold junk (default_bin0, default_bin1) cut) tt h2 = Ok (cs, tt)) <-> bound_first (length ls) bodies) /\
         forall cs st', decompose argsort (jthreshold junk (default_bin0, default_bin1) cut) tt h2 = Ok (cs, st') ->
           forall j b, (j < length ls)%nat -> nth_error bodies j = Some b ->
           exists w, nth_error (c_labels cs) j = Some w /\ labelled ((12 * d + / IZR (2 ^ 47)) / a) rt cv ue uz b w).
Proof. exact c97_plain. Qed.
Print Assumptions C97_plain.

(** The whole analysis: the potential of any of the backends, centring, aligning with any matrix product and JThreshold with the
    default bins.  [ps] are the exact potentials, [bodies] the exact energies and
    angular momenta; the errors of the potential are those of C84, C86 and C91. *)
Theorem C97_all : forall sm sm' K argsort junk table name fma mm (cut : F64s sm) rt (g : galaxy (F64s sm)) (G : F32s sm') kG s ls ld lg R0 D,
  let lr := ls ++ ld ++ lg in let ps := exact_pots kG s lr in let t := pot_error (length lr) R0 D in
  sums_well (F64_rounded sm) (/ IZR (2 ^ 53)) K -> fused (F64_rounded sm) fma -> is_matmul fma mm -> sorting argsort ->
  constructible g -> g_haspot g = false ->
  reads_set (F64_rounded sm) (g_stars g) ls -> reads_set (F64_rounded sm) (g_dm g) ld -> reads_set (F64_rounded sm) (g_gas g) lg ->
  backend_of G table name -> val (F32_rounded sm') G = XR kG -> / IZR (2 ^ 40) <= kG <= IZR (2 ^ 20) ->
  (forall so, largest_softening g so -> val (F64_rounded sm) so = XR s) -> usual s ->
  (forall q, In q lr -> 0 < pm q /\ usual (pm q) /\ forall a, In a [px q; py q; pz q] -> ordinary a /\ Rabs a <= R0) ->
  (forall i j p q, i <> j -> nth_error lr i = Some p -> nth_error lr j = Some q -> D <= sdist s p q) ->
  / IZR (2 ^ 60) <= D -> 0 <= R0 <= IZR (2 ^ 19) * D -> INR (length lr) <= IZR (2 ^ 22) -> lr <> [] ->
  val (F64_rounded sm) cut = XR rt ->
  exists h0 h1 i o, potential (W:=F64s sm) (S:=F32s sm') to32 to64 table name g = Ok h0 /\ center h0 = Ok h1 /\
    lowest h0 i /\ (forall i0, clearly_lowest t ps i0 -> i = i0) /\ nth_error lr i = Some o /\
    (let seen := map (seen_from o) in let u := / IZR (2 ^ 53) in let k := K (length ls) in
     let bodies := map2 (whole_body (seen ls)) (seen lr) ps in
     strong_spin u k (seen ls) -> (forall q, In q (seen ld) \/ In q (seen lg) -> SpecChain.within q) ->
     exists h2, star_align_with mm h1 None = Ok h2 /\
       forall m a d ue uz cv, 0 <= d -> 16 * d + / IZR (2 ^ 44) <= m ->
         (forall q x, In (q, x) (combine (seen lr) ps) -> resolved u k t (seen ls) d ue uz q x) ->
         exact_curve m edgesR bodies ue uz cv -> 0 < a <= 1 -> gentle a cv ->
         ((exists cs, decompose argsort (jthreshold junk (default_bin0, default_bin1) cut) tt h2 = Ok (cs, tt)) <-> bound_first (length ls) bodies) /\
         forall cs st', decompose argsort (jthreshold junk (default_bin0, default_bin1) cut) tt h2 = Ok (cs, st') ->
           forall j b, (j < length ls)%nat -> nth_error bodies j = Some b ->
           exists w, nth_error (c_labels cs) j = Some w /\ labelled ((12 * d + / IZR (2 ^ 47)) / a) rt cv ue uz b w).
Proof. exact c97_all. Qed.
Print Assumptions C97_all.

(** The hypotheses of C97 are met by two stars and a particle of dark matter without potential: the dark matter
    is the centre, the margin is 1/1000 and the errors are below 1/150000.  So for the cut 1/4 the slower
    star is certain to be labelled 1, and the run does so. *)
Example EX_C97 : let RS := F64_rounded (seqsum 53 1024 p53 e1024) in let u := / IZR (2 ^ 53) in
  let lr := exW_stars ++ exW_dark ++ [] in let ps := exact_pots 1 0 lr in let t := pot_error (length lr) 6 1 in
  constructible exW_gal /\ g_haspot exW_gal = false /\
  (reads_set RS (g_stars exW_gal) exW_stars /\ reads_set RS (g_dm exW_gal) exW_dark /\ reads_set RS (g_gas exW_gal) []) /\
  backend_of (n1 : F32) (backend_table n1 true junk0) "fortran" /\ fused RS fma64 /\ is_matmul (S:=F64) fma64 (plain_matmul (S:=F64)) /\
  sums_well RS u (fun n => 2 * INR n) /\
  (forall so, largest_softening exW_gal so -> val RS so = XR 0) /\
  (forall q, In q lr -> 0 < pm q /\ usual (pm q) /\ forall a, In a [px q; py q; pz q] -> ordinary a /\ Rabs a <= 6) /\
  (forall i j p q, i <> j -> nth_error lr i = Some p -> nth_error lr j = Some q -> 1 <= sdist 0 p q) /\
  clearly_lowest t ps 2 /\
  (exists o, nth_error lr 2 = Some o /\
    let seen := map (seen_from o) in let bodies := map2 (whole_body (seen exW_stars)) (seen lr) ps in
    strong_spin u (2 * INR 2) (seen exW_stars) /\ (forall q, In q (seen exW_dark) \/ In q (seen []) -> SpecChain.within q) /\
    16 * / 150000 + / IZR (2 ^ 44) <= / 1000 /\
    (forall q x, In (q, x) (combine (seen lr) ps) -> resolved u (2 * INR 2) t (seen exW_stars) (/ 150000) 262144 511 q x) /\
    exact_curve (/ 1000) edgesR bodies 262144 511 [(-1, 0); (-1023 / 524288, 1)] /\ gentle (99 / 100) [(-1, 0); (-1023 / 524288, 1)] /\ bound_first 2 bodies /\
    nth_error bodies 1 = Some (-462, 246) /\
    forall w : F64, labelled ((12 * / 150000 + / IZR (2 ^ 47)) / (99 / 100)) (1 / 4) [(-1, 0); (-1023 / 524288, 1)] 262144 511 (-462, 246) w -> w = nofZ 1) /\
  (do h0 <- potential (W:=F64) (S:=F32) to32 to64 (backend_table n1 true junk0) "fortran" exW_gal; do h1 <- center h0; do h2 <- star_align h1 None;
   rmap (fun r => shows (c_labels (fst r))) (decompose asort (jthreshold (fun _ => 77%Z) (default_bin0, default_bin1) (nlit 1 4)) tt h2)) =
  Ok [sZ 1; sZ 1; S754_nan].
Proof. exact ex_c97. Qed.
